(** What un-escaping makes of the blocks of a page (C64). *)
From Coq Require Import List NArith ZArith Bool String Lia ZifyBool ZifyNat ZifyN.
From Verif Require Import Bytes BytesFacts TextUtils TextFacts TextFacts2 RenderText RenderFacts RenderFacts2 RenderFacts4 RenderFacts5 Escape SpecEscape
  EscapeFacts EscapeFacts2 EscapeFacts3 EscapeFacts4 EscapeFacts5 EscapeFacts6 SpecText SpecText2
  Dom DomUtils SpecDom Engine CommonMark SpecEngine EngineFacts SpecPipeline PipelineFacts SpecPlain PanicFacts PlainFacts2 PlainFacts3 PlainFacts4 SpecBlocks BlockFacts2 BlockFacts3.
Import ListNotations.
Open Scope N_scope.
Open Scope list_scope.

(** ** Pieces of an annotated output *)
Lemma explains_app n : forall x, (List.length x <= n)%nat -> last_is 7 x = false -> forall y D, explains (x ++ y) D -> exists D1 D2, D = D1 ++ D2 /\ explains x D1 /\ explains y D2.
Proof.
  assert (LI : forall c d (t : bytes), last_is 7 (c :: d :: t) = last_is 7 (d :: t)).
  { intros c d t. unfold last_is. cbn [rev]. destruct (rev t ++ [d]) eqn:E; [destruct (rev t); discriminate|]. reflexivity. }
  induction n as [|n IH]; intros x L N y D E.
  - destruct x; [|cbn in L; lia]. exists [], D. repeat split; auto. constructor.
  - destruct x as [|c x]; [exists [], D; repeat split; auto; constructor|]. cbn [List.length] in L. cbn [app] in E.
    destruct x as [|d x].
    + assert (C7 : c <> 7) by (intros ->; discriminate N). cbn [app] in E. inversion E as [|c' s D' C X|c' s D' C X|c' s D' C X|X1 X2|s D' X]; subst; try congruence.
      exists [(c, Raw)], D'. repeat split; auto. repeat constructor; auto.
    + rewrite LI in N. cbn [List.length] in L. cbn [app] in E.
      assert (Nz : last_is 7 x = false) by (destruct x; [reflexivity|now rewrite !LI in N]).
      inversion E as [|c' s D' C X|c' s D' C X|c' s D' C X|X1 X2|s D' X]; subst.
      * destruct (IH (d :: x) ltac:(cbn; lia) N y D' X) as (D1 & D2 & -> & E1 & E2). exists ((c, Raw) :: D1), D2. repeat split; auto. now constructor.
      * destruct (IH x ltac:(lia) Nz y D' X) as (D1 & D2 & -> & E1 & E2). exists ((d, Lit) :: D1), D2. repeat split; auto. now constructor.
      * destruct (IH x ltac:(lia) Nz y D' X) as (D1 & D2 & -> & E1 & E2). exists ((92, Ins) :: (d, Lit) :: D1), D2. repeat split; auto. now constructor.
      * destruct (IH (7 :: x) ltac:(cbn; lia) N y D X) as (D1 & D2 & -> & E1 & E2). exists D1, D2. repeat split; auto. now constructor.
Qed.
Lemma explains_cat x D : explains x D -> last_is 7 x = false -> forall y D', explains y D' -> explains (x ++ y) (D ++ D').
Proof.
  assert (LI : forall c (t : bytes), last_is 7 (c :: t) = false -> last_is 7 t = false).
  { intros c [|d t] H; [reflexivity|]. unfold last_is in *. cbn [rev] in *. destruct (rev t ++ [d]) eqn:E; [destruct (rev t); discriminate|]. exact H. }
  induction 1; intros L y D' Y; auto; cbn [app]; try (constructor; auto); try discriminate; try (apply IHexplains; auto); eauto.
Qed.
Lemma explains_raw w : ~ In 7 w -> forall D, explains w D -> D = map (fun c => (c, Raw)) w.
Proof.
  induction w as [|c w IH]; intros N D E; inversion E; subst; auto; try (elim N; now left). cbn [map]. f_equal. apply IH; auto. intros J. apply N. now right.
Qed.
Lemma explains_snoc u c D : c <> 7 -> explains (u ++ [c]) D -> exists D0 k, D = D0 ++ [(c, k)].
Proof.
  intros C. remember (u ++ [c]) as s eqn:E. intros X. revert u E.
  assert (G : forall (x u : bytes) d, d :: x = u ++ [c] -> x = [] /\ d = c \/ exists u', x = u' ++ [c]).
  { intros x u d E. destruct u as [|y u]; cbn in E; injection E as -> E; [left; auto|right; eauto]. }
  induction X as [|d s D N X IH|d s D N X IH|d s D N X IH| |s D X IH]; intros u E.
  - destruct u; discriminate.
  - apply G in E as [(-> & ->)|(u' & ->)]; [inversion X; subst; now exists [], Raw|]. destruct (IH u' eq_refl) as (D0 & k & ->). now exists ((d, Raw) :: D0), k.
  - apply G in E as [(E & _)|(u' & E)]; [discriminate|]. apply G in E as [(-> & ->)|(u2 & ->)]; [inversion X; subst; now exists [], Lit|].
    destruct (IH u2 eq_refl) as (D0 & k & ->). now exists ((d, Lit) :: D0), k.
  - apply G in E as [(E & _)|(u' & E)]; [discriminate|]. apply G in E as [(-> & ->)|(u2 & ->)]; [inversion X; subst; now exists [(92, Ins)], Lit|].
    destruct (IH u2 eq_refl) as (D0 & k & ->). now exists ((92, Ins) :: (d, Lit) :: D0), k.
  - apply G in E as [(_ & E)|(u' & E)]; [congruence|destruct u'; discriminate].
  - apply G in E as [(E & _)|(u' & E)]; [discriminate|]. eauto.
Qed.
Definition last_raw (A : list kbyte) : Prop := A = [] \/ exists A2 c, A = A2 ++ [(c, Raw)].
Definition line_start (A : list kbyte) : Prop := A = [] \/ exists A2, A = A2 ++ [(10, Raw)].
Lemma line_last A : line_start A -> last_raw A.
Proof. intros [->|(A2 & ->)]; [now left|right; eauto]. Qed.
Lemma line_starts A : line_start A -> starts_line A.
Proof. intros [->|(A2 & ->)]; eexists _, []; rewrite app_nil_r; repeat split; auto. right. eauto. Qed.
Lemma not_escaped A : last_raw A -> ~ escaped_here A.
Proof. intros [->|(A2 & c & ->)] (A0 & E); [destruct A0; discriminate|]. apply app_inj_tail in E as [_ E]. discriminate. Qed.
Lemma escaped_inside A B : last_raw A -> escaped_here (A ++ B) -> escaped_here B.
Proof.
  intros L H. destruct B as [|y B _] using rev_ind; [rewrite app_nil_r in H; now apply not_escaped in H|].
  destruct H as (A0 & E). rewrite app_assoc in E. apply app_inj_tail in E as [_ ->]. now exists B.
Qed.

Lemma explains_no7 w D : explains w D -> ~ In 7 (map fst D).
Proof. induction 1; cbn [map fst In]; intuition. Qed.
(** White space behind the last letter is not escaped *)
Lemma explains_bell s D : explains (7 :: s) D -> D = [] \/ exists c k D', D = (c, k) :: D' /\ k <> Raw.
Proof.
  remember (7 :: s) as w eqn:E. intros X. revert s E. induction X as [|c s D C X IH|c s D C X IH|c s D C X IH| |s D X IH]; intros s0 E; auto; try discriminate.
  - injection E as -> _. congruence.
  - right. eexists _, _, _. split; [reflexivity|discriminate].
  - right. eexists _, _, _. split; [reflexivity|discriminate].
  - eauto.
Qed.
Lemma last_is_tail (c d : N) (t : bytes) : last_is 7 (c :: d :: t) = last_is 7 (d :: t).
Proof. unfold last_is. cbn [rev]. destruct (rev t ++ [d]) eqn:E; [destruct (rev t); discriminate|]. reflexivity. Qed.
Lemma explains_none s : explains s [] -> last_is 7 s = false -> s = [].
Proof.
  remember [] as D eqn:E. induction 1; try discriminate; auto. rewrite last_is_tail. intros L. specialize (IHexplains E L). discriminate IHexplains.
Qed.
Lemma explains_all_raw y : forall w, explains w (map (fun c => (c, Raw)) y) -> last_is 7 w = false -> w = y.
Proof.
  induction y as [|c y IH]; intros w X L; cbn [map] in X.
  - now apply explains_none.
  - assert (Q : forall s, w <> 7 :: s). { intros s ->. apply explains_bell in X as [X|(c' & k & D' & X & K)]; [discriminate|]. injection X as <- <- _. now elim K. }
    inversion X as [|? ? ? C X'| | | |s D' X']; subst; [|now elim (Q (7 :: s))]. f_equal. apply IH; auto. destruct s as [|d s]; [reflexivity|]. now rewrite last_is_tail in L.
Qed.
Lemma explains_raw_end w D : explains w D -> last_is 7 w = false -> forall D1 y, D = D1 ++ map (fun c => (c, Raw)) y -> exists u, w = u ++ y.
Proof.
  assert (LI : forall c (t : bytes), last_is 7 (c :: t) = false -> last_is 7 t = false) by (intros c [|d t] H; [reflexivity|now rewrite last_is_tail in H]).
  induction 1 as [|c s D C X IH|c s D C X IH|c s D C X IH| |s D X IH]; intros L D1 y E.
  - destruct D1; [|discriminate]. destruct y; [|discriminate]. now exists [].
  - destruct D1 as [|q D1].
    + exists []. cbn [app] in *. apply explains_all_raw; auto. rewrite <- E. now constructor.
    + injection E as <- ->. destruct (IH (LI _ _ L) D1 y eq_refl) as (u & ->). now exists (c :: u).
  - destruct D1 as [|q D1].
    + destruct y; [exists (7 :: c :: s); now rewrite app_nil_r|discriminate].
    + injection E as <- ->. destruct (IH (LI _ _ (LI _ _ L)) D1 y eq_refl) as (u & ->). now exists (7 :: c :: u).
  - destruct D1 as [|q D1]; [destruct y; [exists (7 :: c :: s); now rewrite app_nil_r|discriminate]|]. injection E as <- E. destruct D1 as [|q D1].
    + destruct y; [exists (7 :: c :: s); now rewrite app_nil_r|discriminate].
    + injection E as <- ->. destruct (IH (LI _ _ (LI _ _ L)) D1 y eq_refl) as (u & ->). now exists (7 :: c :: u).
  - discriminate.
  - destruct (IH (LI _ _ L) D1 y E) as (u & Eu). exists (7 :: u). cbn [app]. now rewrite <- Eu.
Qed.

(** What is needed of the texts of paragraphs and of headings when they are un-escaped *)
Record explained {TT : Type} (decode : bytes -> TT) (para atx : bytes -> TT -> Prop) (ds : list detector) : Prop := {
  para_piece : forall S0 w v A D1 Z, para w v -> explains w D1 -> the_ann ds S0 = A ++ D1 ++ Z -> line_start A -> ends (map fst Z) ->
    plain_line decode (map fst D1) v /\ is_space_rune (fst (decode_last_rune (map fst D1))) = false;
  atx_piece : forall S0 w v A D1 Z, atx w v -> explains w D1 -> the_ann ds S0 = A ++ D1 ++ Z -> last_raw A -> ends (map fst Z) ->
    head_line decode (map fst D1) v /\ is_space_rune (fst (decode_last_rune (map fst D1))) = false }.
Definition nokeep (c : N) : bool := false.
Lemma nokeep_ok c : nokeep c = true -> 33 <= c < 127. Proof. discriminate. Qed.
Section pieces.
Variable l : list N.
Hypothesis Hl : forall c, In c l -> c < 128 /\ c <> 0 /\ c <> 7 /\ ~ ws_byte c.
Hypothesis Hp : forall c, In c l -> ascii_punct c = true /\ c <> 38 /\ c <> 59.
Hypothesis Hc : protects (is_escaped_in l).
Notation esc := (is_escaped_in l).
Variable ds : list detector.
Hypothesis Hds : Escape.bundled ds.
Variable S0 : bytes.
Let Hw := bundled_wb ds Hds.
Notation DD := (the_ann ds S0).

Lemma esc92 : esc 92 = true. Proof. apply Hc. cbn. tauto. Qed.
Lemma esc35 : esc 35 = true. Proof. apply Hc. cbn. tauto. Qed.
Lemma h35 : In 35 l. Proof. apply esc_in. apply esc35. Qed.
(** Every byte of a piece of text *)
Lemma img_parts w v D : img l w v -> explains w D -> Forall (fun x => match snd x with Raw => In (fst x) w /\ (fst x < 128 -> esc (fst x) = false) | Lit => esc (fst x) = true /\ In (fst x) w | Ins => fst x = 92 end) D.
Proof.
  intros M. revert D. destruct (esc_letters l Hp) as (E1 & E2 & E3 & E4 & E5).
  assert (Up : forall (y z : bytes) D, (forall c, In c y -> In c z) -> Forall (fun x : kbyte => match snd x with Raw => In (fst x) y /\ (fst x < 128 -> esc (fst x) = false) | Lit => esc (fst x) = true /\ In (fst x) y | Ins => fst x = 92 end) D ->
     Forall (fun x : kbyte => match snd x with Raw => In (fst x) z /\ (fst x < 128 -> esc (fst x) = false) | Lit => esc (fst x) = true /\ In (fst x) z | Ins => fst x = 92 end) D).
  { intros y z D Hyz F. eapply Forall_impl; [|exact F]. intros [c [| |]]; cbn; intuition. }
  induction M as [|c s v Z B A E M IH|c s v E M IH|s v M IH|s v M IH]; intros D X.
  - inversion X; constructor.
  - inversion X as [|? ? D' C X'| | | |]; subst; try congruence. constructor; [cbn; auto|]. eapply Up; [|apply IH; eauto]. intros; now right.
  - assert (Q := E). apply esc_in in Q. apply Hl in Q as (_ & _ & Q & _).
    inversion X as [|? ? D' C X'|? ? D' C X'|? ? D' C X'| |]; subst; try congruence; repeat (constructor; [cbn; auto|]); (eapply Up; [|apply IH; eauto]); intros; right; now right.
  - repeat match goal with H : explains (_ :: _) _ |- _ => inversion H; clear H; subst; try congruence end. 
    repeat (constructor; [cbn; split; [tauto|auto]|]). eapply Up; [|apply IH; eauto]. intros; cbn; tauto.
  - repeat match goal with H : explains (_ :: _) _ |- _ => inversion H; clear H; subst; try congruence end. 
    repeat (constructor; [cbn; split; [tauto|auto]|]). eapply Up; [|apply IH; eauto]. intros; cbn; tauto.
Qed.
Lemma img_last7 w v : img l w v -> last_is 7 w = false.
Proof.
  assert (LI : forall c d (t : bytes), last_is 7 (c :: d :: t) = last_is 7 (d :: t)).
  { intros c d t. unfold last_is. cbn [rev]. destruct (rev t ++ [d]) eqn:E; [destruct (rev t); discriminate|]. reflexivity. }
  assert (L1 : forall c (t : bytes), c <> 7 -> last_is 7 t = false -> last_is 7 (c :: t) = false) by (intros c [|d t] N H; [unfold last_is; cbn; lia|now rewrite LI]).
  induction 1; auto; repeat (apply L1; [lia|]); auto. rewrite LI. apply L1; auto. apply esc_in, Hl in H. lia.
Qed.
(** Reading a piece *)
Lemma piece_rd t A D1 Z : DD = A ++ D1 ++ Z -> last_raw A -> ~ In 0 t -> ~ In 7 t -> explains (escape_content esc t) D1 -> rd l (map fst D1) t.
Proof.
  intros E La N0 N7 X. apply (explains_rd l Hl Hp nokeep nokeep_ok esc92); auto. intros P Q ->. apply (escaped_inside A); auto.
  apply (ann_backslash ds S0 Hds _ (Q ++ Z)). rewrite E, <- !app_assoc. reflexivity.
Qed.
Lemma piece_read w v A D1 Z : DD = A ++ D1 ++ Z -> last_raw A -> img l w v -> explains w D1 -> read_text 0 (map fst D1) = v.
Proof.
  intros E La M X. destruct (img_split l Hl Hp nokeep nokeep_ok _ _ M) as (t & -> & J & N0 & N7). apply (read_rd l Hl Hp nokeep nokeep_ok t v J). eapply piece_rd; eauto.
Qed.
Lemma piece_common w v D1 : line_text l w v -> explains w D1 ->
  ~ In 10 (map fst D1) /\ ~ In 9 (map fst D1) /\ ~ In 60 (map fst D1) /\ ~ infix marker_nl (map fst D1) /\ exists c u, map fst D1 = c :: u /\ c <> 32 /\ c <> 9.
Proof.
  intros (M & N60 & Nm & H & C & _) X. pose proof (img_parts _ _ _ M X) as F. rewrite Forall_forall in F.
  assert (I1 : forall c, In c (map fst D1) -> c = 92 \/ In c w).
  { intros c I. apply in_map_iff in I as ((c' & k) & <- & I). apply F in I. cbn in *. destruct k; tauto. }
  repeat split.
  - intros I. apply I1 in I as [I|I]; [discriminate|]. now apply C in I.
  - intros I. apply I1 in I as [I|I]; [discriminate|]. now apply C in I.
  - intros I. apply I1 in I as [I|I]; [discriminate|]. auto.
  - intros J. pose proof (explains_inserts _ _ X) as Q. rewrite <- (explains_strip _ _ X) in Q. apply (inserts_infix _ _ Q) in J; [|cbn; intuition discriminate].
    revert J. apply nm_no_mark. now apply nm_bells.
  - destruct (hugs_first w H) as (c & u & -> & C1 & C2 & C3 & C4).
    assert (Q7 : forall d z, c :: u = 7 :: d :: z -> d <> 7).
    { intros d z E. inversion M; subst; try discriminate; try congruence. injection E as -> ->. match goal with Q : esc _ = true |- _ => apply esc_in, Hl in Q; lia end. }
    destruct D1 as [|(d, k) D1].
    { exfalso. inversion X; subst; [inversion M; subst; congruence|]. now apply (Q7 7 s). }
    exists d, (map fst D1). split; auto. specialize (F (d, k) (or_introl eq_refl)). cbn in F. destruct k.
    + inversion X; subst; auto. exfalso. now apply (Q7 7 s).
    + destruct F as [F _]. apply esc_in, Hl in F as (_ & _ & _ & F). unfold ws_byte in F. lia.
    + lia.
Qed.

Lemma piece_last w v D1 : img l w v -> hugs w -> explains w D1 -> is_space_rune (fst (decode_last_rune (map fst D1))) = false.
Proof.
  intros M H X. pose proof (img_last7 _ _ M) as L7. destruct (is_space_rune (fst (decode_last_rune (map fst D1)))) eqn:Q; auto. exfalso.
  destruct (trim_right_spaces (map fst D1)) as (y & E & Sy). destruct y as [|c y].
  - rewrite app_nil_r in E. pose proof (trim_right_ends (map fst D1)) as Z. rewrite <- E in Z. unfold ends_nonspace in Z.
    destruct D1; [|rewrite Z in Q; discriminate]. apply explains_none in X; auto. subst w. destruct H. contradiction.
  - assert (Fw : Forall ws_byte (c :: y)) by now apply spaces_ws. apply map_fst_app in E as (Da & Db & ED & Ea & Eb).
    assert (Rb : Db = map (fun c => (c, Raw)) (c :: y)).
    { pose proof (img_parts _ _ _ M X) as F. rewrite ED in F. apply Forall_app in F as [_ F]. rewrite <- Eb in Fw |- *. clear - F Fw Hl. induction Db as [|(z, k) Db IH]; auto. cbn [map fst] in *.
      inversion F as [|? ? F1 F2]; subst. inversion Fw as [|? ? W1 W2]; subst. rewrite <- IH by auto. f_equal. f_equal. cbn in F1. destruct k; auto; exfalso.
      - destruct F1 as [F1 _]. apply esc_in in F1. apply Hl in F1. tauto.
      - subst z. unfold ws_byte in W1. lia. }
    rewrite Rb in ED. destruct (explains_raw_end _ _ X L7 Da (c :: y) ED) as (u & ->). destruct H as (_ & _ & H). rewrite space_suffix in H by (auto; discriminate). discriminate.
Qed.
Lemma piece_line (p : bytes -> bool) w v A D1 Z : img l w v -> explains w D1 -> DD = A ++ D1 ++ Z -> starts_line A -> ends (map fst Z) ->
  (forall s z, ends z -> p s = true -> p (s ++ z) = true) -> p [] = false -> (forall c r, p (c :: r) = true -> In c commonmark_escaped /\ c <> 92) ->
  (forall A x B, DD = A ++ x :: B -> starts_line A -> p (map fst (x :: B)) = true -> snd x <> Lit) -> p (map fst D1) = false.
Proof.
  intros M X E SL Ez Ext P0 Pc L. destruct (p (map fst D1)) eqn:Q; auto. exfalso. pose proof (img_parts _ _ _ M X) as F.
  destruct D1 as [|(c, k) D1]; [cbn in Q; congruence|]. cbn [map fst] in Q. destruct (Pc _ _ Q) as [Ic N92]. inversion F as [|? ? F1 F2]; subst. cbn in F1.
  assert (k = Lit).
  { destruct k; auto; [|lia]. destruct F1 as [_ F1]. rewrite (Hc c Ic) in F1. assert (c < 128) by (apply (Hl c); apply esc_in; now apply Hc). specialize (F1 H). discriminate. }
  subst k. apply (L A (c, Lit) (D1 ++ Z)); auto. cbn [map fst]. rewrite map_app. apply (Ext (c :: map fst D1)); auto.
Qed.
Lemma in_piece p D1 (Q : kbyte) q A Z : DD = A ++ D1 ++ Z -> D1 = p ++ Q :: q -> DD = (A ++ p) ++ Q :: q ++ Z.
Proof. intros -> ->. now rewrite <- !app_assoc. Qed.
Lemma lit_of w v D1 p c k q : img l w v -> explains w D1 -> D1 = p ++ (c, k) :: q -> In c commonmark_escaped -> c <> 92 -> k = Lit.
Proof.
  intros M X -> Ic N92. pose proof (img_parts _ _ _ M X) as F. apply Forall_app in F as [_ F]. inversion F as [|? ? F1 F2]; subst. cbn in F1.
  destruct k; auto; [|lia]. destruct F1 as [_ F1]. rewrite (Hc c Ic) in F1. assert (c < 128) by (apply (Hl c); apply esc_in; now apply Hc). specialize (F1 H). discriminate.
Qed.
Lemma bracket_closes_ext s z : bracket_closes s = true -> bracket_closes (s ++ z) = true.
Proof. induction s as [|c s IH]; [discriminate|]. cbn [bracket_closes app]. destruct (c =? 10); auto. destruct (c =? 93); auto. Qed.
Lemma until_closes s : forall d e, ~ In 10 s -> until_bracket d e s <> None -> bracket_closes s = true.
Proof.
  induction s as [|c s IH]; intros d e N10 U; [elim U; reflexivity|]. cbn [bracket_closes]. replace (c =? 10) with false by (symmetry; apply N.eqb_neq; intros ->; apply N10; now left).
  destruct (c =? 93) eqn:C; auto. cbn [orb]. assert (N' : ~ In 10 s) by (intros J; apply N10; now right).
  assert (G : forall d' e', option_map (fun '(x, y) => (c :: x, y)) (until_bracket d' e' s) <> None -> bracket_closes s = true).
  { intros d' e' H. apply (IH d' e'); auto. intros H'. apply H. rewrite H'. reflexivity. }
  cbn [until_bracket] in U. rewrite C in U. destruct e; [eauto|]. destruct (c =? 91); eauto.
Qed.
Lemma plain_piece w v A D1 Z : line_text l w v -> explains w D1 -> DD = A ++ D1 ++ Z -> line_start A -> ends (map fst Z) -> plain_line (read_text 0) (map fst D1) v.
Proof.
  intros T X E La Ez. destruct (piece_common _ _ _ T X) as (N10 & N9 & N60 & Nm & Fst). pose proof T as (M & _ & _ & H & C & _). pose proof (line_starts A La) as SL.
  assert (Gl : forall p, (forall s z, ends z -> p s = true -> p (s ++ z) = true) -> p [] = false -> (forall c r, p (c :: r) = true -> In c commonmark_escaped /\ c <> 92) ->
    (forall A x B, DD = A ++ x :: B -> starts_line A -> p (map fst (x :: B)) = true -> snd x <> Lit) -> p (map fst D1) = false) by (intros; eapply piece_line; eauto).
  assert (Q1 : atx_heading (map fst D1) = false).
  { apply Gl; auto using atx_ext.
    - intros c r Q. cbn in Q. apply andb_prop in Q as [Q _]. apply N.eqb_eq in Q. subst. split; [|easy]. cbn; tauto.
    - intros A' x B' E' SL' Q. apply (atx_line ds S0 A' x B' Hw (bundled_in ds is_atx_header Hds ltac:(cbn; tauto)) E' SL' Q). }
  assert (Q2 : thematic_break (map fst D1) = false).
  { apply Gl; auto using break_ext.
    - intros c r Q. cbn in Q. apply andb_prop in Q as [Q _]. assert (c = 45 \/ c = 95 \/ c = 42) as [-> |[-> | ->]] by lia; (split; [cbn; tauto|easy]).
    - intros A' x B' E' SL' Q. apply (break_line ds S0 A' x B' Hw (bundled_in ds is_divider Hds ltac:(cbn; tauto)) E' SL' Q). }
  assert (Q3 : code_fence (map fst D1) = false).
  { apply Gl; auto using fence_ext.
    - intros c r Q. unfold code_fence in Q. cbn [has_prefix] in Q. apply orb_prop in Q as [Q|Q]; apply andb_prop in Q as [Q _]; apply N.eqb_eq in Q; subst; (split; [cbn; tauto|easy]).
    - intros A' x B' E' SL' Q. apply (fence_line ds S0 A' x B' Hw (bundled_in ds is_fenced_code Hds ltac:(cbn; tauto)) E' SL' Q). }
  assert (Q4 : block_quote (map fst D1) = false).
  { apply Gl; auto using quote_ext.
    - intros c r Q. cbn in Q. apply N.eqb_eq in Q. subst. split; [cbn; tauto|easy].
    - intros A' x B' E' SL' Q. apply (bq_line ds S0 A' x B' Hw (bundled_in ds is_block_quote Hds ltac:(cbn; tauto)) E' SL' Q). }
  assert (Q5 : bullet_item (map fst D1) = false).
  { apply Gl; auto using bullet_ext.
    - intros c r Q. cbn in Q. apply andb_prop in Q as [Q _]. assert (c = 45 \/ c = 43 \/ c = 42) as [-> |[-> | ->]] by lia; (split; [cbn; tauto|easy]).
    - intros A' x B' E' SL' Q. apply (bullet_line ds S0 A' x B' Hw (bundled_in ds is_unordered_list Hds ltac:(cbn; tauto)) E' SL' Q). }
  assert (Q6 : ordered_item (map fst D1) = false).
  { destruct (ordered_item (map fst D1)) eqn:Q; auto. exfalso. destruct D1 as [|(c, k) D2]; [discriminate|]. cbn [map fst ordered_item] in Q. apply andb_prop in Q as [Hd Q].
    destruct (drop_digits_eq (map fst D2)) as (G & Er & FG). destruct (drop_digits (map fst D2)) as [|d r'] eqn:Ed; [discriminate|].
    apply map_fst_app in Er as (G1 & Y & ED2 & EG & EY). destruct Y as [|[d1 k1] B1]; [discriminate|]. cbn [map fst] in EY. injection EY as -> EY.
    cbn [item_delimiter] in Q. apply andb_prop in Q as [Hdl Q].
    assert (ED1 : (c, k) :: D2 = ((c, k) :: G1) ++ (d, k1) :: B1) by (rewrite ED2; reflexivity).
    assert (k1 = Lit). { eapply lit_of; eauto; [assert (d = 46 \/ d = 41) as [-> | ->] by lia; cbn; tauto|lia]. }
    subst k1. pose proof (in_piece _ _ _ _ _ _ E ED1) as ED'.
    apply (ordered_line ds S0 _ (d, Lit) (B1 ++ Z) Hw (bundled_in ds is_ordered_list Hds ltac:(cbn; tauto)) ED'); [| |easy].
    - exists A, ((c, k) :: G1). repeat split; auto; [discriminate|]. constructor; [easy|]. rewrite <- EG in FG. apply Forall_map in FG. exact FG.
    - cbn [map fst item_delimiter]. rewrite Hdl, map_app. cbn [andb]. rewrite EY. now apply blank_or_end_ext. }
  assert (Q7 : definition_starts (map fst D1) = false).
  { destruct (definition_starts (map fst D1)) eqn:Q; auto. exfalso. destruct D1 as [|(c, k) D2]; [discriminate|]. cbn [map fst definition_starts] in Q. apply andb_prop in Q as [Hd Q].
    apply N.eqb_eq in Hd. subst c. assert (k = Lit) by (eapply (lit_of w v _ [] 91 k D2); eauto; [cbn; tauto|discriminate]). subst k.
    apply (not_escaped A (line_last A La)). apply (bracket_lit ds S0 A (D2 ++ Z) Hw (bundled_rg _ Hds) (bundled_in ds is_image_or_link Hds ltac:(cbn; tauto)) E).
    rewrite map_app. apply bracket_closes_ext. apply (until_closes (map fst D2) O false); [intros J; apply N10; now right|].
    destruct (until_bracket 0 false (map fst D2)); [discriminate|discriminate Q]. }
  assert (Q8 : starts_html (map fst D1) = false).
  { destruct (map fst D1) as [|c u]; auto. cbn. apply N.eqb_neq. intros ->. apply N60. now left. }
  assert (Lst : exists u c, map fst D1 = u ++ [c] /\ c <> 32 /\ c <> 9).
  { destruct (hugs_last w H) as (c & u & Ew & C1 & C2 & C3 & C4). assert (C7 : c <> 7).
    { intros ->. pose proof (img_last7 _ _ M) as Q. rewrite Ew in Q. unfold last_is in Q. rewrite rev_app_distr in Q. discriminate. }
    rewrite Ew in X. apply explains_snoc in X as (D0 & k & ->); auto. exists (map fst D0), c. rewrite map_app. auto. }
  assert (Q3' : fence_starts (map fst D1) = false) by (unfold fence_starts; now rewrite Q3). unfold plain_line, unread. rewrite Q4, Q5, Q6, Q7, Q8. repeat split; auto. eapply piece_read; eauto. now apply line_last.
Qed.
Lemma img_drop35 w v : img l w v -> forall u, w = u ++ [7; 35] -> exists v0, img l u v0 /\ v = v0 ++ [35].
Proof.
  assert (G : forall (x u : bytes) c, c :: x = u ++ [7; 35] -> u = [] /\ c = 7 /\ x = [35] \/ exists u', u = c :: u' /\ x = u' ++ [7; 35]).
  { intros x u c E. destruct u as [|y u]; cbn in E; injection E as -> E; [left; auto|right; eauto]. }
  assert (G2 : forall (x u : bytes) c d, d <> 7 -> d <> 35 -> c :: d :: x = u ++ [7; 35] -> exists u', u = c :: d :: u' /\ x = u' ++ [7; 35]).
  { intros x u c d N1 N2 E. apply G in E as [(_ & _ & E)|(u1 & -> & E)]; [congruence|]. apply G in E as [(_ & E & _)|(u2 & -> & E)]; [congruence|]. eauto. }
  induction 1 as [|c s v Z B A E M IH|c s v E M IH|s v M IH|s v M IH]; intros u Eu.
  - destruct u; discriminate.
  - apply G in Eu as [(_ & E1 & _)|(u' & -> & ->)]; [congruence|]. destruct (IH u' eq_refl) as (v0 & I0 & ->). exists (c :: v0). split; auto. now apply img_plain.
  - apply G in Eu as [(-> & _ & E1)|(u' & -> & Eu)].
    + injection E1 as -> ->. inversion M; subst. exists []. split; auto; constructor.
    + apply G in Eu as [(_ & -> & _)|(u2 & -> & ->)]; [exfalso; apply esc_in, Hl in E; lia|]. destruct (IH u2 eq_refl) as (v0 & I0 & ->). exists (c :: v0). split; auto. now apply img_esc.
  - apply G2 in Eu as (u1 & -> & Eu); try discriminate. apply G2 in Eu as (u2 & -> & ->); try discriminate. destruct (IH u2 eq_refl) as (v0 & I0 & ->). exists (60 :: v0). split; auto. now apply img_lt.
  - apply G2 in Eu as (u1 & -> & Eu); try discriminate. apply G2 in Eu as (u2 & -> & ->); try discriminate. destruct (IH u2 eq_refl) as (v0 & I0 & ->). exists (62 :: v0). split; auto. now apply img_gt.
Qed.
Lemma rd_app o t : rd l o t -> forall o' t', rd l o' t' -> rd l (o ++ o') (t ++ t').
Proof. induction 1; intros; cbn [app]; auto; [apply rd_same|apply rd_esc]; auto. Qed.
Lemma ent_app t v : ent t v -> forall t' v', ent t' v' -> ent (t ++ t') (v ++ v').
Proof. induction 1; intros; cbn [app]; auto; [apply ent_plain|apply ent_lt|apply ent_gt]; auto. Qed.
Lemma head_piece w w' v A D1 Z : line_text l w v -> escape_pound w = Some w' -> explains w' D1 -> DD = A ++ D1 ++ Z -> last_raw A -> head_line (read_text 0) (map fst D1) v.
Proof.
  intros T P X E La. pose proof T as (M & N60 & Nm & H & C & _). 
  destruct (pound_cases l Hl Hp h35 _ _ _ M P) as [(-> & u & c & Ew & N35)|[(u & Ew & ->)|(u & Ew & -> & L92)]].
  - destruct (piece_common _ _ _ T X) as (N10 & N9 & _ & Nk & Fst). repeat split; auto; [|eapply piece_read; eauto].
    left. assert (Ic : In c w) by (rewrite Ew, in_app_iff; right; now left). destruct (hugs_last w H) as (c' & u' & Ew' & C1 & C2 & C3 & C4). rewrite Ew in Ew'. apply app_inj_tail in Ew' as [_ <-].
    assert (C7 : c <> 7). { intros ->. pose proof (img_last7 _ _ M) as Q. rewrite Ew in Q. unfold last_is in Q. rewrite rev_app_distr in Q. discriminate. }
    rewrite Ew in X. apply explains_snoc in X as (D0 & k & ->); auto. exists (map fst D0), c. rewrite map_app. auto.
  - destruct (piece_common _ _ _ T X) as (N10 & N9 & _ & Nk & Fst). repeat split; auto; [|eapply piece_read; eauto].
    right. rewrite Ew in X. change [92; 7; 35] with ([92] ++ [7; 35]) in X. rewrite app_assoc in X.
    apply (explains_app _ _ (le_n _)) in X as (Da & Db & -> & Xa & Xb); [|unfold last_is; rewrite rev_app_distr; reflexivity].
    apply explains_snoc in Xa as (D0 & k & ->); [|discriminate]. rewrite map_app, map_app.
    inversion Xb as [|? ? D' C' X'|? ? D' C' X'|? ? D' C' X'| |]; subst; try congruence; match goal with Q : explains [] _ |- _ => inversion Q; subst end; cbn [map fst app].
    + exists (map fst D0). now rewrite <- app_assoc.
    + exists (map fst D0 ++ [92]). now rewrite <- !app_assoc.
  - subst w. destruct (img_drop35 _ _ M u eq_refl) as (v0 & M0 & ->).
    apply (explains_app _ _ (le_n _)) in X as (Da & Db & -> & Xa & Xb); [|eapply img_last7; eauto].
    apply explains_raw in Xb; [|cbn; intuition discriminate]. subst Db. rewrite map_app. cbn [map fst].
    rewrite <- app_assoc in E. assert (Rd : read_text 0 (map fst Da ++ [92; 35]) = v0 ++ [35]).
    { destruct (img_split l Hl Hp nokeep nokeep_ok _ _ M0) as (t & -> & J & N0 & N7). pose proof (piece_rd t A Da _ E La N0 N7 Xa) as R1.
      apply (read_rd l Hl Hp nokeep nokeep_ok (t ++ [35]) (v0 ++ [35])); [apply ent_app; auto; apply ent_plain; [discriminate|constructor]|].
      apply rd_app; auto. apply rd_esc; [apply esc35|constructor]. }
    pose proof (img_parts _ _ _ M0 Xa) as F. rewrite Forall_forall in F.
    assert (I1 : forall c, In c (map fst Da) -> c = 92 \/ In c u).
    { intros c I. apply in_map_iff in I as ((c' & k) & <- & I). apply F in I. cbn in *. destruct k; tauto. }
    assert (Cu : forall c, In c u -> c <> 9 /\ c <> 10 /\ c <> 13) by (intros c I; apply C; rewrite in_app_iff; now left).
    assert (No : ~ infix marker_nl (map fst Da ++ [92; 35])).
    { assert (Nu : nm u = true) by (apply (nm_prefix u [7; 35]); auto).
      pose proof (explains_inserts _ _ Xa) as Q. rewrite <- (explains_strip _ _ Xa) in Q.
      assert (Qa : forall y z, inserts y z -> inserts (y ++ [35]) (z ++ [92; 35])) by (clear; induction 1; cbn [app]; repeat constructor; auto).
      apply Qa in Q. intros J. apply (inserts_infix _ _ Q) in J; [|cbn; intuition discriminate]. revert J. apply nm_no_mark. apply nm_app; auto. now apply nm_bells. }
    repeat split; auto.
    + rewrite in_app_iff. intros [I|I]; [|cbn in I; intuition discriminate]. apply I1 in I as [I|I]; [discriminate|]. now apply Cu in I.
    + destruct Da as [|(c, k) Da]; [exists 92, [35]; repeat split; discriminate|]. cbn [map fst app].
      assert (Xw : explains (u ++ [7; 35]) (((c, k) :: Da) ++ [(35, Lit)])).
      { apply explains_cat; auto; [eapply img_last7; eauto|]. apply ex_lit; [discriminate|constructor]. }
      destruct (piece_common _ _ _ T Xw) as (_ & _ & _ & _ & c' & u' & E' & Hc'). injection E' as <- _. eauto.
    + right. now exists (map fst Da).
    + rewrite in_app_iff. intros [I|I]; [|cbn in I; intuition discriminate]. apply I1 in I as [I|I]; [discriminate|]. now apply Cu in I.
Qed.
End pieces.
Section plain_texts.
Variable l : list N.
Hypothesis Hl : forall c, In c l -> c < 128 /\ c <> 0 /\ c <> 7 /\ ~ ws_byte c.
Hypothesis Hp : forall c, In c l -> ascii_punct c = true /\ c <> 38 /\ c <> 59.
Hypothesis Hc : protects (is_escaped_in l).
Lemma plain_shaped : shaped_texts (line_text l) (head_text l).
Proof.
  assert (Mk : forall w v, line_text l w v -> ~ infix marker_nl w) by (intros w0 v0 (_ & _ & M & _); now apply nm_no_mark).
  assert (Sn : forall u c, c <> 7 -> last_is 7 (u ++ [c]) = false) by (intros u c C; unfold last_is; rewrite rev_app_distr; cbn; lia).
  split.
  - intros w v T. pose proof T as (G & _ & _ & H & C & _). split; [intros J; now apply C in J|]. split; auto. split; eauto. exact (img_last7 l Hl Hp _ _ G).
  - intros w' v (w & T & E). pose proof T as (G & _ & M & H & C & _). pose proof (img_last7 l Hl Hp _ _ G) as L7.
    destruct (pound_cases l Hl Hp (h35 l Hc) _ _ _ G E) as [(-> & _)|[(u & _ & ->)|(u & -> & -> & _)]].
    + split; [apply H|split; [intros J; now apply C in J|split; [apply H|split; eauto]]].
    + split; [apply H|split; [intros J; now apply C in J|split; [apply H|split; eauto]]].
    + split; [destruct u; discriminate|split; [|split; [|split]]].
      * rewrite in_app_iff. intros [J|J]; [|cbn in J; intuition discriminate]. destruct (C 10) as (_ & Q & _); [rewrite in_app_iff; now left|now apply Q].
      * change [92; 35] with ([92] ++ [35]). rewrite app_assoc. apply last_ascii. lia.
      * apply nm_no_mark. apply nm_app; [|reflexivity]. apply (nm_prefix u [7; 35]); auto.
      * change [92; 35] with ([92] ++ [35]). rewrite app_assoc. now apply Sn.
Qed.
Lemma plain_explained ds : Escape.bundled ds -> explained (read_text 0) (line_text l) (head_text l) ds.
Proof.
  intros Hds. split.
  - intros S0 w v A D1 Z T X E La Ez. split; [exact (plain_piece l Hl Hp Hc ds Hds S0 w v A D1 Z T X E La Ez)|]. pose proof T as (M & _ & _ & H & _). exact (piece_last l Hl Hp w v D1 M H X).
  - intros S0 w' v A D1 Z (w & T & P) X E La Ez. split; [exact (head_piece l Hl Hp Hc ds Hds S0 w w' v A D1 Z T P X E La)|].
    pose proof T as (M & _ & _ & H & _). destruct (pound_cases l Hl Hp (h35 l Hc) _ _ _ M P) as [(-> & _)|[(u & _ & ->)|(u & _ & -> & _)]]; try (eapply piece_last; eauto; fail).
    change [92; 35] with ([92] ++ [35]) in X. rewrite app_assoc in X. apply explains_snoc in X as (D0 & kk & ->); [|discriminate]. rewrite map_app. cbn [map fst]. apply last_ascii. lia.
Qed.
End plain_texts.
