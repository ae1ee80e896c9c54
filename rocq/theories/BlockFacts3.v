(** The text of a page after rendering: which blocks of text there are (C64). *)
From Coq Require Import List NArith ZArith Bool String Lia ZifyBool ZifyNat ZifyN.
From Verif Require Import Bytes BytesFacts TextUtils TextFacts TextFacts2 RenderText RenderFacts RenderFacts2 RenderFacts4 RenderFacts5 Escape SpecEscape SpecText SpecText2
  Dom DomUtils SpecDom Engine CommonMark SpecEngine EngineFacts SpecPipeline PipelineFacts SpecPlain SpecNode NodeFacts PanicFacts PlainFacts2 PlainFacts3 PlainFacts4 SpecBlocks BlockFacts0 BlockFacts BlockFacts1 BlockFacts2.
From Verif Require UrlFacts.
Import ListNotations.
Open Scope N_scope.
Open Scope list_scope.

(** ** Texts *)
Lemma squeeze_cw t : Forall (fun c => separates c = true -> c = 32) t -> forall p, squeeze_spaces p t = collapse_ws_from p t.
Proof.
  induction 1 as [|c t H F IH]; intros p; auto. cbn [squeeze_spaces collapse_ws_from]. rewrite is_ws_sep. unfold cSP.
  destruct (separates c) eqn:S.
  - rewrite (H eq_refl). change (32 =? 32) with true. cbn iota. rewrite IH. reflexivity.
  - replace (c =? 32) with false by (unfold separates in S; lia). now rewrite IH.
Qed.
Lemma cw_length s : forall p, (List.length (collapse_ws_from p s) <= List.length s)%nat.
Proof. induction s as [|c s IH]; intros p; auto. cbn [collapse_ws_from]. destruct (is_ws c); [destruct p|]; cbn [List.length]; [specialize (IH true)|specialize (IH true)|specialize (IH false)]; lia. Qed.
Lemma one_squeeze t : one_spaced t = t -> squeeze_spaces true t = t.
Proof.
  intros E. pose proof (one_spaced_ws t) as F. rewrite E in F. rewrite squeeze_cw by auto. destruct (cw_shape t) as (e & _ & E1 & _). rewrite E in E1.
  pose proof (cw_length t true) as L. rewrite E1, app_length in L. destruct e; [now rewrite app_nil_r in E1|]. cbn in L. lia.
Qed.
Lemma squeeze_short s : forall p, (List.length (squeeze_spaces p s) <= List.length s)%nat.
Proof. induction s as [|c s IH]; intros p; auto. cbn [squeeze_spaces]. destruct (c =? cSP); [destruct p|]; cbn [List.length]; [specialize (IH true)|specialize (IH true)|specialize (IH false)]; lia. Qed.
Lemma squeeze_visible u : ~ In 32 u -> u <> [] -> forall p z, squeeze_spaces p (u ++ z) = u ++ squeeze_spaces false z.
Proof.
  induction u as [|c u IH]; intros N Nu p z; [easy|]. cbn [app squeeze_spaces]. unfold cSP. replace (c =? 32) with false by (symmetry; apply N.eqb_neq; intros ->; apply N; now left).
  destruct u as [|d u]; [reflexivity|]. f_equal. apply IH; [intros I; apply N; now right|discriminate].
Qed.
Definition line_text (l : list N) (w v : bytes) : Prop :=
  img l w v /\ ~ In 60 w /\ no_newline_mark w = true /\ hugs w /\ (forall c, In c w -> c <> 9 /\ c <> 10 /\ c <> 13) /\ v <> [].
Section texts.
Variable l : list N.
Hypothesis Hl : forall c, In c l -> c < 128 /\ c <> 0 /\ c <> 7 /\ ~ ws_byte c.
Hypothesis Hp : forall c, In c l -> ascii_punct c = true /\ c <> 38 /\ c <> 59.
Notation esc := (is_escaped_in l).
Notation written t := (escape_content esc (entity_replace t)).
Definition em (c : N) : bytes := if c =? 0 then [239; 191; 189] else if esc c then [7; c] else [c].
Lemma em_flat s : escape_content esc s = flat_map em s.
Proof. induction s as [|c s IH]; auto. rewrite (escape_cons l Hl), IH. reflexivity. Qed.
Lemma em_in c d : In d (em c) -> d = c \/ d = 7 \/ 128 <= d.
Proof. unfold em. destruct (c =? 0); [cbn; lia|]. destruct (esc c); cbn; lia. Qed.
Lemma written_cons c t : exists u, written (c :: t) = u ++ written t /\ u <> [] /\ (c = 32 -> u = [32]) /\ (c <> 32 -> ~ In 32 u).
Proof.
  cbn [entity_replace]. rewrite !em_flat, flat_map_app. eexists. split; [reflexivity|]. split; [|split].
  - assert (G : forall d, em d <> []) by (intros d; unfold em; destruct (d =? 0); [discriminate|]; destruct (esc d); discriminate).
    assert (H : forall d x, flat_map em (d :: x) <> []) by (intros d x E; cbn [flat_map] in E; apply app_eq_nil in E as [E _]; now apply G in E).
    destruct (c =? 60); [apply (H 38 (b "lt;"))|]. destruct (c =? 62); [apply (H 38 (b "gt;"))|apply H].
  - intros ->. cbn [N.eqb Pos.eqb flat_map]. unfold em. rewrite (esc_no l Hl) by (unfold ws_byte; lia). reflexivity.
  - intros N I. apply in_flat_map in I as (x & Ix & I). apply em_in in I as [<-|I]; [|lia].
    destruct (c =? 60); [vm_compute in Ix; intuition discriminate|]. destruct (c =? 62); [vm_compute in Ix; intuition discriminate|].
    destruct Ix as [I|[]]. auto.
Qed.
Lemma written_in c t : In c (written t) -> c = 7 \/ 128 <= c \/ c <> 60 /\ (In c t \/ In c (b "&lgt;")).
Proof.
  intros I. apply escape_back in I as [I|[I|I]]; auto. right. right. clear - I.
  induction t as [|d t IH]; [contradiction|]. cbn [entity_replace] in I. apply in_app_iff in I as [I|I].
  - destruct (d =? 60) eqn:A; [vm_compute in I; vm_compute; intuition (subst; discriminate)|]. destruct (d =? 62) eqn:A2; [vm_compute in I; vm_compute; intuition (subst; discriminate)|].
    destruct I as [<-|[]]. split; [lia|left; now left].
  - destruct (IH I) as [A [B0|B0]]; split; auto. left. now right.
Qed.
Lemma squeeze_written t : forall p, squeeze_spaces p t = t -> squeeze_spaces p (written t) = written t.
Proof.
  induction t as [|c t IH]; intros p E; auto. destruct (written_cons c t) as (u & -> & Nu & S1 & S2). cbn [squeeze_spaces] in E. unfold cSP in E. destruct (c =? 32) eqn:C.
  - apply N.eqb_eq in C. rewrite S1 by auto. cbn [app squeeze_spaces]. change (32 =? cSP) with true. cbn iota. destruct p.
    + exfalso. pose proof (squeeze_short t true) as L. rewrite E in L. cbn in L. lia.
    + injection E as E. now rewrite IH.
  - apply N.eqb_neq in C. injection E as E. rewrite squeeze_visible by auto. now rewrite IH.
Qed.
Lemma squeeze_start c t p : c <> 32 -> squeeze_spaces p (c :: t) = squeeze_spaces true (c :: t).
Proof. intros C. cbn [squeeze_spaces]. unfold cSP. now replace (c =? 32) with false by lia. Qed.
Lemma img_hugs w v : img l w v -> v <> [] -> trim_space v = v -> hugs w.
Proof.
  intros M Nv T. destruct (hugs_of v Nv T) as (_ & H1 & H2). assert (Nw : w <> []) by (intros ->; inversion M; subst; easy). split; auto.
  destruct (trim_left_spaces w) as (x & Ex & Sx). destruct (trim_right_spaces w) as (y & Ey & Sy).
  assert (Zx : x = []).
  { destruct x as [|c x]; auto. exfalso. rewrite Ex in M. apply (img_suffix l Hl Hp) in M as (v' & _ & E); [|now apply spaces_ws].
    rewrite E in H1. rewrite space_prefix in H1 by (auto; discriminate). discriminate. }
  assert (Zy : y = []).
  { destruct y as [|c y]; auto. exfalso. rewrite Ey in M. apply (img_prefix l Hl Hp) in M as (v' & _ & E); [|now apply spaces_ws].
    rewrite E in H2. rewrite space_suffix in H2 by (auto; discriminate). discriminate. }
  subst x y. rewrite app_nil_r in Ey. cbn in Ex. apply hugs_of; auto. unfold trim_space. now rewrite <- Ex, <- Ey.
Qed.
End texts.

(** ** The blocks of text *)
Lemma first_ascii c t : 33 <= c < 128 -> is_space_rune (fst (decode_rune (c :: t))) = false.
Proof. intros H. unfold decode_rune. replace (c <? 128) with true by lia. cbn [fst]. unfold is_space_rune, in_range. lia. Qed.
Lemma last_ascii c u : 33 <= c < 128 -> is_space_rune (fst (decode_last_rune (u ++ [c]))) = false.
Proof. intros H. unfold decode_last_rune. rewrite rev_app_distr. cbn [rev app]. unfold decode_last_rune_rev. replace (c <? 128) with true by lia. cbn [fst]. unfold is_space_rune, in_range. lia. Qed.
Lemma line_text_of l t : (forall c, In c l -> c < 128 /\ c <> 0 /\ c <> 7 /\ ~ ws_byte c) -> (forall c, In c l -> ascii_punct c = true /\ c <> 38 /\ c <> 59) ->
  final t -> readable_block t = true -> line_text l (escape_content (is_escaped_in l) (entity_replace t)) (plain t).
Proof.
  intros Hl Hp [N O] R. unfold readable_block in R. apply andb_true_iff in R as [R T]. apply beqb_eq in T. apply readable_spec in R as (M & N38 & N7).
  pose proof (img_text l Hl Hp t N7 N38) as G.
  assert (Np : plain t <> []). { destruct t as [|c t]; [easy|]. unfold plain. cbn [flat_map]. destruct (c =? 0); [discriminate|]. destruct (c =? 7) eqn:E; [elim N7; left; lia|discriminate]. }
  split; auto. split; [|split; [|split; [|split]]]; auto.
  - intros I. apply written_in in I as [I|[I|[I _]]]; lia.
  - apply nm_escape; auto. now apply nm_entity.
  - eapply img_hugs; eauto.
  - intros c I. apply written_in in I as [->|[I|[I [J|J]]]]; try lia; [|vm_compute in J; lia].
    pose proof (one_spaced_ws t) as F. rewrite O in F. rewrite Forall_forall in F. specialize (F c J). unfold separates in F. lia.
Qed.

Definition code_lines (c : bytes) : bytes := replace_all [10] marker_nl c.
Lemma fence_of f c : f = 96 \/ f = 126 -> exists n, calculate_code_fence f c = repeat f n /\ (3 <= n)%nat.
Proof. intros F. destruct (fence_final f c) as (n & E & L & _); [destruct F; subst; reflexivity|]. eauto. Qed.
Lemma repeat_end (f : N) n : (1 <= n)%nat -> repeat f n = repeat f (n - 1) ++ [f].
Proof. intros L. replace n with ((n - 1) + 1)%nat at 1 by lia. rewrite repeat_app. reflexivity. Qed.
Lemma replace_nl new s : replace_all [10] new s = flat_map (fun x => if x =? 10 then new else [x]) s.
Proof. apply UrlFacts.replace_one. Qed.
Lemma code_lines_no10 c : ~ In 10 (code_lines c).
Proof. unfold code_lines. rewrite replace_nl, in_flat_map. intros (x & _ & I). destruct (x =? 10) eqn:E; [vm_compute in I; intuition discriminate|]. destruct I as [->|[]]. discriminate. Qed.
Lemma rule_chars r : rule_line r = true -> (forall x, In x r -> x = 42 \/ x = 45 \/ x = 95 \/ x = 32) /\ (exists c t, r = c :: t /\ c <> 32) /\ exists c u, r = u ++ [c] /\ c <> 32.
Proof.
  unfold rule_line. rewrite !andb_true_iff, !negb_true_iff. intros [[T N] L].
  assert (G : forall c, c = 42 \/ c = 45 \/ c = 95 -> forall s n, break_rest c n s = true -> existsb (N.eqb 10) s = false -> forall x, In x s -> x = 42 \/ x = 45 \/ x = 95 \/ x = 32).
  { intros c Hc. induction s as [|d s IH]; intros n B Q x I; [contradiction|]. cbn [break_rest] in B. cbn [existsb] in Q. apply orb_false_iff in Q as [Q1 Q2].
    destruct (d =? c) eqn:D. { destruct I as [<-|I]; [lia|eauto]. } destruct (d =? 32) eqn:D2. { destruct I as [<-|I]; [lia|eauto]. } exfalso. apply andb_true_iff in B as [B _]. lia. }
  destruct r as [|c t]; [discriminate|]. cbn [thematic_break] in T. apply andb_true_iff in T as [C T].
  split; [|split].
  - intros x I. apply (G c ltac:(lia) (c :: t) O); auto.
  - exists c, t. split; auto. lia.
  - destruct (rev (c :: t)) as [|d u] eqn:E. { exfalso. apply (f_equal (@rev _)) in E. rewrite rev_involutive in E. discriminate. }
    exists d, (rev u). split. { rewrite <- (rev_involutive (c :: t)), E. reflexivity. } unfold last_is in L. rewrite E in L. cbn in L. lia.
Qed.

Lemma ascii_before p o : (forall c, In c p -> c < 128) -> ~ infix marker_nl o -> ~ infix marker_nl (p ++ o).
Proof.
  induction p as [|c p IH]; intros H M; auto. intros (x & y & E). destruct x as [|d x]; cbn in E; injection E as -> E.
  - specialize (H 239 (or_introl eq_refl)). lia.
  - apply IH; auto; [intros; apply H; now right|]. exists x, y. exact E.
Qed.
Lemma ascii_no_mark p : (forall c, In c p -> c < 128) -> ~ infix marker_nl p.
Proof. intros H. rewrite <- (app_nil_r p). apply ascii_before; auto. intros (x & y & E). destruct x; discriminate. Qed.

(** ** What is read *)
Section lines.
Context {TT : Type}.
Variable decode : bytes -> TT.
Definition head_line (o : bytes) (v : TT) : Prop :=
  ~ In 10 o /\ (exists c u, o = c :: u /\ c <> 32 /\ c <> 9) /\
  ((exists u c, o = u ++ [c] /\ c <> 35 /\ c <> 32 /\ c <> 9) \/ exists u, o = u ++ [92; 35]) /\ decode o = v /\ ~ infix marker_nl o /\ ~ In 9 o.
Definition plain_line (o : bytes) (v : TT) : Prop :=
  ~ In 10 o /\ (exists c u, o = c :: u /\ c <> 32 /\ c <> 9) /\ (exists u c, o = u ++ [c] /\ c <> 32 /\ c <> 9) /\ decode o = v /\ ~ infix marker_nl o /\ ~ In 9 o
  /\ thematic_break o = false /\ atx_heading o = false /\ fence_starts o = false /\ unread o = false.
End lines.
Definition prefix_ok (d : N) (num : option N) (p : bytes) : Prop :=
  match num with
  | None => p = [d; 32] /\ (d = 45 \/ d = 43 \/ d = 42)
  | Some n => d = 46 /\ exists ds, p = ds ++ [46; 32] /\ digits_value 0 ds = Some n /\ (1 <= List.length ds <= 9)%nat /\ forallb is_digit ds = true
  end.
Definition nb (num : option N) (d : N) (h : bytes) : Prop := num <> None \/ d = 43 \/ exists x, In x h /\ x <> d /\ x <> 32 /\ x <> 9.
Definition same_kind (n m : option N) : Prop := match n, m with None, None | Some _, Some _ => True | _, _ => False end.
Definition end_comment_line : bytes := b "<!--THE END-->".
Section goods.
Context {TT : Type}.
Notation block := (gblock TT).
Variable decode : bytes -> TT.
Variable hr : bytes.
Inductive good : bytes -> list block -> Prop :=
| good_para o v : plain_line decode o v -> good o [Paragraph v]
| good_atx k o v : (1 <= k <= 6)%nat -> head_line decode o v -> good (repeat 35 k ++ 32 :: o) [Heading k v]
| good_setext k n o v : k = 1%nat \/ k = 2%nat -> (3 <= n)%nat -> plain_line decode o v -> good (o ++ 10 :: repeat (if Nat.eqb k 1 then 61 else 45) n) [Heading k v]
| good_rule : rule_line hr = true -> good hr [Rule]
| good_code f i c : f = 96 \/ f = 126 -> forallb letter_or_digit i = true -> ~ infix marker_nl c ->
    good (calculate_code_fence f c ++ i ++ 10 :: c ++ 10 :: calculate_code_fence f c) [Code i c]
| good_comment : good end_comment_line []
| good_list d num ls Bs : good_items d num ls Bs -> good (join [10] ls) [Items num Bs]
with goods : bool -> list bytes -> list block -> Prop :=
| gs_nil al : goods al [] []
| gs_cons al o bs os B : good o bs -> (bs = [] -> al = true) -> (is_list bs = true -> al = false) -> goods (is_list bs) os B -> goods al (o :: os) (bs ++ B)
with good_items : N -> option N -> list bytes -> list (list block) -> Prop :=
| gi_one d num p fs B h t : prefix_ok d num p -> goods false fs B -> fs <> [] -> split_on 10 (join [10; 10] fs) = h :: t -> nb num d h ->
    good_items d num ((p ++ h) :: map (app (repeat 32 (List.length p))) t) [B]
| gi_cons d num p fs B h t num2 ls Bs : prefix_ok d num p -> goods false fs B -> fs <> [] -> split_on 10 (join [10; 10] fs) = h :: t -> nb num d h ->
    same_kind num num2 -> good_items d num2 ls Bs ->
    good_items d num (((p ++ h) :: map (app (repeat 32 (List.length p))) t) ++ ls) (B :: Bs).
Scheme good_mind := Minimality for good Sort Prop with goods_mind := Minimality for goods Sort Prop with good_items_mind := Minimality for good_items Sort Prop.
Combined Scheme good_all from good_mind, goods_mind, good_items_mind.
End goods.

Section segs.
Variable l : list N.
Hypothesis Hl : forall c, In c l -> c < 128 /\ c <> 0 /\ c <> 7 /\ ~ ws_byte c.
Hypothesis Hp : forall c, In c l -> ascii_punct c = true /\ c <> 38 /\ c <> 59.
Hypothesis H35 : In 35 l.
Lemma img_end35 w v : img l w v -> forall u, w = u ++ [35] -> exists u', u = u' ++ [7].
Proof.
  assert (G : forall x u : bytes, forall c d, c :: x = u ++ [d] -> x = [] /\ u = [] /\ c = d \/ exists u', u = c :: u' /\ x = u' ++ [d]).
  { intros x u c d E. destruct u as [|y u]; cbn in E; injection E as -> E; [left; auto|right; eauto]. }
  induction 1; intros u E.
  - destruct u; discriminate.
  - apply G in E as [(-> & -> & ->)|(u' & -> & E)].
    + exfalso. assert (Q : is_escaped_in l 35 = true) by (unfold is_escaped_in; apply existsb_exists; exists 35; split; auto). congruence.
    + apply IHimg in E as (u2 & ->). now exists (c :: u2).
  - apply G in E as [(E1 & _)|(u' & -> & E)]; [discriminate|]. apply G in E as [(-> & -> & ->)|(u2 & -> & E)]; [now exists []|].
    apply IHimg in E as (u3 & ->). now exists (7 :: c :: u3).
  - do 4 (apply G in E as [(_ & _ & E1)|(? & -> & E)]; [discriminate|]). apply IHimg in E as (u3 & ->). now exists (38 :: 108 :: 116 :: 59 :: u3).
  - do 4 (apply G in E as [(_ & _ & E1)|(? & -> & E)]; [discriminate|]). apply IHimg in E as (u3 & ->). now exists (38 :: 103 :: 116 :: 59 :: u3).
Qed.
(** What is left of a closing number sign *)
Lemma pound_cases w v w' : img l w v -> escape_pound w = Some w' ->
  w' = w /\ (exists u c, w = u ++ [c] /\ c <> 35) \/ (exists u, w = u ++ [92; 7; 35] /\ w' = w) \/ exists u, w = u ++ [7; 35] /\ w' = u ++ [92; 35] /\ last_is 92 u = false.
Proof.
  intros G E. unfold escape_pound in E. destruct (escape_pound_rev (rev w)) as [r|] eqn:R; [|discriminate]. injection E as <-.
  destruct w as [|c u _] using rev_ind; [discriminate|]. rewrite rev_app_distr in R. cbn [rev app escape_pound_rev] in R. destruct (c =? 35) eqn:C; cbn [negb] in R.
  - apply N.eqb_eq in C. subst c. right. destruct (img_end35 _ _ G u eq_refl) as (z & ->). rewrite rev_app_distr in R. cbn [rev app] in R.
    destruct z as [|d z _] using rev_ind.
    + injection R as <-. right. now exists [].
    + rewrite rev_app_distr in R. cbn [rev app] in R. destruct (d =? 92) eqn:D; injection R as <-.
      * apply N.eqb_eq in D. subst d. left. exists z. cbn [rev]. rewrite rev_involutive, <- !app_assoc. auto.
      * right. exists (z ++ [d]). cbn [rev]. rewrite rev_involutive, <- !app_assoc. repeat split. unfold last_is. rewrite rev_app_distr. cbn. exact D.
  - injection R as <-. left. cbn [rev]. rewrite rev_involutive. split; auto. exists u, c. split; auto. lia.
Qed.
Lemma tidy_line w : ~ In 10 w -> hugs w -> ~ infix marker_nl w -> tidy_block w.
Proof.
  intros N (H1 & H2 & H3) M. unfold tidy_block. rewrite single_line by auto. cbn [last]. split; auto. split; auto. split; [constructor|]. split; auto.
Qed.
(** The headings whose last number sign has been escaped *)
Definition head_text (w' v : bytes) : Prop := exists w, line_text l w v /\ escape_pound w = Some w'.
End segs.

Lemma readable_code_spec d : readable_code d = true -> nm d = true /\ ~ In 7 d.
Proof. unfold readable_code. rewrite andb_true_iff, forallb_forall. intros [H1 H2]. split; auto. intros I. apply H2 in I. discriminate. Qed.
Lemma nm_removelast d : nm d = true -> nm (without_final_newline d) = true.
Proof.
  intros H. unfold without_final_newline. destruct (last_is 10 d) eqn:L; auto. destruct d as [|c d _] using rev_ind; auto. rewrite removelast_last.
  unfold last_is in L. rewrite rev_app_distr in L. cbn in L. apply (nm_prefix d [c]); auto. cbn. unfold continuation, in_range in *. lia.
Qed.
Lemma without_in d c : In c (without_final_newline d) -> In c d.
Proof.
  unfold without_final_newline. destruct (last_is 10 d); auto. destruct d as [|y d _] using rev_ind; auto. rewrite removelast_last, in_app_iff. auto.
Qed.
Lemma no7_last w : ~ In 7 w -> last_is 7 w = false.
Proof. intros N. unfold last_is. destruct (rev w) as [|c r] eqn:E; auto. cbn. apply N.eqb_neq. intros ->. apply N. apply in_rev. rewrite E. now left. Qed.
Lemma readable_no7 f i d : f = 96 \/ f = 126 -> forallb letter_or_digit i = true -> readable_code d = true -> let c := without_final_newline d in
  ~ infix marker_nl c /\ ~ In 7 (calculate_code_fence f c ++ i ++ 10 :: code_lines c ++ 10 :: calculate_code_fence f c).
Proof.
  intros F I R c. apply readable_code_spec in R as (Nm & N7). assert (Nc : nm c = true) by now apply nm_removelast. assert (N7c : ~ In 7 c) by (intros J; apply N7; now apply without_in).
  apply nm_no_mark in Nc. split; auto. destruct (fence_of f c F) as (n & -> & _). assert (Nf : ~ In 7 (repeat f n)) by (intros J; apply repeat_spec in J; destruct F; lia).
  rewrite !in_app_iff. cbn [In]. rewrite in_app_iff. cbn [In]. intros [J|[J|[J|[J|[J|J]]]]]; auto; try discriminate.
  - rewrite forallb_forall in I. apply I in J. discriminate.
  - unfold code_lines in J. rewrite replace_nl, in_flat_map in J. destruct J as (y & Iy & J). destruct (y =? 10); [vm_compute in J; intuition discriminate|]. destruct J as [->|[]]. auto.
Qed.
(** Which texts stand for paragraphs and which for the texts of headings: what is needed of them before they are un-escaped *)
Record shaped_texts {TT : Type} (para atx : bytes -> TT -> Prop) : Prop := {
  para_shape : forall w v, para w v -> ~ In 10 w /\ hugs w /\ ~ infix marker_nl w /\ last_is 7 w = false;
  atx_shape : forall w v, atx w v -> w <> [] /\ ~ In 10 w /\ is_space_rune (fst (decode_last_rune w)) = false /\ ~ infix marker_nl w /\ last_is 7 w = false }.
Section segments.
Context {TT : Type}.
Notation block := (gblock TT).
Variable decode : bytes -> TT.
Variable para atx : bytes -> TT -> Prop.
Hypothesis Hsh : shaped_texts para atx.
Variable hr : bytes.
Inductive seg : bytes -> list block -> Prop :=
| seg_para w v : para w v -> seg w [Paragraph v]
| seg_atx k w v : (1 <= k <= 6)%nat -> atx w v -> seg (repeat 35 k ++ 32 :: w) [Heading k v]
| seg_setext k n w v : k = 1%nat \/ k = 2%nat -> (3 <= n)%nat -> para w v -> seg (w ++ 10 :: repeat (if Nat.eqb k 1 then 61 else 45) n) [Heading k v]
| seg_rule : rule_line hr = true -> seg hr [Rule]
| seg_code f i d : f = 96 \/ f = 126 -> forallb letter_or_digit i = true -> readable_code d = true ->
    seg (calculate_code_fence f (without_final_newline d) ++ i ++ 10 :: code_lines (without_final_newline d) ++ 10 :: calculate_code_fence f (without_final_newline d))
        [Code i (without_final_newline d)]
| seg_comment : seg end_comment_line []
| seg_list w num Bs : tidy_block w -> ~ In 7 w -> good decode hr (post_newline w) [Items num Bs] -> seg w [Items num Bs].
Lemma seg_tidy w B : seg w B -> tidy_block w.
Proof.
  destruct 1 as [w v T|k w' v K T|k n w v K L T|R|f i d F I R| |w num Bs T _ _]; auto.
  - destruct (para_shape _ _ Hsh _ _ T) as (N & H & M & _). now apply tidy_line.
  - destruct (atx_shape _ _ Hsh _ _ T) as (W1 & W2 & W3 & W4 & _). apply tidy_line.
    + rewrite in_app_iff. intros [J|[J|J]]; auto; [|discriminate]. apply repeat_spec in J. discriminate.
    + split; [destruct k; [lia|discriminate]|]. split; [destruct k; [lia|]; apply first_ascii; lia|]. now apply decode_last_ascii.
    + change (32 :: w') with ([32] ++ w'). rewrite app_assoc. apply ascii_before; auto. intros c. rewrite in_app_iff. intros [J|[<-|[]]]; [apply repeat_spec in J; lia|reflexivity].
  - destruct (para_shape _ _ Hsh _ _ T) as (N10 & H & _ & _). assert (Hc : exists c, (if Nat.eqb k 1 then 61 else 45) = c /\ (c = 61 \/ c = 45)) by (destruct (Nat.eqb k 1); eauto). destruct Hc as (c & -> & Hc).
    assert (Nr : ~ In 10 (repeat c n)) by (intros J; apply repeat_spec in J; lia).
    pose proof H as (Hn & Hf & _). unfold tidy_block. rewrite split_nl, !single_line by auto. cbn [app last]. split; [destruct w; discriminate|]. split; [now rewrite decode_rune_nl|]. split.
    + constructor; [|constructor]. destruct n; [lia|]. unfold spaces_line. cbn [repeat forallb]. replace (32 =? c) with false by lia. discriminate.
    + split; [destruct n; [lia|discriminate]|]. split; [rewrite repeat_end by lia; apply last_ascii; lia|]. apply ascii_no_mark. intros y J. apply repeat_spec in J. lia.
  - destruct (rule_chars hr R) as (A & (c & t & Eh & N1) & (d & u & E & N2)). apply tidy_line; [intros J; apply A in J; lia| |apply ascii_no_mark; intros y J; apply A in J; lia].
    split; [rewrite Eh; discriminate|]. split.
    + rewrite Eh in *. apply first_ascii. specialize (A c (or_introl eq_refl)). lia.
    + rewrite E. apply last_ascii. specialize (A d). rewrite E in A. specialize (A ltac:(rewrite in_app_iff; right; now left)). lia.
  - set (c := without_final_newline d) in *. destruct (fence_of f c F) as (n & -> & Ln). pose proof (code_lines_no10 c) as Nc. set (y := code_lines c) in *. clearbody y.
    assert (Nf : ~ In 10 (repeat f n)) by (intros J; apply repeat_spec in J; destruct F; lia).
    assert (Ni : ~ In 10 i) by (intros J; rewrite forallb_forall in I; apply I in J; discriminate).
    assert (Hf : 33 <= f < 128) by (destruct F; lia). unfold tidy_block.
    split; [destruct n; [lia|discriminate]|]. split; [destruct n; [lia|]; apply first_ascii; lia|]. rewrite app_assoc, !split_nl, !single_line by (auto; rewrite in_app_iff; tauto).
    cbn [app last]. split; [constructor; [|constructor; [|constructor]]|].
    + intros _. split.
      * destruct i as [|j i' _] using rev_ind; [exists (repeat f (n - 1)), f; rewrite app_nil_r, <- repeat_end by lia; split; auto; lia|].
        exists (repeat f n ++ i'), j. rewrite app_assoc. split; auto. rewrite forallb_forall in I. specialize (I j ltac:(rewrite in_app_iff; right; now left)). intros ->. discriminate.
      * apply ascii_no_mark. intros j. rewrite in_app_iff. intros [J|J]; [apply repeat_spec in J; lia|]. rewrite forallb_forall in I. apply I in J. unfold letter_or_digit, in_range in J. lia.
    + destruct n; [lia|]. unfold spaces_line. cbn [repeat forallb]. replace (32 =? f) with false by lia. discriminate.
    + split; [destruct n; [lia|discriminate]|]. split; [rewrite repeat_end by lia; apply last_ascii; lia|]. apply ascii_no_mark. intros j J. apply repeat_spec in J. lia.
  - apply tidy_line; [vm_compute; intuition discriminate|split; [discriminate|split; vm_compute; reflexivity]|]. apply ascii_no_mark. apply Forall_forall. repeat constructor.
Qed.
Lemma seg_last7 w bl : seg w bl -> last_is 7 w = false.
Proof.
  assert (Sn : forall u c, c <> 7 -> last_is 7 (u ++ [c]) = false) by (intros u c C; unfold last_is; rewrite rev_app_distr; cbn; lia).
  destruct 1 as [w v T|k w v K T|k n w v K L T|R|f i d F I R| |w num Bs _ N7 _].
  - apply (para_shape _ _ Hsh _ _ T).
  - destruct (atx_shape _ _ Hsh _ _ T) as (Nw & _ & _ & _ & L7). destruct (exists_last Nw) as (u & c & ->). rewrite app_comm_cons, app_assoc. apply Sn.
    intros ->. unfold last_is in L7. rewrite rev_app_distr in L7. discriminate.
  - rewrite repeat_end by lia. rewrite app_comm_cons, app_assoc. apply Sn. destruct (Nat.eqb k 1); discriminate.
  - apply no7_last. intros J. destruct (rule_chars hr R) as (A0 & _). apply A0 in J. lia.
  - apply no7_last. now apply readable_no7.
  - reflexivity.
  - now apply no7_last.
Qed.
End segments.
