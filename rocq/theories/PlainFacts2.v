(** Texts on their way through a conversion: escaped texts stay escaped texts (C60). *)
From Coq Require Import List NArith ZArith Bool String Lia ZifyBool ZifyNat ZifyN.
From Verif Require Import Bytes BytesFacts TextUtils TextFacts TextFacts2 TextFacts3 RenderFacts5 RenderText RenderFacts Escape SpecEscape SpecText SpecText2 EscapeFacts EscapeFacts4 SpecDom SpecPlain
  CommonMark SpecPipeline PipelineFacts LetterFacts PanicFacts TableFacts5.
Import ListNotations.
Open Scope N_scope.
Open Scope list_scope.

(** ** Leaving out spaces and newlines *)
Inductive thin : bytes -> bytes -> Prop :=
| thin_nil : thin [] []
| thin_keep c s o : thin s o -> thin (c :: s) (c :: o)
| thin_drop c s o : c = 32 \/ c = 10 -> thin s o -> thin (c :: s) o.
Lemma thin_refl s : thin s s.
Proof. induction s; constructor; auto. Qed.
Lemma thin_app a c x y : thin a c -> thin x y -> thin (a ++ x) (c ++ y).
Proof. induction 1; cbn [app]; auto; intros; constructor; auto. Qed.
Lemma thin_trans x y : thin x y -> forall z, thin y z -> thin x z.
Proof.
  induction 1; intros z T; auto.
  - inversion T; subst; constructor; auto.
  - constructor; auto.
Qed.
Lemma thin_spaces k : thin (repeat 32 k) [].
Proof. induction k; cbn [repeat]; constructor; auto. Qed.
Lemma thin_squeeze s o : newline_squeeze s o -> thin s o.
Proof.
  induction 1; [apply thin_refl|]. eapply thin_trans; [|exact IHnewline_squeeze].
  apply thin_app; [apply thin_refl|]. apply thin_app; [apply thin_refl|]. apply thin_app; [apply thin_refl|]. apply thin_app; [apply thin_refl|].
  rewrite app_assoc. apply (thin_app (repeat 32 q ++ [10]) []); [|apply thin_refl]. apply (thin_app (repeat 32 q) [] [10] []); [apply thin_spaces|].
  constructor; auto; constructor.
Qed.
Lemma thin_breaks : forall ls ls', breaks_trimmed ls ls' -> thin (join [10] ls) (join [10] ls').
Proof.
  induction ls as [|l r IH]; intros [|l' r'] H; cbn [breaks_trimmed] in H; try contradiction; [apply thin_refl|].
  destruct H as ((k & ->) & _ & H). specialize (IH _ H).
  assert (T : thin (l' ++ repeat 32 k) l').
  { rewrite <- (app_nil_r l') at 2. apply thin_app; [apply thin_refl|apply thin_spaces]. }
  destruct r as [|m r], r' as [|m' r']; cbn [breaks_trimmed] in H; try contradiction; [exact T|].
  change (thin ((l' ++ repeat 32 k) ++ [10] ++ join [10] (m :: r)) (l' ++ [10] ++ join [10] (m' :: r'))).
  apply thin_app; auto. apply thin_app; auto. apply thin_refl.
Qed.
Lemma thin_hard s : thin s (trim_hard_breaks s).
Proof. pose proof (thin_breaks _ _ (hard_lines s)) as T. now rewrite !split_join in T. Qed.
Lemma thin_tcn s : thin s (trim_consecutive_newlines s).
Proof. rewrite <- tcn_go_eq. apply thin_squeeze. now destruct (tcn_go_final s). Qed.

(** ** Escaped texts *)
Section escaped.
Variable l : list N.
Hypothesis Hl : forall c, In c l -> c < 128 /\ c <> 0 /\ c <> 7 /\ ~ ws_byte c.
Notation esc := (is_escaped_in l).
Inductive marked_text : bytes -> Prop :=
| mt_nil : marked_text []
| mt_plain c s : c <> 0 -> esc c = false -> marked_text s -> marked_text (c :: s)
| mt_esc c s : esc c = true -> marked_text s -> marked_text (7 :: c :: s).
Lemma esc_in c : esc c = true -> In c l.
Proof. unfold is_escaped_in. intros H. apply existsb_exists in H as (x & I & E). apply N.eqb_eq in E. now subst. Qed.
Lemma esc_decode c t : esc (fst (decode_rune (c :: t))) = esc c.
Proof.
  pose proof (decode_rune_spec c t) as D. destruct (decode_rune (c :: t)) as [r n] eqn:E. cbn [fst].
  destruct (N.lt_ge_cases c 128) as [L|L].
  - unfold decode_rune in E. apply N.ltb_lt in L. rewrite L in E. injection E as <- _. reflexivity.
  - assert (A : esc c = false) by (destruct (esc c) eqn:Q; auto; apply esc_in, Hl in Q; lia). rewrite A.
    destruct (esc r) eqn:Q; auto. apply esc_in, Hl in Q. lia.
Qed.
Lemma escape_cons c t : escape_content esc (c :: t) =
  (if c =? 0 then [239; 191; 189] else if esc c then [7; c] else [c]) ++ escape_content esc t.
Proof. cbn [escape_content]. rewrite esc_decode. unfold cNUL. destruct (c =? 0); [reflexivity|]. now destruct (esc c). Qed.
Lemma esc_no c : 128 <= c \/ c = 7 \/ c = 0 \/ ws_byte c -> esc c = false.
Proof. intros H. destruct (esc c) eqn:Q; auto. apply esc_in, Hl in Q. unfold ws_byte in *. lia. Qed.
Lemma mt_app x y : marked_text x -> marked_text y -> marked_text (x ++ y).
Proof. induction 1; cbn [app]; auto; intros; [apply mt_plain|apply mt_esc]; auto. Qed.
Lemma mt_escape t : marked_text (escape_content esc t).
Proof.
  induction t as [|c t IH]; [constructor|]. rewrite escape_cons. apply mt_app; auto. destruct (c =? 0) eqn:E0.
  - repeat (apply mt_plain; [lia|apply esc_no; lia|]). constructor.
  - destruct (esc c) eqn:E; [apply mt_esc|apply mt_plain]; auto; try constructor. lia.
Qed.
(** the text that was escaped *)
Lemma mt_image s : marked_text s -> exists t, s = escape_content esc t /\ ~ In 0 t
  /\ forall p, p 7 = false -> filter p t = filter p s.
Proof.
  induction 1 as [|c s N E M (t & -> & N0 & F)|c s E M (t & -> & N0 & F)].
  - exists []. auto.
  - exists (c :: t). split; [|split].
    + rewrite escape_cons, E. apply N.eqb_neq in N. now rewrite N.
    + intros [->|I]; auto.
    + intros p P. cbn [filter]. now rewrite F.
  - assert (C : c <> 0) by (apply esc_in, Hl in E; lia). exists (c :: t). split; [|split].
    + rewrite escape_cons, E. apply N.eqb_neq in C. now rewrite C.
    + intros [->|I]; auto.
    + intros p P. cbn [filter]. rewrite P. now rewrite F.
Qed.
Lemma mt_thin s : marked_text s -> forall o, thin s o -> marked_text o.
Proof.
  induction 1 as [|c s N E M IH|c s E M IH]; intros o T.
  - inversion T; constructor.
  - inversion T; subst; auto. now apply mt_plain; auto.
  - inversion T as [|? ? o1 T1|? ? ? [D|D]]; subst; try discriminate. inversion T1 as [|? ? o2 T2|? ? ? D T2]; subst; [apply mt_esc; auto|].
    assert (esc c = false) by (apply esc_no; right; right; right; unfold ws_byte; lia). congruence.
Qed.
Lemma mt_suffix u : Forall ws_byte u -> forall s, marked_text (u ++ s) -> marked_text s.
Proof.
  induction 1 as [|c u W _ IH]; intros s M; auto. cbn [app] in M. inversion M; subst; auto. unfold ws_byte in W. lia.
Qed.
Lemma mt_prefix z : forall v, Forall ws_byte v -> marked_text (z ++ v) -> marked_text z.
Proof.
  assert (G : forall x, marked_text x -> forall s v, x = s ++ v -> Forall ws_byte v -> marked_text s).
  { induction 1 as [|c s N E M IH|c s E M IH]; intros u v Ex W.
    - destruct u; [constructor|discriminate].
    - destruct u as [|d u]; [constructor|]. injection Ex as -> ->. apply mt_plain; auto. now apply (IH u v).
    - destruct u as [|d u]; [constructor|]. injection Ex as <- Ex. destruct u as [|d u].
      + cbn [app] in Ex. subst v. inversion W as [|? ? W1 _]; subst. assert (esc c = false) by (apply esc_no; auto). congruence.
      + injection Ex as -> ->. apply mt_esc; auto. now apply (IH u v). }
  intros v W M. now apply (G _ M z v eq_refl).
Qed.
Lemma mt_trim s : marked_text s -> marked_text (post_trim s).
Proof.
  intros M. unfold post_trim. eapply mt_thin; [|apply thin_hard]. eapply mt_thin; [|apply thin_tcn].
  destruct (trim_space_ws s) as (u & v & E & Wu & Wv). rewrite E in M. apply mt_suffix in M; auto. now apply mt_prefix in M.
Qed.
End escaped.

(** ** Texts without U+F002 *)
Notation nm := no_newline_mark.
Lemma nm_cons c t : nm (c :: t) = (if c =? 239 then match t with x :: y :: _ => continuation x && continuation y && negb ((x =? 128) && (y =? 130)) | _ => false end else true) && nm t.
Proof. reflexivity. Qed.
Lemma nm_app x : forall y, nm x = true -> nm y = true -> nm (x ++ y) = true.
Proof.
  induction x as [|c x IH]; intros y X Y; auto. cbn [app]. rewrite nm_cons in *. apply andb_true_iff in X as [X1 X2]. rewrite IH by auto.
  rewrite andb_true_r. destruct (c =? 239); auto. destruct x as [|a [|d x]]; try discriminate. exact X1.
Qed.
Lemma nm_suffix u : forall s, nm (u ++ s) = true -> nm s = true.
Proof. induction u as [|c u IH]; intros s H; auto. cbn [app] in H. rewrite nm_cons in H. apply andb_true_iff in H as [_ H]. auto. Qed.
Lemma nm_prefix s : forall v, match v with [] => True | c :: _ => continuation c = false end -> nm (s ++ v) = true -> nm s = true.
Proof.
  induction s as [|c s IH]; intros v V H; auto. cbn [app] in H. rewrite nm_cons in *. apply andb_true_iff in H as [H1 H2]. rewrite (IH v) by auto.
  rewrite andb_true_r. destruct (c =? 239); auto. destruct s as [|a [|d s]]; cbn [app] in H1; auto.
  - destruct v as [|a [|d v]]; try discriminate. now rewrite V in H1.
  - destruct v as [|d v]; try discriminate. rewrite V in H1. now rewrite andb_false_r in H1.
Qed.
Lemma nm_ascii c : c < 128 -> forall s, nm (c :: s) = nm s.
Proof. intros L s. rewrite nm_cons. replace (c =? 239) with false by lia. reflexivity. Qed.
Lemma nm_thin s : forall o, thin s o -> nm s = true -> nm o = true.
Proof.
  assert (G : forall s o, thin s o -> nm s = true -> nm o = true /\
    forall x y r, s = x :: y :: r -> continuation x = true -> continuation y = true -> exists r', o = x :: y :: r').
  { clear s. induction 1 as [|c s o T IH|c s o D T IH]; intros H.
    - split; auto. discriminate.
    - rewrite nm_cons in H. apply andb_true_iff in H as [H1 H2]. destruct (IH H2) as [A B]. split.
      + rewrite nm_cons, A, andb_true_r. destruct (c =? 239); auto. destruct s as [|x [|y r]]; try discriminate.
        apply andb_true_iff in H1 as [H1 H3]. apply andb_true_iff in H1 as [H1 H1']. destruct (B x y r eq_refl H1 H1') as (r' & ->). now rewrite H1, H1', H3.
      + intros x y r [= -> ->] X Y. inversion T as [|? ? o' T'|? ? ? D T']; subst; [eauto|]. unfold continuation in Y. lia.
    - rewrite nm_cons in H. apply andb_true_iff in H as [H1 H2]. destruct (IH H2) as [A B]. split; auto.
      intros x y r [= -> ->] X Y. unfold continuation in X. lia. }
  intros o T H. now apply (G s o).
Qed.
Lemma spaces_first v : spaces v -> match v with [] => True | c :: _ => continuation c = false end.
Proof.
  destruct 1 as [|e r s D S _]; auto. destruct e as [|c e]; [cbn in D; injection D as <-; discriminate|]. cbn [app].
  destruct (continuation c) eqn:C; auto. unfold continuation in C. unfold decode_rune in D.
  destruct (c <? 128) eqn:L; [lia|]. destruct (in_range 194 223 c) eqn:Q; [unfold in_range in Q; lia|].
  destruct (in_range 224 239 c) eqn:Q2; [unfold in_range in Q2; lia|]. destruct (in_range 240 244 c) eqn:Q3; [unfold in_range in Q3; lia|].
  injection D as <- _. discriminate.
Qed.
Lemma nm_trim s : nm s = true -> nm (post_trim s) = true.
Proof.
  intros H. unfold post_trim. eapply nm_thin; [apply thin_hard|]. eapply nm_thin; [apply thin_tcn|].
  destruct (trim_space_spaces s) as (u & v & E & _ & Sv). rewrite E in H. apply nm_suffix in H. apply nm_prefix in H; auto. now apply spaces_first.
Qed.
Lemma nm_entity s : nm s = true -> nm (entity_replace s) = true.
Proof.
  assert (G : forall s, nm s = true -> nm (entity_replace s) = true /\
    forall x y r, s = x :: y :: r -> continuation x = true -> continuation y = true -> exists r', entity_replace s = x :: y :: r').
  { clear s. induction s as [|c t IH]; intros H; [split; auto; discriminate|]. cbn [entity_replace]. rewrite nm_cons in H. apply andb_true_iff in H as [H1 H2].
    destruct (IH H2) as [A B]. split.
    - destruct (c =? 60) eqn:E1; [apply nm_app; auto|]. destruct (c =? 62) eqn:E2; [apply nm_app; auto|]. cbn [app]. rewrite nm_cons, A, andb_true_r.
      destruct (c =? 239); auto. destruct t as [|x [|y r]]; try discriminate.
      apply andb_true_iff in H1 as [H1 H3]. apply andb_true_iff in H1 as [H1 H1']. destruct (B x y r eq_refl H1 H1') as (r' & ->). now rewrite H1, H1', H3.
    - intros x y r [= -> ->] X Y. cbn [entity_replace]. unfold continuation in X, Y. replace (x =? 60) with false by lia. replace (x =? 62) with false by lia.
      replace (y =? 60) with false by lia. replace (y =? 62) with false by lia. cbn [app]. eauto. }
  intros H. now apply G.
Qed.
Section escaped2.
Variable l : list N.
Hypothesis Hl : forall c, In c l -> c < 128 /\ c <> 0 /\ c <> 7 /\ ~ ws_byte c.
Notation esc := (is_escaped_in l).
Lemma nm_escape s : nm s = true -> nm (escape_content esc s) = true.
Proof.
  assert (G : forall s, nm s = true -> nm (escape_content esc s) = true /\
    forall x y r, s = x :: y :: r -> continuation x = true -> continuation y = true -> exists r', escape_content esc s = x :: y :: r').
  { clear s. induction s as [|c t IH]; intros H; [split; auto; discriminate|]. rewrite (escape_cons l Hl). rewrite nm_cons in H. apply andb_true_iff in H as [H1 H2].
    destruct (IH H2) as [A B]. split.
    - destruct (c =? 0) eqn:E0; [apply (nm_app [239; 191; 189]); auto|]. destruct (esc c) eqn:E.
      + apply nm_app; auto. apply esc_in, Hl in E. rewrite !nm_ascii by lia. reflexivity.
      + cbn [app]. rewrite nm_cons, A, andb_true_r.
      destruct (c =? 239); auto. destruct t as [|x [|y r]]; try discriminate.
      apply andb_true_iff in H1 as [H1 H3]. apply andb_true_iff in H1 as [H1 H1']. destruct (B x y r eq_refl H1 H1') as (r' & ->). now rewrite H1, H1', H3.
    - intros x y r [= -> ->] X Y. rewrite (escape_cons l Hl). unfold continuation in X, Y.
      assert (Ex : esc x = false) by (apply (esc_no l Hl); lia). assert (Ey : esc y = false) by (apply (esc_no l Hl); lia).
      rewrite Ex, Ey. replace (x =? 0) with false by lia. replace (y =? 0) with false by lia. cbn [app]. eauto. }
  intros H. now apply G.
Qed.
End escaped2.
Lemma nm_bells s : nm s = true -> nm (filter (fun c => negb (c =? 7)) s) = true.
Proof.
  assert (G : forall s, nm s = true -> nm (filter (fun c => negb (c =? 7)) s) = true /\
    forall x y r, s = x :: y :: r -> continuation x = true -> continuation y = true -> exists r', filter (fun c => negb (c =? 7)) s = x :: y :: r').
  { clear s. induction s as [|c t IH]; intros H; [split; auto; discriminate|]. cbn [filter]. rewrite nm_cons in H. apply andb_true_iff in H as [H1 H2].
    destruct (IH H2) as [A B]. split.
    - destruct (c =? 7) eqn:E; cbn [negb]; auto. rewrite nm_cons, A, andb_true_r. destruct (c =? 239); auto. destruct t as [|x [|y r]]; try discriminate.
      apply andb_true_iff in H1 as [H1 H3]. apply andb_true_iff in H1 as [H1 H1']. destruct (B x y r eq_refl H1 H1') as (r' & ->). now rewrite H1, H1', H3.
    - intros x y r [= -> ->] X Y. unfold continuation in X, Y. cbn [filter]. replace (x =? 7) with false by lia. replace (y =? 7) with false by lia. cbn [negb]. eauto. }
  intros H. now apply G.
Qed.
Lemma nm_no_mark s : nm s = true -> ~ infix marker_nl s.
Proof.
  intros H (x & y & ->). apply nm_suffix in H. discriminate.
Qed.
Lemma inserts_infix t u : inserts t u -> forall p, ~ In 92 p -> infix p u -> infix p t.
Proof.
  assert (P : forall t u, inserts t u -> forall p y, ~ In 92 p -> u = p ++ y -> exists z, t = p ++ z).
  { clear t u. induction 1 as [|c t u I IH|c t u I IH]; intros p y N E.
    - destruct p; [now exists []|discriminate].
    - destruct p as [|d p]; [now exists (c :: t)|]. injection E as <- E. destruct (IH p y) as (z & ->); auto; [intros J; apply N; now right|]. now exists z.
    - destruct p as [|d p]; [now exists (c :: t)|]. injection E as <- E. elim N. now left. }
  induction 1 as [|c t u I IH|c t u I IH]; intros p N (x & y & E).
  - exists x, y. auto.
  - destruct x as [|d x].
    + destruct (P _ _ (ins_same c t u I) p y N E) as (z & ->). now exists [], z.
    + injection E as <- E. destruct (IH p N) as (x' & y' & ->); [now exists x, y|]. now exists (c :: x'), y'.
  - destruct x as [|d x].
    + destruct (P _ _ (ins_bsl c t u I) p y N E) as (z & ->). now exists [], z.
    + injection E as <- E. assert (infix p (c :: u)) as (x1 & y1 & E1) by now exists x, y. destruct x1 as [|d x1].
      * destruct (P _ _ (ins_same c t u I) p y1 N E1) as (z & ->). now exists [], z.
      * injection E1 as <- E1. destruct (IH p N) as (x' & y' & ->); [now exists x1, y1|]. now exists (c :: x'), y'.
Qed.
Lemma replace_none old new s : ~ infix old s -> replace_all old new s = s.
Proof.
  intros H. induction s as [|c t IH]; [reflexivity|]. rewrite replace_all_cons. destruct (has_prefix old (c :: t)) eqn:P.
  - apply has_prefix_iff in P as (r & E). elim H. rewrite E. now exists [], r.
  - rewrite IH; auto. intros (x & y & ->). apply H. now exists (c :: x), y.
Qed.
Lemma unescape_none ds s : ~ In 7 s -> unescape_content ds s = s.
Proof.
  unfold unescape_content. generalize (@nil N) as rb. generalize O as k. induction s as [|c t IH]; intros k rb N; [reflexivity|].
  cbn [unescape_from]. unfold marker_esc. destruct (c =? 7) eqn:E; [elim N; left; lia|]. f_equal. apply IH. intros I. apply N. now right.
Qed.
