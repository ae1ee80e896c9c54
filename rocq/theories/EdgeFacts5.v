(** What happens to the two ends of the text and to its blank lines after rendering (C19). *)
From Coq Require Import List NArith ZArith Bool String Lia ZifyBool ZifyNat ZifyN.
From Verif Require Import PanicFacts Bytes BytesFacts TextUtils RenderText Escape SpecEscape EscapeFacts EscapeFacts6 SpecDom SpecText TextFacts TextFacts2 TextFacts3 RenderFacts RenderFacts2 RenderFacts3
  RenderFacts4 RenderFacts5 SpecPlain SpecTrim PlainFacts2 EdgeFacts EdgeFacts2.
Import ListNotations.
Open Scope N_scope.
Open Scope list_scope.

(** ** White characters *)
Definition nonink (w : bytes) : Prop := Forall (fun c => ~ inkb c /\ c <> 7) w.
Lemma white_nonink w : In w white_characters -> nonink w.
Proof.
  assert (F : Forall (Forall (fun c => ~ inkb c /\ c <> 7)) white_characters) by (repeat constructor; try (unfold inkb; lia); discriminate).
  rewrite Forall_forall in F. apply F.
Qed.
Lemma white_no10 w : In w white_characters -> w = [10] \/ ~ In 10 w.
Proof.
  assert (F : Forall (fun w => w = [10] \/ ~ In 10 w) white_characters) by (repeat (constructor; [first [left; reflexivity|right; cbn; intuition discriminate]|]); constructor).
  rewrite Forall_forall in F. apply F.
Qed.
Lemma white_ne w : In w white_characters -> w <> [].
Proof.
  assert (F : Forall (fun w => w <> []) white_characters) by (repeat constructor; discriminate).
  rewrite Forall_forall in F. apply F.
Qed.
Lemma white_no_mark w : In w white_characters -> ~ In 239 w.
Proof.
  assert (F : Forall (fun w => ~ In 239 w) white_characters) by (repeat (constructor; [cbn; intuition discriminate|]); constructor).
  rewrite Forall_forall in F. apply F.
Qed.
Lemma white_decode w z : In w white_characters -> is_space_rune (fst (decode_rune (w ++ z))) = true.
Proof.
  assert (F : Forall (fun w => forall z, is_space_rune (fst (decode_rune (w ++ z))) = true) white_characters) by (repeat (constructor; [reflexivity|]); constructor).
  rewrite Forall_forall in F. intros I. now apply F.
Qed.
Lemma white_rune w : In w white_characters -> exists r, decode_rune w = (r, List.length w) /\ is_space_rune r = true.
Proof.
  assert (F : Forall (fun w => exists r, decode_rune w = (r, List.length w) /\ is_space_rune r = true) white_characters)
    by (repeat (constructor; [eexists; split; [reflexivity|reflexivity]|]); constructor).
  rewrite Forall_forall in F. apply F.
Qed.
Lemma trim_trimmed s : trimmed (trim_space s).
Proof.
  intros w I. pose proof (white_ne w I) as Ne. split; intros z E.
  - destruct (trim_right_spaces (trim_left s)) as (r & E1 & _). pose proof (trim_left_starts s) as St. unfold starts_nonspace in St.
    unfold trim_space in E. rewrite E in E1. rewrite E1 in St. rewrite <- app_assoc in St. rewrite white_decode in St by auto.
    assert (true = false); [|discriminate]. apply St. destruct w; [congruence|discriminate].
  - pose proof (trim_right_ends (trim_left s)) as En. unfold trim_space in E. rewrite E in En. apply ends_nonspace_suffix in En.
    destruct (white_rune w I) as (r & D & R). assert (L : decode_last_rune_rev (rev w ++ []) = (r, List.length w)) by now apply decode_last_valid.
    rewrite app_nil_r in L. unfold ends_nonspace, decode_last_rune in En. rewrite L in En. cbn [fst] in En. rewrite R in En. assert (true = false); [|discriminate]. apply En. exact Ne.
Qed.

(** ** Bytes dropped before line ends *)
Inductive lined : bytes -> bytes -> Prop :=
| ln_nil : lined [] []
| ln_keep c s o : lined s o -> lined (c :: s) (c :: o)
| ln_drop c s o : c = 10 \/ c = 32 -> lined s (10 :: o) -> lined (c :: s) (10 :: o).
Lemma lined_refl s : lined s s. Proof. induction s; constructor; auto. Qed.
Lemma lined_app a c x y : lined a c -> lined x y -> lined (a ++ x) (c ++ y).
Proof. induction 1; intros; cbn [app]; auto; [apply ln_keep|apply ln_drop]; auto. Qed.
Lemma lined_ten s o : lined s (10 :: o) -> exists h t, s = h :: t /\ (h = 10 \/ h = 32).
Proof. intros H. inversion H; subst; eauto. Qed.
Lemma lined_trans y z : lined y z -> forall x, lined x y -> lined x z.
Proof.
  induction 1 as [|c s o H IH|c s o C H IH]; intros x G; auto.
  - remember (c :: s) as y eqn:E. revert s o c H IH E. induction G as [|d u v G IG|d u v D G IG]; intros s o c H IH E; [discriminate| |].
    + injection E as -> ->. apply ln_keep. auto.
    + injection E as <- <-. apply ln_drop; auto. eapply IG; eauto.
  - remember (c :: s) as y eqn:E. revert s o c C H IH E. induction G as [|d u v G IG|d u v D G IG]; intros s o c C H IH E; [discriminate| |].
    + injection E as -> ->. apply ln_drop; auto.
    + injection E as <- <-. apply ln_drop; auto. eapply IG; eauto.
Qed.
Lemma lined_spaces n s : lined s s -> forall o, lined s (10 :: o) -> lined (repeat 32 n ++ s) (10 :: o).
Proof. intros _ o H. induction n; auto. cbn [repeat app]. apply ln_drop; auto. Qed.
Lemma lined_squeeze s o : newline_squeeze s o -> lined s o.
Proof.
  induction 1 as [s|x p q z o H IH]; [apply lined_refl|]. eapply lined_trans; [exact IH|]. apply lined_app; [apply lined_refl|]. apply (lined_app [10] [10]); [apply lined_refl|].
  apply lined_app; [apply lined_refl|]. cbn [app]. apply ln_drop; auto. apply lined_spaces; apply lined_refl.
Qed.
Lemma lined_hard s : lined s (trim_hard_breaks s).
Proof.
  assert (R : forall old, old = [32; 32; 10; 10] \/ old = [32; 32; 10; 32; 32; 10] \/ old = [32; 32; 10; 32; 10] -> forall s, lined s (replace_all old [10; 10] s)).
  { intros old Old. apply (replace_ind old [10; 10]).
    - intros ->. intuition discriminate.
    - constructor.
    - intros r o H. destruct Old as [->|[->| ->]]; cbn [app].
      + apply ln_drop; auto. apply ln_drop; auto. apply ln_keep, ln_keep, H.
      + apply ln_drop; auto. apply ln_drop; auto. apply ln_keep. apply ln_drop; auto. apply ln_drop; auto. apply ln_keep, H.
      + apply ln_drop; auto. apply ln_drop; auto. apply ln_keep. apply ln_drop; auto. apply ln_keep, H.
    - intros c r o _ H. now apply ln_keep. }
  unfold trim_hard_breaks. cbv zeta. unfold cSP, cNL. eapply lined_trans; [apply R; auto|]. eapply lined_trans; [apply R; auto|]. apply R; auto.
Qed.
Lemma lined_prefix w : ~ In 10 w -> forall s z, lined s (w ++ z) -> exists z', s = w ++ z'.
Proof.
  induction w as [|c w IH]; intros N s z H; [now exists s|]. cbn [app] in H. inversion H as [|? s' ? H'|]; subst; [|elim N; now left].
  destruct (IH (fun J => N (or_intror J)) _ _ H') as (z' & ->). now exists z'.
Qed.
Lemma lined_cut s o : lined s o -> forall z w, o = z ++ w -> exists s1 s2, s = s1 ++ s2 /\ lined s2 w.
Proof.
  induction 1 as [|c s o H IH|c s o C H IH]; intros z w E.
  - symmetry in E. apply app_eq_nil in E as [-> ->]. exists [], []. split; constructor.
  - destruct z as [|d z]; cbn [app] in E.
    + subst w. exists [], (c :: s). split; auto. now constructor.
    + injection E as <- E. destruct (IH _ _ E) as (s1 & s2 & -> & L). exists (c :: s1), s2. auto.
  - destruct (IH _ _ E) as (s1 & s2 & -> & L). exists (c :: s1), s2. auto.
Qed.
Lemma lined_same s w : ~ In 10 w -> lined s w -> s = w.
Proof. intros N H. induction H as [|c s o H IH|c s o C H IH]; auto; [f_equal; apply IH; intros J; apply N; now right|elim N; now left]. Qed.
Lemma lined_last s : lined s [10] -> exists z, s = z ++ [10].
Proof.
  intros H. remember [10] as o eqn:E. revert E. induction H as [|c s o H IH|c s o C H IH]; intros E; [discriminate| |].
  - injection E as -> ->. inversion H. now exists [].
  - injection E as ->. destruct (IH eq_refl) as (z & ->). now exists (c :: z).
Qed.
Lemma trimmed_lined s o : lined s o -> trimmed s -> trimmed o.
Proof.
  intros L T w I. destruct (T w I) as [T1 T2]. split; intros z E; subst o.
  - destruct (white_no10 w I) as [->|N].
    + apply lined_ten in L as (h & t & -> & [->| ->]); [now apply (T1 t)|]. destruct (T [32]) as [Q _]; [vm_compute; tauto|]. now apply (Q t).
    + apply lined_prefix in L as (z' & ->); auto. now apply (T1 z').
  - eapply lined_cut in L as (s1 & s2 & -> & L); [|reflexivity]. destruct (white_no10 w I) as [->|N].
    + apply lined_last in L as (z' & ->). rewrite app_assoc in T2. now apply (T2 (s1 ++ z')).
    + apply lined_same in L; auto. subst s2. now apply (T2 s1).
Qed.
(** spaces dropped *)
Inductive spaced : bytes -> bytes -> Prop :=
| sp_nil : spaced [] []
| sp_keep c s o : spaced s o -> spaced (c :: s) (c :: o)
| sp_drop s o : spaced s o -> spaced (32 :: s) o.
Lemma spaced_trans y z : spaced y z -> forall x, spaced x y -> spaced x z.
Proof.
  induction 1 as [|c s o H IH|s o H IH]; intros x G; auto.
  - remember (c :: s) as y eqn:E. revert s o c H IH E. induction G as [|d u v G IG|u v G IG]; intros s o c H IH E; [discriminate| |].
    + injection E as -> ->. apply sp_keep. auto.
    + apply sp_drop. eapply IG; eauto.
  - remember (32 :: s) as y eqn:E. revert s o H IH E. induction G as [|d u v G IG|u v G IG]; intros s o H IH E; [discriminate| |].
    + injection E as -> ->. apply sp_drop. auto.
    + apply sp_drop. eapply IG; eauto.
Qed.
Lemma spaced_hard s : spaced s (trim_hard_breaks s).
Proof.
  assert (R : forall old, old = [32; 32; 10; 10] \/ old = [32; 32; 10; 32; 32; 10] \/ old = [32; 32; 10; 32; 10] -> forall s, spaced s (replace_all old [10; 10] s)).
  { intros old Old. apply (replace_ind old [10; 10]).
    - intros ->. intuition discriminate.
    - constructor.
    - intros r o H. destruct Old as [->|[->| ->]]; cbn [app].
      + apply sp_drop, sp_drop, sp_keep, sp_keep, H.
      + apply sp_drop, sp_drop, sp_keep, sp_drop, sp_drop, sp_keep, H.
      + apply sp_drop, sp_drop, sp_keep, sp_drop, sp_keep, H.
    - intros c r o _ H. now apply sp_keep. }
  unfold trim_hard_breaks. cbv zeta. unfold cSP, cNL. eapply spaced_trans; [apply R; auto|]. eapply spaced_trans; [apply R; auto|]. apply R; auto.
Qed.
Lemma spaced_cut s o : spaced s o -> forall z w, o = z ++ w -> exists s1 s2, s = s1 ++ s2 /\ spaced s2 w.
Proof.
  induction 1 as [|c s o H IH|s o H IH]; intros z w E.
  - symmetry in E. apply app_eq_nil in E as [-> ->]. exists [], []. split; constructor.
  - destruct z as [|d z]; cbn [app] in E.
    + subst w. exists [], (c :: s). split; auto. now constructor.
    + injection E as <- E. destruct (IH _ _ E) as (s1 & s2 & -> & L). exists (c :: s1), s2. auto.
  - destruct (IH _ _ E) as (s1 & s2 & -> & L). exists (32 :: s1), s2. auto.
Qed.
Lemma spaced_one c s o : spaced s (c :: o) -> exists n s', s = repeat 32 n ++ c :: s' /\ spaced s' o.
Proof.
  intros H. remember (c :: o) as u eqn:E. revert E. induction H as [|d s u H IH|s u H IH]; intros E; [discriminate| |].
  - injection E as -> ->. now exists O, s.
  - destruct (IH E) as (n & s' & -> & L). now exists (S n), s'.
Qed.
Lemma repeat_more (n : nat) (s : bytes) : repeat 32 n ++ 32 :: s = repeat 32 (S n) ++ s.
Proof. induction n as [|n IH]; auto. cbn [repeat app]. now rewrite IH. Qed.
Lemma spaced_run p : forall s o, spaced s (repeat 32 p ++ 10 :: o) -> exists n s', s = repeat 32 n ++ 10 :: s' /\ spaced s' o.
Proof.
  induction p as [|p IH]; intros s o H; [now apply spaced_one|]. cbn [repeat app] in H. apply spaced_one in H as (n & s' & -> & L).
  destruct (IH _ _ L) as (m & s2 & -> & L2). exists (n + S m)%nat, s2. split; auto. rewrite repeat_app, <- app_assoc. reflexivity.
Qed.
Lemma spaced_three s o : spaced s o -> three_newlines o -> three_newlines s.
Proof.
  intros H (x & p & q & z & ->). eapply spaced_cut in H as (s1 & s2 & -> & L); [|reflexivity]. cbn [app] in L.
  apply spaced_one in L as (n & s3 & -> & L). apply spaced_run in L as (p' & s4 & -> & L). apply spaced_run in L as (q' & s5 & -> & L).
  exists (s1 ++ repeat 32 n), p', q', s5. now rewrite <- app_assoc.
Qed.
Lemma post_trim_trimmed s : trimmed (post_trim s) /\ ~ three_newlines (post_trim s).
Proof.
  unfold post_trim. rewrite <- tcn_go_eq. destruct (tcn_go_final (trim_space s)) as [A B]. set (t := trim_consecutive_newlines_go (trim_space s)) in *. split.
  - eapply trimmed_lined; [apply lined_hard|]. eapply trimmed_lined; [apply lined_squeeze; exact A|apply trim_trimmed].
  - intros T. apply B. eapply spaced_three; [apply spaced_hard|exact T].
Qed.

(** ** Bells *)
Definition belled (s : bytes) : Prop := forall x y, s = x ++ 7 :: y -> exists c y', y = c :: y' /\ (c = 7 \/ inkb c).
Lemma belled_toks k s : toks k s -> belled s.
Proof.
  induction 1 as [|k c s C T IH|k c s C T IH|k c s C1 C2 C3 T IH|k s T IH|k a y s A Y W T IH]; intros u v E.
  - destruct u; discriminate.
  - destruct u as [|d u]; cbn [app] in E; [injection E as -> _; byte|]. injection E as _ E. eapply IH; eauto.
  - destruct u as [|d u]; cbn [app] in E; [injection E as <-; eauto|]. injection E as _ E. eapply IH; eauto.
  - destruct u as [|d u]; cbn [app] in E; [injection E as -> _; congruence|]. injection E as _ E. eapply IH; eauto.
  - destruct u as [|d u]; cbn [app] in E; [discriminate|]. injection E as _ E. destruct u as [|d' u]; cbn [app] in E; [discriminate|]. injection E as _ E.
    destruct u as [|d2 u]; cbn [app] in E; [discriminate|]. injection E as _ E. eapply IH; eauto.
  - destruct u as [|d u]; cbn [app] in E; [discriminate|]. injection E as _ E. destruct u as [|d' u]; cbn [app] in E; [injection E as -> _; byte|]. injection E as _ E.
    destruct u as [|d2 u]; cbn [app] in E; [injection E as -> _; destruct Y; byte|]. injection E as _ E. eapply IH; eauto.
Qed.
Lemma belled_suffix x s : belled (x ++ s) -> belled s.
Proof. intros B u v E. apply (B (x ++ u) v). now rewrite <- app_assoc, E. Qed.
Lemma bell_stuck s : forall c u, belled (7 :: s) -> unbelled s (c :: u) -> ~ inkb c -> False.
Proof.
  induction s as [|d s IH]; intros c u B U N; [inversion U|]. destruct (B [] (d :: s) eq_refl) as (d' & s' & [= <- <-] & D).
  inversion U as [|? ? ? D7 U'|? ? U'|? ? U']; subst.
  - destruct D; contradiction.
  - apply (IH c u); auto. now apply (belled_suffix [7]) in B.
  - apply N. byte.
Qed.
Lemma unbelled_front w : nonink w -> forall s v, belled s -> unbelled s (w ++ v) -> exists s', s = w ++ s' /\ unbelled s' v.
Proof.
  induction 1 as [|c w [N N7] F IH]; intros s v B U; [now exists s|]. cbn [app] in U. inversion U as [|? s1 ? D7 U'|s1 ? U'|s1 ? U']; subst.
  - apply (belled_suffix [c]) in B as B'. destruct (IH _ _ B' U') as (s' & -> & Q). now exists s'.
  - elim (bell_stuck s1 c (w ++ v)); auto.
  - elim N. byte.
Qed.
Lemma unbelled_cut s o : unbelled s o -> forall z w, o = z ++ w -> exists s1 s2, s = s1 ++ s2 /\ unbelled s2 w.
Proof.
  induction 1 as [|c s o C H IH|s o H IH|s o H IH]; intros z w E.
  - symmetry in E. apply app_eq_nil in E as [-> ->]. exists [], []. split; constructor.
  - destruct z as [|d z]; cbn [app] in E.
    + subst w. exists [], (c :: s). split; auto. now constructor.
    + injection E as <- E. destruct (IH _ _ E) as (s1 & s2 & -> & L). exists (c :: s1), s2. auto.
  - destruct (IH _ _ E) as (s1 & s2 & -> & L). exists (7 :: s1), s2. auto.
  - destruct z as [|d z]; cbn [app] in E.
    + subst w. exists [], (7 :: s). split; auto. now constructor.
    + injection E as <- E. destruct (IH _ _ E) as (s1 & s2 & -> & L). exists (7 :: s1), s2. auto.
Qed.
Lemma unbelled_end s : belled s -> unbelled s [] -> s = [].
Proof.
  intros B U. remember [] as o eqn:E. revert E B. induction U as [|c s o C H IH|s o H IH|s o H IH]; intros E B; try discriminate; auto.
  assert (s = o) by (apply IH; auto; now apply (belled_suffix [7]) in B). subst s o. destruct (B [] [] eq_refl) as (c & y & Q & _). discriminate.
Qed.
Lemma trimmed_unbelled s o : belled s -> unbelled s o -> trimmed s -> trimmed o.
Proof.
  intros B U T w I. destruct (T w I) as [T1 T2]. pose proof (white_nonink w I) as N. split; intros z E; subst o.
  - apply unbelled_front in U as (s' & -> & _); auto. now apply (T1 s').
  - eapply unbelled_cut in U as (s1 & s2 & -> & U); [|reflexivity]. apply belled_suffix in B. rewrite <- (app_nil_r w) in U. apply unbelled_front in U as (s' & -> & U); auto.
    apply belled_suffix in B. apply unbelled_end in U; auto. subst s'. rewrite app_nil_r in T2. now apply (T2 s1).
Qed.
Lemma nonink_app x y : nonink x -> nonink y -> nonink (x ++ y). Proof. intros. apply Forall_app. auto. Qed.
Lemma nonink_spaces n : nonink (repeat 32 n). Proof. apply Forall_forall. intros c I. apply repeat_spec in I. subst. split; byte. Qed.
Lemma three_unbelled s o : belled s -> unbelled s o -> three_newlines o -> three_newlines s.
Proof.
  intros B U (x & p & q & z & ->). eapply unbelled_cut in U as (s1 & s2 & -> & U); [|reflexivity]. apply belled_suffix in B.
  replace ([10] ++ repeat 32 p ++ [10] ++ repeat 32 q ++ [10] ++ z) with (([10] ++ repeat 32 p ++ [10] ++ repeat 32 q ++ [10]) ++ z) in U by (now rewrite <- !app_assoc).
  assert (N10 : nonink [10]) by (repeat constructor; byte).
  apply unbelled_front in U as (s' & -> & _); auto; [exists s1, p, q, s'; now rewrite <- !app_assoc|]. repeat apply nonink_app; auto using nonink_spaces.
Qed.

(** ** The code block newlines *)
Lemma replace_marks_app k x : toks k x -> forall new y, replace_all marker_nl new (x ++ y) = replace_all marker_nl new x ++ replace_all marker_nl new y.
Proof.
  induction 1 as [|k c s C T IH|k c s C T IH|k c s C1 C2 C3 T IH|k s T IH|k a y s A Y W T IH]; intros new z; cbn [app]; auto.
  - rewrite !mark_step by byte. cbn [app]. now rewrite IH.
  - rewrite !(mark_step 7) by lia. cbn [app]. f_equal. exact (IH new z).
  - rewrite !mark_step by auto. cbn [app]. now rewrite IH.
  - rewrite !replace_all_cons. change (has_prefix marker_nl (239 :: 128 :: 130 :: ?t)) with true. cbv iota. change (skipn _ (128 :: 130 :: ?t)) with t. rewrite IH. now rewrite app_assoc.
  - assert (P : forall t, has_prefix marker_nl (239 :: a :: y :: t) = false).
    { intros t. unfold marker_nl. cbn [has_prefix]. destruct (239 =? 239), (128 =? a) eqn:E1, (130 =? y) eqn:E2; auto; lia. }
    rewrite !(replace_all_cons _ _ 239), !P. assert (y <> 239) by (destruct Y; byte). rewrite !mark_step by byte. cbn [app]. now rewrite IH.
Qed.
Lemma last_mark k x : toks k x -> inks k \/ exists k1 k2 x1 x2, k = k1 ++ false :: k2 /\ inks k2 /\ x = x1 ++ marker_nl ++ x2 /\ toks k1 x1 /\ toks k2 x2.
Proof.
  assert (I0 : inks []) by intros [].
  induction 1 as [|k c s C T IH|k c s C T IH|k c s C1 C2 C3 T IH|k s T IH|k a y s A Y W T IH]; auto.
  - destruct IH as [I|(k1 & k2 & x1 & x2 & -> & I & -> & T1 & T2)]; [left; intros [J|J]; [discriminate|auto]|]. right. exists (true :: k1), k2, (c :: x1), x2. repeat split; auto. now apply tk_ink.
  - destruct IH as [I|(k1 & k2 & x1 & x2 & -> & I & E & T1 & T2)]; auto. right. destruct x1 as [|d x1]; cbn [app] in E; [injection E as -> _; destruct C; byte|]. injection E as <- ->.
    exists k1, k2, (7 :: c :: x1), x2. repeat split; auto. now apply tk_bell.
  - destruct IH as [I|(k1 & k2 & x1 & x2 & -> & I & -> & T1 & T2)]; auto. right. exists k1, k2, (c :: x1), x2. repeat split; auto. now apply tk_other.
  - right. destruct IH as [I|(k1 & k2 & x1 & x2 & -> & I & -> & T1 & T2)].
    + exists [], k, [], s. repeat split; auto. constructor.
    + exists (false :: k1), k2, (239 :: 128 :: 130 :: x1), x2. repeat split; auto. now apply tk_mark.
  - destruct IH as [I|(k1 & k2 & x1 & x2 & -> & I & -> & T1 & T2)]; auto. right. exists k1, k2, (239 :: a :: y :: x1), x2. repeat split; auto. now apply tk_wide.
Qed.
Lemma replace_front w : ~ In 10 w -> forall x z, replace_all marker_nl [10] x = w ++ z -> exists x', x = w ++ x'.
Proof.
  induction w as [|c w IH]; intros N x z E; [now exists x|]. destruct x as [|d x]; [discriminate|]. rewrite replace_all_cons in E. destruct (has_prefix marker_nl (d :: x)).
  - cbn [app] in E. injection E as E _. elim N. now left.
  - cbn [app] in E. injection E as -> E. destruct (IH (fun J => N (or_intror J)) _ _ E) as (x' & ->). now exists x'.
Qed.
Lemma suffix_after (u : bytes) : forall c v (z w : bytes), u ++ c :: v = z ++ w -> ~ In c w -> exists v', v = v' ++ w.
Proof.
  induction u as [|d u IH]; intros c v z w E N.
  - destruct z as [|e z]; cbn [app] in E; [subst w; elim N; now left|]. injection E as <- ->. now exists z.
  - destruct z as [|e z]; cbn [app] in E; [subst w; elim N; right; apply in_app_iff; right; now left|]. injection E as <- E. eapply IH; eauto.
Qed.
Lemma trimmed_newline k x : toks k x -> good k -> trimmed x -> trimmed (post_newline x).
Proof.
  intros Tk [G1 G2] T w I. destruct (T w I) as [T1 T2]. unfold post_newline, cNL. split; intros z E.
  - destruct (white_no10 w I) as [->|N].
    + destruct x as [|c x]; [discriminate|]. rewrite replace_all_cons in E. destruct (has_prefix marker_nl (c :: x)) eqn:P.
      * apply has_prefix_iff in P as (r & P). rewrite P in Tk. cbn [marker_nl app] in Tk. inversion Tk; subst; try byte; try congruence; try (cbn in G1; discriminate).
      * cbn [app] in E. injection E as -> _. now apply (T1 x).
    + apply replace_front in E as (x' & ->); auto. now apply (T1 x').
  - destruct (last_mark k x Tk) as [In|(k1 & k2 & x1 & x2 & -> & In & -> & TA & TB)].
    + rewrite replace_none in E by (eapply toks_no_mark; eauto). now apply (T2 z).
    + rewrite (replace_marks_app _ _ TA) in E. rewrite (replace_marks_app [false] marker_nl) in E by (apply tk_mark; constructor).
      change (replace_all marker_nl [10] marker_nl) with [10] in E. rewrite (replace_none marker_nl [10] x2) in E by (eapply toks_no_mark; eauto). cbn [app] in E.
      destruct (white_no10 w I) as [->|N].
      * destruct x2 as [|c x2].
        -- apply toks_empty in TB. subst k2. rewrite last_last in G2. discriminate.
        -- destruct (exists_last (l := c :: x2)) as (u & v & Q); [discriminate|]. rewrite Q in *. rewrite app_comm_cons, app_assoc in E. apply app_inj_tail in E as [_ ->].
           apply (T2 (x1 ++ marker_nl ++ u)). now rewrite <- !app_assoc.
      * apply suffix_after in E as (v & ->); auto. apply (T2 (x1 ++ marker_nl ++ v)). now rewrite <- !app_assoc.
Qed.
