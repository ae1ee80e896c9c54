(** Hard line breaks (C18) and the language of a code block (C56). *)
From Coq Require Import List NArith ZArith Bool String Lia.
From Verif Require Import Bytes BytesFacts TextUtils RenderText Dom Engine CommonMark SpecText SpecText2 PanicFacts.
Import ListNotations.
Open Scope N_scope.
Open Scope list_scope.

(** ** C18 *)
Lemma blank_app l k : blank_line (l ++ repeat 32 k) <-> blank_line l.
Proof.
  split.
  - intros (m & E). exists (List.length l). revert m E. induction l as [|c l IH]; intros m E; [reflexivity|].
    destruct m as [|m]; [discriminate|]. cbn in E. injection E as -> E. cbn. now rewrite <- (IH _ E).
  - intros (m & ->). exists (m + k)%nat. now rewrite repeat_app.
Qed.
Lemma trimmed_refl ls : breaks_trimmed ls ls.
Proof. induction ls; cbn; auto. split; [exists O; now rewrite app_nil_r|]. auto. Qed.
Lemma trimmed_trans ls ls' ls'' : breaks_trimmed ls ls' -> breaks_trimmed ls' ls'' -> breaks_trimmed ls ls''.
Proof.
  revert ls' ls''. induction ls as [|l r IH]; intros [|l' r'] [|l'' r'']; cbn; try tauto.
  intros ((k & E) & C & R) ((k' & E') & C' & R'). split; [|split; [|eapply IH; eauto]].
  - exists (k' + k)%nat. rewrite E, E', repeat_app. now rewrite app_assoc.
  - destruct C' as [->|[B|B]]; auto.
    + right. left. rewrite E. now apply blank_app.
    + right. right. destruct r as [|n r], r' as [|n' r']; cbn in R; try tauto. destruct R as ((k2 & ->) & _). now apply blank_app.
Qed.
(** For one replacement the first line only changes when a blank line follows. *)
Definition head_ok (ls ls' : list bytes) : Prop :=
  match ls, ls' with
  | l :: r, l' :: _ => l = l' \/ match r with n :: _ => blank_line n | [] => False end
  | _, _ => False
  end.
Lemma split_cons c s : exists h r, split_on 10 s = h :: r /\ split_on 10 (c :: s) = if c =? 10 then [] :: h :: r else (c :: h) :: r.
Proof.
  destruct (split_on 10 s) as [|h r] eqn:E; [destruct s as [|d s]; cbn in E; [discriminate|];
    destruct (d =? 10); [discriminate|]; destruct (split_on 10 s); discriminate|].
  exists h, r. split; auto. cbn [split_on]. rewrite E. now destruct (c =? 10).
Qed.
Lemma hard_replace old : old = [32; 32; 10; 10] \/ old = [32; 32; 10; 32; 32; 10] \/ old = [32; 32; 10; 32; 10] ->
  forall s, breaks_trimmed (split_on 10 s) (split_on 10 (replace_all old [10; 10] s)).
Proof.
  intros Old s.
  enough (breaks_trimmed (split_on 10 s) (split_on 10 (replace_all old [10; 10] s))
          /\ head_ok (split_on 10 s) (split_on 10 (replace_all old [10; 10] s))) by tauto.
  apply (replace_ind old [10; 10] (fun s o => breaks_trimmed (split_on 10 s) (split_on 10 o) /\ head_ok (split_on 10 s) (split_on 10 o))).
  - intros ->. intuition discriminate.
  - cbn. split; auto. split; [exists O; reflexivity|]. auto.
  - intros r o (H & K). destruct (split_cons 97 r) as (h & t & Er & _), (split_cons 97 o) as (h' & t' & Eo & _).
    assert (B : forall k, blank_line (repeat 32 k)) by (intros k; now exists k).
    destruct Old as [->|[->| ->]]; cbn [app split_on N.eqb Pos.eqb]; rewrite Er, Eo in *; cbn [breaks_trimmed head_ok].
    + split; [|right; apply (B O)]. split; [now exists 2%nat|]. split; [right; left; apply (B 2%nat)|].
      split; [now exists O|]. split; [now left|]. exact H.
    + split; [|right; apply (B 2%nat)]. split; [now exists 2%nat|]. split; [right; left; apply (B 2%nat)|].
      split; [now exists 2%nat|]. split; [right; left; apply (B 2%nat)|]. exact H.
    + split; [|right; apply (B 1%nat)]. split; [now exists 2%nat|]. split; [right; left; apply (B 2%nat)|].
      split; [now exists 1%nat|]. split; [right; left; apply (B 1%nat)|]. exact H.
  - intros c t o _ (H & K). destruct (split_cons c t) as (h & r & E1 & E2), (split_cons c o) as (h' & r' & E1' & E2').
    rewrite E1, E1' in H, K. rewrite E2, E2'. destruct (c =? 10).
    + cbn [breaks_trimmed head_ok]. split; auto. split; [now exists O|]. split; auto.
    + cbn [breaks_trimmed head_ok] in *. destruct H as ((k & ->) & _ & H). split.
      * split; [exists k; reflexivity|]. split; auto. destruct K as [K|K]; auto. left. now rewrite K at 1.
      * destruct K as [K|K]; auto. left. now rewrite K at 1.
Qed.
Lemma hard_lines s : breaks_trimmed (split_on 10 s) (split_on 10 (trim_hard_breaks s)).
Proof.
  unfold trim_hard_breaks. cbv zeta. unfold cSP, cNL.
  set (t := replace_all [32; 32; 10; 10] [10; 10] s). set (u := replace_all [32; 32; 10; 32; 32; 10] [10; 10] t).
  apply trimmed_trans with (split_on 10 t); [apply hard_replace; auto|].
  apply trimmed_trans with (split_on 10 u); apply hard_replace; auto.
Qed.

(** ** C56 *)
Lemma contains_iff p s : contains p s = true <-> infix p s.
Proof.
  induction s as [|c s IH]; cbn [contains].
  - rewrite orb_false_r, has_prefix_iff. split.
    + intros (r & E). exists [], r. exact E.
    + intros (x & y & E). destruct x; [|discriminate]. now exists y.
  - rewrite orb_true_iff, IH, has_prefix_iff. split.
    + intros [(r & E)|(x & y & ->)]; [exists [], r; exact E|now exists (c :: x), y].
    + intros ([|d x] & y & E); [left; now exists y|]. right. injection E as _ ->. now exists x, y.
Qed.
Lemma contains_not p s : contains p s = false <-> ~ infix p s.
Proof. rewrite <- contains_iff. destruct (contains p s); intuition congruence. Qed.
Lemma replace_first_none old new s : ~ infix old s -> replace_first old new s = s.
Proof.
  intros H. induction s as [|c s IH]; cbn [replace_first].
  - destruct (has_prefix old []) eqn:E; auto. apply has_prefix_iff in E as (r & E). elim H. exists [], r. exact E.
  - destruct (has_prefix old (c :: s)) eqn:E.
    + apply has_prefix_iff in E as (r & E). elim H. exists [], r. exact E.
    + f_equal. apply IH. intros (x & y & ->). apply H. now exists (c :: x), y.
Qed.
Lemma replace_first_head old s : replace_first old [] (old ++ s) = s.
Proof.
  assert (P : has_prefix old (old ++ s) = true) by (apply has_prefix_iff; now exists s).
  destruct (old ++ s) eqn:E; cbn [replace_first]; rewrite P.
  - apply app_eq_nil in E as [-> ->]. reflexivity.
  - rewrite <- E, skipn_app, skipn_all, Nat.sub_diag. reflexivity.
Qed.
Lemma first_language_found before class lang after :
  Forall no_language before -> names_language class lang -> no_language lang ->
  first_language (before ++ class :: after) = lang.
Proof.
  intros B C (L1 & L2). induction B as [|p ps (N1 & N2) _ IH]; cbn [app first_language].
  - destruct C as [->| ->].
    + replace (contains (b "language-") (b "language-" ++ lang)) with true
        by (symmetry; apply contains_iff; exists [], lang; reflexivity).
      cbn [orb]. rewrite replace_first_head. now apply replace_first_none.
    + replace (contains (b "lang-") (b "lang-" ++ lang)) with true
        by (symmetry; apply contains_iff; exists [], lang; reflexivity).
      rewrite orb_true_r. rewrite (replace_first_none (b "language-")); [apply replace_first_head|].
      intros (x & y & E). destruct x as [|c0 [|c1 [|c2 [|c3 [|c4 x]]]]]; cbn in E; try discriminate;
        try (injection E; discriminate); injection E as _ _ _ _ _ E; try discriminate.
      apply L1. exists x, y. exact E.
  - apply contains_not in N1, N2. now rewrite N1, N2.
Qed.
Lemma first_language_none ps : Forall no_language ps -> first_language ps = [].
Proof. induction 1 as [|p ps (N1 & N2) _ IH]; auto. cbn [first_language]. apply contains_not in N1, N2. now rewrite N1, N2. Qed.
Lemma language_found before class lang after :
  Forall (fun w => ~ In 32 w) (before ++ class :: after) ->
  Forall no_language before -> names_language class lang -> no_language lang ->
  code_language (join [32] (before ++ class :: after)) = lang.
Proof.
  intros S B C L. unfold code_language, cSP. rewrite join_split; auto; [now apply first_language_found|now destruct before|]. now apply Forall_forall.
Qed.
Lemma language_none ws : Forall (fun w => ~ In 32 w) ws -> Forall no_language ws -> code_language (join [32] ws) = [].
Proof.
  intros S B. destruct ws as [|w ws]; [reflexivity|]. unfold code_language, cSP. rewrite join_split; [now apply first_language_none|discriminate|]. now apply Forall_forall.
Qed.

(** A code element inside pre, as converters of Markdown and highlighters write it. *)
Lemma pre_info a c ks lang : code_language (attr_or (b "class") [] a) = [] ->
  code_language (attr_or (b "class") [] c) = lang -> lang <> [] ->
  code_info (Elem (b "pre") a [Elem (b "code") c ks]) = lang.
Proof.
  intros A C L. unfold code_info. cbn [code_languages flat_map].
  change (name_in [b "code"; b "pre"] (b "pre")) with true. change (name_in [b "code"; b "pre"] (b "code")) with true.
  change (name_in code_skipped (b "pre")) with false. change (name_in code_skipped (b "code")) with false.
  cbv iota. rewrite A, C. cbn [app filter is_empty negb]. destruct lang; [now elim L|]. reflexivity.
Qed.

Lemma language_substring : exists class, ~ In 32 class /\ (forall lang, ~ names_language class lang) /\
  code_language class = b "sword".
Proof.
  exists (b "slang-word"). split; [|split; [|reflexivity]].
  - intros I. apply contains_byte_iff in I. vm_compute in I. discriminate.
  - intros l [E|E]; vm_compute in E; discriminate.
Qed.
Lemma language_tab : exists lang, no_language lang /\ code_language (b "wide" ++ [9] ++ b "language-" ++ lang) <> lang.
Proof.
  exists (b "go"). split; [split; apply contains_not; reflexivity|]. vm_compute. discriminate.
Qed.
