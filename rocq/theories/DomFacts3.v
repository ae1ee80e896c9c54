(** The whole preparation of the tree by the bundled plugins (C41, C42, C43). *)
From Coq Require Import List NArith ZArith Bool String Lia Sorting.Permutation Sorting.Sorted.
From Verif Require Import Bytes BytesFacts TextUtils TextFacts2 RenderFacts RenderText Dom DomUtils Collapse SpecDom Engine CommonMark Table SpecEngine
  EngineFacts RenderInv SpecPipeline PipelineFacts DomFacts DomFacts2.
Import ListNotations.
Open Scope N_scope.
Open Scope list_scope.

(** ** Every step keeps the visible characters *)
Lemma named_solid : forall l, forallb (fun x => negb (name_in childless x)) l = true ->
  forall n, named l n = true -> exists x a ks, n = Elem x a ks /\ name_in childless x = false.
Proof.
  intros l H n E. destruct n as [d|x a ks|d|d|ks]; try discriminate. exists x, a, ks. split; auto. cbn [named] in E. apply in_names in E.
  rewrite forallb_forall in H. apply H in E. now apply negb_true_iff.
Qed.
Lemma named_swappable : forall l, forallb (fun x => negb (name_in childless x)) l = true -> swappable (named l).
Proof. intros l H x a ks E. apply (named_solid l H) in E as (y & c & ms & [= -> -> ->] & E). exact E. Qed.
Section steps.
Variable keep : N -> bool.
Hypothesis Hkeep : forall c, keep c = true -> unquoted c = true.
Lemma keep_no : forall c, unquoted c = false -> keep c = false.
Proof. intros c H. destruct (keep c) eqn:E; auto. apply Hkeep in E. congruence. Qed.
Lemma ws_byte_keep : forall c, ws_byte c -> keep c = false.
Proof. intros c H. apply keep_no. unfold ws_byte in H. unfold unquoted, graphic. destruct (33 <=? c) eqn:E1, (c <=? 126) eqn:E2; auto. lia. Qed.
Lemma blank_keep : forall d, is_empty (trim_space d) = true -> filter keep d = [].
Proof.
  intros d E. destruct (trim_space_ws d) as (l & r & Ed & Hl & Hr). destruct (trim_space d); [|discriminate]. rewrite Ed. cbn [app].
  assert (K : forall s, Forall ws_byte s -> filter keep s = []). { intros s F. induction F; auto. cbn [filter]. now rewrite ws_byte_keep, IHF. }
  rewrite filter_app, !K; auto.
Qed.
Lemma commonmark_pre_finer : forall e n, finer keep n (commonmark_pre e n).
Proof.
  intros e n. unfold commonmark_pre. cbv zeta.
  eapply finer_trans; [|apply items_root; apply blank_keep].
  eapply finer_trans; [|apply leaf_root; apply keep_no; reflexivity].
  eapply finer_trans; [|apply swap_root; apply named_swappable; reflexivity].
  eapply finer_trans; [|apply swap_root; apply named_swappable; reflexivity].
  eapply finer_trans; [|apply redundant_root].
  eapply finer_trans; [|apply add_space_finer; apply keep_no; reflexivity].
  eapply finer_trans; [|apply merge_adjacent_root; apply named_solid; reflexivity].
  eapply finer_trans; [|apply swap_root; apply named_swappable; reflexivity].
  eapply finer_trans; [|apply empty_code_root].
  eapply finer_trans; [|apply merge_adjacent_root; apply named_solid; reflexivity].
  eapply finer_trans; [|apply redundant_root]. apply rename_root.
Qed.
Lemma strike_pre_finer : forall e n, finer keep n (strike_pre e n).
Proof.
  intros e n. unfold strike_pre. eapply finer_trans; [|apply merge_adjacent_root; apply named_solid; reflexivity]. apply redundant_root.
Qed.
Lemma end_comments_finer : forall cfg e n, finer keep n (commonmark_end_comments cfg e n).
Proof. intros. unfold commonmark_end_comments. destruct (disable_end_comment cfg). split; auto. apply comments_root. Qed.
Lemma pre_collapse_finer : forall e n, finer keep n (pre_collapse e n).
Proof.
  intros. apply collapse_root. intros c H. apply keep_no. unfold is_ws in H. unfold unquoted, graphic.
  destruct (33 <=? c) eqn:E1, (c <=? 126) eqn:E2; auto. exfalso.
  repeat (apply orb_true_iff in H as [H | H]); apply N.eqb_eq in H; subst c; discriminate.
Qed.
End steps.

(** ** The order of the handlers *)
Section sorted.
Variable sort : forall A : Type, list (Z * A) -> list (Z * A).
Hypothesis Hsort : sorts sort.
Lemma pre_order : forall us, In UseBase us -> exists k rest,
  sort _ (flat_map use_pre us) = repeat (100%Z, pre_remove) (S k) ++ rest /\
  Forall (fun x => (100 < fst x)%Z /\ In x (flat_map use_pre us)) rest.
Proof.
  intros us Ib. destruct (Hsort _ (flat_map use_pre us)) as [P S].
  assert (J : In (100%Z, pre_remove) (sort _ (flat_map use_pre us))).
  { eapply Permutation_in; [apply Permutation_sym; exact P|]. apply in_flat_map. exists UseBase. split; auto. now left. }
  assert (F : forall x, In x (sort _ (flat_map use_pre us)) -> In x (flat_map use_pre us)) by (intros x; now apply Permutation_in).
  assert (C : forall q k, In (q, k) (flat_map use_pre us) -> (q = 100%Z /\ k = pre_remove) \/ (100 < q)%Z).
  { intros q k I. apply use_pre_cases in I as [(-> & -> & _) | [(-> & _) | [(-> & _) | [(-> & _) | (-> & _)]]]]; auto; right; lia. }
  apply Sorted_StronglySorted in S; [|intros a b0 c0; lia].
  generalize dependent (sort _ (flat_map use_pre us)). intros l _. revert C. generalize (flat_map use_pre us) as L. intros L C.
  induction l as [|[q k] l IH]; intros St J F; [destruct J|]. inversion St as [|? ? S1 S2]; subst. rewrite Forall_forall in S2.
  destruct (C q k (F _ (or_introl eq_refl))) as [[-> ->] | Q].
  - assert (D : In (100%Z, pre_remove) l \/ ~ In (100%Z, pre_remove) l).
    { clear - C F. assert (F' : forall x, In x l -> In x L) by (intros; apply F; now right). clear F.
      induction l as [|[q k] l IH]; [right; intros []|]. destruct (C q k (F' _ (or_introl eq_refl))) as [[-> ->] | Q]; [left; now left|].
      destruct IH as [I | I]. intros; apply F'; now right. left; now right. right. intros [[= -> ->] | K]; [lia | auto]. }
    destruct D as [D | D].
    + destruct (IH S1 D) as (n & rest & -> & R). intros; apply F; now right. exists (S n), rest. split; auto.
    + exists O, l. split; auto. apply Forall_forall. intros [q k] I. split; [|apply F; now right].
      destruct (C q k) as [[-> ->] | Q]; auto. apply F; now right. contradiction.
  - exfalso. destruct J as [[= -> ->] | J]. lia. apply S2 in J. cbn in J. lia.
Qed.
Lemma prepared_eq : forall m us url doc, prepared sort (converter_with m us) url doc =
  fold_left (fun d h => h (env_of sort (converter_with m us) url) d) (map snd (sort _ (flat_map use_pre us))) doc.
Proof. intros. unfold prepared, in_order. now rewrite cw_pre. Qed.
Lemma repeat_snoc : forall A (x : A) n, repeat x (S n) = repeat x n ++ [x].
Proof. intros. replace (S n) with (n + 1)%nat by lia. now rewrite repeat_app. Qed.

(** an invariant of everything behind the removal *)
Lemma prepared_inv : forall m us url doc (I1 I2 : node -> Prop), In UseBase us ->
  let e := env_of sort (converter_with m us) url in
  I1 (pre_remove e doc) -> (forall d, I1 d -> I1 (pre_remove e d)) -> (forall d, I1 d -> I2 d) ->
  (forall q k, In (q, k) (flat_map use_pre us) -> (100 < q)%Z -> forall d, I2 d -> I2 (k e d)) ->
  I2 (prepared sort (converter_with m us) url doc).
Proof.
  intros m us url doc I1 I2 Ib e H1 H2 H3 H4. rewrite prepared_eq. fold e. destruct (pre_order us Ib) as (k & rest & -> & R).
  rewrite map_app, fold_left_app.
  assert (A : forall n, I1 (fold_left (fun d h => h e d) (map snd (repeat (100%Z, pre_remove) (S n))) doc)).
  { induction n. exact H1. rewrite repeat_snoc, map_app, fold_left_app. cbn [map snd fold_left]. now apply H2. }
  assert (G : forall l d, Forall (fun x => (100 < fst x)%Z /\ In x (flat_map use_pre us)) l -> I2 d ->
    I2 (fold_left (fun d h => h e d) (map snd l) d)).
  { clear - H4. induction l as [|[q h] l IH]; intros d R A; auto. inversion R as [|? ? [Q I] R']; subst. cbn [map snd fold_left]. apply IH; auto.
    eapply H4; eauto. }
  apply G; auto.
Qed.
(** C41 *)
Lemma prepared_same : forall m us url n n', In UseBase us -> invisible n = false -> same_seen n n' ->
  prepared sort (converter_with m us) url n = prepared sort (converter_with m us) url n'.
Proof.
  intros m us url n n' Ib I S. rewrite !prepared_eq. destruct (pre_order us Ib) as (k & rest & -> & R).
  cbn [repeat app map fold_left snd]. f_equal. unfold pre_remove. apply same_seen_clean; auto. intros x. now apply removes_hidden.
Qed.
Lemma convert_same : forall m us url n n', In UseBase us -> invisible n = false -> same_seen n n' ->
  convert_node sort (converter_with m us) url n = convert_node sort (converter_with m us) url n'.
Proof. intros. unfold convert_node, run_conversion. now rewrite (prepared_same m us url n n'). Qed.

(** C42 *)
Lemma prepared_text : forall keep, (forall c, keep c = true -> unquoted c = true) ->
  forall m us url doc, In UseBase us -> tidy doc = true -> invisible doc = false ->
  chars keep (prepared sort (converter_with m us) url doc) = filter keep (visible_text doc)
  /\ tidy (prepared sort (converter_with m us) url doc) = true.
Proof.
  intros keep Hk m us url doc Ib T I.
  assert (Rm : forall x, is_remove_type (tag_type_of (env_of sort (converter_with m us) url) x) = name_in hidden_names x) by (intros; now apply removes_hidden).
  apply (prepared_inv m us url doc
    (fun d => tx keep d = seen keep doc /\ tidy d = true /\ clean d = true /\ invisible d = false)
    (fun d => tx keep d = seen keep doc /\ tidy d = true)); auto.
  - unfold pre_remove. apply (remove_ok _ Rm keep doc T I).
  - intros d (A & B & C & D). destruct (remove_ok _ Rm keep d B D) as (A' & B' & C' & D'). unfold pre_remove. repeat split; auto.
    rewrite A'. unfold seen at 1. rewrite clean_visible; auto.
  - tauto.
  - intros q k J Q d [A B].
    assert (F : finer keep d (k (env_of sort (converter_with m us) url) d)).
    { apply use_pre_cases in J as [(-> & -> & _) | [(-> & -> & _) | [(-> & -> & _) | [(-> & cfg & ->) | (-> & -> & _)]]]].
      lia. now apply pre_collapse_finer. now apply commonmark_pre_finer. apply end_comments_finer. apply strike_pre_finer. }
    destruct (F B) as [C D]. split; auto. now rewrite C.
Qed.

(** C43: a property that one handler establishes and all later ones keep *)
Lemma prepared_after_all : forall m us cfg url doc (P : node -> Prop), In (UseCommonmark cfg) us -> valid_cfg cfg = true ->
  let e := env_of sort (converter_with m us) url in
  (forall d, P (commonmark_pre e d)) -> (forall d, P d -> P (pre_collapse e d)) ->
  (forall d, P d -> P (add_list_end_comments d)) -> (forall d, (exists s, In (UseStrikethrough s) us) -> P d -> P (strike_pre e d)) -> P (prepared sort (converter_with m us) url doc).
Proof.
  intros m us cfg url doc Q Ic V e H1 H2 H3 Ns. rewrite prepared_eq. fold e. destruct (Hsort _ (flat_map use_pre us)) as [P S].
  assert (J : In (500%Z, commonmark_pre) (sort _ (flat_map use_pre us))).
  { eapply Permutation_in; [apply Permutation_sym; exact P|]. apply in_flat_map. exists (UseCommonmark cfg). split; auto. cbn [use_pre]. rewrite V. now left. }
  apply in_split in J as (l1 & l2 & E). rewrite E in *. rewrite map_app, fold_left_app. cbn [map snd fold_left].
  assert (K : forall y, In y l2 -> In y (flat_map use_pre us) /\ (500 <= fst y)%Z).
  { intros y Iy. split. eapply Permutation_in; [exact P|]. apply in_app_iff. right. now right.
    apply (sorted_after _ _ _ _ S y Iy). }
  assert (G : forall l d, (forall y, In y l -> In y (flat_map use_pre us) /\ (500 <= fst y)%Z) -> Q d ->
    Q (fold_left (fun d h => h e d) (map snd l) d)).
  { clear - Ns H1 H2 H3. induction l as [|[q k] l IH]; intros d K A; auto. cbn [map snd fold_left]. apply IH. intros; apply K; now right.
    destruct (K (q, k) (or_introl eq_refl)) as [J L]. cbn in L.
    apply use_pre_cases in J as [(-> & -> & _) | [(-> & -> & _) | [(-> & -> & _) | [(-> & c & ->) | (-> & -> & s & I)]]]]; eauto.
    - lia.
    - unfold commonmark_end_comments. destruct (disable_end_comment c); auto. }
  apply G; auto.
Qed.
Lemma prepared_after : forall m us cfg url doc (P : node -> Prop), In (UseCommonmark cfg) us -> valid_cfg cfg = true ->
  (forall d, ~ In (UseStrikethrough d) us) ->
  let e := env_of sort (converter_with m us) url in
  (forall d, P (commonmark_pre e d)) -> (forall d, P d -> P (pre_collapse e d)) ->
  (forall d, P d -> P (add_list_end_comments d)) -> P (prepared sort (converter_with m us) url doc).
Proof. intros m us cfg url doc Q Ic V Ns e H1 H2 H3. apply (prepared_after_all m us cfg url doc Q); auto. intros d (s & I). now apply Ns in I. Qed.
Lemma prepared_placed : forall m us cfg url doc, In (UseCommonmark cfg) us -> valid_cfg cfg = true ->
  (forall d, ~ In (UseStrikethrough d) us) -> no_misplaced_block (prepared sort (converter_with m us) url doc) = true.
Proof.
  intros m us cfg url doc Ic V Ns. apply (prepared_after m us cfg url doc (fun d => no_misplaced_block d = true)); auto.
  - apply commonmark_pre_placed.
  - intros d. apply collapse_placed.
  - intros d. apply comments_placed.
Qed.
End sorted.
