(** Proofs about Engine.v *)
From Coq Require Import List NArith ZArith Bool String Sorting.Permutation Sorting.Sorted Lia.
From Verif Require Import Bytes BytesFacts Escape Dom Engine SpecEngine.
Import ListNotations.
Open Scope N_scope.
Open Scope list_scope.

Section action_induction.
Variable P : action -> Prop.
Hypothesis Hpre : forall h p, P (RegPre h p).
Hypothesis Hrender : forall h p, P (RegRender h p).
Hypothesis Hpost : forall h p, P (RegPost h p).
Hypothesis Htext : forall h p, P (RegText h p).
Hypothesis Hchars : forall cs, P (RegChars cs).
Hypothesis Hun : forall d p, P (RegUnescape d p).
Hypothesis Htag : forall n t p, P (RegTag n t p).
Hypothesis Hplugin : forall name init err, Forall P init -> P (RegPlugin (Plugin name init err)).
Fixpoint action_induction (a : action) : P a :=
  match a with
  | RegPre h p => Hpre h p | RegRender h p => Hrender h p | RegPost h p => Hpost h p | RegText h p => Htext h p
  | RegChars cs => Hchars cs | RegUnescape d p => Hun d p | RegTag n t p => Htag n t p
  | RegPlugin (Plugin name init err) =>
      Hplugin name init err
        ((fix go (l : list action) : Forall P l :=
            match l with [] => Forall_nil P | x :: r => Forall_cons x (action_induction x) (go r) end) init)
  end.
End action_induction.

Lemma do_actions_fix : forall l c,
  (fix go (l : list action) (c : converter) : converter := match l with [] => c | x :: r => go r (do_action x c) end) l c
  = do_actions l c.
Proof. induction l; intros; simpl; auto. Qed.
Lemma expand_fix : forall l,
  (fix go (l : list action) : list action := match l with [] => [] | x :: r => expand x ++ go r end) l = expand_all l.
Proof. induction l; simpl; [reflexivity | now f_equal]. Qed.
Lemma names_fix : forall l,
  (fix go (l : list action) : list bytes := match l with [] => [] | x :: r => plugin_names x ++ go r end) l
  = flat_map plugin_names l.
Proof. induction l; simpl; [reflexivity | now f_equal]. Qed.
Lemma wrong_fix : forall l,
  (fix go (l : list action) : bool := match l with [] => false | x :: r => goes_wrong x || go r end) l = existsb goes_wrong l.
Proof. induction l; simpl; [reflexivity | now f_equal]. Qed.

Lemma do_actions_nil : forall c, do_actions [] c = c.
Proof. reflexivity. Qed.
Lemma do_actions_cons : forall a l c, do_actions (a :: l) c = do_actions l (do_action a c).
Proof. reflexivity. Qed.
Lemma do_actions_app : forall l1 l2 c, do_actions (l1 ++ l2) c = do_actions l2 (do_actions l1 c).
Proof. intros. unfold do_actions. apply fold_left_app. Qed.
Lemma expand_all_cons : forall a l, expand_all (a :: l) = expand a ++ expand_all l.
Proof. reflexivity. Qed.
Lemma expand_all_app : forall l1 l2, expand_all (l1 ++ l2) = expand_all l1 ++ expand_all l2.
Proof. intros. apply flat_map_app. Qed.

Lemma expand_all_nil : expand_all [] = [].
Proof. reflexivity. Qed.
Arguments do_actions : simpl never.
Arguments expand_all : simpl never.

(** A field of the converter that each call extends by what it registers *)
Section field.
Context {B : Type} (fld : converter -> list B) (reg : action -> list B).
Hypothesis fld_set_err : forall m c, fld (set_err m c) = fld c.
Hypothesis fld_add_plugin : forall m c, fld (add_plugin m c) = fld c.
Hypothesis fld_simple : forall a c, (forall pl, a <> RegPlugin pl) -> fld (do_action a c) = fld c ++ reg a.
Lemma field_action : forall a c, fld (do_action a c) = fld c ++ flat_map reg (expand a).
Proof.
  assert (S : forall a c, (forall pl, a <> RegPlugin pl) -> expand a = [a] -> fld (do_action a c) = fld c ++ flat_map reg (expand a)).
  { intros. rewrite fld_simple, H0 by auto. simpl. now rewrite app_nil_r. }
  induction a using action_induction; intros c; try (apply S; [discriminate | reflexivity]).
  simpl. destruct (is_empty name). { now rewrite fld_set_err, app_nil_r. }
  rewrite do_actions_fix, expand_fix.
  assert (K : forall c, fld (do_actions init c) = fld c ++ flat_map reg (expand_all init)).
  { induction H; intros. rewrite do_actions_nil, expand_all_nil. simpl. now rewrite app_nil_r.
    rewrite do_actions_cons, expand_all_cons, IHForall, H. rewrite flat_map_app, app_assoc. reflexivity. }
  destruct err; rewrite ?fld_set_err, K, fld_add_plugin; reflexivity.
Qed.
Lemma field_actions : forall l c, fld (do_actions l c) = fld c ++ flat_map reg (expand_all l).
Proof.
  induction l; intros. rewrite do_actions_nil, expand_all_nil. simpl. now rewrite app_nil_r.
  rewrite do_actions_cons, expand_all_cons, IHl, field_action, flat_map_app, app_assoc. reflexivity.
Qed.
End field.

Ltac simple_field := intros a0 c0 Ha; destruct a0; simpl; rewrite ?app_nil_r; try reflexivity; exfalso; eapply Ha; reflexivity.
Lemma cv_pre_actions : forall l c, cv_pre (do_actions l c) = cv_pre c ++ registered_pre l.
Proof. intros. apply (field_actions cv_pre); try reflexivity. simple_field. Qed.
Lemma cv_render_actions : forall l c, cv_render (do_actions l c) = cv_render c ++ registered_render l.
Proof. intros. apply (field_actions cv_render); try reflexivity. simple_field. Qed.
Lemma cv_post_actions : forall l c, cv_post (do_actions l c) = cv_post c ++ registered_post l.
Proof. intros. apply (field_actions cv_post); try reflexivity. simple_field. Qed.
Lemma cv_text_actions : forall l c, cv_text (do_actions l c) = cv_text c ++ registered_text l.
Proof. intros. apply (field_actions cv_text); try reflexivity. simple_field. Qed.
Lemma cv_chars_actions : forall l c, cv_chars (do_actions l c) = cv_chars c ++ registered_chars l.
Proof. intros. apply (field_actions cv_chars); try reflexivity. simple_field. Qed.
Lemma cv_unescape_actions : forall l c, cv_unescape (do_actions l c) = cv_unescape c ++ registered_unescape l.
Proof. intros. apply (field_actions cv_unescape); try reflexivity. simple_field. Qed.
Lemma cv_tags_actions : forall l c, cv_tags (do_actions l c) = cv_tags c ++ registered_tags l.
Proof. intros. apply (field_actions cv_tags); try reflexivity. simple_field. Qed.

Lemma cv_mode_action : forall a c, cv_mode (do_action a c) = cv_mode c.
Proof.
  induction a using action_induction; intros c; try reflexivity.
  simpl. destruct (is_empty name); auto. rewrite do_actions_fix.
  assert (K : forall c, cv_mode (do_actions init c) = cv_mode c).
  { induction H; intros; auto. rewrite do_actions_cons, IHForall. apply H. }
  destruct err; simpl; now rewrite K.
Qed.
Lemma cv_mode_actions : forall l c, cv_mode (do_actions l c) = cv_mode c.
Proof. induction l; intros; auto. rewrite do_actions_cons, IHl. apply cv_mode_action. Qed.
Lemma cv_plugins_action : forall a c, cv_plugins (do_action a c) = cv_plugins c ++ plugin_names a.
Proof.
  induction a using action_induction; intros c; simpl; rewrite ?app_nil_r; try reflexivity.
  destruct (is_empty name); simpl. now rewrite app_nil_r.
  rewrite do_actions_fix, names_fix.
  assert (K : forall c, cv_plugins (do_actions init c) = cv_plugins c ++ flat_map plugin_names init).
  { induction H; intros; simpl. rewrite do_actions_nil. now rewrite app_nil_r. rewrite do_actions_cons, IHForall, H. now rewrite app_assoc. }
  destruct err; simpl; rewrite K; simpl; now rewrite <- app_assoc.
Qed.
Lemma cv_plugins_actions : forall l c, cv_plugins (do_actions l c) = cv_plugins c ++ flat_map plugin_names l.
Proof.
  induction l; intros; simpl. rewrite do_actions_nil. now rewrite app_nil_r. rewrite do_actions_cons, IHl, cv_plugins_action. now rewrite app_assoc.
Qed.

(** The error: set by every call that goes wrong, kept by the others *)
Lemma cv_err_action : forall a c,
  (goes_wrong a = false -> cv_err (do_action a c) = cv_err c)
  /\ (goes_wrong a = true \/ cv_err c <> None -> cv_err (do_action a c) <> None).
Proof.
  induction a using action_induction; intros c; try (simpl; split; [auto | intros [E | E]; [discriminate | exact E]]).
  simpl. destruct (is_empty name); simpl. { split; intros; discriminate. }
  rewrite do_actions_fix, wrong_fix.
  assert (K : forall c, (existsb goes_wrong init = false -> cv_err (do_actions init c) = cv_err c)
                     /\ (existsb goes_wrong init = true \/ cv_err c <> None -> cv_err (do_actions init c) <> None)).
  { clear c. induction H; intros c; simpl. split; auto. intros [E|E]; [discriminate | auto].
    rewrite do_actions_cons. destruct (IHForall (do_action x c)) as [I1 I2]. destruct (H c) as [J1 J2]. split.
    - intros E. apply orb_false_iff in E as [E1 E2]. now rewrite I1, J1.
    - intros [E | E]. apply orb_prop in E as [E | E]; auto. auto. }
  destruct (K (add_plugin name c)) as [K1 K2]. destruct err; simpl.
  - split; intros; discriminate.
  - split; auto.
Qed.
Lemma cv_err_actions : forall l c,
  (existsb goes_wrong l = false -> cv_err (do_actions l c) = cv_err c)
  /\ (existsb goes_wrong l = true \/ cv_err c <> None -> cv_err (do_actions l c) <> None).
Proof.
  induction l; intros c; simpl. split; auto. intros [E|E]; [discriminate | auto].
  rewrite do_actions_cons. destruct (IHl (do_action a c)) as [I1 I2]. destruct (cv_err_action a c) as [J1 J2]. split.
  - intros E. apply orb_false_iff in E as [E1 E2]. now rewrite I1, J1.
  - intros [E | E]. apply orb_prop in E as [E | E]; auto. auto.
Qed.
Lemma apply_option_calls : forall o c, fst (apply_option o c) = do_actions (option_calls o) (match o with OptMode m => set_mode m c | _ => c end).
Proof. destruct o; reflexivity. Qed.
Lemma cv_err_options : forall os c,
  (existsb option_wrong os = false -> cv_err (apply_options os c) = cv_err c)
  /\ (existsb option_wrong os = true \/ cv_err c <> None -> cv_err (apply_options os c) <> None).
Proof.
  induction os as [|o os IH]; intros c; simpl. split; auto. intros [E|E]; [discriminate | auto].
  pose proof (apply_option_calls o c) as A. destruct (apply_option o c) as [c' e] eqn:Ao. simpl in A.
  destruct (cv_err_actions (option_calls o) (match o with OptMode m => set_mode m c | _ => c end)) as [J1 J2].
  rewrite <- A in J1, J2.
  assert (M : cv_err (match o with OptMode m => set_mode m c | _ => c end) = cv_err c) by (destruct o; reflexivity).
  rewrite M in J1, J2.
  assert (E' : e = match o with OptCustom _ e => e | _ => None end) by (destruct o; simpl in Ao; congruence).
  destruct e as [m|].
  - destruct o; try discriminate. subst. unfold option_wrong at 1. simpl. split; [|intros; discriminate].
    rewrite orb_true_r. discriminate.
  - destruct (IH c') as [I1 I2]. unfold option_wrong at 1 3. 
    assert (W : match o with OptCustom _ (Some _) => true | _ => false end = false) by (destruct o; subst; auto; now rewrite <- E').
    rewrite W, orb_false_r. split.
    + intros E. apply orb_false_iff in E as [E1 E2]. now rewrite I1, J1.
    + intros [E | E]; auto. apply orb_prop in E as [E | E]; auto.
Qed.

(** Sorting *)
Section sorting.
Variable sort : forall A : Type, list (Z * A) -> list (Z * A).
Hypothesis Hsort : sorts sort.
Lemma sort_perm : forall A (l : list (Z * A)), Permutation (sort A l) l.
Proof. intros. apply Hsort. Qed.
Lemma in_order_in : forall A (l : list (Z * A)) x, In x (in_order sort l) <-> exists p, In (p, x) l.
Proof.
  intros. unfold in_order. rewrite in_map_iff. split.
  - intros ((p & y) & E & I). simpl in E. subst. exists p. eapply Permutation_in; [apply sort_perm | exact I].
  - intros (p & I). exists (p, x). split; auto. eapply Permutation_in; [apply Permutation_sym, sort_perm | exact I].
Qed.
Lemma in_order_nil : forall A (l : list (Z * A)), in_order sort l = [] <-> l = [].
Proof.
  intros. unfold in_order. split; intros E.
  - apply map_eq_nil in E. apply Permutation_nil. rewrite <- E. apply sort_perm.
  - subst. pose proof (sort_perm A []) as P. apply Permutation_sym, Permutation_nil in P. now rewrite P.
Qed.
End sorting.

Lemma insert_perm : forall A (x : Z * A) l, Permutation (insert_prio x l) (x :: l).
Proof.
  induction l as [|y l IH]; simpl. constructor; constructor.
  destruct (fst x <? fst y)%Z. apply Permutation_refl.
  eapply perm_trans. apply perm_skip, IH. apply perm_swap.
Qed.
Lemma insert_sorted : forall A (x : Z * A) l, by_priority l -> by_priority (insert_prio x l).
Proof.
  induction l as [|y l IH]; simpl; intros S. repeat constructor.
  destruct (fst x <? fst y)%Z eqn:L.
  - apply Z.ltb_lt in L. constructor; auto. constructor. lia.
  - apply Z.ltb_ge in L. inversion S; subst. constructor. apply IH; auto.
    destruct l as [|z l]; simpl. constructor; auto.
    destruct (fst x <? fst z)%Z; constructor; auto. inversion H2; auto.
Qed.
Lemma stable_sort_sorts : sorts stable_sort.
Proof.
  intros A l. unfold stable_sort.
  assert (K : forall (l acc : list (Z * A)), by_priority acc -> Permutation (fold_left (fun acc x => insert_prio x acc) l acc) (l ++ acc)
              /\ by_priority (fold_left (fun acc x => insert_prio x acc) l acc)).
  { clear l. induction l as [|x l IH]; intros acc S; simpl. split; auto using Permutation_refl.
    destruct (IH (insert_prio x acc)) as [I1 I2]. now apply insert_sorted. split; auto.
    eapply perm_trans. apply I1. eapply perm_trans. apply Permutation_app_head, insert_perm.
    apply Permutation_sym, Permutation_middle. }
  destruct (K l []) as [K1 K2]. constructor. rewrite app_nil_r in K1. split; auto.
Qed.

(** C36 *)
Section order.
Variable sort : forall A : Type, list (Z * A) -> list (Z * A).
Hypothesis Hsort : sorts sort.
Lemma pre_in_order : forall calls url doc,
  exists hs, Permutation hs (registered_pre calls) /\ by_priority hs
  /\ let c := do_actions calls empty_converter in
     prepared sort c url doc = fold_left (fun d ph => snd ph (env_of sort c url) d) hs doc.
Proof.
  intros. exists (sort _ (registered_pre calls)). destruct (Hsort _ (registered_pre calls)) as [P S]. split; auto. split; auto.
  cbv zeta. unfold prepared. rewrite cv_pre_actions. simpl app.
  unfold in_order. generalize (sort pre_handler (registered_pre calls)) as l. generalize doc.
  intros d l; revert d; induction l; simpl; auto.
Qed.
Lemma post_in_order : forall calls url doc,
  let c := do_actions calls empty_converter in
  exists hs, Permutation hs (registered_post calls) /\ by_priority hs
  /\ run_conversion sort c url doc
     = bind (render (env_of sort c url) (in_order sort (cv_render c)) (in_order sort (cv_text c))
                    (S (height (prepared sort c url doc))) [] [] (prepared sort c url doc))
            (fun out => Done (fold_left (fun s ph => snd ph (env_of sort c url) s) hs out)).
Proof.
  intros. exists (sort _ (registered_post calls)). destruct (Hsort _ (registered_post calls)) as [P S]. split; auto. split; auto.
  unfold run_conversion. destruct (render _ _ _ _ _ _ _); simpl; auto. f_equal.
  assert (E : cv_post c = registered_post calls). { unfold c. rewrite cv_post_actions. reflexivity. }
  rewrite E.
  unfold in_order. generalize (sort post_handler (registered_post calls)) as l. intros l; revert a; induction l; simpl; auto.
Qed.
Lemma text_in_order : forall calls e hs cx anc d fuel,
  exists ts, Permutation ts (registered_text calls) /\ by_priority ts
  /\ render e hs (in_order sort (cv_text (do_actions calls empty_converter))) (S fuel) cx anc (Text d)
     = Done (fold_left (fun s pt => snd pt e cx s) ts d).
Proof.
  intros. exists (sort _ (registered_text calls)). destruct (Hsort _ (registered_text calls)) as [P S]. split; auto. split; auto.
  simpl. f_equal. rewrite cv_text_actions. simpl app.
  unfold in_order. generalize (sort text_handler (registered_text calls)) as l. intros l; revert d; induction l; simpl; auto.
Qed.
Lemma renderers_in_order : forall calls,
  exists hs, Permutation hs (registered_render calls) /\ by_priority hs
  /\ in_order sort (cv_render (do_actions calls empty_converter)) = map snd hs.
Proof.
  intros. exists (sort _ (registered_render calls)). destruct (Hsort _ (registered_render calls)) as [P S]. split; auto. split; auto.
  rewrite cv_render_actions. reflexivity.
Qed.
Lemma detectors_in_order : forall calls url s,
  exists ds, Permutation ds (registered_unescape calls) /\ by_priority ds
  /\ unescape_fn (env_of sort (do_actions calls empty_converter) url) s = unescape_with Smart (map snd ds) s.
Proof.
  intros. exists (sort _ (registered_unescape calls)). destruct (Hsort _ (registered_unescape calls)) as [P S]. split; auto. split; auto.
  simpl. rewrite cv_unescape_actions, cv_mode_actions. reflexivity.
Qed.
Lemma tag_lowest : forall calls name,
  match get_tag_type sort (do_actions calls empty_converter) name with
  | Some t =>
      (exists p, In (name, (p, t)) (registered_tags calls) /\ forall q u, In (name, (q, u)) (registered_tags calls) -> (p <= q)%Z)
      \/ (t = TBlock /\ is_block_name name = true /\ forall q u, ~ In (name, (q, u)) (registered_tags calls))
  | None => is_block_name name = false /\ forall q u, ~ In (name, (q, u)) (registered_tags calls)
  end.
Proof.
  intros. unfold get_tag_type. rewrite cv_tags_actions. simpl app.
  assert (I : forall q u, In (name, (q, u)) (registered_tags calls) <-> In (q, u) (types_for name (registered_tags calls))).
  { intros. unfold types_for. rewrite in_map_iff. split.
    - intros H. exists (name, (q, u)). split; auto. apply filter_In. split; auto. simpl. apply beqb_refl.
    - intros ((n & x) & E & H). simpl in E. subst. apply filter_In in H as [H E]. simpl in E. apply beqb_eq in E. now subst. }
  destruct (in_order sort (types_for name (registered_tags calls))) as [|t l] eqn:E.
  - apply in_order_nil in E; auto.
    assert (N0 : forall q u, ~ In (name, (q, u)) (registered_tags calls)). { intros q u H. apply I in H. rewrite E in H. destruct H. }
    destruct (is_block_name name); auto.
  - left. destruct (Hsort _ (types_for name (registered_tags calls))) as [P S].
    unfold in_order in E. destruct (sort tag_type (types_for name (registered_tags calls))) as [|[p t'] r] eqn:Es; inversion E; subst.
    exists p. split. { apply I. eapply Permutation_in; [exact P | now left]. }
    intros q u H. apply I in H. apply (Permutation_in _ (Permutation_sym P)) in H.
    apply Sorted_StronglySorted in S. 2:{ intros x y z; lia. }
    inversion S; subst. destruct H as [H | H]. { inversion H; subst; lia. }
    rewrite Forall_forall in H3. apply (H3 _ H).
Qed.
End order.

(** C37 *)
Lemma first_success : forall e rec c anc n before h after w ws,
  Forall2 (gives_up e rec c anc n) before ws -> h e rec c anc n = Done (true, w) ->
  try_renderers e (before ++ h :: after) rec c anc n = Done (List.concat ws ++ w).
Proof.
  intros e rec c anc n before h after w ws F. induction F as [|x y l l' G F IH]; intros H; simpl.
  - rewrite H. reflexivity.
  - rewrite G. simpl. rewrite IH by auto. simpl. now rewrite app_assoc.
Qed.
Lemma none_success : forall e rec c anc n hs ws out,
  Forall2 (gives_up e rec c anc n) hs ws -> write_all (map (rec c (node_name n :: anc)) (kids n)) = Done out ->
  try_renderers e hs rec c anc n
  = Done (List.concat ws ++ (if is_block_type (tag_type_of e (node_name n)) then [10; 10] ++ out ++ [10; 10] else out)).
Proof.
  intros e rec c anc n hs ws out F. induction F as [|x y l l' G F IH]; intros H; simpl.
  - unfold fallback, render_kids. rewrite H. simpl. destruct (is_block_type _); simpl; now rewrite ?app_nil_r.
  - rewrite G. simpl. rewrite IH by auto. simpl. now rewrite app_assoc.
Qed.

(** C38 *)
Section errors.
Variable sort : forall A : Type, list (Z * A) -> list (Z * A).
Lemma error_sticks : forall os calls url doc,
  existsb option_wrong os || existsb goes_wrong calls = true ->
  exists m, convert_node sort (do_actions calls (new_converter os)) url doc = Failed m.
Proof.
  intros os calls url doc H. unfold convert_node.
  destruct (cv_err (do_actions calls (new_converter os))) as [m|] eqn:E. eauto.
  exfalso. destruct (cv_err_actions calls (new_converter os)) as [_ K]. apply K; auto.
  apply orb_prop in H as [H | H]; auto. right. apply cv_err_options. auto.
Qed.
Lemma no_error : forall os calls url doc, sorts sort ->
  existsb option_wrong os = false -> existsb goes_wrong calls = false ->
  registered_render (flat_map option_calls os ++ calls) <> [] ->
  (In (b "commonmark") (flat_map plugin_names (flat_map option_calls os ++ calls)) ->
   In (b "base") (flat_map plugin_names (flat_map option_calls os ++ calls))) ->
  exists r, convert_node sort (do_actions calls (new_converter os)) url doc = Returned r.
Proof.
  intros os calls url doc Hs H1 H2 H3 H4. unfold convert_node.
  destruct (cv_err_actions calls (new_converter os)) as [K _]. rewrite K by auto.
  destruct (cv_err_options os empty_converter) as [K' _]. unfold new_converter at 1. rewrite K' by auto. cbn [cv_err empty_converter].
  assert (O : forall os c, existsb option_wrong os = false ->
    cv_render (apply_options os c) = cv_render c ++ registered_render (flat_map option_calls os)
    /\ cv_plugins (apply_options os c) = cv_plugins c ++ flat_map plugin_names (flat_map option_calls os)).
  { clear. induction os as [|o os IH]; intros c W; simpl. now rewrite !app_nil_r.
    simpl in W. apply orb_false_iff in W as [W1 W2].
    pose proof (apply_option_calls o c) as A. destruct (apply_option o c) as [c' e] eqn:Ao. simpl in A.
    assert (E : e = None).
    { destruct o; simpl in Ao; inversion Ao; subst; auto. unfold option_wrong in W1. simpl in W1. 
      apply orb_false_iff in W1 as [_ W1]. destruct e; [discriminate | reflexivity]. }
    subst e. destruct (IH c' W2) as [I1 I2]. rewrite I1, I2, A, cv_render_actions, cv_plugins_actions.
    unfold registered_render. rewrite expand_all_app, !flat_map_app, !app_assoc. destruct o; auto. }
  destruct (O os empty_converter H1) as [O1 O2]. unfold new_converter.
  rewrite cv_render_actions, cv_plugins_actions, O1, O2. cbn [cv_render cv_plugins empty_converter app].
  unfold registered_render. rewrite <- flat_map_app, <- expand_all_app. fold (registered_render (flat_map option_calls os ++ calls)).
  destruct (is_empty (in_order sort (registered_render (flat_map option_calls os ++ calls)))) eqn:E.
  - exfalso. apply H3. apply (in_order_nil sort Hs). destruct (in_order sort _); [reflexivity | discriminate].
  - rewrite <- flat_map_app.
    destruct (existsb (beqb (b "commonmark")) (flat_map plugin_names (flat_map option_calls os ++ calls))) eqn:E1; [|eexists; reflexivity].
    apply existsb_exists in E1 as (x & I & B). apply beqb_eq in B. subst.
    assert (Ib := H4 I).
    replace (existsb (beqb (b "base")) (flat_map plugin_names (flat_map option_calls os ++ calls))) with true.
    { eexists. reflexivity. }
    symmetry. apply existsb_exists. exists (b "base"). split; auto.
Qed.
End errors.
