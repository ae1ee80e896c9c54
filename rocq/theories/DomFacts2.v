(** Removed elements (C41), the visible text of the prepared tree (C42), blocks inside headings and code blocks (C43). *)
From Coq Require Import List NArith ZArith Bool String Lia Sorting.Permutation Sorting.Sorted.
From Verif Require Import Bytes BytesFacts TextUtils TextFacts2 RenderFacts RenderText Dom DomUtils Collapse SpecDom Engine CommonMark Table SpecEngine
  EngineFacts RenderInv SpecPipeline PipelineFacts DomFacts.
Import ListNotations.
Open Scope N_scope.
Open Scope list_scope.

(** ** What the bundled plugins register for the preparation *)
Definition use_pre (u : use) : list (Z * pre_handler) :=
  match u with
  | UseBase => [(100%Z, pre_remove); (1000%Z, pre_collapse)]
  | UseCommonmark cfg => if valid_cfg cfg then [(500%Z, commonmark_pre); (1100%Z, commonmark_end_comments (fill_defaults cfg))] else []
  | UseStrikethrough _ => [(500%Z, strike_pre)]
  | UseTable _ => []
  end.
Definition use_tags (u : use) : list (bytes * (Z * tag_type)) :=
  match u with UseBase => map (fun n => (n, (500%Z, TRemove))) removed_names | _ => [] end.
Ltac use_case2 := intros [|cfg|d|os]; [reflexivity| |reflexivity|];
  [unfold plugin_of, commonmark_plugin; cbn [use_pre use_tags]; unfold valid_cfg;
   destruct (validate_config (fill_defaults cfg)); reflexivity
  |unfold plugin_of, table_plugin; cbn [use_pre use_tags];
   destruct (apply_table_options os table_defaults) as [? [?|]]; reflexivity].
Lemma cw_pre m us : cv_pre (converter_with m us) = flat_map use_pre us.
Proof.
  rewrite converter_with_eq, cv_pre_actions. cbn [set_mode empty_converter cv_pre app]. unfold registered_pre. rewrite calls_flat.
  apply flat_map_ext_all. use_case2.
Qed.
Lemma cw_tags m us : cv_tags (converter_with m us) = flat_map use_tags us.
Proof.
  rewrite converter_with_eq, cv_tags_actions. cbn [set_mode empty_converter cv_tags app]. unfold registered_tags. rewrite calls_flat.
  apply flat_map_ext_all. use_case2.
Qed.
Lemma use_pre_cases us q k : In (q, k) (flat_map use_pre us) ->
  (q = 100%Z /\ k = pre_remove /\ In UseBase us) \/ (q = 1000%Z /\ k = pre_collapse /\ In UseBase us) \/
  (q = 500%Z /\ k = commonmark_pre /\ exists cfg, In (UseCommonmark cfg) us) \/
  (q = 1100%Z /\ exists cfg, k = commonmark_end_comments cfg) \/ (q = 500%Z /\ k = strike_pre /\ exists d, In (UseStrikethrough d) us).
Proof.
  intros I. apply in_flat_map in I as (u & Iu & I). destruct u as [|cfg|d|os]; cbn [use_pre] in I.
  - destruct I as [[= <- <-]|[[= <- <-]|[]]]; auto.
  - destruct (valid_cfg cfg); [|destruct I]. destruct I as [[= <- <-]|[[= <- <-]|[]]]; eauto 8.
  - destruct I as [[= <- <-]|[]]. eauto 8.
  - destruct I.
Qed.

Section sorted.
Variable sort : forall A : Type, list (Z * A) -> list (Z * A).
Hypothesis Hsort : sorts sort.
Lemma tags_hidden : forall us, In UseBase us -> forall m url x,
  tag_type_of (env_of sort (converter_with m us) url) x =
  if name_in hidden_names x then Some TRemove else if is_block_name x then Some TBlock else None.
Proof.
  intros us Ib m url x. cbn [env_of tag_type_of]. unfold get_tag_type. rewrite cw_tags.
  assert (Hin : forall p t, In (p, t) (types_for x (flat_map use_tags us)) -> t = TRemove /\ name_in hidden_names x = true).
  { intros p t I. unfold types_for in I. apply in_map_iff in I as ((y & z) & E & I). cbn in E. subst z. apply filter_In in I as [I E].
    cbn in E. apply beqb_eq in E. subst y. apply in_flat_map in I as (u & _ & I). destruct u; cbn [use_tags] in I; [|destruct I..].
    apply in_map_iff in I as (y & [= -> <- <-] & I). split; auto. unfold name_in. apply existsb_exists. exists x. split; auto. apply beqb_refl. }
  destruct (in_order sort (types_for x (flat_map use_tags us))) as [|t l] eqn:E.
  - destruct (name_in hidden_names x) eqn:Ex; auto. exfalso. apply in_order_nil in E; auto.
    unfold name_in in Ex. apply existsb_exists in Ex as (y & Iy & Ey). apply beqb_eq in Ey. subst y.
    assert (I : In (500%Z, TRemove) (types_for x (flat_map use_tags us))).
    { unfold types_for. apply in_map_iff. exists (x, (500%Z, TRemove)). split; auto. apply filter_In. split; [|apply beqb_refl].
      apply in_flat_map. exists UseBase. split; auto. cbn [use_tags]. apply in_map_iff. exists x. auto. }
    rewrite E in I. destruct I.
  - assert (I : In t (in_order sort (types_for x (flat_map use_tags us)))) by (rewrite E; now left).
    apply in_order_in in I as (p & I); auto. apply Hin in I as [-> ->]. reflexivity.
Qed.
Lemma removes_hidden : forall us, In UseBase us -> forall m url x,
  is_remove_type (tag_type_of (env_of sort (converter_with m us) url) x) = name_in hidden_names x.
Proof.
  intros. rewrite tags_hidden by auto. destruct (name_in hidden_names x); auto. destruct (is_block_name x); auto.
Qed.
End sorted.

(** ** Removing (C41) *)
Section removing.
Variable rm : bytes -> bool.
Hypothesis Hrm : forall x, rm x = name_in hidden_names x.
Lemma rm_invisible : forall n, rm (node_name n) = invisible n.
Proof. intros n. rewrite Hrm. destruct n; reflexivity. Qed.
Definition cleaned (ks : list node) (acc : list node) : list node :=
  fold_left (fun acc k => push_text (merge_text k) acc) (flat_map (fun k => if rm (node_name k) then [] else [remove_in rm k]) ks) acc.
Lemma cleaned_cons : forall k ks acc, cleaned (k :: ks) acc =
  cleaned ks (if rm (node_name k) then acc else push_text (merge_text (remove_in rm k)) acc).
Proof. intros. unfold cleaned. cbn [flat_map]. destruct (rm (node_name k)); reflexivity. Qed.
Lemma push_join : forall d1 d2 acc, push_text (Text d2) (push_text (Text d1) acc) = push_text (Text (d1 ++ d2)) acc.
Proof. intros. unfold push_text. destruct acc as [|[]]; auto. now rewrite app_assoc. Qed.
Scheme same_seen_ind2 := Induction for same_seen Sort Prop
  with same_kids_ind2 := Induction for same_kids Sort Prop.
Lemma same_kids_clean : forall ks ms, same_kids ks ms -> forall acc, cleaned ks acc = cleaned ms acc.
Proof.
  apply (same_kids_ind2 (fun n m _ => merge_text (remove_in rm n) = merge_text (remove_in rm m) /\ rm (node_name n) = rm (node_name m))
                        (fun ks ms _ => forall acc, cleaned ks acc = cleaned ms acc)); auto.
  - intros x a ks ms _ H. split; auto. cbn [remove_in merge_text]. f_equal. f_equal. apply H.
  - intros ks ms _ H. split; auto. cbn [remove_in merge_text]. f_equal. f_equal. apply H.
  - intros n m ks ms _ [H1 H2] _ H acc. rewrite !cleaned_cons, H1, H2. apply H.
  - intros n ks I acc. rewrite cleaned_cons, rm_invisible, I. reflexivity.
  - intros d1 d2 ks acc. rewrite !cleaned_cons, !rm_invisible. cbn [invisible remove_in merge_text]. now rewrite push_join.
  - intros. rewrite H. auto.
Qed.
Lemma same_seen_clean : forall n m, invisible n = false -> same_seen n m -> merge_text (remove_root rm n) = merge_text (remove_root rm m).
Proof.
  intros n m I S. inversion S; subst; auto; unfold remove_root; rewrite !rm_invisible.
  - cbn [invisible] in *. rewrite I. cbn [remove_in merge_text]. f_equal. f_equal. now apply same_kids_clean.
  - cbn [invisible remove_in merge_text]. f_equal. f_equal. now apply same_kids_clean.
Qed.

(** the text that stays *)
Variable keep : N -> bool.
Lemma remove_in_text : forall n, tidy n = true -> invisible n = false ->
  text_of (remove_in rm n) = visible_text n /\ tidy (remove_in rm n) = true /\ is_doc (remove_in rm n) = is_doc n.
Proof.
  assert (K : forall ks, Forall (fun n => tidy n = true -> invisible n = false ->
      text_of (remove_in rm n) = visible_text n /\ tidy (remove_in rm n) = true /\ is_doc (remove_in rm n) = is_doc n) ks ->
    tks ks = true -> flat_map text_of (flat_map (fun k => if rm (node_name k) then [] else [remove_in rm k]) ks) = flat_map visible_text ks /\
    tks (flat_map (fun k => if rm (node_name k) then [] else [remove_in rm k]) ks) = true).
  { intros ks F. induction F as [|k ks Hk F IH]; intros T; auto. rewrite tks_cons in T. apply andb_true_iff in T as [T1 T2].
    destruct (IH T2) as [I1 I2]. cbn [flat_map]. rewrite rm_invisible. destruct (invisible k) eqn:Ei.
    - cbn [app]. rewrite I1. split; auto. destruct k; try discriminate; auto. cbn [visible_text]. cbn [invisible] in Ei. now rewrite Ei.
    - unfold tk in T1. apply andb_true_iff in T1 as [T0 T1]. destruct (Hk T1 eq_refl) as (A & B & C). cbn [app flat_map].
      rewrite A, I1, tks_cons, I2. unfold tk. rewrite B, C, T0. auto. }
  induction n using node_induction; intros T I; cbn [remove_in text_of visible_text]; auto.
  - cbn [invisible] in I. rewrite I. change (tk (Elem x a ks) = true) in T. rewrite tk_elem in T. apply andb_true_iff in T as [T1 T2].
    destruct (K ks H T2) as [A B]. rewrite A. split; auto. split; auto. change (tk (Elem x a (flat_map (fun k => if rm (node_name k) then [] else [remove_in rm k]) ks)) = true).
    rewrite tk_elem, B, andb_true_r. destruct (name_in childless x); auto. cbn [negb orb] in *. destruct ks; auto. discriminate.
  - destruct (K ks H T) as [A B]. auto.
Qed.
(** a cleaned tree: nothing invisible below the root *)
Fixpoint clean (n : node) : bool :=
  match n with Elem _ _ ks | Doc ks => forallb (fun k => negb (invisible k) && clean k) ks | _ => true end.
Lemma clean_visible : forall n, clean n = true -> invisible n = false -> visible_text n = text_of n.
Proof.
  assert (K : forall ks, Forall (fun n => clean n = true -> invisible n = false -> visible_text n = text_of n) ks ->
    forallb (fun k => negb (invisible k) && clean k) ks = true -> flat_map visible_text ks = flat_map text_of ks).
  { intros ks F. induction F as [|k ks Hk F IH]; intros T; auto. cbn [forallb] in T. apply andb_true_iff in T as [T1 T2].
    apply andb_true_iff in T1 as [T0 T1]. apply negb_true_iff in T0. cbn [flat_map]. rewrite Hk, IH; auto. }
  induction n using node_induction; intros T I; cbn [text_of visible_text]; auto.
  cbn [invisible] in I. rewrite I. auto.
Qed.
Lemma invisible_remove : forall n, invisible (remove_in rm n) = invisible n.
Proof. destruct n; auto. Qed.
Lemma clean_remove : forall n, clean (remove_in rm n) = true.
Proof.
  assert (K : forall ks, Forall (fun n => clean (remove_in rm n) = true) ks ->
    forallb (fun k => negb (invisible k) && clean k) (flat_map (fun k => if rm (node_name k) then [] else [remove_in rm k]) ks) = true).
  { intros ks F. induction F as [|k ks Hk F IH]; auto. cbn [flat_map]. rewrite rm_invisible. destruct (invisible k) eqn:E; auto.
    cbn [app forallb]. rewrite invisible_remove, E, Hk, IH. reflexivity. }
  induction n using node_induction; cbn [remove_in clean]; auto.
Qed.
Lemma invisible_merge : forall n, invisible (merge_text n) = invisible n.
Proof. destruct n; auto. Qed.
Lemma push_clean : forall k acc, negb (invisible k) && clean k = true -> forallb (fun k => negb (invisible k) && clean k) acc = true ->
  forallb (fun k => negb (invisible k) && clean k) (push_text k acc) = true.
Proof.
  intros k acc H1 H2. assert (D : forallb (fun k => negb (invisible k) && clean k) (k :: acc) = true) by (cbn [forallb]; now rewrite H1, H2).
  destruct k; auto. destruct acc as [|[]]; auto.
Qed.
Lemma clean_merge : forall n, clean n = true -> clean (merge_text n) = true.
Proof.
  assert (K : forall ks, Forall (fun n => clean n = true -> clean (merge_text n) = true) ks -> forallb (fun k => negb (invisible k) && clean k) ks = true ->
    forall acc, forallb (fun k => negb (invisible k) && clean k) acc = true ->
    forallb (fun k => negb (invisible k) && clean k) (fold_left (fun acc k => push_text (merge_text k) acc) ks acc) = true).
  { intros ks F. induction F as [|k ks Hk F IH]; intros T acc Ta; auto. cbn [forallb] in T. apply andb_true_iff in T as [T1 T2].
    apply andb_true_iff in T1 as [T0 T1]. cbn [fold_left]. apply IH; auto. apply push_clean; auto. now rewrite invisible_merge, T0, Hk. }
  assert (V : forall l, forallb (fun k => negb (invisible k) && clean k) l = true -> forallb (fun k => negb (invisible k) && clean k) (rev l) = true).
  { intros l H. apply forallb_forall. intros x Ix. apply in_rev in Ix. rewrite forallb_forall in H. auto. }
  induction n using node_induction; intros T; cbn [merge_text clean]; auto.
Qed.
Definition seen (n : node) : bytes := filter keep (visible_text n).
Lemma remove_ok : forall n, tidy n = true -> invisible n = false ->
  let n' := merge_text (remove_root rm n) in
  tx keep n' = seen n /\ tidy n' = true /\ clean n' = true /\ invisible n' = false.
Proof.
  intros n T I. cbv zeta. unfold remove_root. rewrite rm_invisible, I. destruct (remove_in_text n T I) as (A & B & C).
  destruct (merge_text_root keep (remove_in rm n) B) as [D E]. rewrite D. unfold tx, chars, seen. rewrite A.
  repeat split; auto. apply clean_merge, clean_remove. now rewrite invisible_merge, invisible_remove.
Qed.
End removing.

Lemma in_names : forall l x, name_in l x = true <-> In x l.
Proof.
  intros. unfold name_in. rewrite existsb_exists. split.
  - intros (y & I & E). apply beqb_eq in E. now subst.
  - intros I. exists x. split; auto. apply beqb_refl.
Qed.
Lemma list_names : forall x, is_list_name x = true -> x = b "ul" \/ x = b "ol".
Proof. intros x H. unfold is_list_name in H. apply orb_true_iff in H as [H | H]; apply beqb_eq in H; auto. Qed.
(** ** No element of [names] inside an element of [outer] (C43) *)
Section shape.
Variables outer names : list bytes.
Definition free (n : node) : bool := free_of names n.
Definition frees (ks : list node) : bool := forallb free ks.
Definition placed (n : node) : bool := everywhere (kids_free_of outer names) n.
Definition placeds (ks : list node) : bool := forallb placed ks.
Definition tight (x : bytes) : bool := name_in outer x.
Lemma free_elem : forall x a ks, free (Elem x a ks) = negb (name_in names x) && frees ks.
Proof. reflexivity. Qed.
Lemma placed_elem : forall x a ks, placed (Elem x a ks) = (negb (tight x) || frees ks) && placeds ks.
Proof. reflexivity. Qed.
Lemma placed_doc : forall ks, placed (Doc ks) = placeds ks.
Proof. reflexivity. Qed.
Lemma free_placed : forall n, free n = true -> placed n = true.
Proof.
  assert (K : forall ks, Forall (fun n => free n = true -> placed n = true) ks -> frees ks = true -> placeds ks = true).
  { intros ks F. induction F; simpl; auto. intros H1. apply andb_true_iff in H1 as [H1 H2]. unfold frees, placeds in *. rewrite H, IHF; auto. }
  induction n using node_induction; intros T; auto.
  - rewrite free_elem in T. apply andb_true_iff in T as [_ T]. rewrite placed_elem, T, orb_true_r. now apply K.
  - now apply K.
Qed.
Lemma frees_placeds : forall ks, frees ks = true -> placeds ks = true.
Proof. intros ks H. apply forallb_forall. intros x I. unfold frees in H. rewrite forallb_forall in H. apply free_placed. auto. Qed.
Lemma frees_app : forall a c, frees (a ++ c) = frees a && frees c.
Proof. intros. apply forallb_app. Qed.
Lemma placeds_app : forall a c, placeds (a ++ c) = placeds a && placeds c.
Proof. intros. apply forallb_app. Qed.
Lemma flat_frees : forall (f : node -> list node) ks, Forall (fun k => frees (f k) = true) ks -> frees (flat_map f ks) = true.
Proof. intros f ks F. induction F; simpl; auto. now rewrite frees_app, H, IHF. Qed.
Lemma flat_placeds : forall (f : node -> list node) ks, Forall (fun k => placeds (f k) = true) ks -> placeds (flat_map f ks) = true.
Proof. intros f ks F. induction F; simpl; auto. now rewrite placeds_app, H, IHF. Qed.
(** steps that keep this *)
Definition keeps (n : node) (ns : list node) : Prop := (free n = true -> frees ns = true) /\ (placed n = true -> placeds ns = true).
Definition keepsl (ks ns : list node) : Prop := (frees ks = true -> frees ns = true) /\ (placeds ks = true -> placeds ns = true).
Lemma keepsl_refl : forall l, keepsl l l.
Proof. intros l. split; auto. Qed.
Lemma keepsl_trans : forall a c d, keepsl a c -> keepsl c d -> keepsl a d.
Proof. intros a c d [A B] [C D]. split; auto. Qed.
Lemma keeps_refl : forall n, keeps n [n].
Proof. split; intros H; unfold frees, placeds; cbn [forallb]; now rewrite H. Qed.
Lemma keepsl_cons : forall k ks ns ms, keeps k ns -> keepsl ks ms -> keepsl (k :: ks) (ns ++ ms).
Proof.
  intros k ks ns ms [A B] [C D]. split; intros H; unfold frees, placeds in *; cbn [forallb] in H; apply andb_true_iff in H as [H1 H2];
    rewrite forallb_app; rewrite ?A, ?B, ?C, ?D; auto.
Qed.
Lemma keepsl_map : forall f ks, Forall (fun k => keeps k [f k]) ks -> keepsl ks (map f ks).
Proof. intros f ks F. induction F; simpl. apply keepsl_refl. now apply (keepsl_cons x l [f x] (map f l)). Qed.
Lemma keeps_elem : forall x a ks ms, keepsl ks ms -> keeps (Elem x a ks) [Elem x a ms].
Proof.
  intros x a ks ms [A B]. split; intros H; unfold frees, placeds; cbn [forallb]; rewrite andb_true_r.
  - rewrite free_elem in *. apply andb_true_iff in H as [H1 H2]. now rewrite H1, A.
  - rewrite placed_elem in *. apply andb_true_iff in H as [H1 H2]. rewrite B by auto. rewrite andb_true_r.
    destruct (tight x); auto.
Qed.
Lemma keeps_doc : forall ks ms, keepsl ks ms -> keeps (Doc ks) [Doc ms].
Proof. intros ks ms [A B]. split; intros H; unfold frees, placeds; cbn [forallb]; rewrite andb_true_r. apply (A H). apply (B H). Qed.
Lemma keeps_one : forall n m, keeps n [m] -> placed n = true -> placed m = true.
Proof. intros n m [_ B] H. specialize (B H). unfold placeds in B. cbn [forallb] in B. now rewrite andb_true_r in B. Qed.

Section items.
Hypothesis Hli : name_in outer (b "li") = false.
Hypothesis Hlist : name_in outer (b "ul") = false /\ name_in outer (b "ol") = false.
Hypothesis Hmix : name_in names (b "li") = false \/ name_in names (b "ul") = true /\ name_in names (b "ol") = true.
Lemma regroup_all : forall P : node -> bool,
  (forall a ks k, P (Elem (b "li") a ks) = true -> P k = true -> P (Elem (b "li") a (ks ++ [k])) = true) ->
  (forall k, P k = true -> P (Elem (b "li") [] [k]) = true) ->
  forall ks, forallb P ks = true -> forallb P (regroup ks) = true.
Proof.
  intros P H1 H2 ks T. unfold regroup.
  assert (A : forall k done done', add_to_li k done = Some done' -> P k = true -> forallb P done = true -> forallb P done' = true).
  { induction done as [|x r IH]; intros done' E K D; cbn [add_to_li] in E. discriminate. cbn [forallb] in D.
    apply andb_true_iff in D as [D1 D2]. destruct (named [b "li"] x) eqn:El.
    - injection E as <-. cbn [forallb]. rewrite D2, andb_true_r. destruct x; try discriminate. unfold add_kid. cbn [with_kids Dom.kids].
      cbn [named] in El. unfold name_in in El. cbn [existsb] in El. rewrite orb_false_r in El. apply beqb_eq in El. subst name. auto.
    - destruct (add_to_li k r) eqn:Er; try discriminate. injection E as <-. cbn [forallb]. rewrite D1. now apply IH. }
  assert (G : forall ks done, forallb P ks = true -> forallb P done = true -> forallb P (fold_left regroup_step ks done) = true).
  { clear ks T. induction ks as [|k ks IH]; intros done T D; auto. cbn [forallb] in T. apply andb_true_iff in T as [T1 T2].
    cbn [fold_left]. apply IH; auto. unfold regroup_step. destruct (_ || _). cbn [forallb]. now rewrite T1.
    destruct (add_to_li k done) eqn:E. eauto. cbn [forallb]. now rewrite H2. }
  apply forallb_forall. intros x I. apply in_rev in I. pose proof (G ks [] T eq_refl) as H. rewrite forallb_forall in H. auto.
Qed.
Lemma regroup_placed : forall ks, placeds ks = true -> placeds (regroup ks) = true.
Proof.
  apply regroup_all.
  - intros a ks k A B. rewrite placed_elem in *. unfold tight in *. rewrite Hli in *. cbn [negb orb andb] in *. rewrite placeds_app, A.
    unfold placeds. cbn [forallb]. now rewrite B.
  - intros k B. rewrite placed_elem. unfold tight, placeds. rewrite Hli. cbn [negb orb andb forallb]. now rewrite B.
Qed.
Lemma regroup_frees : name_in names (b "li") = false -> forall ks, frees ks = true -> frees (regroup ks) = true.
Proof.
  intros N. apply regroup_all.
  - intros a ks k A B. rewrite free_elem in *. rewrite N in *. cbn [negb orb andb] in *. rewrite frees_app, A. unfold frees. cbn [forallb]. now rewrite B.
  - intros k B. rewrite free_elem, N. unfold frees. cbn [negb andb forallb]. now rewrite B.
Qed.
Lemma items_keeps : forall n, keeps n [move_list_items n].
Proof.
  induction n using node_induction; cbn [move_list_items]; try apply keeps_refl.
  - pose proof (keepsl_map move_list_items ks H) as K. destruct (is_list_name x) eqn:E; [|now apply keeps_elem].
    assert (L2 : name_in outer x = false) by (destruct Hlist; apply list_names in E as [-> | ->]; auto).
    split; intros T.
    + rewrite free_elem in T. unfold frees. cbn [forallb]. rewrite andb_true_r, free_elem.
      apply andb_true_iff in T as [T1 T2]. rewrite T1. destruct Hmix as [N | [N1 N2]].
      * apply regroup_frees; auto. now apply K.
      * apply list_names in E as [-> | ->]; rewrite ?N1, ?N2 in T1; discriminate.
    + rewrite placed_elem in T. unfold tight in *. rewrite L2 in T. unfold placeds. cbn [forallb]. rewrite andb_true_r, placed_elem.
      unfold tight. rewrite L2. cbn [negb orb andb] in *. apply regroup_placed. now apply K.
  - apply keeps_doc. now apply keepsl_map.
Qed.
Lemma items_placed : forall n, placed n = true -> placed (move_list_items n) = true.
Proof. intros n. apply keeps_one, items_keeps. Qed.
End items.

Lemma comments_keeps : forall n st, keeps n (list_end_comments st n).
Proof.
  assert (K : forall ks, Forall (fun n => forall st, keeps n (list_end_comments st n)) ks -> forall st, keepsl ks (comments_kids st ks)).
  { intros ks F. induction F as [|k ks Hk F IH]; intros st; simpl. apply keepsl_refl. now apply keepsl_cons. }
  induction n using node_induction; intros st; try apply keeps_refl.
  - rewrite comments_elem. cbv zeta. match goal with |- keeps _ (Elem _ _ (comments_kids ?s _) :: _) => set (st' := s) end.
    pose proof (keeps_elem x a ks _ (K ks H st')) as [A B]. split; intros T; [specialize (A T) | specialize (B T)];
      unfold frees, placeds in *; cbn [forallb] in *; rewrite andb_true_r in *; rewrite ?A, ?B; destruct (_ && _); reflexivity.
  - rewrite comments_doc. apply keeps_doc. now apply K.
Qed.
Lemma comments_placed : forall n, placed n = true -> placed (add_list_end_comments n) = true.
Proof. intros n. apply keeps_one. rewrite <- comments_one. apply comments_keeps. Qed.

Section collapse.
Variable is_block : bytes -> bool.
Lemma lead_list_keeps : forall ks, Forall (fun n => forall s, keeps n (snd (lead is_block s n))) ks -> forall s, keepsl ks (snd (lead_list is_block s ks)).
Proof.
  intros ks H. induction H as [|k ks Hk H IH]; intros s; simpl. apply keepsl_refl.
  specialize (Hk s). destruct (lead is_block s k) as [s1 k']. specialize (IH s1). destruct (lead_list is_block s1 ks) as [s2 r'].
  simpl in *. now apply keepsl_cons.
Qed.
Lemma lead_keeps : forall n s, keeps n (snd (lead is_block s n)).
Proof.
  induction n using node_induction; intros s.
  - simpl. destruct (lead_text s d); simpl; split; auto.
  - rewrite lead_elem. cbv zeta. destruct (is_preformatted x). apply keeps_refl.
    rewrite lead_kids_eq. pose proof (lead_list_keeps ks H (visit (effect_of is_block x) s)) as A.
    destruct (lead_list is_block (visit (effect_of is_block x) s) ks) as [s2 ks']. now apply keeps_elem.
  - apply keeps_refl.
  - split; auto.
  - split; auto.
Qed.
Lemma trail_list_keeps : forall ks, Forall (fun n => forall tr, keeps n [snd (trail is_block tr n)]) ks -> forall tr, keepsl ks (snd (trail_list is_block tr ks)).
Proof.
  intros ks H. induction H as [|k ks Hk H IH]; intros tr; simpl. apply keepsl_refl.
  specialize (IH tr). destruct (trail_list is_block tr ks) as [t1 r']. specialize (Hk t1).
  destruct (trail is_block t1 k) as [t2 k']. simpl in *. now apply (keepsl_cons k ks [k'] r').
Qed.
Lemma trail_keeps : forall n tr, keeps n [snd (trail is_block tr n)].
Proof.
  induction n using node_induction; intros tr; try apply keeps_refl. split; auto.
  rewrite trail_elem. cbv zeta. destruct (is_preformatted x). apply keeps_refl.
  rewrite trail_kids_eq. pose proof (trail_list_keeps ks H (visit_back (effect_of is_block x) tr)) as A.
  destruct (trail_list _ _ ks) as [tr2 ks']. now apply keeps_elem.
Qed.
Lemma drop_list_keeps : forall ks, Forall (fun n => keeps n (snd (drop_last is_block n))) ks -> keepsl ks (snd (drop_last_list is_block ks)).
Proof.
  intros ks H. induction H as [|k ks Hk H IH]; simpl. apply keepsl_refl.
  destruct (drop_last_list is_block ks) as [f r']. destruct f; simpl in *.
  - apply (keepsl_cons k ks [k] r'); auto. apply keeps_refl.
  - destruct (drop_last is_block k) as [f2 k']. simpl in *. now apply keepsl_cons.
Qed.
Lemma drop_keeps : forall n, keeps n (snd (drop_last is_block n)).
Proof.
  induction n using node_induction; try apply keeps_refl.
  - simpl. destruct d; split; auto.
  - rewrite drop_elem. destruct (effect_of is_block x); try apply keeps_refl. rewrite drop_kids_eq.
    pose proof (drop_list_keeps ks H) as A. destruct (drop_last_list is_block ks) as [f ks']. now apply keeps_elem.
Qed.
Lemma collapse_kids_keeps : forall ks, keepsl ks (collapse_kids is_block ks).
Proof.
  intros ks. unfold collapse_kids. eapply keepsl_trans; [|eapply keepsl_trans].
  - apply (lead_list_keeps ks (proj2 (Forall_forall _ _) (fun k _ => lead_keeps k)) (None, false)).
  - apply (trail_list_keeps _ (proj2 (Forall_forall _ _) (fun k _ => trail_keeps k)) true).
  - apply (drop_list_keeps _ (proj2 (Forall_forall _ _) (fun k _ => drop_keeps k))).
Qed.
Lemma collapse_placed : forall n, placed n = true -> placed (collapse is_block n) = true.
Proof.
  intros n H. unfold collapse. destruct (kids n) as [|k ks] eqn:E; auto. destruct (is_preformatted _); auto.
  rewrite <- E. pose proof (collapse_kids_keeps (kids n)) as K. revert H. destruct n; try discriminate; cbn [with_kids Dom.kids] in *.
  - apply keeps_one. now apply keeps_elem.
  - apply keeps_one. now apply keeps_doc.
Qed.
End collapse.
End shape.

(** ** Blocks inside headings, code blocks and inline elements (C43) *)
Section blocks.
Let outer := leaf_names ++ inline_names.
Notation free := (free block_like).
Notation frees := (frees block_like).
Notation placed := (placed outer block_like).
Notation placeds := (placeds outer block_like).
Notation tight := (tight outer).
Lemma block_like_cases : forall x, name_in block_like x = true -> is_container x || is_leaf_block x = true.
Proof.
  intros x H. apply in_names in H. cbn [block_like map app leaf_names In] in H.
  repeat (destruct H as [<- | H]; [reflexivity|]). destruct H.
Qed.
Lemma tight_cases : forall x, tight x = true -> is_leaf_block x || is_inline_name x = true.
Proof.
  intros x H. apply in_names in H. cbn [inline_names map app leaf_names In] in H.
  repeat (destruct H as [<- | H]; [reflexivity|]). destruct H.
Qed.

Lemma alternative_free : forall x a ks, frees ks = true -> frees (alternative x a ks) = true.
Proof.
  intros x a ks H. unfold alternative. destruct (is_heading_name x); [|destruct (beqb x (b "blockquote")); [|destruct (beqb x (b "pre")); [|destruct (beqb x (b "hr"))]]];
    unfold frees; cbn [forallb]; rewrite ?free_elem, ?H; reflexivity.
Qed.
Lemma leaf_free : forall n leaf inl, leaf || inl = true -> frees (leaf_alternatives leaf inl n) = true.
Proof.
  induction n using node_induction; intros leaf inl L; cbn [leaf_alternatives]; auto.
  - assert (K : frees (flat_map (leaf_alternatives (leaf || is_leaf_block x) (inl || is_inline_name x)) ks) = true).
    { apply flat_frees. eapply Forall_impl; [|exact H]. intros k Hk. apply Hk. destruct leaf, inl, (is_leaf_block x); auto; discriminate L. }
    rewrite L, andb_true_r. destruct (is_container x || is_leaf_block x) eqn:E. now apply alternative_free.
    unfold frees. cbn [forallb]. rewrite free_elem, K. destruct (name_in block_like x) eqn:Eb; auto.
    apply block_like_cases in Eb. congruence.
  - unfold frees. cbn [forallb]. rewrite andb_true_r. cbn [free free_of].
    change (frees (flat_map (leaf_alternatives leaf inl) ks) = true). apply flat_frees. eapply Forall_impl; [|exact H]. auto.
Qed.
Lemma leaf_placed : forall n leaf inl, placeds (leaf_alternatives leaf inl n) = true.
Proof.
  induction n using node_induction; intros leaf inl; auto.
  - cbn [leaf_alternatives]. set (ks' := flat_map (leaf_alternatives (leaf || is_leaf_block x) (inl || is_inline_name x)) ks).
    assert (K : placeds ks' = true). { apply flat_placeds. eapply Forall_impl; [|exact H]. auto. }
    assert (F : (leaf || inl) || (is_leaf_block x || is_inline_name x) = true -> frees ks' = true).
    { intros L. apply flat_frees. apply Forall_forall. intros k _. apply leaf_free.
      destruct leaf, inl, (is_leaf_block x), (is_inline_name x); auto. }
    destruct ((is_container x || is_leaf_block x) && (leaf || inl)) eqn:E.
    + apply andb_true_iff in E as [_ E]. apply frees_placeds, alternative_free, F. now rewrite E.
    + unfold placeds. cbn [forallb]. rewrite andb_true_r, placed_elem, K, andb_true_r. destruct (tight x) eqn:Et; auto.
      apply tight_cases in Et. simpl. apply F. rewrite Et. now rewrite orb_true_r.
  - cbn [leaf_alternatives]. unfold placeds. cbn [forallb]. rewrite andb_true_r, placed_doc. apply flat_placeds.
    eapply Forall_impl; [|exact H]. auto.
Qed.
Lemma leaf_block_placed : forall n, placed (leaf_block_alternatives n) = true.
Proof.
  intros n. pose proof (leaf_placed n false false) as H. rewrite leaf_one in H. unfold placeds in H. cbn [forallb] in H. now rewrite andb_true_r in H.
Qed.

Lemma commonmark_pre_placed : forall e n, placed (commonmark_pre e n) = true.
Proof.
  intros. unfold commonmark_pre. cbv zeta. apply items_placed; [reflexivity| |right; split; reflexivity|apply leaf_block_placed]. split; reflexivity.
Qed.
End blocks.
