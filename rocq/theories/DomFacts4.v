(** Normal forms of the prepared tree (C43): texts, redundant tags, links, list items, list end comments. *)
From Coq Require Import List NArith ZArith Bool String Lia.
From Verif Require Import Bytes BytesFacts TextUtils RenderText Dom DomUtils Collapse SpecDom Engine CommonMark SpecEngine
  RenderInv SpecPipeline PipelineFacts DomFacts DomFacts2 DomFacts3.
Import ListNotations.
Open Scope N_scope.
Open Scope list_scope.

(** ** Neighbouring texts *)
Lemma no_pair_iff : forall l, no_text_pair l = true <-> forall a x y c, l <> a ++ Text x :: Text y :: c.
Proof.
  induction l as [|n l IH]; split.
  - intros _ a x y c E. destruct a; discriminate.
  - reflexivity.
  - intros H a x y c E. destruct a as [|m a]; injection E as -> E.
    + subst l. discriminate.
    + assert (K : no_text_pair l = true) by (destruct m; auto; destruct l as [|[] ?]; auto; discriminate).
      now apply (proj1 IH K) in E.
  - intros H. assert (K : no_text_pair l = true) by (apply IH; intros a x y c ->; now apply (H (n :: a) x y c)).
    destruct n; auto. destruct l as [|[] l]; auto. exfalso. now apply (H [] data data0 l).
Qed.
Lemma no_pair_rev : forall l, no_text_pair l = true -> no_text_pair (rev l) = true.
Proof.
  intros l H. apply no_pair_iff. rewrite no_pair_iff in H. intros a x y c E. apply (H (rev c) y x (rev a)).
  rewrite <- (rev_involutive l), E, rev_app_distr. cbn [rev]. now rewrite <- !app_assoc.
Qed.
Definition joined (n : node) : bool := no_text_pair (kids n).
Lemma push_pair : forall k acc, no_text_pair acc = true -> no_text_pair (push_text k acc) = true.
Proof. intros k acc H. destruct k; auto. destruct acc as [|[] r]; auto. Qed.
Lemma push_all : forall P k acc, (forall d, P (Text d) = true) -> P k = true -> forallb P acc = true -> forallb P (push_text k acc) = true.
Proof.
  intros P k acc Ht H1 H2. assert (D : forallb P (k :: acc) = true) by (cbn [forallb]; now rewrite H1, H2).
  destruct k; auto. destruct acc as [|[] r]; auto. cbn [push_text forallb] in *. rewrite Ht. apply andb_true_iff in H2 as [_ H2]. now rewrite H2.
Qed.
Lemma fold_pair : forall ks acc, no_text_pair acc = true -> no_text_pair (fold_left (fun acc k => push_text (merge_text k) acc) ks acc) = true.
Proof. induction ks; intros acc H; auto. cbn [fold_left]. apply IHks. now apply push_pair. Qed.
Lemma fold_all : forall P ks acc, (forall d, P (Text d) = true) -> Forall (fun k => P (merge_text k) = true) ks -> forallb P acc = true ->
  forallb P (fold_left (fun acc k => push_text (merge_text k) acc) ks acc) = true.
Proof.
  intros P ks acc Ht F. revert acc. induction F; intros acc A; auto. cbn [fold_left]. apply IHF. now apply push_all.
Qed.
Lemma rev_all : forall (P : node -> bool) l, forallb P l = true -> forallb P (rev l) = true.
Proof. intros P l H. apply forallb_forall. intros x I. apply in_rev in I. rewrite forallb_forall in H. auto. Qed.
Lemma merge_text_joined : forall n, everywhere (fun m => no_text_pair (kids m)) (merge_text n) = true.
Proof.
  induction n using node_induction; auto; cbn [merge_text everywhere kids].
  - rewrite no_pair_rev by now apply fold_pair. apply rev_all, fold_all; auto.
  - rewrite no_pair_rev by now apply fold_pair. apply rev_all, fold_all; auto.
Qed.

(** ** Redundant tags *)
Section redundant.
Variable cls : bytes -> option N.
Variable names : list bytes.
Variable c : N.
Hypothesis Hcls : forall x, name_in names x = true <-> cls x = Some c.
Notation fr := (frees names).
Notation pl := (placeds names names).
Lemma redundant_frees : forall n anc, existsb (N.eqb c) anc = true -> fr (redundant cls anc n) = true.
Proof.
  induction n using node_induction; intros anc A; cbn [redundant]; auto.
  - assert (K : forall anc', existsb (N.eqb c) anc' = true -> fr (flat_map (redundant cls anc') ks) = true).
    { intros anc' A'. apply flat_frees. eapply Forall_impl; [|exact H]. auto. }
    destruct (cls x) as [c'|] eqn:E.
    + destruct (existsb (N.eqb c') anc) eqn:Ea; [now apply K|]. unfold frees. cbn [forallb]. rewrite free_elem, K, !andb_true_r.
      * apply negb_true_iff. destruct (name_in names x) eqn:En; auto. apply Hcls in En. congruence.
      * cbn [existsb]. now rewrite A, orb_true_r.
    + unfold frees. cbn [forallb]. rewrite free_elem, K, !andb_true_r by auto. apply negb_true_iff.
      destruct (name_in names x) eqn:En; auto. apply Hcls in En. congruence.
  - unfold frees. cbn [forallb]. rewrite andb_true_r. apply flat_frees. eapply Forall_impl; [|exact H]. auto.
Qed.
Lemma redundant_placeds : forall n anc, pl (redundant cls anc n) = true.
Proof.
  induction n using node_induction; intros anc; cbn [redundant]; auto.
  - assert (K : forall anc', pl (flat_map (redundant cls anc') ks) = true).
    { intros anc'. apply flat_placeds. eapply Forall_impl; [|exact H]. auto. }
    destruct (cls x) as [c'|] eqn:E.
    + destruct (existsb (N.eqb c') anc) eqn:Ea; [now apply K|]. unfold placeds. cbn [forallb]. rewrite placed_elem, K, !andb_true_r.
      unfold tight. destruct (name_in names x) eqn:En; auto. cbn [negb orb]. apply flat_frees. apply Forall_forall. intros k _.
      apply redundant_frees. apply Hcls in En. rewrite E in En. injection En as ->. cbn [existsb]. now rewrite N.eqb_refl.
    + unfold placeds. cbn [forallb]. rewrite placed_elem, K, !andb_true_r. unfold tight. destruct (name_in names x) eqn:En; auto.
      apply Hcls in En. congruence.
  - unfold placeds. cbn [forallb]. rewrite andb_true_r. apply flat_placeds. eapply Forall_impl; [|exact H]. auto.
Qed.
Lemma redundant_placed : forall n, everywhere (kids_free_of names names) (remove_redundant cls n) = true.
Proof.
  intros n. pose proof (redundant_placeds n []) as H. rewrite redundant_one in H. unfold placeds in H. cbn [forallb] in H. now rewrite andb_true_r in H.
Qed.
End redundant.

(** ** No link inside a link *)
Section links.
Notation L := [b "a"].
Lemma link_class : forall x, name_in L x = true <-> class_link x = Some 1.
Proof. intros x. unfold class_link, name_in. cbn [existsb]. rewrite orb_false_r. destruct (beqb x (b "a")); split; auto; discriminate. Qed.
Notation kp := (keeps L L).
Notation kpl := (keepsl L L).
Lemma swap_kids : forall (f : node -> node) ks y c gs x a,
  filter (fun k => negb (is_blank_text k)) ks = [Elem y c gs] ->
  frees L (map (fun k => if is_blank_text k then k else retag x a k) ks) = negb (name_in L x) && frees L gs
  /\ placeds L L (map (fun k => if is_blank_text k then k else retag x a k) ks) = placed L L (Elem x a gs)
  /\ frees L ks = negb (name_in L y) && frees L gs /\ placeds L L ks = placed L L (Elem y c gs).
Proof.
  intros f ks y c gs x a. induction ks as [|k ks IH]; intros E; [discriminate|]. cbn [filter] in E. destruct (is_blank_text k) eqn:B; cbn [negb] in E.
  - apply IH in E as (A1 & A2 & A3 & A4). destruct k; try discriminate. cbn [map]. rewrite B.
    unfold frees, placeds in *. cbn [forallb]. now rewrite A1, A2, A3, A4.
  - injection E as -> E.
    assert (M : forall g : node -> node, (forall k, is_blank_text k = true -> g k = k) -> frees L (map g ks) = true /\ placeds L L (map g ks) = true).
    { clear - E. intros g Hg. induction ks as [|k ks IH]; auto. cbn [filter] in E. destruct (is_blank_text k) eqn:B; [|discriminate].
      destruct (IH E) as [A1 A2]. cbn [map]. rewrite Hg by auto. destruct k; try discriminate. unfold frees, placeds in *. cbn [forallb]. now rewrite A1, A2. }
    cbn [map]. rewrite B. cbn [retag]. destruct (M (fun k => if is_blank_text k then k else retag x a k)) as [M1 M2].
    { intros k Bk. now rewrite Bk. }
    destruct (M (fun k => k)) as [M3 M4]; auto. rewrite map_id in *. unfold frees, placeds in *. cbn [forallb]. rewrite M1, M2, M3, M4, !andb_true_r. auto.
Qed.
Lemma swap_keeps : forall outer inner,
  (forall x a ks, outer (Elem x a ks) = true -> forall y c gs, inner (Elem y c gs) = true -> name_in L x = true -> name_in L y = false) ->
  (forall x a ks, outer (Elem x a ks) = true -> forall y c gs, inner (Elem y c gs) = true -> name_in L x = true \/ name_in L y = true) ->
  forall n, kp n [swap_tags outer inner n].
Proof.
  intros outer inner H1 H2. induction n using node_induction; cbn [swap_tags]; try apply keeps_refl.
  - pose proof (keepsl_map L L (swap_tags outer inner) ks H) as K.
    assert (D : kp (Elem x a ks) [Elem x a (map (swap_tags outer inner) ks)]) by now apply keeps_elem.
    destruct (outer (Elem x a ks)) eqn:Eo; auto. destruct (filter (fun k => negb (is_blank_text k)) ks) as [|[|y c gs| | |] [|]] eqn:Ef; auto.
    destruct (inner (Elem y c gs)) eqn:Ei; auto. destruct (swap_kids (fun k => k) ks y c gs x a Ef) as (A1 & A2 & A3 & A4).
    specialize (H1 x a ks Eo y c gs Ei). specialize (H2 x a ks Eo y c gs Ei).
    split; intros T; unfold frees, placeds; cbn [forallb]; rewrite andb_true_r.
    + rewrite free_elem in *. rewrite A1. rewrite A3 in T. destruct (name_in L x), (name_in L y), (frees L gs); auto.
    + rewrite placed_elem in *. rewrite A3, A4, ?placed_elem in T. rewrite A1, A2, ?placed_elem. unfold tight in *.
      destruct (name_in L x) eqn:Ex, (name_in L y) eqn:Ey, (frees L gs), (placeds L L gs); auto; destruct H2; discriminate.
  - apply keeps_doc. now apply keepsl_map.
Qed.
Lemma alternative_keeps : forall x a ks ms, kpl ks ms -> (is_container x || is_leaf_block x = true) -> kp (Elem x a ks) (alternative x a ms).
Proof.
  intros x a ks ms [A B] C.
  assert (N : name_in L x = false).
  { unfold name_in. cbn [existsb]. rewrite orb_false_r. destruct (beqb x (b "a")) eqn:E; auto. apply beqb_eq in E. now subst. }
  split; intros T; [rewrite free_elem in T | rewrite placed_elem in T]; unfold tight in *; rewrite N in T; cbn [negb orb andb] in T; [apply A in T | apply B in T];
    unfold alternative; destruct (is_heading_name x); [|destruct (beqb x (b "blockquote")); [|destruct (beqb x (b "pre")); [|destruct (beqb x (b "hr"))]]| |destruct (beqb x (b "blockquote")); [|destruct (beqb x (b "pre")); [|destruct (beqb x (b "hr"))]]];
    unfold frees, placeds; cbn [forallb]; rewrite ?free_elem, ?placed_elem, ?T, ?orb_true_r; auto; reflexivity.
Qed.
Lemma leaf_keeps : forall n leaf inl, kp n (leaf_alternatives leaf inl n).
Proof.
  assert (K : forall f ks, Forall (fun n => kp n (f n)) ks -> kpl ks (flat_map f ks)).
  { intros f ks F. induction F; simpl. apply keepsl_refl. now apply keepsl_cons. }
  induction n using node_induction; intros leaf inl; cbn [leaf_alternatives]; try apply keeps_refl.
  - assert (K1 : kpl ks (flat_map (leaf_alternatives (leaf || is_leaf_block x) (inl || is_inline_name x)) ks)).
    { apply K. eapply Forall_impl; [|exact H]. auto. }
    destruct (is_container x || is_leaf_block x) eqn:E; cbn [andb]; [destruct (leaf || inl)|]; auto using keeps_elem, alternative_keeps.
  - apply keeps_doc. apply K. eapply Forall_impl; [|exact H]. auto.
Qed.
Lemma link_heading1 : forall x a ks, is_link (Elem x a ks) = true -> forall y c gs, is_heading (Elem y c gs) = true -> name_in L x = true -> name_in L y = false.
Proof.
  intros x a ks O y c gs I _. apply in_names in I. cbn [heading_names map In] in I.
  repeat (destruct I as [<- | I]; [reflexivity|]). destruct I.
Qed.
Lemma link_heading2 : forall x a ks, is_link (Elem x a ks) = true -> forall y c gs, is_heading (Elem y c gs) = true -> name_in L x = true \/ name_in L y = true.
Proof. intros x a ks O y c gs I. left. exact O. Qed.
Lemma bold_link1 : forall x a ks, is_bold_or_italic (Elem x a ks) = true -> forall y c gs, is_link (Elem y c gs) = true -> name_in L x = true -> name_in L y = false.
Proof.
  intros x a ks O y c gs I Lx. apply in_names in O. cbn [bold_names italic_names map app In] in O.
  repeat (destruct O as [<- | O]; [discriminate|]). destruct O.
Qed.
Lemma bold_link2 : forall x a ks, is_bold_or_italic (Elem x a ks) = true -> forall y c gs, is_link (Elem y c gs) = true -> name_in L x = true \/ name_in L y = true.
Proof. intros x a ks O y c gs I. right. exact I. Qed.
Lemma commonmark_pre_links : forall e n, everywhere (kids_free_of L L) (commonmark_pre e n) = true.
Proof.
  intros e n. unfold commonmark_pre. cbv zeta.
  apply items_placed; [reflexivity|split; reflexivity|left; reflexivity|].
  apply (keeps_one L L _ _ (eq_ind _ (kp _) (leaf_keeps _ false false) _ (leaf_one _))).
  apply (keeps_one L L _ _ (swap_keeps is_link is_heading link_heading1 link_heading2 _)).
  apply (keeps_one L L _ _ (swap_keeps is_bold_or_italic is_link bold_link1 bold_link2 _)).
  apply (redundant_placed class_link L 1 link_class).
Qed.
End links.

(** ** Children of lists *)
Definition shaped (n : node) : bool := everywhere list_shape n.
Definition shapeds (l : list node) : bool := forallb shaped l.
Definition childs (l : list node) : bool := forallb list_child l.
Lemma shaped_elem : forall x a ks, shaped (Elem x a ks) = (negb (name_in [b "ul"; b "ol"] x) || childs ks) && shapeds ks.
Proof. reflexivity. Qed.
Definition lists (n : node) (ns : list node) : Prop := (list_child n = true -> childs ns = true) /\ (shaped n = true -> shapeds ns = true).
Definition listsl (ks ns : list node) : Prop := (childs ks = true -> childs ns = true) /\ (shapeds ks = true -> shapeds ns = true).
Lemma listsl_refl : forall l, listsl l l.
Proof. intros l. split; auto. Qed.
Lemma listsl_trans : forall a c d, listsl a c -> listsl c d -> listsl a d.
Proof. intros a c d [A B] [C D]. split; auto. Qed.
Lemma lists_refl : forall n, lists n [n].
Proof. split; intros H; unfold childs, shapeds; cbn [forallb]; now rewrite H. Qed.
Lemma listsl_cons : forall k ks ns ms, lists k ns -> listsl ks ms -> listsl (k :: ks) (ns ++ ms).
Proof.
  intros k ks ns ms [A B] [C D]. split; intros H; unfold childs, shapeds in *; cbn [forallb] in H; apply andb_true_iff in H as [H1 H2];
    rewrite forallb_app; rewrite ?A, ?B, ?C, ?D; auto.
Qed.
Lemma listsl_map : forall f ks, Forall (fun k => lists k [f k]) ks -> listsl ks (map f ks).
Proof. intros f ks F. induction F; simpl. apply listsl_refl. now apply (listsl_cons x l [f x] (map f l)). Qed.
Lemma lists_elem : forall x a ks ms, listsl ks ms -> lists (Elem x a ks) [Elem x a ms].
Proof.
  intros x a ks ms [A B]. split; intros H; unfold childs, shapeds; cbn [forallb]; rewrite andb_true_r.
  - exact H.
  - rewrite shaped_elem in *. apply andb_true_iff in H as [H1 H2]. rewrite B by auto. rewrite andb_true_r.
    destruct (name_in [b "ul"; b "ol"] x); auto.
Qed.
Lemma lists_doc : forall ks ms, listsl ks ms -> shaped (Doc ks) = true -> shaped (Doc ms) = true.
Proof. intros ks ms [A B] H. apply (B H). Qed.
Lemma lists_one : forall n m, lists n [m] -> shaped n = true -> shaped m = true.
Proof. intros n m [_ B] H. specialize (B H). unfold shapeds in B. cbn [forallb] in B. now rewrite andb_true_r in B. Qed.
Lemma blank_text : forall d, is_empty (trim_space d) = true -> forallb blank d = true.
Proof.
  intros d E. destruct (trim_space_ws d) as (l & r & Ed & Hl & Hr). destruct (trim_space d); [|discriminate]. rewrite Ed. cbn [app].
  assert (K : forall s, Forall ws_byte s -> forallb blank s = true).
  { intros s F. apply forallb_forall. intros c I. rewrite Forall_forall in F. apply F in I. unfold ws_byte in I. unfold blank. lia. }
  rewrite forallb_app, !K; auto.
Qed.
Lemma regroup_childs : forall ks, childs (regroup ks) = true.
Proof.
  intros ks. unfold regroup.
  assert (A : forall k done done', add_to_li k done = Some done' -> childs done = true -> childs done' = true).
  { induction done as [|x r IH]; intros done' E D; cbn [add_to_li] in E. discriminate. unfold childs in *. cbn [forallb] in D.
    apply andb_true_iff in D as [D1 D2]. destruct (named [b "li"] x) eqn:El.
    - injection E as <-. cbn [forallb]. rewrite D2, andb_true_r. destruct x; try discriminate. exact El.
    - destruct (add_to_li k r) eqn:Er; try discriminate. injection E as <-. cbn [forallb]. rewrite D1. now apply IH. }
  assert (G : forall ks done, childs done = true -> childs (fold_left regroup_step ks done) = true).
  { clear ks. induction ks as [|k ks IH]; intros done D; auto. cbn [fold_left]. apply IH. unfold regroup_step.
    destruct (named [b "li"] k || is_blank_text k) eqn:E.
    - unfold childs. cbn [forallb]. fold (childs done). rewrite D, andb_true_r. apply orb_true_iff in E as [E | E]; destruct k; try discriminate.
      exact E. now apply blank_text.
    - destruct (add_to_li k done) eqn:Ea. eauto. unfold childs. cbn [forallb]. fold (childs done). rewrite D. reflexivity. }
  apply rev_all. now apply G.
Qed.
Lemma items_shaped : forall n, shaped (move_list_items n) = true.
Proof.
  assert (K : forall ks, Forall (fun n => shaped (move_list_items n) = true) ks -> shapeds (map move_list_items ks) = true).
  { intros ks F. induction F; auto. unfold shapeds in *. cbn [map forallb]. now rewrite H. }
  induction n using node_induction; auto.
  - cbn [move_list_items]. rewrite shaped_elem. apply K in H. destruct (is_list_name x) eqn:E.
    + rewrite regroup_childs, orb_true_r. cbn [andb]. apply regroup_all; auto.
      * intros a' ks' k A B. rewrite shaped_elem in *. change (name_in [b "ul"; b "ol"] (b "li")) with false in *. cbn [negb orb andb] in *.
        unfold shapeds in *. rewrite forallb_app, A. cbn [forallb]. now rewrite B.
      * intros k B. rewrite shaped_elem. unfold shapeds. cbn [forallb]. now rewrite B.
    + rewrite H, andb_true_r. unfold is_list_name in E. unfold name_in. cbn [existsb]. rewrite orb_false_r, E. reflexivity.
  - cbn [move_list_items]. apply K. exact H.
Qed.
Lemma comments_lists : forall n st, list_child n = true \/ shaped n = true -> lists n (list_end_comments st n).
Proof.
  assert (K : forall ks, Forall (fun n => forall st, list_child n = true \/ shaped n = true -> lists n (list_end_comments st n)) ks -> shapeds ks = true ->
    forall st, listsl ks (comments_kids st ks)).
  { intros ks F. induction F as [|k ks Hk F IH]; intros T st. apply listsl_refl. unfold shapeds in T. cbn [forallb] in T. apply andb_true_iff in T as [T1 T2].
    cbn [comments_kids]. apply listsl_cons; auto. }
  induction n using node_induction; intros st D; try apply lists_refl.
  - rewrite comments_elem. cbv zeta. match goal with |- lists _ (Elem _ _ (comments_kids ?s _) :: _) => set (st' := s) end. split; intros T.
    + cbn [list_child] in T. assert (E : is_list_name x = false).
      { apply in_names in T. destruct T as [<- | []]. reflexivity. }
      rewrite E. cbn [andb]. unfold childs. cbn [forallb list_child]. now rewrite T.
    + assert (Ts : shapeds ks = true) by (rewrite shaped_elem in T; now apply andb_true_iff in T).
      pose proof (lists_elem x a ks _ (K ks H Ts st')) as [A B]. specialize (B T).
      unfold shapeds in *. cbn [forallb] in *. rewrite andb_true_r in *. rewrite B. destruct (_ && _); reflexivity.
  - split; [discriminate|]. intros T. rewrite comments_doc. unfold shapeds. cbn [forallb]. rewrite andb_true_r.
    apply (lists_doc ks); auto.
Qed.
Lemma comments_shaped : forall n, shaped n = true -> shaped (add_list_end_comments n) = true.
Proof. intros n H. apply (lists_one n); auto. rewrite <- comments_one. apply comments_lists. auto. Qed.
Lemma collapse_blank : forall d prev, forallb blank d = true -> forallb blank (collapse_ws_from prev d) = true.
Proof.
  induction d as [|c d IH]; intros prev H; auto. cbn [forallb] in H. apply andb_true_iff in H as [H1 H2]. cbn [collapse_ws_from].
  repeat match goal with |- context [if ?c then _ else _] => destruct c end; cbn [forallb]; rewrite ?H1, ?IH; auto.
Qed.
Lemma lead_blank : forall s d t, forallb blank d = true -> lead_text s d = Some t -> forallb blank t = true.
Proof.
  intros s d t H E. unfold lead_text in E. pose proof (collapse_blank d false H) as K. unfold collapse_ws in E.
  destruct (collapse_ws_from false d) as [|c r]; cbn zeta in E. discriminate.
  destruct (_ && (c =? cSP)); [destruct r|]; cbn [is_empty] in E; try discriminate; injection E as <-; auto.
  cbn [forallb] in K. now apply andb_true_iff in K.
Qed.
Section collapse.
Variable is_block : bytes -> bool.
Lemma lead_list_lists : forall ks, Forall (fun n => forall s, lists n (snd (lead is_block s n))) ks -> forall s, listsl ks (snd (lead_list is_block s ks)).
Proof.
  intros ks H. induction H as [|k ks Hk H IH]; intros s; simpl. apply listsl_refl.
  specialize (Hk s). destruct (lead is_block s k) as [s1 k']. specialize (IH s1). destruct (lead_list is_block s1 ks) as [s2 r'].
  simpl in *. now apply listsl_cons.
Qed.
Lemma lead_lists : forall n s, lists n (snd (lead is_block s n)).
Proof.
  induction n using node_induction; intros s.
  - simpl. destruct (lead_text s d) as [t|] eqn:E; simpl; split; auto. intros T. unfold childs. cbn [forallb list_child]. rewrite (lead_blank s d t T E). reflexivity.
  - rewrite lead_elem. cbv zeta. destruct (is_preformatted x). apply lists_refl.
    rewrite lead_kids_eq. pose proof (lead_list_lists ks H (visit (effect_of is_block x) s)) as A.
    destruct (lead_list is_block (visit (effect_of is_block x) s) ks) as [s2 ks']. now apply lists_elem.
  - apply lists_refl.
  - split; auto.
  - split; auto.
Qed.
Lemma trail_list_lists : forall ks, Forall (fun n => forall tr, lists n [snd (trail is_block tr n)]) ks -> forall tr, listsl ks (snd (trail_list is_block tr ks)).
Proof.
  intros ks H. induction H as [|k ks Hk H IH]; intros tr; simpl. apply listsl_refl.
  specialize (IH tr). destruct (trail_list is_block tr ks) as [t1 r']. specialize (Hk t1).
  destruct (trail is_block t1 k) as [t2 k']. simpl in *. now apply (listsl_cons k ks [k'] r').
Qed.
Lemma trim_suffix_blank : forall d, forallb blank d = true -> forallb blank (trim_suffix_space d) = true.
Proof.
  intros d H. unfold trim_suffix_space. destruct (has_suffix [cSP] d); auto. apply forallb_forall. intros c I. rewrite forallb_forall in H. apply H.
  clear H. induction d as [|x [|y d] IH]; cbn [removelast] in I; [destruct I..|]. destruct I as [-> | I]; [now left | right; auto].
Qed.
Lemma trail_lists : forall n tr, lists n [snd (trail is_block tr n)].
Proof.
  induction n using node_induction; intros tr; try apply lists_refl.
  - split; auto. intros T. unfold childs. cbn [forallb]. rewrite andb_true_r. cbn [trail snd list_child]. destruct tr; auto. now apply trim_suffix_blank.
  - rewrite trail_elem. cbv zeta. destruct (is_preformatted x). apply lists_refl.
    rewrite trail_kids_eq. pose proof (trail_list_lists ks H (visit_back (effect_of is_block x) tr)) as A.
    destruct (trail_list _ _ ks) as [tr2 ks']. now apply lists_elem.
Qed.
Lemma drop_list_lists : forall ks, Forall (fun n => lists n (snd (drop_last is_block n))) ks -> listsl ks (snd (drop_last_list is_block ks)).
Proof.
  intros ks H. induction H as [|k ks Hk H IH]; simpl. apply listsl_refl.
  destruct (drop_last_list is_block ks) as [f r']. destruct f; simpl in *.
  - apply (listsl_cons k ks [k] r'); auto. apply lists_refl.
  - destruct (drop_last is_block k) as [f2 k']. simpl in *. now apply listsl_cons.
Qed.
Lemma drop_lists : forall n, lists n (snd (drop_last is_block n)).
Proof.
  induction n using node_induction; try apply lists_refl.
  - simpl. destruct d; [split; auto | apply lists_refl].
  - rewrite drop_elem. destruct (effect_of is_block x); try apply lists_refl. rewrite drop_kids_eq.
    pose proof (drop_list_lists ks H) as A. destruct (drop_last_list is_block ks) as [f ks']. now apply lists_elem.
Qed.
Lemma collapse_kids_lists : forall ks, listsl ks (collapse_kids is_block ks).
Proof.
  intros ks. unfold collapse_kids. eapply listsl_trans; [|eapply listsl_trans].
  - apply (lead_list_lists ks (proj2 (Forall_forall _ _) (fun k _ => lead_lists k)) (None, false)).
  - apply (trail_list_lists _ (proj2 (Forall_forall _ _) (fun k _ => trail_lists k)) true).
  - apply (drop_list_lists _ (proj2 (Forall_forall _ _) (fun k _ => drop_lists k))).
Qed.
Lemma collapse_shaped : forall n, shaped n = true -> shaped (collapse is_block n) = true.
Proof.
  intros n H. unfold collapse. destruct (kids n) as [|k ks] eqn:E; auto. destruct (is_preformatted _); auto.
  rewrite <- E. pose proof (collapse_kids_lists (kids n)) as K. revert H. destruct n; try discriminate; cbn [with_kids Dom.kids] in *.
  - apply lists_one. now apply lists_elem.
  - now apply lists_doc.
Qed.
End collapse.

(** ** List end comments *)
Lemma next_node_events : forall n, next_list_node n =
  match events n with [] => None | EvOpen :: _ => Some true | _ => Some false end /\ (forall r, events n <> EvClose :: r).
Proof.
  assert (K : forall ks, Forall (fun n => next_list_node n = match events n with [] => None | EvOpen :: _ => Some true | _ => Some false end /\ (forall r, events n <> EvClose :: r)) ks ->
    next_list ks = match flat_map events ks with [] => None | EvOpen :: _ => Some true | _ => Some false end /\ (forall r, flat_map events ks <> EvClose :: r)).
  { intros ks F. induction F as [|k ks [H1 H2] F [I1 I2]]; [split; [auto | discriminate]|]. cbn [next_list flat_map]. rewrite H1.
    destruct (events k) as [|[] r] eqn:E; cbn [app]; auto; split; auto; try discriminate. exfalso. now apply (H2 r). }
  assert (G : forall ks, (fix go (l : list node) : option bool :=
              match l with [] => None | k :: r => match next_list_node k with Some v => Some v | None => go r end end) ks = next_list ks).
  { reflexivity. }
  induction n using node_induction; try (split; [auto | discriminate]).
  - cbn [next_list_node events]. rewrite G. destruct (is_list_name x) eqn:E.
    + replace (name_in [b "ul"; b "ol"] x) with true. split; auto; discriminate.
      unfold name_in. cbn [existsb]. now rewrite orb_false_r.
    + replace (name_in [b "ul"; b "ol"] x) with false by (unfold name_in; cbn [existsb]; now rewrite orb_false_r).
      replace (beqb x (b "li") || beqb x (b "hr")) with (name_in [b "li"; b "hr"] x) by (unfold name_in; cbn [existsb]; now rewrite orb_false_r).
      destruct (name_in [b "li"; b "hr"] x). split; auto; discriminate. now apply K.
  - cbn [next_list_node events]. unfold end_comment_data. destruct (beqb d (b "THE END")); split; auto; discriminate.
  - cbn [next_list_node events]. rewrite G. now apply K.
Qed.
Lemma next_list_events : forall ks, next_list ks =
  match flat_map events ks with [] => None | EvOpen :: _ => Some true | _ => Some false end.
Proof.
  induction ks as [|k ks IH]; auto. cbn [next_list flat_map]. destruct (next_node_events k) as [H _]. rewrite H.
  destruct (events k) as [|[] r]; auto.
Qed.
Definition ends_close (l : list event) : Prop := exists l', l = l' ++ [EvClose].
Lemma apart_cons : forall e l, apart (e :: l) = true <-> apart l = true /\ (e = EvClose -> hd_error l <> Some EvOpen).
Proof.
  intros e l. destruct e; cbn [apart]; try (split; [intros H; split; [exact H | discriminate] | now intros [H _]]).
  destruct l as [|[] l]; split; auto; try (intros H; split; [exact H | discriminate]); try (now intros [H _]).
  - discriminate.
  - intros [_ H]. exfalso. now apply H.
Qed.
Lemma apart_app : forall a c, apart a = true -> apart c = true -> (ends_close a -> hd_error c <> Some EvOpen) -> apart (a ++ c) = true.
Proof.
  induction a as [|e a IH]; intros c A C H; auto. cbn [app]. apply apart_cons in A as [A1 A2]. apply apart_cons. split.
  - apply IH; auto. intros (l & ->). apply H. now exists (e :: l).
  - intros ->. destruct a as [|f a]; [apply H; now exists [] | now apply A2].
Qed.
Lemma ends_close_app : forall a c, ends_close (a ++ c) -> c = [] /\ ends_close a \/ ends_close c.
Proof.
  intros a c (l & E). destruct c as [|e c]. rewrite app_nil_r in E. left. split; auto. now exists l. right.
  destruct (exists_last (l := e :: c)) as (c' & f & Ec); [discriminate|]. rewrite Ec in *. rewrite app_assoc in E.
  apply app_inj_tail in E as [_ ->]. now exists c'.
Qed.
Definition spaced (st : list (list node)) (old new : list event) : Prop :=
  apart new = true /\ (ends_close new -> next_list_stack st = false) /\ hd_error new = hd_error old.
Lemma comments_spaced : forall n st, spaced st (events n) (flat_map events (list_end_comments st n)).
Proof.
  assert (K : forall ks, Forall (fun n => forall st, spaced st (events n) (flat_map events (list_end_comments st n))) ks ->
    forall st, spaced st (flat_map events ks) (flat_map events (comments_kids st ks))).
  { intros ks F. induction F as [|k ks Hk F IH]; intros st.
    - repeat split; auto. intros (l & E). destruct l; discriminate.
    - cbn [comments_kids]. rewrite flat_map_app. cbn [flat_map]. destruct (Hk (ks :: st)) as (A1 & A2 & A3). destruct (IH st) as (B1 & B2 & B3).
      cbn [next_list_stack] in A2. rewrite next_list_events in A2. repeat split.
      + apply apart_app; auto. intros E H. apply A2 in E. rewrite B3 in H. destruct (flat_map events ks); [discriminate|]. injection H as ->. discriminate.
      + intros E. apply ends_close_app in E as [[E1 E2] | E]; auto. apply A2 in E2. rewrite E1 in B3. destruct (flat_map events ks); [exact E2 | discriminate].
      + destruct (flat_map events (list_end_comments (ks :: st) k)), (events k); cbn [app]; auto; discriminate. }
  assert (D : forall st e, e <> EvClose -> spaced st [e] [e]).
  { intros st e N. repeat split; auto. now destruct e. intros (l & E). apply (app_inj_tail [] l) in E as [_ E]. contradiction. }
  assert (Z : forall st, spaced st [] []). { intros st. repeat split; auto. intros (l & E). destruct l; discriminate. }
  induction n using node_induction; intros st.
  - now apply D.
  - rewrite comments_elem. cbv zeta. match goal with |- spaced _ _ (flat_map events (Elem _ _ (comments_kids ?s _) :: _)) => set (st' := s) in * end.
    destruct (K ks H st') as (A1 & A2 & A3). cbn [flat_map events].
    replace (name_in [b "ul"; b "ol"] x) with (is_list_name x) by (unfold name_in; cbn [existsb]; now rewrite orb_false_r).
    destruct (is_list_name x) eqn:E.
    + cbn [andb]. split; [|split].
      * cbn [app]. apply apart_cons. split; [|discriminate]. rewrite <- app_assoc. apply apart_app; auto. destruct (next_list_stack st); reflexivity. discriminate.
      * intros C. destruct (next_list_stack st); auto. cbn [flat_map events end_comment_data] in C. rewrite beqb_refl in C.
        destruct C as (l & C). apply (app_inj_tail (EvOpen :: flat_map events (comments_kids st' ks) ++ [EvClose]) l EvStop) in C as [_ C]. discriminate.
      * reflexivity.
    + cbn [andb] in *. cbn [flat_map app]. rewrite app_nil_r. subst st'. destruct (name_in [b "li"; b "hr"] x); [|now split].
      split; [|split]; auto.
      intros C. change (ends_close ([EvStop] ++ flat_map events (comments_kids st ks))) in C. apply ends_close_app in C as [[_ (l & C)] | C]; auto.
      apply (app_inj_tail [] l) in C as [_ C]. discriminate.
  - cbn [list_end_comments flat_map events]. destruct (beqb d (b "THE END")); [now apply D | apply Z].
  - rewrite comments_doc. cbn [flat_map events]. rewrite app_nil_r. now apply K.
  - apply Z.
Qed.
Lemma comments_apart : forall n, apart (events (add_list_end_comments n)) = true.
Proof.
  intros n. destruct (comments_spaced n []) as (A & _). rewrite comments_one in A. cbn [flat_map] in A. now rewrite app_nil_r in A.
Qed.
Lemma comments_only : forall n st, flat_map without_end_comments (list_end_comments st n) = without_end_comments n.
Proof.
  assert (K : forall ks, Forall (fun n => forall st, flat_map without_end_comments (list_end_comments st n) = without_end_comments n) ks ->
    forall st, flat_map without_end_comments (comments_kids st ks) = flat_map without_end_comments ks).
  { intros ks F. induction F as [|k ks Hk F IH]; intros st; auto. cbn [comments_kids]. now rewrite flat_map_app, Hk, IH. }
  induction n using node_induction; intros st; try (cbn [list_end_comments flat_map]; rewrite ?app_nil_r; reflexivity).
  - rewrite comments_elem. cbv zeta. cbn [flat_map without_end_comments]. rewrite K by auto. destruct (_ && _); reflexivity.
  - rewrite comments_doc. cbn [flat_map without_end_comments]. rewrite K by auto. reflexivity.
Qed.
Lemma comments_only_root : forall n, without_end_comments (add_list_end_comments n) = without_end_comments n.
Proof. intros n. rewrite <- (comments_only n []), comments_one. cbn [flat_map]. now rewrite app_nil_r. Qed.

(** ** The prepared tree *)
Section sorted.
Variable sort : forall A : Type, list (Z * A) -> list (Z * A).
Hypothesis Hsort : sorts sort.
Lemma prepared_links : forall m us cfg url doc, In (UseCommonmark cfg) us -> valid_cfg cfg = true -> (forall d, ~ In (UseStrikethrough d) us) ->
  everywhere (kids_free_of [b "a"] [b "a"]) (prepared sort (converter_with m us) url doc) = true.
Proof.
  intros m us cfg url doc Ic V Ns. apply (prepared_after sort Hsort m us cfg url doc (fun d => everywhere (kids_free_of [b "a"] [b "a"]) d = true)); auto.
  - apply commonmark_pre_links.
  - intros d. apply collapse_placed.
  - intros d. apply comments_placed.
Qed.
Lemma prepared_shaped : forall m us cfg url doc, In (UseCommonmark cfg) us -> valid_cfg cfg = true -> (forall d, ~ In (UseStrikethrough d) us) ->
  everywhere list_shape (prepared sort (converter_with m us) url doc) = true.
Proof.
  intros m us cfg url doc Ic V Ns. apply (prepared_after sort Hsort m us cfg url doc (fun d => everywhere list_shape d = true)); auto.
  - intros d. apply items_shaped.
  - intros d. apply collapse_shaped.
  - intros d. apply comments_shaped.
Qed.
Lemma prepared_apart : forall m us cfg url doc, In (UseCommonmark cfg) us -> valid_cfg cfg = true -> disable_end_comment cfg = false ->
  apart (events (prepared sort (converter_with m us) url doc)) = true.
Proof.
  intros m us cfg url doc Ic V Nd. rewrite prepared_eq. set (e := env_of sort (converter_with m us) url).
  destruct (Hsort _ (flat_map use_pre us)) as [P S].
  assert (J : In (1100%Z, commonmark_end_comments (fill_defaults cfg)) (sort _ (flat_map use_pre us))).
  { eapply Permutation.Permutation_in; [apply Permutation.Permutation_sym; exact P|]. apply in_flat_map. exists (UseCommonmark cfg). split; auto.
    cbn [use_pre]. rewrite V. right. now left. }
  apply in_split in J as (l1 & l2 & E). rewrite E in *. rewrite map_app, fold_left_app. cbn [map snd fold_left].
  assert (K : forall y, In y l2 -> In y (flat_map use_pre us) /\ (1100 <= fst y)%Z).
  { intros y Iy. split. eapply Permutation.Permutation_in; [exact P|]. apply in_app_iff. right. now right.
    apply (sorted_after _ _ _ _ S y Iy). }
  assert (G : forall l d, (forall y, In y l -> In y (flat_map use_pre us) /\ (1100 <= fst y)%Z) -> apart (events d) = true ->
    apart (events (fold_left (fun d h => h e d) (map snd l) d)) = true).
  { induction l as [|[q k] l IH]; intros d Kl A; auto. cbn [map snd fold_left]. apply IH. intros; apply Kl; now right.
    destruct (Kl (q, k) (or_introl eq_refl)) as [J L]. cbn in L.
    apply use_pre_cases in J as [(-> & -> & _) | [(-> & -> & _) | [(-> & -> & _) | [(-> & c & ->) | (-> & -> & s & I)]]]]; try lia.
    unfold commonmark_end_comments. destruct (disable_end_comment c); auto using comments_apart. }
  apply G; auto. unfold commonmark_end_comments at 1. replace (disable_end_comment (fill_defaults cfg)) with (disable_end_comment cfg) by reflexivity.
  rewrite Nd. apply comments_apart.
Qed.
End sorted.
