(** The exact result of LeafBlockAlternatives (C43). *)
From Coq Require Import List NArith Bool String.
From Verif Require Import Bytes BytesFacts Dom DomUtils SpecDom RenderInv DomFacts4 SpecSpace2 SpecRedundant RedundantFacts SpecAlternatives.
Import ListNotations.
Open Scope list_scope.

Lemma name_in_app l m x : name_in (l ++ m) x = name_in l x || name_in m x.
Proof. unfold name_in. apply existsb_app. Qed.
Lemma inside_names x a : no_block_inside (Elem x a []) = is_leaf_block x || is_inline_name x.
Proof. unfold no_block_inside, called, is_leaf_block, is_inline_name. rewrite <- name_in_app. reflexivity. Qed.
Lemma block_names x a : a_block (Elem x a []) = is_container x || is_leaf_block x.
Proof. unfold a_block, called, is_container, is_leaf_block. rewrite <- name_in_app. reflexivity. Qed.
Lemma called_one s x a : called [s] (Elem x a []) = beqb x (b s).
Proof. unfold called, name_in. cbn [map existsb]. now rewrite orb_false_r. Qed.

Definition alt_exact (n : node) : Prop := tidy n = true -> forall leaf inl open R, leaf || inl = existsb no_block_inside open ->
  well_placed open (tokens n ++ R) = flat_map tags (leaf_alternatives leaf inl n) ++ well_placed open R.
Lemma alt_kids ks : Forall alt_exact ks -> forallb (fun k => negb (is_doc k) && tidy k) ks = true ->
  forall leaf inl open R, leaf || inl = existsb no_block_inside open ->
  well_placed open (flat_map tokens ks ++ R) = flat_map tags (flat_map (leaf_alternatives leaf inl) ks) ++ well_placed open R.
Proof.
  induction 1 as [|k r Hk _ IH]; intros Ht leaf inl open R H; [reflexivity|]. cbn [forallb] in Ht. apply andb_true_iff in Ht as [Ht Hr]. apply andb_true_iff in Ht as [_ Ht].
  cbn [flat_map]. rewrite <- app_assoc, (Hk Ht leaf inl open _ H), flat_map_app, <- app_assoc. f_equal. now apply IH.
Qed.
Lemma alternative_tags x a ks : (beqb x (b "hr") = true -> ks = []) ->
  flat_map tags (alternative x a ks) = start_instead (Elem x a []) ++ flat_map tags ks ++ end_instead (Elem x a []).
Proof.
  intros Hr. unfold alternative, start_instead, end_instead. rewrite !called_one.
  change (a_title (Elem x a [])) with (is_heading_name x). cbn [other].
  destruct (is_heading_name x); [cbn [flat_map]; rewrite !tags_elem; cbn [flat_map app]; now rewrite <- app_assoc|].
  destruct (beqb x (b "blockquote")); [cbn [flat_map]; rewrite tags_elem; cbn [tags tokens map unmark flat_map app]; now rewrite <- app_assoc|].
  destruct (beqb x (b "pre")); [cbn [flat_map]; rewrite tags_elem, app_nil_r; reflexivity|].
  destruct (beqb x (b "hr")); [rewrite (Hr eq_refl); reflexivity|].
  cbn [flat_map]. rewrite tags_elem, app_nil_r. reflexivity.
Qed.
Lemma alt_node n : alt_exact n.
Proof.
  induction n as [d|x a ks IH|d|ks IH|d] using node_induction; intros Ht leaf inl open R H; try reflexivity.
  - cbn [tidy] in Ht. apply andb_true_iff in Ht as [Hv Ht].
    assert (Hr : beqb x (b "hr") = true -> ks = []).
    { intros E. apply beqb_eq in E. subst x. destruct ks; [reflexivity|discriminate Hv]. }
    assert (H' : (leaf || is_leaf_block x) || (inl || is_inline_name x) = existsb no_block_inside (Elem x a [] :: open)).
    { cbn [existsb]. rewrite inside_names, <- H. destruct leaf, inl, (is_leaf_block x), (is_inline_name x); reflexivity. }
    cbn [tokens app well_placed leaf_alternatives]. rewrite <- app_assoc, (alt_kids ks IH Ht _ _ _ _ H'). cbn [app well_placed tl].
    rewrite block_names, <- H. destruct ((is_container x || is_leaf_block x) && (leaf || inl)).
    + rewrite alternative_tags; [now rewrite <- !app_assoc|]. intros E. rewrite (Hr E). reflexivity.
    + cbn [flat_map]. rewrite tags_elem, app_nil_r. cbn [app]. now rewrite <- app_assoc.
  - cbn [tidy] in Ht. assert (H' : leaf || inl = existsb no_block_inside (Doc [] :: open)) by exact H.
    cbn [tokens app well_placed leaf_alternatives]. rewrite <- app_assoc, (alt_kids ks IH Ht _ _ _ _ H'). cbn [app well_placed tl a_block called andb].
    cbn [flat_map]. rewrite tags_doc, app_nil_r. cbn [app]. now rewrite <- app_assoc.
Qed.
Lemma alternatives_exact n : tidy n = true -> tags (leaf_block_alternatives n) = well_placed [] (tokens n).
Proof.
  intros Ht. pose proof (alt_node n Ht false false [] [] eq_refl) as Q. rewrite app_nil_r in Q. cbn [well_placed] in Q. rewrite app_nil_r in Q. rewrite Q.
  unfold leaf_block_alternatives. destruct n as [d|x a ks|d|ks|d]; try reflexivity.
  - cbn [leaf_alternatives orb]. rewrite andb_false_r. cbn [hd flat_map]. now rewrite app_nil_r.
  - cbn [leaf_alternatives hd flat_map]. now rewrite app_nil_r.
Qed.
