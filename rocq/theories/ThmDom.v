(** Theorems about the preparation of the tree (C17, C41, C42, C43). *)
From Coq Require Import List NArith ZArith Bool String.
From Verif Require Import Bytes TextUtils Dom DomUtils Collapse SpecDom RenderText Escape Engine CommonMark Table SpecEngine SpecPipeline
  EngineFacts PipelineFacts DomFacts DomFacts2 DomFacts3 DomFacts4 DomFacts5 DomFacts6 DomFacts7.
Import ListNotations.
Open Scope N_scope.
Open Scope list_scope.

(** ** C41 *)
(** Two documents that differ only in invisible nodes (at any depth, also inside texts) are converted to the same result, with every
    choice of bundled plugins that contains base. *)
Theorem c41_invisible_nodes_do_not_matter : forall sort, sorts sort -> forall m us url n n', In UseBase us -> invisible n = false ->
  same_seen n n' -> convert_node sort (converter_with m us) url n = convert_node sort (converter_with m us) url n'.
Proof. exact convert_same. Qed.
Print Assumptions c41_invisible_nodes_do_not_matter.
Example c41_example : same_seen
  (Elem (b "p") [] [Text (b "ab"); Elem (b "b") [] [Text (b "c")]])
  (Elem (b "p") [] [Text (b "a"); Comment (b "x"); Text (b "b"); Elem (b "script") [] [Text (b "y")]; Elem (b "b") [] [Text (b "c"); Elem (b "input") [] []]]).
Proof.
  apply Same_elem. apply Same_sym.
  eapply Same_trans. { apply Same_cons; [apply Same_refl|]. apply Same_skip. reflexivity. }
  eapply Same_trans. { apply Same_split. }
  apply Same_cons; [apply Same_refl|]. eapply Same_trans. { apply Same_skip. reflexivity. }
  apply Same_cons; [|apply Same_nil]. apply Same_elem. apply Same_cons; [apply Same_refl|]. apply Same_skip. reflexivity.
Qed.
(** The root itself is not removed. *)
Theorem c41_root_refuted : exists doc, invisible doc = true /\
  converts (convert_node stable_sort (converter_with Smart default_uses) (fun _ u => u) doc) (b "x").
Proof. exists (Elem (b "script") [] [Text (b "x")]). vm_compute. split; reflexivity. Qed.
Print Assumptions c41_root_refuted.

(** ** C42 *)
(** The prepared tree has the visible characters of the document, in order (every ASCII character that is seen, without the double quote
    that stands for a blockquote inside a heading). *)
Theorem c42_preparation_keeps_visible_text : forall sort, sorts sort -> forall keep, (forall c, keep c = true -> unquoted c = true) ->
  forall m us url doc, In UseBase us -> tidy doc = true -> invisible doc = false ->
  chars keep (prepared sort (converter_with m us) url doc) = filter keep (visible_text doc)
  /\ tidy (prepared sort (converter_with m us) url doc) = true.
Proof. exact prepared_text. Qed.
Print Assumptions c42_preparation_keeps_visible_text.
(** The steps one by one, each for every class of characters that it can keep. *)
Theorem c42_merge_text_nodes : forall keep n, tidy n = true -> chars keep (merge_text n) = chars keep n /\ tidy (merge_text n) = true.
Proof. exact merge_text_root. Qed.
Print Assumptions c42_merge_text_nodes.
Theorem c42_fake_spans : forall keep n, tidy n = true -> chars keep (rename_fake_spans n) = chars keep n /\ tidy (rename_fake_spans n) = true.
Proof. exact rename_root. Qed.
Print Assumptions c42_fake_spans.
Theorem c42_redundant : forall keep cls n, tidy n = true ->
  chars keep (remove_redundant cls n) = chars keep n /\ tidy (remove_redundant cls n) = true.
Proof. exact redundant_root. Qed.
Print Assumptions c42_redundant.
Theorem c42_merge_adjacent : forall keep mt,
  (forall n, mt n = true -> exists x a ks, n = Elem x a ks /\ name_in childless x = false) ->
  forall n, tidy n = true -> chars keep (merge_adjacent mt n) = chars keep n /\ tidy (merge_adjacent mt n) = true.
Proof. exact merge_adjacent_root. Qed.
Print Assumptions c42_merge_adjacent.
Theorem c42_swap_tags : forall keep outer inner,
  (forall x a ks, outer (Elem x a ks) = true -> name_in childless x = false) ->
  (forall x a ks, inner (Elem x a ks) = true -> name_in childless x = false) ->
  forall n, tidy n = true -> chars keep (swap_tags outer inner n) = chars keep n /\ tidy (swap_tags outer inner n) = true.
Proof. exact swap_root. Qed.
Print Assumptions c42_swap_tags.
Theorem c42_empty_code : forall keep n, tidy n = true -> chars keep (remove_empty_code n) = chars keep n /\ tidy (remove_empty_code n) = true.
Proof. exact empty_code_root. Qed.
Print Assumptions c42_empty_code.
Theorem c42_add_space : forall keep, keep 32 = false -> forall outer inner n, tidy n = true ->
  chars keep (add_space_root outer inner n) = chars keep n /\ tidy (add_space_root outer inner n) = true.
Proof. exact add_space_finer. Qed.
Print Assumptions c42_add_space.
Theorem c42_block_alternatives : forall keep, keep 32 = false -> keep 34 = false -> forall n, tidy n = true ->
  chars keep (leaf_block_alternatives n) = chars keep n /\ tidy (leaf_block_alternatives n) = true.
Proof. exact leaf_root. Qed.
Print Assumptions c42_block_alternatives.
Theorem c42_list_items : forall keep, (forall d, is_empty (trim_space d) = true -> filter keep d = []) -> forall n, tidy n = true ->
  chars keep (move_list_items n) = chars keep n /\ tidy (move_list_items n) = true.
Proof. exact items_root. Qed.
Print Assumptions c42_list_items.
Theorem c42_list_end_comments : forall keep n, tidy n = true ->
  chars keep (add_list_end_comments n) = chars keep n /\ tidy (add_list_end_comments n) = true.
Proof. exact comments_root. Qed.
Print Assumptions c42_list_end_comments.
Definition c42_doc : node := Elem (b "div") []
  [Elem (b "b") [] [Text (b "a"); Elem (b "strong") [] [Text (b "b")]]; Elem (b "i") [] [Elem (b "a") [] [Elem (b "h2") [] [Text (b "c")]]];
   Elem (b "h1") [] [Elem (b "blockquote") [] [Text (b "d")]; Elem (b "hr") [] []];
   Elem (b "ul") [] [Text (b "e"); Elem (b "li") [] [Text (b "f")]; Elem (b "p") [] [Text (b "g")]]; Elem (b "ol") [] []].
Example c42_example : tidy c42_doc = true /\ invisible c42_doc = false /\ visible_text c42_doc = b "abcdefg" /\
  chars unquoted (prepared stable_sort (converter_with Smart default_uses) (fun _ u => u) c42_doc) = b "abcdefg".
Proof. vm_compute. repeat split. Qed.
(** The fuel of the two walks over neighbours is enough for every tree: with more fuel the result is the same. *)
Theorem c42_merge_walk_ends : forall mt n f, (merge_fuel n <= f)%nat -> merge_adjacent mt n = fst (merge_adj mt f n []).
Proof. exact merge_fuel_enough. Qed.
Print Assumptions c42_merge_walk_ends.
Theorem c42_space_walk_ends : forall outer inner n f, (merge_fuel n <= f)%nat ->
  add_space_root outer inner n = fst (fst (add_space outer inner f n [] [])).
Proof. exact space_fuel_enough. Qed.
Print Assumptions c42_space_walk_ends.

(** ** C43 *)
(** After merging text nodes no two texts are neighbours. *)
Theorem c43_texts_are_joined : forall n, everywhere (fun m => no_text_pair (kids m)) (merge_text n) = true.
Proof. exact merge_text_joined. Qed.
Print Assumptions c43_texts_are_joined.
(** After removing redundant tags no tag stands inside one of the same kind ... *)
Theorem c43_redundant_tags_are_gone : forall cls names c, (forall x, name_in names x = true <-> cls x = Some c) ->
  forall n, everywhere (kids_free_of names names) (remove_redundant cls n) = true.
Proof. exact redundant_placed. Qed.
Print Assumptions c43_redundant_tags_are_gone.
(** ... but merging neighbours merges bold with italic text, and bold text inside bold text comes back. *)
Theorem c43_nested_bold_refuted : exists doc out, tidy doc = true /\
  everywhere (kids_free_of [b "b"] [b "b"]) doc = true /\
  everywhere (kids_free_of [b "b"] [b "b"]) (prepared stable_sort (converter_with Smart default_uses) (fun _ u => u) doc) = false /\
  converts (convert_node stable_sort (converter_with Smart default_uses) (fun _ u => u) doc) out /\ out = b "**x**y****".
Proof.
  exists (Elem (b "p") [] [Elem (b "b") [] [Text (b "x")]; Elem (b "i") [] [Elem (b "b") [] [Text (b "y")]]]), (b "**x**y****").
  vm_compute. repeat split.
Qed.
Print Assumptions c43_nested_bold_refuted.
(** No link inside a link in the prepared tree *)
Theorem c43_no_link_in_link : forall sort, sorts sort -> forall m us cfg url doc, In (UseCommonmark cfg) us -> valid_cfg cfg = true ->
  (forall d, ~ In (UseStrikethrough d) us) -> everywhere (kids_free_of [b "a"] [b "a"]) (prepared sort (converter_with m us) url doc) = true.
Proof. exact prepared_links. Qed.
Print Assumptions c43_no_link_in_link.
(** Bold text directly around a link is turned inside out only once: the pass does not look at what it produced. *)
Theorem c43_bold_around_link_refuted : exists doc, tidy doc = true /\
  everywhere (fun n => match n with Elem x _ [Elem y _ _] => negb (name_in [b "b"; b "strong"; b "i"; b "em"] x && beqb y (b "a")) | _ => true end)
    (prepared stable_sort (converter_with Smart default_uses) (fun _ u => u) doc) = false.
Proof. exists (Elem (b "p") [] [Elem (b "em") [] [Elem (b "b") [] [Elem (b "a") [] [Text (b "x")]]]]). vm_compute. split; reflexivity. Qed.
Print Assumptions c43_bold_around_link_refuted.
(** Lists hold only list items and blank texts. *)
Theorem c43_lists_hold_items : forall sort, sorts sort -> forall m us cfg url doc, In (UseCommonmark cfg) us -> valid_cfg cfg = true ->
  (forall d, ~ In (UseStrikethrough d) us) -> everywhere list_shape (prepared sort (converter_with m us) url doc) = true.
Proof. exact prepared_shaped. Qed.
Print Assumptions c43_lists_hold_items.
(** No block stands inside a heading, a code block, a divider or an inline element. *)
Theorem c43_no_misplaced_block : forall sort, sorts sort -> forall m us cfg url doc, In (UseCommonmark cfg) us -> valid_cfg cfg = true ->
  (forall d, ~ In (UseStrikethrough d) us) -> no_misplaced_block (prepared sort (converter_with m us) url doc) = true.
Proof. exact prepared_placed. Qed.
Print Assumptions c43_no_misplaced_block.
(** With the strikethrough plugin it can: its merging comes after these steps and carries a list into a heading. *)
Theorem c43_strikethrough_refuted : exists doc, tidy doc = true /\
  no_misplaced_block (prepared stable_sort (converter_with Smart (default_uses ++ [UseStrikethrough []])) (fun _ u => u) doc) = false.
Proof.
  exists (Elem (b "div") [] [Elem (b "h1") [] [Elem (b "del") [] [Text (b "x")]; Elem (b "span") [] []];
                             Elem (b "del") [] [Elem (b "ul") [] [Elem (b "li") [] [Text (b "a")]]]]).
  vm_compute. split; reflexivity.
Qed.
Print Assumptions c43_strikethrough_refuted.
(** Between the end of a list and the beginning of the next one there is always something that separates them, and the step adds
    nothing but the comments. *)
Theorem c43_lists_are_apart : forall sort, sorts sort -> forall m us cfg url doc, In (UseCommonmark cfg) us -> valid_cfg cfg = true ->
  disable_end_comment cfg = false -> apart (events (prepared sort (converter_with m us) url doc)) = true.
Proof. exact prepared_apart. Qed.
Print Assumptions c43_lists_are_apart.
Theorem c43_only_end_comments_added : forall n, without_end_comments (add_list_end_comments n) = without_end_comments n.
Proof. exact comments_only_root. Qed.
Print Assumptions c43_only_end_comments_added.
Definition c43_doc : node := Elem (b "div") []
  [Elem (b "a") [] [Text (b "x"); Elem (b "b") [] [Elem (b "a") [] [Elem (b "ul") [] [Elem (b "li") [] [Text (b "y")]]]]];
   Elem (b "ul") [] [Elem (b "li") [] [Text (b "f"); Elem (b "ol") [] [Elem (b "p") [] [Text (b "g")]]]];
   Elem (b "div") [] [Elem (b "ol") [] [Elem (b "li") [] [Text (b "h")]]]].
Example c43_example :
  let doc := prepared stable_sort (converter_with Smart default_uses) (fun _ u => u) c43_doc in
  everywhere (kids_free_of [b "a"] [b "a"]) c43_doc = false /\ everywhere list_shape c43_doc = false /\ no_misplaced_block c43_doc = false /\
  apart (events c43_doc) = false /\
  events doc = [EvStop; EvStop; EvOpen; EvStop; EvStop; EvOpen; EvStop; EvStop; EvClose; EvClose; EvStop; EvOpen; EvStop; EvStop; EvClose] /\
  valid_cfg empty_config = true.
Proof. vm_compute. repeat split. Qed.

(** ** C17 *)
(** Collapsing keeps every character that is not a blank ... *)
Theorem c17_other_characters_stay : forall keep is_block, (forall c, is_ws c = true -> keep c = false) -> forall n, tidy n = true ->
  chars keep (collapse is_block n) = chars keep n /\ tidy (collapse is_block n) = true.
Proof. exact collapse_root. Qed.
Print Assumptions c17_other_characters_stay.
(** ... and all elements with their attributes, in order, with pre and code untouched. *)
Theorem c17_elements_stay : forall is_block ks, flat_map bones (collapse_kids is_block ks) = flat_map bones ks.
Proof. exact collapse_bones. Qed.
Print Assumptions c17_elements_stay.
(** After it every text has blanks only as single spaces, none at the start or the end of a block, and no two meet at the border of an
    inline element (if no two texts were neighbours before). *)
Theorem c17_blanks : forall is_block ks, no_text_run (flat_map (flow is_block) ks) = true ->
  well_spaced None (flat_map (flow is_block) (collapse_kids is_block ks)) = true.
Proof. exact collapse_spaced. Qed.
Print Assumptions c17_blanks.
(** Exactly: one blank is left where there were some between two visible things of the same block, and none elsewhere. *)
Theorem c17_exact : forall is_block ks, no_text_run (flat_map (flow is_block) ks) = true ->
  flat_map marks_of (flat_map (flow is_block) (collapse_kids is_block ks)) = respaced true false (flat_map marks_of (flat_map (flow is_block) ks)).
Proof. exact collapse_respaced. Qed.
Print Assumptions c17_exact.
Definition c17_kids : list node :=
  [Text (b "  a "); Elem (b "b") [] [Text (b "  c "); Elem (b "img") [] []; Text (b " d  ")]; Elem (b "p") [] [Text (b "  "); Elem (b "code") [] [Text (b "  ")]; Text (b " e ")]].
Example c17_example :
  no_text_run (flat_map (flow (beqb (b "p"))) c17_kids) = true /\ well_spaced None (flat_map (flow (beqb (b "p"))) c17_kids) = false /\
  collapse_kids (beqb (b "p")) c17_kids =
  [Text (b "a "); Elem (b "b") [] [Text (b "c "); Elem (b "img") [] []; Text (b " d")]; Elem (b "p") [] [Elem (b "code") [] [Text (b "  ")]; Text (b " e")]].
Proof. vm_compute. repeat split. Qed.
(** An empty text can stay behind. *)
Theorem c17_empty_text_refuted : exists ks, no_text_run (flat_map (flow (beqb (b "p"))) ks) = true /\
  forallb (everywhere (fun n => match n with Text [] => false | _ => true end)) ks = true /\
  forallb (everywhere (fun n => match n with Text [] => false | _ => true end)) (collapse_kids (beqb (b "p")) ks) = false.
Proof. exists [Text (b "a"); Elem (b "b") [] [Text (b " ")]; Elem (b "p") [] [Text (b "x")]]. vm_compute. repeat split. Qed.
Print Assumptions c17_empty_text_refuted.
(** In a whole conversion texts can become neighbours (here by unwrapping a redundant tag), and then blanks can meet. *)
Theorem c17_two_blanks_refuted : exists doc out, tidy doc = true /\
  converts (convert_node stable_sort (converter_with Smart default_uses) (fun _ u => u) doc) out /\ out = b "**a  c**".
Proof.
  exists (Elem (b "p") [] [Elem (b "img") [] []; Elem (b "b") [] [Text (b "a "); Elem (b "b") [] [Text (b " c")]]]), (b "**a  c**").
  vm_compute. repeat split.
Qed.
Print Assumptions c17_two_blanks_refuted.
