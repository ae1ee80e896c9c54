(** Theorems about the formatting of the characters (C63). *)
From Coq Require Import List NArith ZArith Bool String.
From Verif Require Import Bytes TextUtils RenderText Escape Dom DomUtils Collapse SpecDom Engine CommonMark Table SpecEngine EngineFacts
  SpecPipeline PipelineFacts SpecStyle StyleFacts2.
Import ListNotations.
Open Scope N_scope.
Open Scope list_scope.

(** A visible character that stands in emphasised text, in a link, in code, in deleted text or in any other element of a kind of
    formatting still stands in one after the preparation. *)
Theorem c63_formatting_is_kept : forall sort, sorts sort -> forall names, formatting names = true ->
  forall m us url doc, In UseBase us -> tidy doc = true -> invisible doc = false ->
  nothing_lost (seen_inside names doc) (now_inside names (prepared sort (converter_with m us) url doc)).
Proof. exact formatting_is_kept. Qed.
Print Assumptions c63_formatting_is_kept.
Example c63_kinds : map formatting [emphasis_group; code_group; b "pre" :: code_group; strike_group; link_group; emphasis_group ++ heading_group;
  [b "td"]; [b "p"; b "div"]] = repeat true 8 /\ map formatting [[b "b"; b "strong"]; heading_group; [b "li"]; [b "pre"]] = repeat false 4.
Proof. split; reflexivity. Qed.
Definition c63_doc : node := Elem (b "div") []
  [Elem (b "b") [] [Elem (b "a") [] [Text (b "x")]; Elem (b "strong") [] [Text (b "y")]];
   Elem (b "i") [] [Text (b "z")]; Elem (b "script") [] [Text (b "no")];
   Elem (b "a") [] [Elem (b "h2") [] [Text (b "v"); Elem (b "ul") [] [Text (b "w")]]]].
Example c63_example : tidy c63_doc = true /\ invisible c63_doc = false /\
  seen_inside link_group c63_doc = [(120, true); (121, false); (122, false); (118, true); (119, true)] /\
  now_inside link_group (prepared stable_sort (converter_with Smart default_uses) (fun _ u => u) c63_doc) = seen_inside link_group c63_doc /\
  seen_inside emphasis_group c63_doc = [(120, true); (121, true); (122, true); (118, false); (119, false)].
Proof. vm_compute. repeat split. Qed.

(** Where every other kind of inline formatting is absent, nothing is added either. *)
Theorem c63_formatting_is_exact : forall sort, sorts sort -> forall names m us url doc, alone names doc = true ->
  In UseBase us -> tidy doc = true -> invisible doc = false ->
  now_inside names (prepared sort (converter_with m us) url doc) = seen_inside names doc.
Proof. exact formatting_is_exact. Qed.
Print Assumptions c63_formatting_is_exact.
Example c63_alone_ex : alone (emphasis_group ++ heading_group) c63_doc = true /\
  alone link_group (Elem (b "ul") [] [Elem (b "li") [] [Elem (b "a") [] [Text (b "x")]]; Elem (b "script") [] [Elem (b "b") [] []]]) = true /\
  alone link_group c63_doc = false.
Proof. repeat split. Qed.
(** Merging neighbours alone never changes what is formatted by the merged elements. *)
Theorem c63_merging_is_exact : forall names, name_in names (b "span") = false -> forallb (fun x => negb (name_in childless x)) names = true ->
  forall doc, tidy doc = true -> now_inside names (merge_adjacent (named names) doc) = now_inside names doc.
Proof. exact merge_exact. Qed.
Print Assumptions c63_merging_is_exact.
Example c63_merging_ex : name_in emphasis_group (b "span") = false /\ forallb (fun x => negb (name_in childless x)) emphasis_group = true /\
  merge_adjacent (named emphasis_group) (Elem (b "p") [] [Elem (b "b") [] [Text (b "x")]; Elem (b "span") [] [Elem (b "i") [] [Text (b "y")]; Text (b "z")]])
  = Elem (b "p") [] [Elem (b "b") [] [Text (b "x"); Text (b "y")]; Elem (b "span") [] [Text (b "z")]].
Proof. repeat split. Qed.

(** The merging does not look at the kind: bold text next to italic text becomes italic and is not bold any more. *)
Theorem c63_bold_becomes_italic_refuted : exists doc, tidy doc = true /\
  seen_inside [b "b"; b "strong"] doc = [(120, false); (121, true)] /\
  now_inside [b "b"; b "strong"] (prepared stable_sort (converter_with Smart default_uses) (fun _ u => u) doc) = [(120, false); (121, false)] /\
  converts (convert_node stable_sort (converter_with Smart default_uses) (fun _ u => u) doc) (b "*xy*").
Proof. exists (Elem (b "p") [] [Elem (b "i") [] [Text (b "x")]; Elem (b "b") [] [Text (b "y")]]). vm_compute. repeat split. Qed.
Print Assumptions c63_bold_becomes_italic_refuted.
(** The merging leaves the parent element: a text behind a link comes into the link. *)
Theorem c63_text_enters_link_refuted : exists doc, tidy doc = true /\
  seen_inside link_group doc = [(120, true); (121, true); (122, false)] /\
  converts (convert_node stable_sort (converter_with Smart default_uses) (fun _ u => u) doc) (b "[**xyz**](u)").
Proof.
  exists (Elem (b "p") [] [Elem (b "a") [(b "href", b "u")] [Elem (b "b") [] [Text (b "x")]; Elem (b "b") [] [Text (b "y")]]; Elem (b "b") [] [Text (b "z")]]).
  vm_compute. repeat split.
Qed.
Print Assumptions c63_text_enters_link_refuted.
(** The beginning of a paragraph behind a heading comes into the heading. *)
Theorem c63_text_enters_heading_refuted : exists doc, tidy doc = true /\
  seen_inside heading_group doc = [(120, true); (121, true); (122, false); (119, false)] /\
  converts (convert_node stable_sort (converter_with Smart default_uses) (fun _ u => u) doc) (b "# **xyz**" ++ [10; 10] ++ b "w").
Proof.
  exists (Doc [Elem (b "h1") [] [Elem (b "b") [] [Text (b "x")]; Elem (b "b") [] [Text (b "y")]]; Elem (b "b") [] [Text (b "z")]; Text (b " w")]).
  vm_compute. repeat split.
Qed.
Print Assumptions c63_text_enters_heading_refuted.
(** Code behind bold code becomes bold. *)
Theorem c63_code_becomes_bold_refuted : exists doc, tidy doc = true /\
  seen_inside emphasis_group doc = [(120, true); (121, true); (122, false)] /\
  converts (convert_node stable_sort (converter_with Smart default_uses) (fun _ u => u) doc) (b "**`xyz`**").
Proof.
  exists (Elem (b "p") [] [Elem (b "b") [] [Elem (b "code") [] [Text (b "x")]; Elem (b "code") [] [Text (b "y")]]; Elem (b "code") [] [Text (b "z")]]).
  vm_compute. repeat split.
Qed.
Print Assumptions c63_code_becomes_bold_refuted.
