(** C43 with the strikethrough plugin. *)
From Coq Require Import List NArith ZArith Bool String.
From Verif Require Import Bytes TextUtils Dom DomUtils Collapse SpecDom RenderText Escape Engine CommonMark Table SpecEngine SpecPipeline
  EngineFacts PipelineFacts SpecStruck StruckFacts.
Import ListNotations.
Open Scope N_scope.
Open Scope list_scope.

(** With every set of bundled plugins, strikethrough included, a block inside a heading of the prepared tree is inside struck text. *)
Theorem c43_titles : forall sort, sorts sort -> forall m us cfg url doc, In (UseCommonmark cfg) us -> valid_cfg cfg = true ->
  everywhere title_shape (prepared sort (converter_with m us) url doc) = true.
Proof. exact titles_struck. Qed.
Print Assumptions c43_titles.
(** A list in bold text in a heading, and one that merging carries into the heading inside struck text *)
Definition c43_title_doc : node := Elem (b "div") []
  [Elem (b "h1") [] [Elem (b "b") [] [Elem (b "ul") [] [Elem (b "li") [] [Text (b "z")]]]; Elem (b "del") [] [Text (b "x")]; Elem (b "span") [] []];
   Elem (b "del") [] [Elem (b "ul") [] [Elem (b "li") [] [Text (b "a")]]]].
Example c43_title_ex : everywhere title_shape c43_title_doc = false
  /\ everywhere title_shape (prepared stable_sort (converter_with Smart (default_uses ++ [UseStrikethrough []])) (fun _ u => u) c43_title_doc) = true
  /\ no_misplaced_block (prepared stable_sort (converter_with Smart (default_uses ++ [UseStrikethrough []])) (fun _ u => u) c43_title_doc) = false.
Proof. vm_compute. repeat split. Qed.
