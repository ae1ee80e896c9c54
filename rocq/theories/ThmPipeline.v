(** Theorems about whole conversions with the bundled plugins (C01, C02, C03, C15, C45). *)
From Coq Require Import List NArith ZArith Bool String.
From Verif Require Import Bytes TextUtils Escape SpecText Dom RenderText Engine CommonMark Table SpecEngine SpecPipeline EngineFacts PipelineFacts.
Import ListNotations.
Open Scope N_scope.
Open Scope list_scope.

(** C01. With smart escaping and the base plugin, the markdown of every tree is free of the escape marker, for every choice of
    bundled plugins and their options, every base URL and every sorting algorithm. *)
Theorem c01_output_has_no_marker : forall sort, sorts sort -> forall us url doc out, In UseBase us ->
  converts (convert_node sort (converter_with Smart us) url doc) out -> ~ In 7 out.
Proof. exact no_bell_output. Qed.
Print Assumptions c01_output_has_no_marker.
Example c01_example : let doc := Elem (b "p") [] [Text [7; 42; 97; 7]] in
  converts (convert_node stable_sort (converter_with Smart default_uses) (fun _ u => u) doc) (b "\*a").
Proof. vm_compute. reflexivity. Qed.

(** C02. With the commonmark plugin the markdown is free of the marker for newlines in code blocks, in both escape modes. *)
Theorem c02_output_has_no_newline_marker : forall sort, sorts sort -> forall m us cfg url doc out, In (UseCommonmark cfg) us ->
  converts (convert_node sort (converter_with m us) url doc) out -> ~ infix [239; 128; 130] out.
Proof. exact no_nl_marker_output. Qed.
Print Assumptions c02_output_has_no_newline_marker.
Example c02_example : let doc := Elem (b "pre") [] [Text ([97; 10; 98; 239; 128; 130; 99])] in
  converts (convert_node stable_sort (converter_with Smart default_uses) (fun _ u => u) doc)
           ([96; 96; 96; 10; 97; 10; 98; 10; 99; 10; 96; 96; 96]).
Proof. vm_compute. reflexivity. Qed.

(** C03. In a converter whose mode is disabled, escaping and un-escaping change nothing, whatever was registered. *)
Theorem c03_disabled_identity : forall sort c url, cv_mode c = Disabled ->
  forall s, escape_fn (env_of sort c url) s = s /\ unescape_fn (env_of sort c url) s = s.
Proof. exact disabled_identity. Qed.
Print Assumptions c03_disabled_identity.
Theorem c03_mode_is_kept : forall m us, cv_mode (converter_with m us) = m.
Proof. exact cw_mode. Qed.
Print Assumptions c03_mode_is_kept.
Example c03_example : let doc := Elem (b "p") [] [Text (b "1. *a* [b](c) # \d")] in
  converts (convert_node stable_sort (converter_with Disabled default_uses) (fun _ u => u) doc) (b "1. *a* [b](c) # \d").
Proof. vm_compute. reflexivity. Qed.

(** C15. What a text node is rendered to has no raw angle bracket, in both modes, wherever the node stands. *)
Theorem c15_no_raw_angle_brackets : forall sort, sorts sort -> forall m us url hs fuel cx anc d out c, In UseBase us -> c = 60 \/ c = 62 ->
  render (env_of sort (converter_with m us) url) hs (in_order sort (cv_text (converter_with m us))) (S fuel) cx anc (Text d) = Done out ->
  ~ In c out.
Proof. exact text_no_angle. Qed.
Print Assumptions c15_no_raw_angle_brackets.
(** The text can be read back if it has no ampersand (for the rest of the way see C05) ... *)
Theorem c15_entities_read_back_partial : forall s, ~ In 38 s -> read_entities 0 (entity_replace s) = s.
Proof. exact read_entity_text. Qed.
Print Assumptions c15_entities_read_back_partial.
(** ... but not in general: the ampersand is not escaped, and two different texts give the same markdown. *)
Theorem c15_ampersand_refuted : exists t1 t2 out, t1 <> t2 /\
  converts (convert_node stable_sort (converter_with Smart default_uses) (fun _ u => u) (Elem (b "p") [] [Text t1])) out /\
  converts (convert_node stable_sort (converter_with Smart default_uses) (fun _ u => u) (Elem (b "p") [] [Text t2])) out.
Proof. exists (b "<"), (b "&lt;"), (b "&lt;"). vm_compute. split; [discriminate|]. split; reflexivity. Qed.
Print Assumptions c15_ampersand_refuted.
Example c15_example : read_entities 0 (entity_replace (b "a<b>c")) = b "a<b>c" /\ entity_replace (b "a<b>c") = b "a&lt;b&gt;c".
Proof. split; reflexivity. Qed.

(** C45. Rendering ends on every tree: the recursion needs no more levels than the tree has, in both modes. *)
Theorem c45_conversion_ends : forall sort, sorts sort -> forall m us url doc,
  run_conversion sort (converter_with m us) url doc <> OutOfFuel.
Proof. exact conversion_ends. Qed.
Print Assumptions c45_conversion_ends.
(** In smart mode no conversion panics (the delimiter of the strikethrough plugin must contain a visible ASCII character). *)
Theorem c45_smart_never_panics : forall sort, sorts sort -> forall us url doc,
  (forall d, In (UseStrikethrough d) us -> d = [] \/ exists c, In c d /\ visible_ascii c) ->
  match convert_node sort (converter_with Smart us) url doc with Failed _ | Returned (Done _) => True | _ => False end.
Proof. exact smart_no_panic. Qed.
Print Assumptions c45_smart_never_panics.
Example c45_example :
  converts (convert_node stable_sort (converter_with Smart default_uses) (fun _ u => u) (Elem (b "h1") [] [Text (b "#")])) (b "# \#").
Proof. vm_compute. reflexivity. Qed.
(** In disabled mode a heading that consists of one number sign makes the conversion panic. *)
Theorem c45_disabled_mode_refuted : exists doc,
  convert_node stable_sort (converter_with Disabled default_uses) (fun _ u => u) doc = Returned Panic.
Proof. exists (Elem (b "h1") [] [Text (b "#")]). vm_compute. reflexivity. Qed.
Print Assumptions c45_disabled_mode_refuted.
