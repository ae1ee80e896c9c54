(** Theorems about the functions that a program calls (C66). Only statements; the specification is SpecApi.v, the model Api.v. *)
From Coq Require Import List NArith ZArith Bool String.
From Verif Require Import Bytes Escape Dom Engine SpecEngine CommonMark NetUrl Url SpecPipeline Api SpecApi ApiFacts.
Import ListNotations.
Open Scope list_scope.

(** ** C66 *)
(** ConvertString, ConvertReader and ConvertNode of the package give the same markdown and no error for every document: that of a
    converter with the base plugin and the commonmark plugin without options, smart escaping, and the last domain given. *)
Theorem c66_package : forall context reader string_reader parse_html sort, sorts sort -> forall s doc opts d,
  parse_html (string_reader s) = inr doc -> domain_of context opts d ->
  exists md, converts (convert_node sort (converter_with Smart default_uses) (fun _ raw => assemble_absolute_url go_url d raw) doc) md
    /\ package_node context sort doc opts = Answer md None
    /\ package_reader context reader parse_html sort (string_reader s) opts = Answer md None
    /\ package_string context reader string_reader parse_html sort s opts = Answer md None.
Proof. exact package_agree. Qed.
Print Assumptions c66_package.
Definition sample_doc : node := Doc [Elem (b "p") [] [Elem (b "a") [(b "href", b "/x")] [Text (b "see")]]].
Example c66_ex :
  domain_of unit [WithDomain unit (b "a.org"); WithContext unit tt; WithDomain unit (b "b.org"); WithContext unit tt] (b "b.org") /\
  package_string unit bytes (fun s => s) (fun _ => inr sample_doc) stable_sort (b "<p>...")
    [WithDomain unit (b "a.org"); WithContext unit tt; WithDomain unit (b "b.org"); WithContext unit tt] = Answer (b "[see](http://b.org/x)") None.
Proof.
  split; [|vm_compute; reflexivity].
  apply (last_domain unit [WithDomain unit (b "a.org"); WithContext unit tt] (b "b.org") [WithContext unit tt]). intros d [I|[]]. discriminate.
Qed.
(** The methods of every converter agree, whatever was registered, also in errors and crashes. *)
Theorem c66_methods : forall context reader string_reader parse_html sort c s doc opts, parse_html (string_reader s) = inr doc ->
  method_string context reader string_reader parse_html sort c s opts = method_node context sort c doc opts /\
  method_reader context reader parse_html sort c (string_reader s) opts = method_node context sort c doc opts.
Proof. exact methods_agree. Qed.
Print Assumptions c66_methods.
(** An error while reading or parsing comes back as it is, without output. *)
Theorem c66_read_error : forall context reader string_reader parse_html sort c s e opts, parse_html (string_reader s) = inl e ->
  method_string context reader string_reader parse_html sort c s opts = Answer [] (Some e) /\
  method_reader context reader parse_html sort c (string_reader s) opts = Answer [] (Some e).
Proof. exact read_error. Qed.
Print Assumptions c66_read_error.
(** Whenever there is an error there is no output. *)
Theorem c66_no_output_with_error : forall context reader string_reader parse_html sort c s opts out e,
  method_string context reader string_reader parse_html sort c s opts = Answer out (Some e) -> out = [].
Proof. exact error_empty. Qed.
Print Assumptions c66_no_output_with_error.
Theorem c66_no_output_with_error_reader : forall context reader parse_html sort c r opts out e,
  method_reader context reader parse_html sort c r opts = Answer out (Some e) -> out = [].
Proof. exact error_empty_reader. Qed.
Print Assumptions c66_no_output_with_error_reader.
Theorem c66_no_output_with_error_node : forall context sort c doc opts out e,
  method_node context sort c doc opts = Answer out (Some e) -> out = [].
Proof. exact error_empty_node. Qed.
Print Assumptions c66_no_output_with_error_node.
Example c66_error_ex : method_node unit stable_sort empty_converter sample_doc [] = Answer [] (Some (b "no render handlers are registered")).
Proof. reflexivity. Qed.
