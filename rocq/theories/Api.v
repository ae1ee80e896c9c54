(** Model of the functions that a program calls: /repo/convert.go and converter/convert.go:119-142. No proofs in this file.

    Parameters: html.Parse together with the reader (an error, or the tree), and what a caller may hand over as a context. *)
From Coq Require Import List NArith ZArith Bool String.
From Verif Require Import Bytes Escape Dom RenderText Engine CommonMark NetUrl Url.
Import ListNotations.
Open Scope N_scope.
Open Scope list_scope.

Section api.
Variable context : Type.
Variable reader : Type.                                        (* io.Reader with what it will deliver *)
Variable string_reader : bytes -> reader.                      (* strings.NewReader *)
Variable parse_html : reader -> bytes + node.                  (* html.Parse: an error or a tree *)
Variable sort : forall A : Type, list (Z * A) -> list (Z * A).

(** converter/convert.go:14-18  convertOption *)
Record convert_options := { o_domain : bytes; o_context : option context }.
(** converter/convert.go:20-36  WithContext, WithDomain *)
Inductive convert_option := WithContext (c : context) | WithDomain (d : bytes).
Definition apply_convert_option (o : convert_options) (f : convert_option) : convert_options :=
  match f with
  | WithContext c => {| o_domain := o_domain o; o_context := Some c |}
  | WithDomain d => {| o_domain := d; o_context := o_context o |}
  end.
(** converter/convert.go:65-69 *)
Definition gather (opts : list convert_option) : convert_options :=
  fold_left apply_convert_option opts {| o_domain := []; o_context := None |}.

(** What a call gives back: output and error, or the program crashes *)
Inductive answer := Answer (out : bytes) (err : option bytes) | Crash.
(** converter/convert.go:58-117  ConvertNode. The context only carries values for handlers; the bundled ones do not ask for
    values of the caller, so it is not passed on here. *)
Definition method_node (c : converter) (doc : node) (opts : list convert_option) : answer :=
  match convert_node sort c (fun _ raw => assemble_absolute_url go_url (o_domain (gather opts)) raw) doc with
  | Failed e => Answer [] (Some e)
  | Returned (Done s) => Answer s None
  | Returned _ => Crash
  end.
(** converter/convert.go:119-129  ConvertReader *)
Definition method_reader (c : converter) (r : reader) (opts : list convert_option) : answer :=
  match parse_html r with inl e => Answer [] (Some e) | inr doc => method_node c doc opts end.
(** converter/convert.go:131-142  ConvertString *)
Definition method_string (c : converter) (s : bytes) (opts : list convert_option) : answer :=
  match method_reader c (string_reader s) opts with
  | Answer out (Some e) => Answer [] (Some e)
  | Answer out None => Answer out None
  | Crash => Crash
  end.

(** convert.go:16-21, 32-37, 50-55 *)
Definition package_converter : converter := new_converter [OptPlugins [base_plugin; commonmark_plugin empty_config]].
(** convert.go:12-24, 26-40, 42-57 *)
Definition package_string (s : bytes) (opts : list convert_option) : answer := method_string package_converter s opts.
Definition package_reader (r : reader) (opts : list convert_option) : answer := method_reader package_converter r opts.
Definition package_node (doc : node) (opts : list convert_option) : answer := method_node package_converter doc opts.
End api.
