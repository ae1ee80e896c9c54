(** Further specifications of text: hard line breaks (C18) and the language of a code block (C56). *)
From Coq Require Import List NArith Bool String.
From Verif Require Import Bytes SpecText.
Import ListNotations.
Open Scope N_scope.
Open Scope list_scope.

(** ** Hard line breaks (C18) *)
Definition blank_line (l : bytes) : Prop := exists k, l = repeat 32 k.
(** The lines [ls] with some spaces dropped from line ends: only from blank lines and from lines before a blank line (where they
    are no hard line break). *)
Fixpoint breaks_trimmed (ls ls' : list bytes) : Prop :=
  match ls, ls' with
  | [], [] => True
  | l :: r, l' :: r' =>
      (exists k, l = l' ++ repeat 32 k)
      /\ (l = l' \/ blank_line l \/ match r with n :: _ => blank_line n | [] => False end)
      /\ breaks_trimmed r r'
  | _, _ => False
  end.

(** ** The language of a code block (C56) *)
(** A class that names a language, as the HTML standard recommends (language-) or in the short form. *)
Definition names_language (class lang : bytes) : Prop := class = b "language-" ++ lang \/ class = b "lang-" ++ lang.
(** A class in which neither form occurs. *)
Definition no_language (class : bytes) : Prop := ~ infix (b "language-") class /\ ~ infix (b "lang-") class.
