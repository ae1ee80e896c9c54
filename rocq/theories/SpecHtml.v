(** Elements kept as HTML: specification for C72. Independent of the model of the renderers. *)
From Coq Require Import List NArith Bool String.
From Verif Require Import Bytes SpecText Dom.
Import ListNotations.
Open Scope N_scope.
Open Scope list_scope.

(** The text before an HTML block: nothing, or it ends with a blank line. *)
Definition ends_blank (a : bytes) : Prop := exists a' k, a = a' ++ [10] ++ repeat 32 k ++ [10].
Definition blank_before (a : bytes) : Prop := a = [] \/ ends_blank a.
(** The text after an HTML block: nothing, or it starts with a blank line (which ends the HTML block, CommonMark 4.6). *)
Definition blank_after (z : bytes) : Prop := z = [] \/ exists k z', z = [10] ++ repeat 32 k ++ [10] ++ z'.
(** [h] stands in [out] as a block of its own. *)
Definition apart (h out : bytes) : Prop := exists a z, out = a ++ h ++ z /\ blank_before a /\ blank_after z.

(** HTML that the last phase leaves alone: it starts with a tag or comment and ends with one; it has neither of the two
    characters used as markers; no two blank lines in a row; no blank line after a line that ends with two spaces. *)
Definition tidy_html (h : bytes) : Prop :=
  (exists m, h = [60] ++ m ++ [62]) /\ ~ In 7 h /\ ~ infix [239; 128; 130] h /\ ~ three_newlines h
  /\ forall k, ~ infix ([32; 32; 10] ++ repeat 32 k ++ [10]) h.

(** Elements that no bundled plugin has a renderer for: only their content is written. *)
Definition plain_names : list bytes := [b "html"; b "body"; b "div"; b "section"; b "article"; b "main"].
(** [n] is below the second node, with only such elements and documents between. *)
Inductive stands_in (n : node) : node -> Prop :=
| stands_here : stands_in n n
| stands_doc ks k : In k ks -> stands_in n k -> stands_in n (Doc ks)
| stands_elem x a ks k : In x plain_names -> In k ks -> stands_in n k -> stands_in n (Elem x a ks).
(** A character of a tag name *)
Definition tag_char (c : N) : Prop := 97 <= c <= 122 \/ 48 <= c <= 57 \/ c = 45.
