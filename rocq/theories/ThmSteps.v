(** C43: the comments between lists (internal/domutils/list_end_comment.go), the redundant tags (internal/domutils/redundant.go) and the misplaced blocks (internal/domutils/alternatives.go), exactly. *)
From Coq Require Import List NArith Bool String.
From Verif Require Import Bytes Dom DomUtils SpecSpace2 CommonMark SpecComments CommentFacts SpecRedundant RedundantFacts SpecDom SpecAlternatives AlternativesFacts.
Import ListNotations.
Open Scope list_scope.

(** A comment is put behind a list exactly if another list follows before any text, item, rule or comment of that kind and before
    the end of a list around it; nothing else changes (c73_tokens: tags and texts determine the document). *)
Theorem c43_end_comments_exact : forall n, tokens (add_list_end_comments n) = commented (tokens n).
Proof. exact comments_exact. Qed.
Print Assumptions c43_end_comments_exact.
(** Nested lists with a common end, a list in a division after another comment, a list behind a rule *)
Example c43_end_comments_ex :
  let ul ks := Elem (b "ul") [] [Elem (b "li") [] ks] in
  add_list_end_comments (Doc [ul [Text (b "a"); ul [Text (b "c")]]; Comment (b "x"); Elem (b "div") [] [ul []; ul [Text (b "d")]]; Elem (b "hr") [] []; ul []])
  = Doc [ul [Text (b "a"); ul [Text (b "c")]]; the_end; Comment (b "x"); Elem (b "div") [] [ul []; the_end; ul [Text (b "d")]]; Elem (b "hr") [] []; ul []].
Proof. vm_compute. reflexivity. Qed.

(** A tag is dropped exactly if an element of the same kind is open around it; nothing else changes. *)
Theorem c43_redundant_exact : forall cls n, tags (remove_redundant cls n) = not_redundant cls [] (tokens n).
Proof. exact redundant_exact. Qed.
Print Assumptions c43_redundant_exact.
(** Tags and texts determine the document. *)
Theorem c43_tags : forall n n', tags n = tags n' -> n = n'.
Proof. exact tags_same. Qed.
Print Assumptions c43_tags.
(** Bold in bold with an italic element between them, an empty one, and one behind the end *)
Example c43_redundant_ex :
  let el x := Elem x [] in
  let doc := el (b "p") [el (b "b") [Text (b "a"); el (b "i") [el (b "strong") [Text (b "c"); el (b "em") [Text (b "d")]]; el (b "b") []]]; el (b "b") [Text (b "e")]] in
  let out := el (b "p") [el (b "b") [Text (b "a"); el (b "i") [Text (b "c"); Text (b "d")]]; el (b "b") [Text (b "e")]] in
  remove_redundant class_bold_italic doc = out /\ not_redundant class_bold_italic [] (tokens doc) = tags out.
Proof. split; vm_compute; reflexivity. Qed.

(** A block is replaced exactly if it stands inside an element that cannot hold it, by what stands for it; nothing else changes. *)
Theorem c43_alternatives_exact : forall n, tidy n = true -> tags (leaf_block_alternatives n) = well_placed [] (tokens n).
Proof. exact alternatives_exact. Qed.
Print Assumptions c43_alternatives_exact.
(** A quote with a title and a rule in a title, a list in a link, code behind them *)
Example c43_alternatives_ex :
  let el x := Elem x [] in
  let doc := Doc [el (b "h2") [Text (b "a"); el (b "blockquote") [el (b "h3") [Text (b "c")]; el (b "hr") []]];
                  el (b "a") [el (b "div") [el (b "ul") [el (b "li") [el (b "pre") [Text (b "d")]]]]]; el (b "pre") [Text (b "e")]] in
  let out := Doc [el (b "h2") [Text (b "a"); Text [32; 34]%N; el (b "span") [el (b "strong") [Text (b "c")]; el (b "br") []]; Text [34; 32]%N];
                  el (b "a") [el (b "div") [el (b "span") [el (b "span") [el (b "code") [Text (b "d")]]]]]; el (b "pre") [Text (b "e")]] in
  tidy doc = true /\ leaf_block_alternatives doc = out /\ well_placed [] (tokens doc) = tags out.
Proof. vm_compute. repeat split. Qed.
