(** Test vectors of the unit tests of /repo (internal/domutils/*_test.go, collapse/collapse_test.go), run on the model.
    The inputs were parsed outside Coq. Generated; these are tests, not proofs of the properties. *)
From Coq Require Import List NArith Bool String.
From Verif Require Import Bytes Dom DomUtils Collapse.
Import ListNotations.
Open Scope N_scope.
Open Scope list_scope.

(** Comments are shown without their data in the expected trees. *)
Fixpoint blank_comments (n : node) : node :=
  match n with
  | Elem x a ks => Elem x a (map blank_comments ks)
  | Doc ks => Doc (map blank_comments ks)
  | Comment _ => Comment []
  | _ => n
  end.
Definition cls_bi (x : bytes) : option N :=
  if name_in [b "em"; b "i"] x then Some 1 else if name_in [b "strong"; b "b"] x then Some 2 else None.
Definition is_bi : node -> bool := named [b "strong"; b "b"; b "em"; b "i"].
Definition is_h : node -> bool := named [b "h1"; b "h2"; b "h3"; b "h4"; b "h5"; b "h6"].

Example merge_0 : blank_comments (merge_adjacent (named [b "strong"; b "em"]) (Elem (b "body") [] [Elem (b "span") [] [Text (b "a")]; Text (b " "); Elem (b "span") [] [Text (b "b")]])) = blank_comments (Elem (b "body") [] [Elem (b "span") [] [Text (b "a")]; Text (b " "); Elem (b "span") [] [Text (b "b")]]).
Proof. vm_compute. reflexivity. Qed.
Example merge_1 : blank_comments (merge_adjacent (named [b "strong"; b "em"]) (Elem (b "body") [] [Elem (b "strong") [] [Text (b "a")]])) = blank_comments (Elem (b "body") [] [Elem (b "strong") [] [Text (b "a")]]).
Proof. vm_compute. reflexivity. Qed.
Example merge_2 : blank_comments (merge_adjacent (named [b "strong"; b "em"]) (Elem (b "body") [] [Elem (b "strong") [] [Text (b "a")]; Text (b " "); Elem (b "strong") [] [Text (b "b")]])) = blank_comments (Elem (b "body") [] [Elem (b "strong") [] [Text (b "a")]; Text (b " "); Elem (b "strong") [] [Text (b "b")]]).
Proof. vm_compute. reflexivity. Qed.
Example merge_3 : blank_comments (merge_adjacent (named [b "strong"; b "em"]) (Elem (b "body") [] [Elem (b "strong") [] [Text (b "a")]; Elem (b "strong") [] [Text (b "b")]])) = blank_comments (Elem (b "body") [] [Elem (b "strong") [] [Text (b "a"); Text (b "b")]]).
Proof. vm_compute. reflexivity. Qed.
Example merge_4 : blank_comments (merge_adjacent (named [b "strong"; b "em"]) (Elem (b "body") [] [Elem (b "strong") [] [Text (b "a")]; Elem (b "strong") [] [Text (b "b")]; Elem (b "strong") [] [Text (b "c")]])) = blank_comments (Elem (b "body") [] [Elem (b "strong") [] [Text (b "a"); Text (b "b"); Text (b "c")]]).
Proof. vm_compute. reflexivity. Qed.
Example merge_5 : blank_comments (merge_adjacent (named [b "strong"; b "em"]) (Elem (b "body") [] [Elem (b "strong") [] [Text (b "a")]; Elem (b "strong") [] [Text (b "b")]; Elem (b "strong") [] [Text (b "c")]; Elem (b "strong") [] [Text (b "d")]])) = blank_comments (Elem (b "body") [] [Elem (b "strong") [] [Text (b "a"); Text (b "b"); Text (b "c"); Text (b "d")]]).
Proof. vm_compute. reflexivity. Qed.
Example merge_6 : blank_comments (merge_adjacent (named [b "strong"; b "em"]) (Elem (b "body") [] [Elem (b "strong") [] [Text (b "a")]; Elem (b "p") [] [Text (b "between")]; Elem (b "strong") [] [Text (b "b")]])) = blank_comments (Elem (b "body") [] [Elem (b "strong") [] [Text (b "a")]; Elem (b "p") [] [Text (b "between")]; Elem (b "strong") [] [Text (b "b")]]).
Proof. vm_compute. reflexivity. Qed.
Example merge_7 : blank_comments (merge_adjacent (named [b "strong"; b "em"]) (Elem (b "body") [] [Elem (b "strong") [] [Text (b "a")]; Text (b " between "); Elem (b "strong") [] [Text (b "b")]])) = blank_comments (Elem (b "body") [] [Elem (b "strong") [] [Text (b "a")]; Text (b " between "); Elem (b "strong") [] [Text (b "b")]]).
Proof. vm_compute. reflexivity. Qed.
Example merge_8 : blank_comments (merge_adjacent (named [b "strong"; b "em"]) (Elem (b "body") [] [Elem (b "strong") [] [Text (b "a")]; Elem (b "br") [] []; Elem (b "strong") [] [Text (b "b")]])) = blank_comments (Elem (b "body") [] [Elem (b "strong") [] [Text (b "a")]; Elem (b "br") [] []; Elem (b "strong") [] [Text (b "b")]]).
Proof. vm_compute. reflexivity. Qed.
Example merge_9 : blank_comments (merge_adjacent (named [b "strong"; b "em"]) (Elem (b "body") [] [Elem (b "em") [] [Text (b "a")]; Elem (b "em") [] [Text (b "b")]; Elem (b "em") [] [Text (b "c")]])) = blank_comments (Elem (b "body") [] [Elem (b "em") [] [Text (b "a"); Text (b "b"); Text (b "c")]]).
Proof. vm_compute. reflexivity. Qed.
Example merge_10 : blank_comments (merge_adjacent (named [b "strong"; b "em"]) (Elem (b "body") [] [Elem (b "div") [] [Elem (b "strong") [] [Text (b "A")]]; Text (b " "); Elem (b "strong") [] [Text (b "B")]])) = blank_comments (Elem (b "body") [] [Elem (b "div") [] [Elem (b "strong") [] [Text (b "A")]]; Text (b " "); Elem (b "strong") [] [Text (b "B")]]).
Proof. vm_compute. reflexivity. Qed.
Example merge_11 : blank_comments (merge_adjacent (named [b "strong"; b "em"]) (Elem (b "body") [] [Elem (b "div") [] [Elem (b "strong") [] [Text (b "A")]]; Elem (b "strong") [] [Text (b "B")]])) = blank_comments (Elem (b "body") [] [Elem (b "div") [] [Elem (b "strong") [] [Text (b "A")]]; Elem (b "strong") [] [Text (b "B")]]).
Proof. vm_compute. reflexivity. Qed.
Example merge_12 : blank_comments (merge_adjacent (named [b "strong"; b "em"]) (Elem (b "body") [] [Elem (b "div") [] [Elem (b "div") [] [Elem (b "div") [] [Elem (b "strong") [] [Text (b "A")]]]; Elem (b "div") [] [Elem (b "strong") [] [Text (b "b")]]]])) = blank_comments (Elem (b "body") [] [Elem (b "div") [] [Elem (b "div") [] [Elem (b "div") [] [Elem (b "strong") [] [Text (b "A")]]]; Elem (b "div") [] [Elem (b "strong") [] [Text (b "b")]]]]).
Proof. vm_compute. reflexivity. Qed.
Example merge_13 : blank_comments (merge_adjacent (named [b "strong"; b "em"]) (Elem (b "body") [] [Elem (b "a") [((b "href"), (b "/"))] [Elem (b "strong") [] [Text (b "A")]]; Elem (b "strong") [] [Text (b "B")]])) = blank_comments (Elem (b "body") [] [Elem (b "a") [((b "href"), (b "/"))] [Elem (b "strong") [] [Text (b "A")]]; Elem (b "strong") [] [Text (b "B")]]).
Proof. vm_compute. reflexivity. Qed.
Example merge_14 : blank_comments (merge_adjacent (named [b "strong"; b "em"]) (Elem (b "body") [] [Elem (b "p") [] [Elem (b "strong") [] [Text (b "a")]; Elem (b "span") [] [Elem (b "strong") [] [Text (b "b")]]; Text (b "other text")]])) = blank_comments (Elem (b "body") [] [Elem (b "p") [] [Elem (b "strong") [] [Text (b "a"); Text (b "b")]; Elem (b "span") [] []; Text (b "other text")]]).
Proof. vm_compute. reflexivity. Qed.
Example merge_15 : blank_comments (merge_adjacent (named [b "strong"; b "em"]) (Elem (b "body") [] [Elem (b "p") [] [Elem (b "strong") [] [Text (b "a")]; Elem (b "span") [] [Elem (b "span") [] [Elem (b "strong") [] [Text (b "b")]]]; Text (b "other text")]])) = blank_comments (Elem (b "body") [] [Elem (b "p") [] [Elem (b "strong") [] [Text (b "a"); Text (b "b")]; Elem (b "span") [] [Elem (b "span") [] []]; Text (b "other text")]]).
Proof. vm_compute. reflexivity. Qed.
Example merge_16 : blank_comments (merge_adjacent (named [b "strong"; b "em"]) (Elem (b "body") [] [Elem (b "p") [] [Elem (b "strong") [] [Text (b "a")]; Elem (b "span") [] [Elem (b "strong") [] [Text (b "b")]]; Elem (b "span") [] [Elem (b "strong") [] [Text (b "c")]; Text (b "other text")]]])) = blank_comments (Elem (b "body") [] [Elem (b "p") [] [Elem (b "strong") [] [Text (b "a"); Text (b "b"); Text (b "c")]; Elem (b "span") [] []; Elem (b "span") [] [Text (b "other text")]]]).
Proof. vm_compute. reflexivity. Qed.
Example merge_17 : blank_comments (merge_adjacent (named [b "strong"; b "em"]) (Elem (b "body") [] [Elem (b "p") [] [Elem (b "strong") [] [Text (b "a")]; Elem (b "span") [] [Text (b "other text")]]])) = blank_comments (Elem (b "body") [] [Elem (b "p") [] [Elem (b "strong") [] [Text (b "a")]; Elem (b "span") [] [Text (b "other text")]]]).
Proof. vm_compute. reflexivity. Qed.
Example merge_18 : blank_comments (merge_adjacent (named [b "strong"; b "em"]) (Elem (b "body") [] [Elem (b "p") [] [Elem (b "strong") [] [Text (b "a")]; Elem (b "span") [] [Text (b " "); Elem (b "strong") [] [Text (b "b")]]]])) = blank_comments (Elem (b "body") [] [Elem (b "p") [] [Elem (b "strong") [] [Text (b "a")]; Elem (b "span") [] [Text (b " "); Elem (b "strong") [] [Text (b "b")]]]]).
Proof. vm_compute. reflexivity. Qed.
Example space_0 : blank_comments (add_space_root is_bi (named [b "code"]) (Elem (b "body") [] [Text (b "before"); Elem (b "strong") [] [Elem (b "code") [] [Text (b "inline code")]]; Text (b "after")])) = blank_comments (Elem (b "body") [] [Text (b "before "); Elem (b "strong") [] [Elem (b "code") [] [Text (b "inline code")]]; Text (b " after")]).
Proof. vm_compute. reflexivity. Qed.
Example space_1 : blank_comments (add_space_root is_bi (named [b "code"]) (Elem (b "body") [] [Elem (b "strong") [] [Elem (b "code") [] [Text (b "inline code")]]])) = blank_comments (Elem (b "body") [] [Elem (b "strong") [] [Elem (b "code") [] [Text (b "inline code")]]]).
Proof. vm_compute. reflexivity. Qed.
Example leaf_0 : blank_comments (leaf_block_alternatives (Elem (b "body") [] [Elem (b "h3") [] [Text (b "Heading"); Elem (b "hr") [] []]])) = blank_comments (Elem (b "body") [] [Elem (b "h3") [] [Text (b "Heading")]]).
Proof. vm_compute. reflexivity. Qed.
Example leaf_1 : blank_comments (leaf_block_alternatives (Elem (b "body") [] [Elem (b "a") [((b "href"), (b "/page.html"))] [Elem (b "h3") [] [Text (b "Heading")]]])) = blank_comments (Elem (b "body") [] [Elem (b "a") [((b "href"), (b "/page.html"))] [Elem (b "strong") [] [Text (b "Heading")]; Elem (b "br") [] []]]).
Proof. vm_compute. reflexivity. Qed.
Example leaf_2 : blank_comments (leaf_block_alternatives (Elem (b "body") [] [Elem (b "a") [((b "href"), (b "/page.html"))] [Elem (b "h4") [] [Text (b "Heading A")]; Elem (b "h3") [] [Text (b "Heading B")]]])) = blank_comments (Elem (b "body") [] [Elem (b "a") [((b "href"), (b "/page.html"))] [Elem (b "strong") [] [Text (b "Heading A")]; Elem (b "br") [] []; Elem (b "strong") [] [Text (b "Heading B")]; Elem (b "br") [] []]]).
Proof. vm_compute. reflexivity. Qed.
Example leaf_3 : blank_comments (leaf_block_alternatives (Elem (b "body") [] [Elem (b "a") [((b "href"), (b "/page.html"))] [Text (b "
	"); Elem (b "h4") [] [Text (b "Heading A")]; Text (b "
	"); Elem (b "h3") [] [Text (b "Heading B")]; Text (b "
")]])) = blank_comments (Elem (b "body") [] [Elem (b "a") [((b "href"), (b "/page.html"))] [Text (b "
	"); Elem (b "strong") [] [Text (b "Heading A")]; Elem (b "br") [] []; Text (b "
	"); Elem (b "strong") [] [Text (b "Heading B")]; Elem (b "br") [] []; Text (b "
")]]).
Proof. vm_compute. reflexivity. Qed.
Example emptycode_0 : blank_comments (remove_empty_code (Elem (b "body") [] [Elem (b "p") [] [Text (b "before"); Elem (b "code") [] []]; Elem (b "pre") [] [Elem (b "code") [] [Text (b "middle")]]; Text (b "after"); Elem (b "p") [] []])) = blank_comments (Elem (b "body") [] [Elem (b "p") [] [Text (b "before")]; Elem (b "pre") [] [Elem (b "code") [] [Text (b "middle")]]; Text (b "after"); Elem (b "p") [] []]).
Proof. vm_compute. reflexivity. Qed.
Example emptycode_1 : blank_comments (remove_empty_code (Elem (b "body") [] [Elem (b "p") [] [Elem (b "code") [] []]; Text (b "between"); Elem (b "p") [] [Elem (b "code") [] []]])) = blank_comments (Elem (b "body") [] [Elem (b "p") [] []; Text (b "between"); Elem (b "p") [] []]).
Proof. vm_compute. reflexivity. Qed.
Example items_0 : blank_comments (move_list_items (Elem (b "body") [] [Elem (b "div") [] [Elem (b "ul") [] [Elem (b "li") [] [Text (b "A")]; Elem (b "li") [] [Text (b "B")]; Elem (b "li") [] [Text (b "C")]]]])) = blank_comments (Elem (b "body") [] [Elem (b "div") [] [Elem (b "ul") [] [Elem (b "li") [] [Text (b "A")]; Elem (b "li") [] [Text (b "B")]; Elem (b "li") [] [Text (b "C")]]]]).
Proof. vm_compute. reflexivity. Qed.
Example items_1 : blank_comments (move_list_items (Elem (b "body") [] [Elem (b "ul") [] [Elem (b "li") [] [Text (b "A")]; Text (b "B")]])) = blank_comments (Elem (b "body") [] [Elem (b "ul") [] [Elem (b "li") [] [Text (b "A"); Text (b "B")]]]).
Proof. vm_compute. reflexivity. Qed.
Example items_2 : blank_comments (move_list_items (Elem (b "body") [] [Elem (b "ul") [] [Elem (b "li") [] [Text (b "A")]; Elem (b "div") [] [Text (b "B")]]])) = blank_comments (Elem (b "body") [] [Elem (b "ul") [] [Elem (b "li") [] [Text (b "A"); Elem (b "div") [] [Text (b "B")]]]]).
Proof. vm_compute. reflexivity. Qed.
Example items_3 : blank_comments (move_list_items (Elem (b "body") [] [Elem (b "ul") [] [Elem (b "li") [] [Text (b "A")]; Elem (b "ol") [] [Elem (b "li") [] [Text (b "B")]]]])) = blank_comments (Elem (b "body") [] [Elem (b "ul") [] [Elem (b "li") [] [Text (b "A"); Elem (b "ol") [] [Elem (b "li") [] [Text (b "B")]]]]]).
Proof. vm_compute. reflexivity. Qed.
Example items_4 : blank_comments (move_list_items (Elem (b "body") [] [Elem (b "ul") [] [Elem (b "span") [] [Text (b "A")]; Elem (b "span") [] [Text (b "B")]]])) = blank_comments (Elem (b "body") [] [Elem (b "ul") [] [Elem (b "li") [] [Elem (b "span") [] [Text (b "A")]; Elem (b "span") [] [Text (b "B")]]]]).
Proof. vm_compute. reflexivity. Qed.
Example items_5 : blank_comments (move_list_items (Elem (b "body") [] [Elem (b "ol") [] [Text (b "
	"); Elem (b "li") [] [Text (b "One")]; Text (b "
	"); Elem (b "li") [] [Text (b "Two")]; Text (b "
	"); Elem (b "ol") [] [Text (b "
		"); Elem (b "li") [] [Text (b "Two point one")]; Text (b "
		"); Elem (b "li") [] [Text (b "Two point two")]; Text (b "
	")]; Text (b "
")]])) = blank_comments (Elem (b "body") [] [Elem (b "ol") [] [Text (b "
	"); Elem (b "li") [] [Text (b "One")]; Text (b "
	"); Elem (b "li") [] [Text (b "Two"); Elem (b "ol") [] [Text (b "
		"); Elem (b "li") [] [Text (b "Two point one")]; Text (b "
		"); Elem (b "li") [] [Text (b "Two point two")]; Text (b "
	")]]; Text (b "
	"); Text (b "
")]]).
Proof. vm_compute. reflexivity. Qed.
Example redundant_0 : blank_comments (remove_redundant cls_bi (Elem (b "body") [] [Elem (b "span") [] [Text (b "a")]; Text (b " "); Elem (b "span") [] [Text (b "b")]])) = blank_comments (Elem (b "body") [] [Elem (b "span") [] [Text (b "a")]; Text (b " "); Elem (b "span") [] [Text (b "b")]]).
Proof. vm_compute. reflexivity. Qed.
Example redundant_1 : blank_comments (remove_redundant cls_bi (Elem (b "body") [] [Elem (b "strong") [] [Text (b "a")]])) = blank_comments (Elem (b "body") [] [Elem (b "strong") [] [Text (b "a")]]).
Proof. vm_compute. reflexivity. Qed.
Example redundant_2 : blank_comments (remove_redundant cls_bi (Elem (b "body") [] [Elem (b "strong") [] [Elem (b "strong") [] [Text (b "a")]]])) = blank_comments (Elem (b "body") [] [Elem (b "strong") [] [Text (b "a")]]).
Proof. vm_compute. reflexivity. Qed.
Example redundant_3 : blank_comments (remove_redundant cls_bi (Elem (b "body") [] [Elem (b "strong") [] [Elem (b "strong") [] [Text (b "a")]; Text (b " b "); Elem (b "strong") [] [Elem (b "strong") [] [Text (b "c")]]]])) = blank_comments (Elem (b "body") [] [Elem (b "strong") [] [Text (b "a"); Text (b " b "); Text (b "c")]]).
Proof. vm_compute. reflexivity. Qed.
Example redundant_4 : blank_comments (remove_redundant cls_bi (Elem (b "body") [] [Elem (b "strong") [] [Text (b "A"); Elem (b "em") [] [Text (b "B")]; Text (b "C")]])) = blank_comments (Elem (b "body") [] [Elem (b "strong") [] [Text (b "A"); Elem (b "em") [] [Text (b "B")]; Text (b "C")]]).
Proof. vm_compute. reflexivity. Qed.
Example redundant_5 : blank_comments (remove_redundant cls_bi (Elem (b "body") [] [Elem (b "i") [] [Text (b "A"); Elem (b "em") [] [Text (b "B")]; Text (b "C")]])) = blank_comments (Elem (b "body") [] [Elem (b "i") [] [Text (b "A"); Text (b "B"); Text (b "C")]]).
Proof. vm_compute. reflexivity. Qed.
Example span_0 : blank_comments (rename_fake_spans (Elem (b "body") [] [Elem (b "p") [] [Text (b "a")]; Text (b " "); Elem (b "p") [] [Text (b "b")]])) = blank_comments (Elem (b "body") [] [Elem (b "p") [] [Text (b "a")]; Text (b " "); Elem (b "p") [] [Text (b "b")]]).
Proof. vm_compute. reflexivity. Qed.
Example span_1 : blank_comments (rename_fake_spans (Elem (b "body") [] [Elem (b "span") [] [Text (b "a")]])) = blank_comments (Elem (b "body") [] [Elem (b "span") [] [Text (b "a")]]).
Proof. vm_compute. reflexivity. Qed.
Example span_2 : blank_comments (rename_fake_spans (Elem (b "body") [] [Elem (b "span") [] [Elem (b "a") [] [Text (b "link content")]]])) = blank_comments (Elem (b "body") [] [Elem (b "span") [] [Elem (b "a") [] [Text (b "link content")]]]).
Proof. vm_compute. reflexivity. Qed.
Example span_3 : blank_comments (rename_fake_spans (Elem (b "body") [] [Elem (b "span") [] [Elem (b "p") [] [Text (b "paragraph content")]]])) = blank_comments (Elem (b "body") [] [Elem (b "div") [] [Elem (b "p") [] [Text (b "paragraph content")]]]).
Proof. vm_compute. reflexivity. Qed.
Example span_4 : blank_comments (rename_fake_spans (Elem (b "body") [] [Elem (b "span") [] [Elem (b "span") [] [Elem (b "p") [] [Text (b "paragraph content")]]]])) = blank_comments (Elem (b "body") [] [Elem (b "div") [] [Elem (b "div") [] [Elem (b "p") [] [Text (b "paragraph content")]]]]).
Proof. vm_compute. reflexivity. Qed.
Example swap_hl_0 : blank_comments (swap_tags (named [b "a"]) is_h (Elem (b "body") [] [Elem (b "a") [((b "href"), (b "/page.html"))] [Elem (b "h3") [] [Text (b "Heading")]]])) = blank_comments (Elem (b "body") [] [Elem (b "h3") [] [Elem (b "a") [((b "href"), (b "/page.html"))] [Text (b "Heading")]]]).
Proof. vm_compute. reflexivity. Qed.
Example swap_hl_1 : blank_comments (swap_tags (named [b "a"]) is_h (Elem (b "body") [] [Elem (b "a") [((b "href"), (b "/page.html"))] [Text (b "
	"); Elem (b "h3") [] [Text (b "Heading")]; Text (b "
")]])) = blank_comments (Elem (b "body") [] [Elem (b "h3") [] [Text (b "
	"); Elem (b "a") [((b "href"), (b "/page.html"))] [Text (b "Heading")]; Text (b "
")]]).
Proof. vm_compute. reflexivity. Qed.
Example swap_hl_2 : blank_comments (swap_tags (named [b "a"]) is_h (Elem (b "body") [] [Elem (b "a") [((b "href"), (b "/reisen"))] [Text (b "
	"); Elem (b "h3") [] [Elem (b "span") [] [Text (b "Reiseinspiration")]; Elem (b "span") [] [Text (b "Beste Orte in Berlin")]]; Text (b "
")]])) = blank_comments (Elem (b "body") [] [Elem (b "h3") [] [Text (b "
	"); Elem (b "a") [((b "href"), (b "/reisen"))] [Elem (b "span") [] [Text (b "Reiseinspiration")]; Elem (b "span") [] [Text (b "Beste Orte in Berlin")]]; Text (b "
")]]).
Proof. vm_compute. reflexivity. Qed.
Example swap_hl_3 : blank_comments (swap_tags (named [b "a"]) is_h (Elem (b "body") [] [Elem (b "a") [((b "href"), (b "/page.html"))] [Text (b "
	"); Elem (b "h3") [] [Text (b "Heading")]; Text (b "
	"); Elem (b "p") [] [Text (b "Some other content")]; Text (b "
")]])) = blank_comments (Elem (b "body") [] [Elem (b "a") [((b "href"), (b "/page.html"))] [Text (b "
	"); Elem (b "h3") [] [Text (b "Heading")]; Text (b "
	"); Elem (b "p") [] [Text (b "Some other content")]; Text (b "
")]]).
Proof. vm_compute. reflexivity. Qed.
Example swap_pc_0 : blank_comments (swap_tags (named [b "code"]) (named [b "pre"]) (Elem (b "body") [] [Elem (b "div") [] [Elem (b "pre") [] [Text (b "content")]]])) = blank_comments (Elem (b "body") [] [Elem (b "div") [] [Elem (b "pre") [] [Text (b "content")]]]).
Proof. vm_compute. reflexivity. Qed.
Example swap_pc_1 : blank_comments (swap_tags (named [b "code"]) (named [b "pre"]) (Elem (b "body") [] [Elem (b "p") [] []; Elem (b "pre") [] [Text (b "content")]; Elem (b "p") [] []])) = blank_comments (Elem (b "body") [] [Elem (b "p") [] []; Elem (b "pre") [] [Text (b "content")]; Elem (b "p") [] []]).
Proof. vm_compute. reflexivity. Qed.
Example swap_pc_2 : blank_comments (swap_tags (named [b "code"]) (named [b "pre"]) (Elem (b "body") [] [Elem (b "div") [] [Elem (b "code") [] [Text (b "content")]]])) = blank_comments (Elem (b "body") [] [Elem (b "div") [] [Elem (b "code") [] [Text (b "content")]]]).
Proof. vm_compute. reflexivity. Qed.
Example swap_pc_3 : blank_comments (swap_tags (named [b "code"]) (named [b "pre"]) (Elem (b "body") [] [Elem (b "p") [] [Elem (b "code") [] [Text (b "content")]]])) = blank_comments (Elem (b "body") [] [Elem (b "p") [] [Elem (b "code") [] [Text (b "content")]]]).
Proof. vm_compute. reflexivity. Qed.
Example swap_pc_4 : blank_comments (swap_tags (named [b "code"]) (named [b "pre"]) (Elem (b "body") [] [Elem (b "div") [] [Elem (b "pre") [] [Elem (b "code") [] [Text (b "content")]]]])) = blank_comments (Elem (b "body") [] [Elem (b "div") [] [Elem (b "pre") [] [Elem (b "code") [] [Text (b "content")]]]]).
Proof. vm_compute. reflexivity. Qed.
Example swap_pc_5 : blank_comments (swap_tags (named [b "code"]) (named [b "pre"]) (Elem (b "body") [] [Elem (b "div") [] [Elem (b "code") [] [Elem (b "pre") [] [Text (b "content")]]]])) = blank_comments (Elem (b "body") [] [Elem (b "div") [] [Elem (b "pre") [] [Elem (b "code") [] [Text (b "content")]]]]).
Proof. vm_compute. reflexivity. Qed.
Example swap_pc_6 : blank_comments (swap_tags (named [b "code"]) (named [b "pre"]) (Elem (b "body") [] [Elem (b "p") [] [Elem (b "code") [] []]; Elem (b "pre") [] [Elem (b "code") [] [Text (b "content")]]; Elem (b "p") [] []])) = blank_comments (Elem (b "body") [] [Elem (b "p") [] [Elem (b "code") [] []]; Elem (b "pre") [] [Elem (b "code") [] [Text (b "content")]]; Elem (b "p") [] []]).
Proof. vm_compute. reflexivity. Qed.
Example swap_pc_7 : blank_comments (swap_tags (named [b "code"]) (named [b "pre"]) (Elem (b "body") [] [Elem (b "p") [] [Text (b "before"); Elem (b "code") [] [Text (b "a")]]; Elem (b "pre") [] [Elem (b "code") [] [Text (b "b")]]; Elem (b "code") [] [Text (b "c")]; Text (b "after"); Elem (b "p") [] []])) = blank_comments (Elem (b "body") [] [Elem (b "p") [] [Text (b "before"); Elem (b "code") [] [Text (b "a")]]; Elem (b "pre") [] [Elem (b "code") [] [Text (b "b")]]; Elem (b "code") [] [Text (b "c")]; Text (b "after"); Elem (b "p") [] []]).
Proof. vm_compute. reflexivity. Qed.
Example swap_sl_0 : blank_comments (swap_tags is_bi (named [b "a"]) (Elem (b "body") [] [Elem (b "p") [] [Text (b "before"); Elem (b "strong") [] [Elem (b "a") [((b "href"), (b "/"))] [Text (b "middle")]]; Text (b "after")]])) = blank_comments (Elem (b "body") [] [Elem (b "p") [] [Text (b "before"); Elem (b "a") [((b "href"), (b "/"))] [Elem (b "strong") [] [Text (b "middle")]]; Text (b "after")]]).
Proof. vm_compute. reflexivity. Qed.
Example swap_sl_1 : blank_comments (swap_tags is_bi (named [b "a"]) (Elem (b "body") [] [Elem (b "p") [] [Text (b "before"); Elem (b "strong") [] [Elem (b "span") [] []; Elem (b "a") [((b "href"), (b "/"))] [Text (b "with empty span")]; Elem (b "span") [] []]; Text (b "after")]])) = blank_comments (Elem (b "body") [] [Elem (b "p") [] [Text (b "before"); Elem (b "strong") [] [Elem (b "span") [] []; Elem (b "a") [((b "href"), (b "/"))] [Text (b "with empty span")]; Elem (b "span") [] []]; Text (b "after")]]).
Proof. vm_compute. reflexivity. Qed.
Example swap_sl_2 : blank_comments (swap_tags is_bi (named [b "a"]) (Elem (b "body") [] [Elem (b "p") [] [Text (b "before"); Elem (b "strong") [] [Elem (b "span") [] [Text (b "  ")]; Elem (b "a") [((b "href"), (b "/"))] [Text (b "with empty span")]; Elem (b "span") [] [Text (b "  ")]]; Text (b "after")]])) = blank_comments (Elem (b "body") [] [Elem (b "p") [] [Text (b "before"); Elem (b "strong") [] [Elem (b "span") [] [Text (b "  ")]; Elem (b "a") [((b "href"), (b "/"))] [Text (b "with empty span")]; Elem (b "span") [] [Text (b "  ")]]; Text (b "after")]]).
Proof. vm_compute. reflexivity. Qed.
Example swap_sl_3 : blank_comments (swap_tags is_bi (named [b "a"]) (Elem (b "body") [] [Elem (b "p") [] [Text (b "before"); Elem (b "strong") [] [Elem (b "span") [] [Elem (b "span") [] [Text (b "  ")]; Text (b " ")]; Elem (b "a") [((b "href"), (b "/"))] [Text (b "with empty span")]; Elem (b "span") [] [Elem (b "span") [] [Text (b "  ")]; Text (b " ")]]; Text (b "after")]])) = blank_comments (Elem (b "body") [] [Elem (b "p") [] [Text (b "before"); Elem (b "strong") [] [Elem (b "span") [] [Elem (b "span") [] [Text (b "  ")]; Text (b " ")]; Elem (b "a") [((b "href"), (b "/"))] [Text (b "with empty span")]; Elem (b "span") [] [Elem (b "span") [] [Text (b "  ")]; Text (b " ")]]; Text (b "after")]]).
Proof. vm_compute. reflexivity. Qed.
Example collapse_0 : blank_comments (collapse is_block_name (Doc [Elem (b "html") [] [Elem (b "head") [] []; Elem (b "body") [] [Elem (b "p") [] [Text (b "Foo   bar")]; Text (b "  "); Elem (b "p") [] [Text (b "Words")]; Text (b " ")]]])) = blank_comments (Doc [Elem (b "html") [] [Elem (b "head") [] []; Elem (b "body") [] [Elem (b "p") [] [Text (b "Foo bar")]; Elem (b "p") [] [Text (b "Words")]]]]).
Proof. vm_compute. reflexivity. Qed.
Example collapse_1 : blank_comments (collapse is_block_name (Doc [Elem (b "html") [] [Elem (b "head") [] []; Elem (b "body") [] [Elem (b "p") [] [Text (b "Some"); Elem (b "strong") [] [Text (b "Text")]]]]])) = blank_comments (Doc [Elem (b "html") [] [Elem (b "head") [] []; Elem (b "body") [] [Elem (b "p") [] [Text (b "Some"); Elem (b "strong") [] [Text (b "Text")]]]]]).
Proof. vm_compute. reflexivity. Qed.
Example collapse_2 : blank_comments (collapse is_block_name (Doc [Elem (b "html") [] [Elem (b "head") [] []; Elem (b "body") [] [Elem (b "p") [] [Text (b "Some "); Elem (b "strong") [] [Text (b " text. ")]]]]])) = blank_comments (Doc [Elem (b "html") [] [Elem (b "head") [] []; Elem (b "body") [] [Elem (b "p") [] [Text (b "Some "); Elem (b "strong") [] [Text (b "text.")]]]]]).
Proof. vm_compute. reflexivity. Qed.
Example collapse_3 : blank_comments (collapse is_block_name (Doc [Elem (b "html") [] [Elem (b "head") [] []; Elem (b "body") [] [Elem (b "p") [] [Text (b "Some"); Elem (b "strong") [] [Text (b " text. ")]]]]])) = blank_comments (Doc [Elem (b "html") [] [Elem (b "head") [] []; Elem (b "body") [] [Elem (b "p") [] [Text (b "Some"); Elem (b "strong") [] [Text (b " text.")]]]]]).
Proof. vm_compute. reflexivity. Qed.
Example collapse_4 : blank_comments (collapse is_block_name (Doc [Elem (b "html") [] [Elem (b "head") [] []; Elem (b "body") [] [Elem (b "p") [] [Text (b "Some"); Elem (b "strong") [] [Text (b "   text.   ")]]]]])) = blank_comments (Doc [Elem (b "html") [] [Elem (b "head") [] []; Elem (b "body") [] [Elem (b "p") [] [Text (b "Some"); Elem (b "strong") [] [Text (b " text.")]]]]]).
Proof. vm_compute. reflexivity. Qed.
Example collapse_5 : blank_comments (collapse is_block_name (Doc [Elem (b "html") [] [Elem (b "head") [] []; Elem (b "body") [] [Elem (b "p") [] [Elem (b "strong") [] [Text (b "   text.   ")]]]]])) = blank_comments (Doc [Elem (b "html") [] [Elem (b "head") [] []; Elem (b "body") [] [Elem (b "p") [] [Elem (b "strong") [] [Text (b "text.")]]]]]).
Proof. vm_compute. reflexivity. Qed.
Example collapse_6 : blank_comments (collapse is_block_name (Doc [Elem (b "html") [] [Elem (b "head") [] []; Elem (b "body") [] [Elem (b "p") [] [Elem (b "strong") [] [Text (b "  a  ")]; Elem (b "img") [((b "src"), (b "/img.png"))] []; Elem (b "strong") [] [Text (b "  b  ")]]]]])) = blank_comments (Doc [Elem (b "html") [] [Elem (b "head") [] []; Elem (b "body") [] [Elem (b "p") [] [Elem (b "strong") [] [Text (b "a ")]; Elem (b "img") [((b "src"), (b "/img.png"))] []; Elem (b "strong") [] [Text (b " b")]]]]]).
Proof. vm_compute. reflexivity. Qed.
Example collapse_7 : blank_comments (collapse is_block_name (Doc [Elem (b "html") [] [Elem (b "head") [] []; Elem (b "body") [] [Elem (b "p") [] [Elem (b "span") [] [Text (b "(Text A)")]; Elem (b "span") [] [Text (b "(Text B)")]]]]])) = blank_comments (Doc [Elem (b "html") [] [Elem (b "head") [] []; Elem (b "body") [] [Elem (b "p") [] [Elem (b "span") [] [Text (b "(Text A)")]; Elem (b "span") [] [Text (b "(Text B)")]]]]]).
Proof. vm_compute. reflexivity. Qed.
Example collapse_8 : blank_comments (collapse is_block_name (Doc [Elem (b "html") [] [Elem (b "head") [] []; Elem (b "body") [] [Elem (b "p") [] [Text (b "
"); Elem (b "span") [] [Text (b "(Text A)")]; Text (b "
"); Elem (b "span") [] [Text (b "(Text B)")]; Text (b "
")]]]])) = blank_comments (Doc [Elem (b "html") [] [Elem (b "head") [] []; Elem (b "body") [] [Elem (b "p") [] [Elem (b "span") [] [Text (b "(Text A)")]; Text (b " "); Elem (b "span") [] [Text (b "(Text B)")]; Text []]]]]).
Proof. vm_compute. reflexivity. Qed.
Example collapse_9 : blank_comments (collapse is_block_name (Doc [Elem (b "html") [] [Elem (b "head") [] []; Elem (b "body") [] [Elem (b "div") [] [Text (b "
				"); Elem (b "span") [] [Text (b "A")]; Text (b "
				"); Elem (b "span") [] [Text (b "B")]; Text (b "
			")]; Text (b "
			"); Elem (b "div") [] [Text (b "
				"); Elem (b "span") [] [Text (b "C")]; Text (b "
			")]; Text (b "
			")]]])) = blank_comments (Doc [Elem (b "html") [] [Elem (b "head") [] []; Elem (b "body") [] [Elem (b "div") [] [Elem (b "span") [] [Text (b "A")]; Text (b " "); Elem (b "span") [] [Text (b "B")]; Text []]; Elem (b "div") [] [Elem (b "span") [] [Text (b "C")]; Text []]]]]).
Proof. vm_compute. reflexivity. Qed.
Example collapse_10 : blank_comments (collapse is_block_name (Doc [Elem (b "html") [] [Elem (b "head") [] []; Elem (b "body") [] [Elem (b "p") [] [Elem (b "code") [] [Text (b " ")]; Text (b "aaa")]]]])) = blank_comments (Doc [Elem (b "html") [] [Elem (b "head") [] []; Elem (b "body") [] [Elem (b "p") [] [Elem (b "code") [] [Text (b " ")]; Text (b "aaa")]]]]).
Proof. vm_compute. reflexivity. Qed.
Example collapse_11 : blank_comments (collapse is_block_name (Doc [Elem (b "html") [] [Elem (b "head") [] []; Elem (b "body") [] [Elem (b "h2") [] [Text (b "
			  "); Elem (b "div") [] [Text (b "
				Browse
				"); Elem (b "ul") [] [Text (b "
				  "); Elem (b "li") [] [Elem (b "a") [((b "href"), (b "/go"))] [Text (b "go")]]; Text (b "
				")]; Text (b "
				or "); Elem (b "a") [((b "href"), (b "/ask"))] [Text (b "ask")]; Text (b ".
			  ")]; Text (b "
			")]; Text (b "
			")]]])) = blank_comments (Doc [Elem (b "html") [] [Elem (b "head") [] []; Elem (b "body") [] [Elem (b "h2") [] [Elem (b "div") [] [Text (b "Browse"); Elem (b "ul") [] [Elem (b "li") [] [Elem (b "a") [((b "href"), (b "/go"))] [Text (b "go")]]]; Text (b "or "); Elem (b "a") [((b "href"), (b "/ask"))] [Text (b "ask")]; Text (b ".")]]]]]).
Proof. vm_compute. reflexivity. Qed.
Example collapse_12 : blank_comments (collapse is_block_name (Doc [Elem (b "html") [] [Elem (b "head") [] []; Elem (b "body") [] [Elem (b "h1") [] [Text (b "   Hello 
				"); Elem (b "span") [] [Text (b " World!")]; Text (b "	  ")]]]])) = blank_comments (Doc [Elem (b "html") [] [Elem (b "head") [] []; Elem (b "body") [] [Elem (b "h1") [] [Text (b "Hello "); Elem (b "span") [] [Text (b "World!")]; Text []]]]]).
Proof. vm_compute. reflexivity. Qed.
Example collapse_13 : blank_comments (collapse is_block_name (Doc [Elem (b "html") [] [Elem (b "head") [] []; Elem (b "body") [] [Text (b "
	"); Elem (b "div") [] [Text (b "  Hello  ")]; Text (b "

   "); Elem (b "div") [] [Text (b "  World!  ")]; Text (b "  
")]]])) = blank_comments (Doc [Elem (b "html") [] [Elem (b "head") [] []; Elem (b "body") [] [Elem (b "div") [] [Text (b "Hello")]; Elem (b "div") [] [Text (b "World!")]]]]).
Proof. vm_compute. reflexivity. Qed.
Example collapse_14 : blank_comments (collapse is_block_name (Doc [Elem (b "html") [] [Elem (b "head") [] []; Elem (b "body") [] [Elem (b "p") [] [Text (b "before"); Comment (b " my comment "); Text (b "after")]]]])) = blank_comments (Doc [Elem (b "html") [] [Elem (b "head") [] []; Elem (b "body") [] [Elem (b "p") [] [Text (b "before"); Comment []; Text (b "after")]]]]).
Proof. vm_compute. reflexivity. Qed.
Example collapse_15 : blank_comments (collapse is_block_name (Doc [Elem (b "html") [] [Elem (b "head") [] []; Elem (b "body") [] [Elem (b "p") [] [Text (b "before  "); Comment (b " my comment "); Text (b "  after")]]]])) = blank_comments (Doc [Elem (b "html") [] [Elem (b "head") [] []; Elem (b "body") [] [Elem (b "p") [] [Text (b "before "); Comment []; Text (b "after")]]]]).
Proof. vm_compute. reflexivity. Qed.
Example collapse_16 : blank_comments (collapse is_block_name (Doc [Elem (b "html") [] [Elem (b "head") [] []; Elem (b "body") [] [Elem (b "div") [] [Text (b "before"); Comment (b " my comment "); Text (b "after")]]]])) = blank_comments (Doc [Elem (b "html") [] [Elem (b "head") [] []; Elem (b "body") [] [Elem (b "div") [] [Text (b "before"); Comment []; Text (b "after")]]]]).
Proof. vm_compute. reflexivity. Qed.
Example collapse_17 : blank_comments (collapse is_block_name (Doc [Elem (b "html") [] [Elem (b "head") [] []; Elem (b "body") [] [Elem (b "div") [] [Text (b "before  "); Comment (b " my comment "); Text (b "  after")]]]])) = blank_comments (Doc [Elem (b "html") [] [Elem (b "head") [] []; Elem (b "body") [] [Elem (b "div") [] [Text (b "before "); Comment []; Text (b "after")]]]]).
Proof. vm_compute. reflexivity. Qed.
Example merge_text_0 : merge_text (Elem (b "div") [] [Text (b "a"); Text (b "b")]) = Elem (b "div") [] [Text (b "ab")].
Proof. vm_compute. reflexivity. Qed.
