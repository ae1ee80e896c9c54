(** C73: the spaces around emphasis that starts or ends with inline code (internal/domutils/add_space.go). *)
From Coq Require Import List NArith Bool String.
From Verif Require Import Bytes Dom DomUtils CommonMark SpecSpace SpaceFacts SpaceFacts2 SpecSpace2 SpaceFacts3 SpaceFacts4.
Import ListNotations.
Open Scope list_scope.

(** C73. For emphasis named [l]: at most one space on each side, nothing is lost. *)
Theorem c73_few_spaces : forall l inner n,
  (text_bytes n <= text_bytes (add_space_root (named l) inner n) <= text_bytes n + 2 * count_named l n)%nat.
Proof. exact few_spaces. Qed.
Print Assumptions c73_few_spaces.
(** A document without code is left alone. *)
Theorem c73_unneeded : forall l m n, count_named m n = O -> add_space_root (named l) (named m) n = n.
Proof. exact space_unneeded. Qed.
Print Assumptions c73_unneeded.
(** Emphasis that starts and ends with code gets its two spaces, in the texts next to it; everything else stays. *)
Theorem c73_both_sides : forall l m pre u x a k1 r q k2 v post,
  name_in l x = true -> ~ In (b "span") m -> k1 :: r = q ++ [k2] -> named m k1 = true -> named m k2 = true ->
  total (count_named l) pre = O -> total (count_named l) (k1 :: r) = O -> total (count_named l) post = O ->
  add_space_root (named l) (named m) (Doc (pre ++ Text u :: Elem x a (k1 :: r) :: Text v :: post))
  = Doc (pre ++ Text (u ++ [32%N]) :: Elem x a (k1 :: r) :: Text (32%N :: v) :: post).
Proof. exact both_sides. Qed.
Print Assumptions c73_both_sides.
(** The hypotheses are met; the code does this with the names of the commonmark plugin. *)
Example c73_example :
  let code := Elem (b "code") [] [Text (b "c")] in
  let doc := Doc ([Elem (b "p") [] []] ++ Text (b "a") :: Elem (b "em") [] [code] :: Text (b "z") :: [Text (b "q")]) in
  add_space_root is_bold_or_italic is_inline_code_node doc
  = Doc [Elem (b "p") [] []; Text (b "a "); Elem (b "em") [] [code]; Text (b " z"); Text (b "q")]
  /\ ~ In (b "span") inline_code_names /\ [code] = [] ++ [code] /\ named inline_code_names code = true
  /\ count_named (bold_names ++ italic_names) doc = 1%nat /\ count_named inline_code_names doc = 1%nat
  /\ text_bytes (add_space_root is_bold_or_italic is_inline_code_node doc) = (text_bytes doc + 2)%nat.
Proof.
  repeat split; try (vm_compute; reflexivity). intros I. repeat (destruct I as [I|I]; [discriminate I|]). destruct I.
Qed.

(** Where no span and no missing sibling is in the way, any number of emphasised elements anywhere in the document: every text gets the spaces that its own
    siblings ask for, and nothing else changes. *)
Theorem c73_siblings : forall l m ks,
  spans_apart l m (Doc ks) = true -> add_space_root (named l) (named m) (Doc ks) = spaced l m (Doc ks).
Proof. exact exact_spaces. Qed.
Print Assumptions c73_siblings.
(** Emphasis in paragraphs and in emphasis, with code at one edge or both, next to each other and next to an image; a span
    elsewhere. *)
Definition c73_code : node := Elem (b "code") [] [Text (b "c")].
Definition c73_doc : node :=
  Doc [Elem (b "p") [] [Text (b "a"); Elem (b "em") [] [c73_code; Text (b "x"); Elem (b "b") [] [Text (b "y"); c73_code]; Text (b "z")];
                        Text (b "m"); Elem (b "strong") [] [c73_code]; Elem (b "em") [] [c73_code]; Text (b "n");
                        Elem (b "span") [] [Text (b "s")]];
       Elem (b "p") [] [Elem (b "img") [] []; Elem (b "i") [] [c73_code; c73_code]; Text (b "q"); Elem (b "i") [] [Text (b "no code")]]].
Example c73_exact_example :
  spans_apart (bold_names ++ italic_names) inline_code_names c73_doc = true /\
  add_space_root is_bold_or_italic is_inline_code_node c73_doc = spaced (bold_names ++ italic_names) inline_code_names c73_doc /\
  spaced (bold_names ++ italic_names) inline_code_names c73_doc =
  Doc [Elem (b "p") [] [Text (b "a "); Elem (b "em") [] [c73_code; Text (b "x"); Elem (b "b") [] [Text (b "y"); c73_code]; Text (b " z")];
                        Text (b "m "); Elem (b "strong") [] [c73_code]; Elem (b "em") [] [c73_code]; Text (b " n");
                        Elem (b "span") [] [Text (b "s")]];
       Elem (b "p") [] [Elem (b "img") [] []; Elem (b "i") [] [c73_code; c73_code]; Text (b " q"); Elem (b "i") [] [Text (b "no code")]]].
Proof. repeat split; vm_compute; reflexivity. Qed.

(** The exact result for every document: each text gets, on each side, one space for every emphasis that starts (ends) right there
    and starts (ends) with code, where tags of spans do not count; nothing else changes. *)
Theorem c73_exact : forall l m n, tokens (add_space_root (named l) (named m) n) = respaced l m [] (tokens n).
Proof. exact exact_tokens. Qed.
Print Assumptions c73_exact.
(** The tags and texts determine the document. *)
Theorem c73_tokens : forall n n', tokens n = tokens n' -> n = n'.
Proof. exact tokens_same. Qed.
Print Assumptions c73_tokens.
(** Emphasis at the start of a paragraph, spans around the texts and around the code, an empty span *)
Definition c73_spans : node :=
  Doc [Text (b "a"); Elem (b "p") [] [Elem (b "em") [] [Elem (b "span") [] []; Elem (b "span") [] [c73_code]];
                                      Elem (b "span") [] [Elem (b "span") [] [Text (b "t"); Text (b "u")]]; Elem (b "b") [] [Elem (b "i") [] [c73_code]]];
       Text (b "z")].
Example c73_spans_example :
  let doc := Doc [Text (b "a "); Elem (b "p") [] [Elem (b "em") [] [Elem (b "span") [] []; Elem (b "span") [] [c73_code]];
                                      Elem (b "span") [] [Elem (b "span") [] [Text (b " t"); Text (b "u ")]]; Elem (b "b") [] [Elem (b "i") [] [c73_code]]];
       Text (b " z")] in
  add_space_root is_bold_or_italic is_inline_code_node c73_spans = doc /\
  respaced (bold_names ++ italic_names) inline_code_names [] (tokens c73_spans) = tokens doc.
Proof. split; vm_compute; reflexivity. Qed.
