(** Theorems about the visible characters of a document (C44). *)
From Coq Require Import List NArith ZArith Bool String.
From Verif Require Import Bytes TextUtils Escape Dom RenderText SpecDom Engine CommonMark Table SpecEngine SpecPipeline LetterFacts2.
Import ListNotations.
Open Scope N_scope.
Open Scope list_scope.

(** C44. With smart escaping and the base, commonmark and strikethrough plugins, the visible ASCII characters of the document that have no other
    spelling in markdown (in particular all letters and digits) occur in the output, all of them and in the same order. The delimiters
    for emphasis and struck text must not contain a number sign. For the table plugin the claim is false (c44_table_refuted). *)
Theorem c44_letters_survive : forall sort, sorts sort ->
  forall keep, (forall c, keep c = true -> spelled c = true) ->
  forall us cfg url doc out, In UseBase us -> In (UseCommonmark cfg) us ->
  (forall c, In (UseCommonmark c) us -> ~ In 35 (em_delimiter (fill_defaults c)) /\ ~ In 35 (strong_delimiter (fill_defaults c))) ->
  (forall d, In (UseStrikethrough d) us -> d = [] \/ ~ In 35 d /\ exists c, In c d /\ graphic c = true) -> (forall os, ~ In (UseTable os) us) ->
  tidy doc = true -> invisible doc = false ->
  converts (convert_node sort (converter_with Smart us) url doc) out -> subsequence (filter keep (visible_text doc)) out.
Proof. exact conversion_letters. Qed.
Print Assumptions c44_letters_survive.
Example c44_example : let doc := Elem (b "div") [] [Elem (b "h2") [] [Text (b "C#"); Elem (b "ul") [] [Elem (b "li") [] [Text (b "x")]]];
    Elem (b "script") [] [Text (b "var")]; Elem (b "pre") [] [Elem (b "code") [] [Text (b "a < b")]];
    Elem (b "blockquote") [] [Elem (b "ol") [] [Text (b "loose"); Elem (b "li") [] [Text (b "3")]]]] in
  tidy doc = true /\ invisible doc = false /\ filter spelled (visible_text doc) = b "C#xabloose3" /\
  converts (convert_node stable_sort (converter_with Smart default_uses) (fun _ u => u) doc)
    (b "## C#x" ++ [10; 10; 96; 96; 96; 10] ++ b "a < b" ++ [10; 96; 96; 96; 10; 10] ++ b "> 1. loose" ++ [10] ++ b "> 2. 3").
Proof. vm_compute. repeat split; reflexivity. Qed.

(** The strikethrough plugin may carry a list into a heading. *)
Example c44_strike_example : let doc := Elem (b "div") [] [Elem (b "h2") [] [Text (b "C"); Elem (b "del") [] [Text (b "x")]; Elem (b "span") [] []];
    Elem (b "del") [] [Elem (b "ul") [] [Elem (b "li") [] [Text (b "a#")]]]] in
  tidy doc = true /\ invisible doc = false /\ filter spelled (visible_text doc) = b "Cxa#" /\
  converts (convert_node stable_sort (converter_with Smart (default_uses ++ [UseStrikethrough []])) (fun _ u => u) doc) (b "## C~~x~~ ~~- a#~~").
Proof. vm_compute. repeat split; reflexivity. Qed.

(** In disabled mode the heading overwrites the letter before a closing number sign. *)
Theorem c44_disabled_mode_refuted : exists doc out, tidy doc = true /\ filter spelled (visible_text doc) = b "a#" /\
  converts (convert_node stable_sort (converter_with Disabled default_uses) (fun _ u => u) doc) out /\ ~ In 97 out.
Proof.
  exists (Elem (b "h1") [] [Text (b "a#")]), (b "# \#"). vm_compute. repeat split; try reflexivity. intros [H|[H|[H|[H|[]]]]]; discriminate.
Qed.
Print Assumptions c44_disabled_mode_refuted.
(** With the table plugin a row of header cells is moved to the front: the letters change their order. *)
Theorem c44_table_refuted : exists doc out, tidy doc = true /\ visible_text doc = b "ab" /\
  converts (convert_node stable_sort (converter_with Smart (default_uses ++ [UseTable []])) (fun _ u => u) doc) out /\
  filter (fun c => (97 <=? c) && (c <=? 122)) out = b "ba".
Proof.
  exists (Elem (b "table") [] [Elem (b "tr") [] [Elem (b "td") [] [Text (b "a")]]; Elem (b "tr") [] [Elem (b "th") [] [Text (b "b")]]]).
  eexists. vm_compute. repeat split; reflexivity.
Qed.
Print Assumptions c44_table_refuted.
