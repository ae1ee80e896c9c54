(** Specification vocabulary for documents without markup (C60): texts in elements that stand for nothing in markdown. *)
From Coq Require Import List NArith Bool String.
From Coq Require Import ZArith.
From Verif Require Import Bytes Dom SpecDom Escape SpecEscape Engine CommonMark Table SpecEngine SpecPipeline.
Import ListNotations.
Open Scope N_scope.
Open Scope list_scope.

(** The elements that stand for something in markdown, with any of the bundled plugins *)
Definition markup_names : list bytes := map b
  ["strong"; "b"; "em"; "i"; "hr"; "ul"; "ol"; "pre"; "code"; "var"; "samp"; "kbd"; "tt"; "blockquote"; "h1"; "h2"; "h3"; "h4"; "h5"; "h6";
   "img"; "a"; "del"; "s"; "strike"; "table"; "#comment"]%string.
(** Only texts, of a class, in other elements; invisible nodes may be anywhere and contain anything. *)
Fixpoint markup_free (text_ok : bytes -> bool) (n : node) : bool :=
  match n with
  | Text d => text_ok d
  | Elem x _ ks => name_in hidden_names x || negb (name_in markup_names x) && forallb (markup_free text_ok) ks
  | Doc ks => forallb (markup_free text_ok) ks
  | _ => true
  end.
(** A UTF-8 text (as far as the lead byte EF goes) without the character U+F002 *)
Definition continuation (c : N) : bool := (128 <=? c) && (c <=? 191).
Fixpoint no_newline_mark (s : bytes) : bool :=
  match s with
  | [] => true
  | c :: t =>
      (if c =? 239 then match t with
                        | x :: y :: _ => continuation x && continuation y && negb ((x =? 128) && (y =? 130))
                        | _ => false
                        end
       else true) && no_newline_mark t
  end.
(** A text without ampersand, bell and U+F002 *)
Definition readable (s : bytes) : bool := no_newline_mark s && forallb (fun c => negb (c =? 38) && negb (c =? 7)) s.
(** How a reader of markdown sees a text without constructs: a backslash escape stands for the punctuation character, the
    entities for less-than and greater-than for these; everything else for itself. *)
Fixpoint read_text (skip : nat) (s : bytes) : bytes :=
  match s with
  | [] => []
  | c :: t =>
      match skip with
      | S k => read_text k t
      | O => match t with
             | d :: _ => if (c =? 92) && ascii_punct d then d :: read_text 1 t
                         else if has_prefix (b "&lt;") s then 60 :: read_text 3 t
                         else if has_prefix (b "&gt;") s then 62 :: read_text 3 t
                         else c :: read_text 0 t
             | [] => [c]
             end
      end
  end.
(** A document without markup, with texts of a class, is converted in smart mode with the base plugin and others. *)
Definition plain_run (text_ok : bytes -> bool) (sort : forall A : Type, list (Z * A) -> list (Z * A)) (us : list use) (doc : node) (out : bytes) : Prop :=
  sorts sort /\ In UseBase us /\ markup_free text_ok doc = true /\ invisible doc = false
  /\ exists url, converts (convert_node sort (converter_with Smart us) url doc) out.
(** The base plugin is registered once. *)
Definition base_once (us : list use) : Prop := exists A B, us = A ++ UseBase :: B /\ ~ In UseBase (A ++ B).
(** [A] ends in a run of tildes and backticks with a backslash before it. *)
Definition run_escaped (A : bytes) : Prop := exists A1 G, A = A1 ++ 92 :: G /\ Forall (fun c => c = 96 \/ c = 126) G.
