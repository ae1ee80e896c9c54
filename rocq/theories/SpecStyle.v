(** Independent specification of what formats a character (C63). *)
From Coq Require Import List NArith Bool String.
From Verif Require Import Bytes Dom SpecDom.
Import ListNotations.
Open Scope N_scope.
Open Scope list_scope.

(** The characters below a node, in document order, each with the answer to: does it stand inside an element with one of [names]?
    Elements with a name of [skip] are left out; only the characters of [keep] are listed. *)
Fixpoint inside (skip names : list bytes) (keep : N -> bool) (i : bool) (n : node) : list (N * bool) :=
  match n with
  | Text d => map (fun c => (c, i)) (filter keep d)
  | Elem x _ ks => if name_in skip x then [] else flat_map (inside skip names keep (i || name_in names x)) ks
  | Doc ks => flat_map (inside skip names keep i) ks
  | _ => []
  end.
(** Of a document as its reader sees it, and of a prepared document (from which the hidden elements are gone) *)
Definition seen_inside (names : list bytes) (n : node) : list (N * bool) := inside hidden_names names unquoted false n.
Definition now_inside (names : list bytes) (n : node) : list (N * bool) := inside [] names unquoted false n.
(** The same characters in the same order; what was inside is still inside. *)
Definition nothing_lost (a c : list (N * bool)) : Prop :=
  Forall2 (fun u v => fst u = fst v /\ (snd u = true -> snd v = true)) a c.

(** The names that mark up a text in the same way *)
Definition emphasis_group : list bytes := map b ["strong"; "b"; "em"; "i"]%string.
Definition code_group : list bytes := map b ["code"; "var"; "samp"; "kbd"; "tt"]%string.
Definition strike_group : list bytes := map b ["del"; "s"; "strike"]%string.
Definition heading_group : list bytes := map b ["h1"; "h2"; "h3"; "h4"; "h5"; "h6"]%string.
Definition link_group : list bytes := [b "a"].
(** Elements that only group others; inside a heading or a paragraph text they are dissolved. *)
Definition structure_names : list bytes := map b ["span"; "#document"; "html"; "head"; "body"; "blockquote"; "ul"; "ol"; "li"]%string.
Definition all_of (g names : list bytes) : bool := forallb (name_in names) g.
Definition none_of (g names : list bytes) : bool := forallb (fun x => negb (name_in names x)) g.
(** A kind of formatting: whole groups only; a heading counts only together with bold, since a heading inside an
    inline element is turned into bold text, and a pre only together with code. *)
Definition formatting (names : list bytes) : bool :=
  none_of structure_names names
  && forallb (fun g => all_of g names || none_of g names) [emphasis_group; code_group; strike_group]
  && (name_in names (b "strong") || none_of heading_group names)
  && (name_in names (b "code") || negb (name_in names (b "pre"))).

(** No element of these names occurs (hidden elements do not count). *)
Fixpoint has_none (g : list bytes) (n : node) : bool :=
  match n with
  | Elem x _ ks => name_in hidden_names x || (negb (name_in g x) && forallb (has_none g) ks)
  | Doc ks => forallb (has_none g) ks
  | _ => true
  end.
(** Each kind of inline formatting is either part of the class or does not occur in the document. *)
Definition alone (names : list bytes) (n : node) : bool :=
  none_of (b "div" :: structure_names) names
  && forallb (fun g => all_of g names || (none_of g names && has_none g n))
       [emphasis_group ++ heading_group; code_group ++ [b "pre"]; strike_group].
