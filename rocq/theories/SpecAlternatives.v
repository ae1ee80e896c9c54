(** Blocks that cannot stand where they are, on the sequence of tags and texts: specification for C43. *)
From Coq Require Import List NArith Bool String.
From Verif Require Import Bytes Dom SpecSpace2 SpecRedundant.
Import ListNotations.
Open Scope list_scope.

Definition called (names : list string) (e : node) : bool := match e with Elem x _ _ => name_in (map b names) x | _ => false end.
(** Elements that Markdown has no block for inside of them *)
Definition no_block_inside : node -> bool := called
  ["hr"; "pre"; "h1"; "h2"; "h3"; "h4"; "h5"; "h6"; "#text"; "span"; "code"; "b"; "strong"; "i"; "em"; "a"; "img"; "br"]%string.
(** Elements that are blocks in Markdown *)
Definition a_block : node -> bool := called
  ["#document"; "html"; "head"; "body"; "blockquote"; "ul"; "ol"; "li"; "hr"; "pre"; "h1"; "h2"; "h3"; "h4"; "h5"; "h6"]%string.
(** The other element that is written for such a block, with the same attributes *)
Definition other (x : bytes) (e : node) : node := match e with Elem _ a _ => Elem x a [] | _ => e end.
Definition a_title : node -> bool := called ["h1"; "h2"; "h3"; "h4"; "h5"; "h6"]%string.
(** What replaces its start tag and its end tag: titles become strong with a line break behind them, quotes stand in quotation marks,
    code blocks become code, rules vanish, the others become a span. *)
Definition start_instead (e : node) : list token :=
  if a_title e then [Op (other (b "strong") e) false]
  else if called ["blockquote"]%string e then [T (32 :: 34 :: nil)%N; Op (other (b "span") e) false]
  else if called ["pre"]%string e then [Op (other (b "code") e) false]
  else if called ["hr"]%string e then []
  else [Op (other (b "span") e) false].
Definition end_instead (e : node) : list token :=
  if a_title e then [Cl (other (b "strong") e) false; Op (Elem (b "br") [] []) false; Cl (Elem (b "br") [] []) false]
  else if called ["blockquote"]%string e then [Cl (other (b "span") e) false; T (34 :: 32 :: nil)%N]
  else if called ["pre"]%string e then [Cl (other (b "code") e) false]
  else if called ["hr"]%string e then []
  else [Cl (other (b "span") e) false].
(** [open] are the open elements, the innermost first. *)
Fixpoint well_placed (open : list node) (r : list token) : list token :=
  match r with
  | [] => []
  | Op e k :: r' => (if a_block e && existsb no_block_inside open then start_instead e else [Op e false]) ++ well_placed (e :: open) r'
  | Cl e k :: r' => (if a_block e && existsb no_block_inside (tl open) then end_instead e else [Cl e false]) ++ well_placed (tl open) r'
  | t :: r' => t :: well_placed open r'
  end.
