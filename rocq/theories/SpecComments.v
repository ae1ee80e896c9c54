(** The comments between lists, on the sequence of tags and texts: specification for C43. *)
From Coq Require Import List NArith Bool String.
From Verif Require Import Bytes Dom SpecSpace2.
Import ListNotations.
Open Scope list_scope.

Definition a_list (e : node) : bool := named [b "ul"; b "ol"] e.
Definition divides (e : node) : bool := named [b "li"; b "hr"] e.
Definition the_end : node := Comment (b "THE END").
Definition is_the_end (n : node) : bool := match n with Comment d => beqb d (b "THE END") | _ => false end.
(** A list follows: no text, item, rule or end comment comes first, and no list ends first. *)
Fixpoint list_follows (r : list token) : bool :=
  match r with
  | Op e _ :: r' => a_list e || negb (divides e) && list_follows r'
  | Cl e _ :: r' => negb (a_list e) && list_follows r'
  | X n :: r' => negb (is_the_end n) && list_follows r'
  | _ => false
  end.
Fixpoint commented (r : list token) : list token :=
  match r with
  | [] => []
  | t :: r' => t :: (match t with Cl e _ => if a_list e && list_follows r' then [X the_end] else [] | _ => [] end) ++ commented r'
  end.
