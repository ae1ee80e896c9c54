(** Tags inside tags of the same kind, on the sequence of tags and texts: specification for C43. *)
From Coq Require Import List NArith Bool String.
From Verif Require Import Bytes Dom SpecSpace2.
Import ListNotations.
Open Scope list_scope.

(** Tags and texts, without saying which elements are empty *)
Definition unmark (t : token) : token := match t with Op e _ => Op e false | Cl e _ => Cl e false | _ => t end.
Definition tags (n : node) : list token := map unmark (tokens n).
Section redundant.
(** The kind of the elements of a name *)
Variable cls : bytes -> option N.
Definition kind_of (e : node) : option N := match e with Elem x _ _ => cls x | _ => None end.
Definition same_kind (e f : node) : bool := match kind_of e, kind_of f with Some c, Some d => N.eqb c d | _, _ => false end.
(** Tags are dropped if an element of the same kind is open; [open] are the open elements, the innermost first. *)
Fixpoint not_redundant (open : list node) (r : list token) : list token :=
  match r with
  | [] => []
  | Op e k :: r' => (if existsb (same_kind e) open then [] else [Op e false]) ++ not_redundant (e :: open) r'
  | Cl e k :: r' => (if existsb (same_kind e) (tl open) then [] else [Cl e false]) ++ not_redundant (tl open) r'
  | t :: r' => t :: not_redundant open r'
  end.
End redundant.
