(** The exact result of AddSpace for every document: specification for C73. *)
From Coq Require Import List NArith Bool String.
From Verif Require Import Bytes Dom SpecSpace.
Import ListNotations.
Open Scope list_scope.

(** ** The exact result for every document, on its sequence of tags and texts *)
(** Text; start and end tag (the element without its children; whether it has none); other node *)
Inductive token := T (d : bytes) | Op (e : node) (empty : bool) | Cl (e : node) (empty : bool) | X (n : node).
Fixpoint tokens (n : node) : list token :=
  match n with
  | Text d => [T d]
  | Elem x a ks => Op (Elem x a []) (match ks with [] => true | _ => false end) :: flat_map tokens ks
                   ++ [Cl (Elem x a []) (match ks with [] => true | _ => false end)]
  | Doc ks => Op (Doc []) (match ks with [] => true | _ => false end) :: flat_map tokens ks
              ++ [Cl (Doc []) (match ks with [] => true | _ => false end)]
  | _ => [X n]
  end.
(** Looking backwards, start tags are end tags. *)
Definition flip (t : token) : token := match t with Op e k => Cl e k | Cl e k => Op e k | _ => t end.
Section tokens.
Variables (l m : list bytes).
(** Behind end tags and the tags of spans, code starts. *)
Fixpoint code_after (r : list token) : bool :=
  match r with
  | Cl _ _ :: r' => code_after r'
  | Op e _ :: r' => if not_span e then named m e else code_after r'
  | _ => false
  end.
(** The emphasis that starts here, behind start tags and the tags of spans, and starts with code *)
Fixpoint spaces_after (r : list token) : nat :=
  match r with
  | Op e empty :: r' => (if named l e && negb empty && code_after r' then 1 else 0) + spaces_after r'
  | Cl e _ :: r' => if not_span e then 0 else spaces_after r'
  | _ => 0
  end%nat.
(** Each text gets one space for each of them, on each side; [left] is what comes before, looking backwards. *)
Fixpoint respaced (left r : list token) : list token :=
  match r with
  | [] => []
  | t :: r' => (match t with T d => T (repeat 32%N (spaces_after left) ++ d ++ repeat 32%N (spaces_after r')) | _ => t end)
               :: respaced (flip t :: left) r'
  end.
End tokens.
