(** Specification for concurrent registrations and conversions (C76). No proofs in this file. *)
From Coq Require Import List Arith Bool.
From Verif Require Import Locks.
Import ListNotations.

Section spec.
Context {handler : Type}.
(** The next step of a goroutine reads (Some false) or writes (Some true) the slice of the converter. *)
Definition access (g : goroutine handler) : option bool :=
  match todo g, at_ g with
  | Register _ :: _, Locked => Some false
  | Register _ :: _, Appending _ => Some true
  | Get :: _, Reading => Some false
  | Get :: _, Copying l n => if length l <? n then Some false else None
  | Peek :: _, Outside => Some false
  | _, _ => None
  end.
(** A data race: two goroutines are about to use the slice, one of them to write it. *)
Definition race (s : state handler) : Prop :=
  exists x y z g1 g2, (fst s = x ++ g1 :: y ++ g2 :: z) /\
    (access g1 = Some true /\ access g2 <> None \/ access g2 = Some true /\ access g1 <> None).
(** Nothing is looked at without the lock. *)
Definition locked_only (programs : list (list (op handler))) : Prop := forall p, In p programs -> ~ In Peek p.
Definition finished (g : goroutine handler) : Prop := todo g = [].
(** l is between l1 and l2: it has all of l1 and nothing that is not in l2, in the same order. *)
Definition between (l1 l2 l : list handler) : Prop := (exists x, l = l1 ++ x) /\ (exists y, l2 = l ++ y).
(** The handlers that a program registers, in its order *)
Fixpoint registers (p : list (op handler)) : list handler :=
  match p with [] => [] | Register h :: r => h :: registers r | _ :: r => registers r end.
(** Before the write lock, before the read lock *)
Definition wants_write (g : goroutine handler) : bool :=
  match at_ g, todo g with Outside, (Register _ :: _ | Elsewhere true :: _) => true | _, _ => false end.
Definition wants_read (g : goroutine handler) : bool :=
  match at_ g, todo g with Outside, (Get :: _ | Elsewhere false :: _) => true | _, _ => false end.
(** n steps of any goroutines *)
Inductive steps (sort : list handler -> list handler) : nat -> state handler -> state handler -> Prop :=
| steps_none s : steps sort 0 s s
| steps_more n s1 s2 s3 : steps sort n s1 s2 -> step handler sort s2 s3 -> steps sort (S n) s1 s3.
End spec.
