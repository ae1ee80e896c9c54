(** Model of the lock of a converter: goroutines that register handlers and goroutines that convert. No proofs in this file.

    One slice of the converter stands for any of preRenderHandlers, renderHandlers, postRenderHandlers, textTransformHandlers,
    unEscapeHandlers (converter/converter.go:5-26); whatever else is done with the lock is seen as Elsewhere. So the model is the view
    of a converter that one of its slices has, with all operations of the lock. One step of a goroutine is one access to the slice or one operation of the lock.
    Simplified: sync.RWMutex also lets new readers wait while a writer waits, which takes schedules away (c76_no_deadlock_queue: still no deadlock). *)
From Coq Require Import List Arith Bool.
Import ListNotations.

Section locks.
(** prioritizedValue *)
Variable handler : Type.
(** converter/prioritized.go:25-29  Sort, on the copy of a goroutine *)
Variable sort : list handler -> list handler.

(** What a goroutine wants to do: converter/register.go PreRenderer, Renderer, PostRenderer, TextTransformer, UnEscaper (Register);
    getPreRenderHandlers and so on (Get); a look at the slice without the lock, as converter/convert.go:79-80 has it for
    registeredPlugins (Peek); something else with the write lock (true) or the read lock (false): the same for another slice, the
    error (converter/convert.go:38-39, 44-45), the options of a conversion (converter/convert.go:66-71), the names of the plugins
    (converter/register.go:22-24), the types of the tags (converter/register.go:197-198, 204-205). Simplified: it is one step and
    it ends; an option or a handler that takes the lock of the same converter again is left out. *)
Inductive op := Register (h : handler) | Get | Peek | Elsewhere (w : bool).
(** Where it is: before an operation; with the write lock: before, between and after reading and writing the slice; with the read
    lock: before reading the length, copying (copied so far, length); with either lock: at something else *)
Inductive place :=
| Outside
| Locked
| Appending (seen : list handler)
| Stored
| Reading
| Copying (copied : list handler) (len : nat)
| Busy (w : bool).
(** What is left to do, where it is, and the slices it got so far *)
Record goroutine := { todo : list op; at_ : place; got : list (list handler) }.
(** The slice of the converter and the lock: a writer, the number of readers *)
Record shared := { slice : list handler; writer : bool; readers : nat }.

Definition with_slice (l : list handler) (s : shared) := {| slice := l; writer := writer s; readers := readers s |}.
Definition with_writer (w : bool) (s : shared) := {| slice := slice s; writer := w; readers := readers s |}.
Definition with_readers (n : nat) (s : shared) := {| slice := slice s; writer := writer s; readers := n |}.
Definition goes (g : goroutine) (p : place) := {| todo := todo g; at_ := p; got := got g |}.

(** One step; None: it is finished or has to wait.
    Register: converter/register.go:37-42, 67-73, 106-112, 128-134, 166-172; Get: converter/register.go:44-53, 91-100, 113-122, 135-144, 173-182 *)
Definition step1 (g : goroutine) (s : shared) : option (goroutine * shared) :=
  match todo g, at_ g with
  | Register h :: _, Outside => if writer s || negb (readers s =? 0) then None else Some (goes g Locked, with_writer true s)
  | Register h :: _, Locked => Some (goes g (Appending (slice s)), s)
  | Register h :: _, Appending l => Some (goes g Stored, with_slice (l ++ [h]) s)
  | Register h :: r, Stored => Some ({| todo := r; at_ := Outside; got := got g |}, with_writer false s)
  | Get :: _, Outside => if writer s then None else Some (goes g Reading, with_readers (S (readers s)) s)
  | Get :: _, Reading => Some (goes g (Copying [] (length (slice s))), s)
  | Get :: r, Copying l n =>
      if length l <? n then
        match nth_error (slice s) (length l) with
        | Some h => Some (goes g (Copying (l ++ [h]) n), s)
        | None => None
        end
      else Some ({| todo := r; at_ := Outside; got := got g ++ [sort l] |}, with_readers (pred (readers s)) s)
  | Peek :: r, Outside => Some ({| todo := r; at_ := Outside; got := got g ++ [slice s] |}, s)
  | Elsewhere true :: _, Outside => if writer s || negb (readers s =? 0) then None else Some (goes g (Busy true), with_writer true s)
  | Elsewhere true :: r, Busy true => Some ({| todo := r; at_ := Outside; got := got g |}, with_writer false s)
  | Elsewhere false :: _, Outside => if writer s then None else Some (goes g (Busy false), with_readers (S (readers s)) s)
  | Elsewhere false :: r, Busy false => Some ({| todo := r; at_ := Outside; got := got g |}, with_readers (pred (readers s)) s)
  | _, _ => None
  end.
(** Any goroutine makes the next step. *)
Definition state : Type := list goroutine * shared.
Inductive step : state -> state -> Prop :=
| step_one x g y s g' s' : step1 g s = Some (g', s') -> step (x ++ g :: y, s) (x ++ g' :: y, s').
Inductive reach : state -> state -> Prop :=
| reach_refl s : reach s s
| reach_step s1 s2 s3 : reach s1 s2 -> step s2 s3 -> reach s1 s3.
(** The start: nobody has done anything. *)
Definition start (programs : list (list op)) (init : list handler) : state :=
  (map (fun p => {| todo := p; at_ := Outside; got := [] |}) programs, {| slice := init; writer := false; readers := 0 |}).

(** Running a schedule; a goroutine that has to wait is passed over. *)
Fixpoint replace_nth (n : nat) (x : goroutine) (l : list goroutine) : list goroutine :=
  match n, l with
  | O, _ :: t => x :: t
  | S m, y :: t => y :: replace_nth m x t
  | _, [] => []
  end.
Definition turn (s : state) (i : nat) : state :=
  match nth_error (fst s) i with
  | Some g => match step1 g (snd s) with Some (g', sh) => (replace_nth i g' (fst s), sh) | None => s end
  | None => s
  end.
Definition play (schedule : list nat) (s : state) : state := fold_left turn schedule s.
End locks.
Arguments Register {handler}. Arguments Get {handler}. Arguments Peek {handler}. Arguments Elsewhere {handler}.
Arguments Outside {handler}. Arguments Locked {handler}. Arguments Appending {handler}. Arguments Stored {handler}.
Arguments Reading {handler}. Arguments Copying {handler}. Arguments Busy {handler}.
Arguments todo {handler}. Arguments at_ {handler}. Arguments got {handler}.
Arguments slice {handler}. Arguments writer {handler}. Arguments readers {handler}.
