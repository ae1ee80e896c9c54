(** Model of the state of a conversion (converter/ctx.go:63-134) and of the in-place sorting of the registered tag types
    (converter/register.go:203-222). No proofs in this file. *)
From Coq Require Import List NArith ZArith Bool Arith.
From Verif Require Import Bytes Dom Engine.
Import ListNotations.
Open Scope N_scope.
Open Scope list_scope.

(** A value of type any: nil is None; otherwise the dynamic type (a number) and the value. *)
Definition dyn := option (N * bytes).
(** converter/ctx.go:67-77  globalState: the map of one conversion *)
Definition gstate := list (bytes * dyn).
(** reading a Go map: nil for a missing key *)
Fixpoint map_get (k : bytes) (m : gstate) : dyn :=
  match m with [] => None | (k', v) :: r => if beqb k' k then v else map_get k r end.
(** writing a Go map: replace or add *)
Fixpoint map_set (k : bytes) (v : dyn) (m : gstate) : gstate :=
  match m with
  | [] => [(k, v)]
  | (k', v') :: r => if beqb k' k then (k, v) :: r else (k', v') :: map_set k v r
  end.
(** a type assertion val.(V): the value, or the zero value of V (here the empty byte string) *)
Definition as_type (ty : N) (v : dyn) : bytes :=
  match v with Some (t, x) => if t =? ty then x else [] | None => [] end.
(** converter/ctx.go:105-134  GetState, SetState, UpdateState (the warnings are not modelled) *)
Inductive state_op :=
| SetState (ty : N) (k v : bytes)
| UpdateState (ty : N) (k : bytes) (f : bytes -> bytes).
Definition state_step (o : state_op) (m : gstate) : gstate :=
  match o with
  | SetState ty k v => map_set k (Some (ty, v)) m
  | UpdateState ty k f => map_set k (Some (ty, f (as_type ty (map_get k m)))) m
  end.
Definition get_state (ty : N) (k : bytes) (m : gstate) : bytes := as_type ty (map_get k m).

(** converter/convert.go:84: every conversion makes its own map. The heap holds the map of each conversion by its number; a
    conversion that has not started has the empty map. *)
Definition heap := list gstate.
Fixpoint update_nth {A} (d : A) (i : nat) (f : A -> A) (l : list A) : list A :=
  match i, l with
  | O, [] => [f d]
  | O, x :: r => f x :: r
  | S i, [] => d :: update_nth d i f []
  | S i, x :: r => x :: update_nth d i f r
  end.
(** the operations of several conversions, interleaved in any way *)
Definition run_ops (ops : list (nat * state_op)) (h : heap) : heap :=
  fold_left (fun h io => update_nth [] (fst io) (state_step (snd io)) h) ops h.

(** ---------- tag types, one goroutine ---------- *)

(** Converter.tagTypes: a map from the name to the slice of types *)
Definition tag_table := list (bytes * list (Z * tag_type)).
Fixpoint table_get (n : bytes) (t : tag_table) : list (Z * tag_type) :=
  match t with [] => [] | (k, v) :: r => if beqb k n then v else table_get n r end.
(** converter/register.go:218 types.Sort() works on the slice stored in the map *)
Fixpoint table_sort (sort : forall A : Type, list (Z * A) -> list (Z * A)) (n : bytes) (t : tag_table) : tag_table :=
  match t with
  | [] => []
  | (k, v) :: r => if beqb k n then (k, sort _ v) :: r else (k, v) :: table_sort sort n r
  end.
(** converter/register.go:203-222  getTagType: the answer and the table afterwards *)
Definition lookup (sort : forall A : Type, list (Z * A) -> list (Z * A)) (n : bytes) (t : tag_table)
  : option tag_type * tag_table :=
  match table_get n t with
  | [] => (if is_block_name n then Some TBlock else None, t)
  | _ => let t' := table_sort sort n t in (match table_get n t' with x :: _ => Some (snd x) | [] => None end, t')
  end.
(** a sequence of lookups *)
Definition lookups (sort : forall A : Type, list (Z * A) -> list (Z * A)) (ns : list bytes) (t : tag_table) : tag_table :=
  fold_left (fun t n => snd (lookup sort n t)) ns t.

(** ---------- tag types, several goroutines under the read lock ---------- *)

(** sort.Slice on at most 12 elements is insertion sort: for i := 1; i < n; i++ { for j := i; j > 0 && less(j, j-1); j-- {
    swap(j, j-1) } }; reflect.Swapper swaps a struct of three words with tmp := s[j]; s[j] = s[j-1]; s[j-1] = tmp.
    One step of the machine is one comparison or one of these copies (in reality a copy is not even atomic). *)
Definition cell := (Z * tag_type)%type.
Inductive pc :=
| AtOuter (i : nat)                       (* i < n ? *)
| AtInner (i j : nat)                     (* j > 0 && less(j, j-1) ? *)
| AtCopy1 (i j : nat)                     (* tmp = s[j] *)
| AtCopy2 (i j : nat) (tmp : cell)        (* s[j] = s[j-1] *)
| AtCopy3 (i j : nat) (tmp : cell)        (* s[j-1] = tmp; j-- *)
| AtRead                                  (* firstType := types[0].Value *)
| Returned_type (t : option tag_type).
Definition get_cell (j : nat) (mem : list cell) : cell := nth j mem (0%Z, TBlock).
Fixpoint set_cell (j : nat) (x : cell) (mem : list cell) : list cell :=
  match mem, j with
  | [], _ => []
  | _ :: r, O => x :: r
  | y :: r, S j => y :: set_cell j x r
  end.
Definition step (p : pc) (mem : list cell) : pc * list cell :=
  match p with
  | AtOuter i => (if Nat.ltb i (length mem) then AtInner i i else AtRead, mem)
  | AtInner i j =>
      (match j with
       | O => AtOuter (S i)
       | S j' => if (fst (get_cell j mem) <? fst (get_cell j' mem))%Z then AtCopy1 i j else AtOuter (S i)
       end, mem)
  | AtCopy1 i j => (AtCopy2 i j (get_cell j mem), mem)
  | AtCopy2 i j tmp => (AtCopy3 i j tmp, set_cell j (get_cell (Nat.pred j) mem) mem)
  | AtCopy3 i j tmp => (AtInner i (Nat.pred j), set_cell (Nat.pred j) tmp mem)
  | AtRead => (Returned_type (match mem with x :: _ => Some (snd x) | [] => None end), mem)
  | Returned_type t => (p, mem)
  end.
(** the start of getTagType for a tag with at least one type *)
Definition thread_start : pc := AtOuter 1.
(** a schedule names the goroutine that makes the next step *)
Fixpoint run_threads (schedule : list nat) (ts : list pc) (mem : list cell) : list pc * list cell :=
  match schedule with
  | [] => (ts, mem)
  | k :: r =>
      match nth_error ts k with
      | None => run_threads r ts mem
      | Some p => let '(p', mem') := step p mem in run_threads r (update_nth AtRead k (fun _ => p') ts) mem'
      end
  end.
