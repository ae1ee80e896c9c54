(** Specification of link destinations and queries (C26-C28, C51), written without the model. No proofs in this file. *)
From Coq Require Import List NArith Bool.
From Verif Require Import Bytes SpecText.
Import ListNotations.
Open Scope N_scope.
Open Scope list_scope.

(** The characters that end a destination or open another construct: space, newline, tab, angle brackets, parentheses and
    square brackets. *)
Definition breaks_out (c : N) : Prop := In c [32; 10; 9; 60; 62; 40; 41; 91; 93].

(** ** A reader of the part of an inline link behind the text (CommonMark 6.3) *)
(** The destination without angle brackets: no space, no control character, no parenthesis unless escaped. *)
Fixpoint read_bare (esc : bool) (s : bytes) : bytes * bytes :=
  match s with
  | [] => ([], [])
  | c :: t =>
      if (c <=? 32) || (c =? 127) || (((c =? 40) || (c =? 41)) && negb esc) then ([], s)
      else let '(x, r) := read_bare ((c =? 92) && negb esc) t in (c :: x, r)
  end.
Definition blank (c : N) : bool := (c =? 32) || (c =? 9) || (c =? 10).
Fixpoint skip_blanks (s : bytes) : bytes :=
  match s with c :: t => if blank c then skip_blanks t else s | [] => [] end.
Definition close_paren (s : bytes) : option bytes :=
  match s with c :: t => if c =? 41 then Some t else None | [] => None end.
(** Destination, inner text of the title, and the rest of the line. Destinations in angle brackets are not read. *)
Definition read_tail (s : bytes) : option (bytes * option bytes * bytes) :=
  match s with
  | 40 :: t =>
      let t := skip_blanks t in
      if match t with 60 :: _ => true | _ => false end then None
      else
        let '(dest, r) := read_bare false t in
        match close_paren (skip_blanks r) with
        | Some rest => Some (dest, None, rest)
        | None =>
            if match r with c :: _ => blank c | [] => false end then
              match read_title (skip_blanks r) with
              | Some (inner, r) => option_map (fun rest => (dest, Some inner, rest)) (close_paren (skip_blanks r))
              | None => None
              end
            else None
        end
  | _ => None
  end.

(** ** Queries *)
Definition hex_value (c v : N) : Prop :=
  (48 <= c <= 57 /\ v = c - 48) \/ (65 <= c <= 70 /\ v = c - 55) \/ (97 <= c <= 102 /\ v = c - 87).
(** What a query component stands for (application/x-www-form-urlencoded); a component with a stray percent sign stands
    for nothing. *)
Inductive stands_for : bytes -> bytes -> Prop :=
| sf_nil : stands_for [] []
| sf_plus s t : stands_for s t -> stands_for (43 :: s) (32 :: t)
| sf_percent h l x y s t : hex_value h x -> hex_value l y -> stands_for s t -> stands_for (37 :: h :: l :: s) (16 * x + y :: t)
| sf_char c s t : c <> 43 -> c <> 37 -> stands_for s t -> stands_for (c :: s) (c :: t).
Definition same_meaning (x y : bytes) : Prop := forall t, stands_for x t <-> stands_for y t.
(** One parameter and its new form: with an equal sign iff it had one, name and value standing for the same. *)
Inductive same_param : bytes -> bytes -> Prop :=
| sp_name k k' : ~ In 61 k -> ~ In 61 k' -> same_meaning k k' -> same_param k k'
| sp_pair k v k' v' : ~ In 61 k -> ~ In 61 k' -> same_meaning k k' -> same_meaning v v' ->
    same_param (k ++ [61] ++ v) (k' ++ [61] ++ v').
Definition no_amp (l : list bytes) : Prop := forall p, In p l -> ~ In 38 p.

(** What a path or a fragment stands for: percent triples only. *)
Inductive spells : bytes -> bytes -> Prop :=
| spl_nil : spells [] []
| spl_percent h l x y s t : hex_value h x -> hex_value l y -> spells s t -> spells (37 :: h :: l :: s) (16 * x + y :: t)
| spl_char c s t : c <> 37 -> spells s t -> spells (c :: s) (c :: t).
(** The query of a URL: behind the first question mark, before the number sign. *)
Fixpoint before (c : N) (s : bytes) : bytes :=
  match s with d :: t => if d =? c then [] else d :: before c t | [] => [] end.
Fixpoint after (c : N) (s : bytes) : bytes :=
  match s with d :: t => if d =? c then t else after c t | [] => [] end.
Definition query_of (s : bytes) : bytes := after 63 (before 35 s).
