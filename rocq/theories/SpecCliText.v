(** Specification vocabulary for the texts of the command line program: edit distance, the flags a usage text lists, what a
    quoted text stands for. *)
From Coq Require Import List NArith Arith Bool String.
From Verif Require Import Bytes Cli SpecCli.
Import ListNotations.
Open Scope N_scope.
Open Scope list_scope.

(** ** Distance of two texts: the least number of letters to put in, take out or change *)
Inductive one_edit : list N -> list N -> Prop :=
| put_in p c s : one_edit (p ++ s) (p ++ c :: s)
| take_out p c s : one_edit (p ++ c :: s) (p ++ s)
| change p c d s : one_edit (p ++ c :: s) (p ++ d :: s).
Inductive edits : nat -> list N -> list N -> Prop :=
| edits_none x : edits 0 x x
| edits_more n x y z : one_edit x y -> edits n y z -> edits (S n) x z.
Definition distance (x y : list N) (d : nat) : Prop := edits d x y /\ forall n, edits n x y -> (d <= n)%nat.

(** The order of a dictionary *)
Definition before (x y : bytes) : Prop :=
  (exists c t, y = x ++ c :: t) \/ (exists p c d s t, x = p ++ c :: s /\ y = p ++ d :: t /\ c < d).

(** The program knows this flag. *)
Definition accepted_flag (w : world) (f : bytes) : Prop := find_flag (w_selector w) (w_parse w) f <> None.

(** How a flag is typed: one hyphen before a single letter, otherwise two *)
Definition with_hyphens (f : bytes) : bytes := match f with [c] => [45; c] | _ => 45 :: 45 :: f end.

(** ** The flags that a usage text lists: below the line ## Flags, the lines with four spaces and a hyphen; the options in such a
    line are separated by a comma and a space, an option ends before a space *)
Fixpoint below_flags (ls : list bytes) : list bytes :=
  match ls with
  | [] => []
  | l :: t => if beqb l (b "## Flags") then t else below_flags t
  end.
Fixpoint before_space (s : bytes) : bytes :=
  match s with [] => [] | c :: t => if c =? 32 then [] else c :: before_space t end.
Fixpoint without_hyphens (s : bytes) : bytes :=
  match s with [] => [] | c :: t => if c =? 45 then without_hyphens t else s end.
Definition options_in (l : bytes) : list bytes :=
  if has_prefix (b "    -") l
  then map (fun o => without_hyphens (before_space (if has_prefix [32] o then skipn 1 o else o))) (split_on 44 (skipn 4 l))
  else [].
Definition listed_flags (text : bytes) : list bytes := flat_map options_in (below_flags (split_on 10 text)).

(** ** The value of a field: the first candidate that says something *)
Fixpoint first_known (unknown : bytes) (l : list bytes) : bytes :=
  match l with
  | [] => unknown
  | v :: t => if beqb v unknown then first_known unknown t else v
  end.
(** The values of the settings with this key *)
Definition values_of (key : bytes) (l : list (bytes * bytes)) : list bytes :=
  map snd (List.filter (fun s => beqb (fst s) key) l).

(** ** Reading a quoted text (a Go string literal) *)
Definition hex_value (c : N) : option N :=
  if (48 <=? c) && (c <=? 57) then Some (c - 48)
  else if (97 <=? c) && (c <=? 102) then Some (c - 87)
  else if (65 <=? c) && (c <=? 70) then Some (c - 55)
  else None.
(** UTF-8 (RFC 3629) *)
Definition utf8_of (r : N) : bytes :=
  if r <? 128 then [r]
  else if r <? 2048 then [192 + r / 64; 128 + r mod 64]
  else if r <? 65536 then [224 + r / 4096; 128 + (r / 64) mod 64; 128 + r mod 64]
  else [240 + r / 262144; 128 + (r / 4096) mod 64; 128 + (r / 64) mod 64; 128 + r mod 64].
(** What stands between the quotes: nothing pending, a backslash, or digits still to be read (how many, value so far, is it a
    byte) *)
Inductive pending := Plain | Slash | Digits (n : nat) (v : N) (raw : bool).
Fixpoint read_literal (q : pending) (s : bytes) : option bytes :=
  match q, s with
  | Plain, [34] => Some []
  | Plain, 92 :: t => read_literal Slash t
  | Plain, 34 :: _ => None
  | Plain, c :: t => option_map (cons c) (read_literal Plain t)
  | Slash, c :: t =>
      if c =? 120 then read_literal (Digits 2 0 true) t
      else if c =? 117 then read_literal (Digits 4 0 false) t
      else if c =? 85 then read_literal (Digits 8 0 false) t
      else let one v := option_map (cons v) (read_literal Plain t) in
           if c =? 97 then one 7 else if c =? 98 then one 8 else if c =? 102 then one 12 else if c =? 110 then one 10
           else if c =? 114 then one 13 else if c =? 116 then one 9 else if c =? 118 then one 11
           else if (c =? 34) || (c =? 92) then one c
           else None
  | Digits n v raw, c :: t =>
      match hex_value c, n with
      | Some d, S O => let v' := v * 16 + d in
                       option_map (app (if raw then [v'] else utf8_of v')) (read_literal Plain t)
      | Some d, S k => read_literal (Digits k (v * 16 + d) raw) t
      | _, _ => None
      end
  | _, [] => None
  end.
Definition read_quoted (s : bytes) : option bytes :=
  match s with 34 :: t => read_literal Plain t | _ => None end.
