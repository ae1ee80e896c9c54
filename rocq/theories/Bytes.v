(** Byte strings and the parts of the Go standard library that the converter uses on them
    (packages bytes, strings, unicode, unicode/utf8, strconv).  The Go standard library is not in /repo: these
    definitions are recalled semantics and part of the trusted base (DESIGN.md, section 4).
    No proofs in this file. *)
From Coq Require Import List NArith ZArith Bool String Ascii.
Import ListNotations.
Open Scope N_scope.
Open Scope list_scope.

(** A Go byte; every byte of a real input is below 256, but no definition depends on that. *)
Notation byte := N (only parsing).
(** A Go [[]byte] or [string]. nil and the empty slice are identified. *)
Notation bytes := (list N) (only parsing).

(** Literals: [b "div"] is the Go literal "div". *)
Fixpoint b (s : string) : bytes :=
  match s with
  | EmptyString => []
  | String a s' => N_of_ascii a :: b s'
  end.

(** The inverse, to print results. *)
Fixpoint show (s : bytes) : string :=
  match s with
  | [] => EmptyString
  | c :: s' => String (ascii_of_N c) (show s')
  end.

(** Named characters. *)
Definition cNUL : byte := 0.
Definition cBEL : byte := 7.
Definition cTAB : byte := 9.
Definition cNL  : byte := 10.
Definition cCR  : byte := 13.
Definition cSP  : byte := 32.
Definition cBSL : byte := 92.

(** bytes.Equal / string equality. *)
Fixpoint beqb (x y : bytes) : bool :=
  match x, y with
  | [], [] => true
  | c :: x', d :: y' => (c =? d) && beqb x' y'
  | _, _ => false
  end.

(** bytes.HasPrefix. *)
Fixpoint has_prefix (p s : bytes) : bool :=
  match p, s with
  | [], _ => true
  | c :: p', d :: s' => (c =? d) && has_prefix p' s'
  | _ :: _, [] => false
  end.

(** bytes.HasSuffix. *)
Definition has_suffix (p s : bytes) : bool := has_prefix (rev p) (rev s).

(** bytes.Contains for a substring. *)
Fixpoint contains (p s : bytes) : bool :=
  has_prefix p s || match s with [] => false | _ :: s' => contains p s' end.

(** Does the byte occur? (bytes.ContainsRune for ASCII, strings.Contains with one character) *)
Definition contains_byte (c : byte) (s : bytes) : bool := existsb (N.eqb c) s.

(** strings.Count for one character. *)
Fixpoint count_byte (c : byte) (s : bytes) : nat :=
  match s with
  | [] => O
  | d :: s' => if c =? d then S (count_byte c s') else count_byte c s'
  end.

(** bytes.ReplaceAll with a non-empty [old]: leftmost, non-overlapping. [skip] counts the bytes of a match that
    are still to be dropped. *)
Fixpoint replace_all_from (old new : bytes) (skip : nat) (s : bytes) : bytes :=
  match s with
  | [] => []
  | c :: t =>
      match skip with
      | S k => replace_all_from old new k t
      | O =>
          if has_prefix old s
          then new ++ replace_all_from old new (pred (List.length old)) t
          else c :: replace_all_from old new O t
      end
  end.
Definition replace_all (old new s : bytes) : bytes := replace_all_from old new O s.

(** strings.Replace(s, old, new, 1) with a non-empty [old]. *)
Fixpoint replace_first (old new s : bytes) : bytes :=
  if has_prefix old s then new ++ skipn (List.length old) s
  else match s with [] => [] | c :: t => c :: replace_first old new t end.

(** bytes.Split with a one-byte separator: always at least one part. *)
Fixpoint split_on (sep : byte) (s : bytes) : list bytes :=
  match s with
  | [] => [[]]
  | c :: t =>
      if c =? sep then [] :: split_on sep t
      else match split_on sep t with
           | [] => [[c]]              (* not reachable *)
           | p :: ps => (c :: p) :: ps
           end
  end.

(** bytes.Join / strings.Join. *)
Fixpoint join (sep : bytes) (l : list bytes) : bytes :=
  match l with
  | [] => []
  | [p] => p
  | p :: ps => p ++ sep ++ join sep ps
  end.

(** strings.Repeat / bytes.Repeat. *)
Fixpoint repeat_bytes (s : bytes) (n : nat) : bytes :=
  match n with O => [] | S k => s ++ repeat_bytes s k end.

(** ** UTF-8 (package unicode/utf8) *)

(** utf8.RuneError, U+FFFD, and its encoding. *)
Definition rune_error : N := 65533.
Definition rune_error_bytes : bytes := [239; 191; 189].

Definition in_range (lo hi c : N) : bool := (lo <=? c) && (c <=? hi).
Definition is_cont (c : byte) : bool := in_range 128 191 c.
(** utf8.RuneStart. *)
Definition rune_start (c : byte) : bool := negb (is_cont c).

(** utf8.DecodeRune: the first rune and its width. (RuneError, 0) for the empty string, (RuneError, 1) for an
    invalid encoding. *)
Definition decode_rune (s : bytes) : N * nat :=
  match s with
  | [] => (rune_error, O)
  | b0 :: t =>
      if b0 <? 128 then (b0, 1%nat)
      else if in_range 194 223 b0 then
        match t with
        | b1 :: _ => if is_cont b1 then ((b0 - 192) * 64 + (b1 - 128), 2%nat) else (rune_error, 1%nat)
        | _ => (rune_error, 1%nat)
        end
      else if in_range 224 239 b0 then
        match t with
        | b1 :: b2 :: _ =>
            let lo := if b0 =? 224 then 160 else 128 in
            let hi := if b0 =? 237 then 159 else 191 in
            if in_range lo hi b1 && is_cont b2
            then ((b0 - 224) * 4096 + (b1 - 128) * 64 + (b2 - 128), 3%nat)
            else (rune_error, 1%nat)
        | _ => (rune_error, 1%nat)
        end
      else if in_range 240 244 b0 then
        match t with
        | b1 :: b2 :: b3 :: _ =>
            let lo := if b0 =? 240 then 144 else 128 in
            let hi := if b0 =? 244 then 143 else 191 in
            if in_range lo hi b1 && is_cont b2 && is_cont b3
            then ((b0 - 240) * 262144 + (b1 - 128) * 4096 + (b2 - 128) * 64 + (b3 - 128), 4%nat)
            else (rune_error, 1%nat)
        | _ => (rune_error, 1%nat)
        end
      else (rune_error, 1%nat)
  end.

(** utf8.DecodeLastRune, on the reversed string. *)
Definition decode_last_rune_rev (rs : bytes) : N * nat :=
  match rs with
  | [] => (rune_error, O)
  | c :: t =>
      if c <? 128 then (c, 1%nat)
      else
        let try (k : nat) :=
          let '(r, n) := decode_rune (rev (firstn k rs)) in
          if Nat.eqb n k then (r, k) else (rune_error, 1%nat) in
        match t with
        | c1 :: t1 =>
            if rune_start c1 then try 2%nat
            else match t1 with
                 | c2 :: t2 =>
                     if rune_start c2 then try 3%nat
                     else match t2 with
                          | c3 :: _ => if rune_start c3 then try 4%nat else (rune_error, 1%nat)
                          | [] => (rune_error, 1%nat)
                          end
                 | [] => (rune_error, 1%nat)
                 end
        | [] => (rune_error, 1%nat)
        end
  end.
Definition decode_last_rune (s : bytes) : N * nat := decode_last_rune_rev (rev s).

(** The runes of [for _, r := range s]. *)
Fixpoint runes_from (skip : nat) (s : bytes) : list N :=
  match s with
  | [] => []
  | _ :: t =>
      match skip with
      | S k => runes_from k t
      | O => let '(r, n) := decode_rune s in r :: runes_from (pred n) t
      end
  end.
Definition runes (s : bytes) : list N := runes_from O s.
(** utf8.RuneCount. *)
Definition rune_count (s : bytes) : nat := List.length (runes s).

(** unicode.IsSpace. *)
Definition is_space_rune (r : N) : bool :=
  in_range 9 13 r || (r =? 32) || (r =? 133) || (r =? 160) || (r =? 5760)
  || in_range 8192 8202 r || (r =? 8232) || (r =? 8233) || (r =? 8239) || (r =? 8287) || (r =? 12288).

(** bytes.TrimLeftFunc(s, unicode.IsSpace). *)
Fixpoint trim_left_from (skip : nat) (s : bytes) : bytes :=
  match s with
  | [] => []
  | _ :: t =>
      match skip with
      | S k => trim_left_from k t
      | O => let '(r, n) := decode_rune s in
             if is_space_rune r then trim_left_from (pred n) t else s
      end
  end.
Definition trim_left (s : bytes) : bytes := trim_left_from O s.

(** bytes.TrimRightFunc(s, unicode.IsSpace), on the reversed string. *)
Fixpoint trim_right_rev_from (skip : nat) (rs : bytes) : bytes :=
  match rs with
  | [] => []
  | _ :: t =>
      match skip with
      | S k => trim_right_rev_from k t
      | O => let '(r, n) := decode_last_rune_rev rs in
             if is_space_rune r then trim_right_rev_from (pred n) t else rs
      end
  end.
Definition trim_right (s : bytes) : bytes := rev (trim_right_rev_from O (rev s)).

(** bytes.TrimSpace = TrimFunc(s, unicode.IsSpace) = right trim of the left trim. *)
Definition trim_space (s : bytes) : bytes := trim_right (trim_left s).

Definition is_empty {A} (l : list A) : bool := match l with [] => true | _ => false end.

(** ** strconv *)

Definition digit_byte (d : N) : byte := 48 + d.
(** Decimal digits of a natural number, most significant first; [fuel] bounds the number of digits. *)
Fixpoint dec_digits (fuel : nat) (n : N) (acc : bytes) : bytes :=
  match fuel with
  | O => acc
  | S k =>
      let acc' := digit_byte (n mod 10) :: acc in
      if n <? 10 then acc' else dec_digits k (n / 10) acc'
  end.
Definition itoa_N (n : N) : bytes := dec_digits (S (N.to_nat (N.log2 n))) n [].
(** strconv.Itoa (integers are unbounded in the model). *)
Definition itoa (z : Z) : bytes :=
  match z with
  | Z0 => itoa_N 0
  | Zpos p => itoa_N (Npos p)
  | Zneg p => 45 :: itoa_N (Npos p)
  end.

Definition is_digit (c : byte) : bool := in_range 48 57 c.
Fixpoint parse_digits (acc : N) (s : bytes) : option N :=
  match s with
  | [] => Some acc
  | c :: t => if is_digit c then parse_digits (acc * 10 + (c - 48)) t else None
  end.
(** strconv.Atoi: None on a syntax error or when the value does not fit an int64. *)
Definition atoi (s : bytes) : option Z :=
  let parse t := match t with [] => None | _ => parse_digits 0 t end in
  let fits z := ((-9223372036854775808 <=? z)%Z && (z <=? 9223372036854775807)%Z) in
  let r := match s with
           | 45 :: t => option_map (fun n => Z.opp (Z.of_N n)) (parse t)
           | 43 :: t => option_map Z.of_N (parse t)
           | _ => option_map Z.of_N (parse s)
           end in
  match r with Some z => if fits z then Some z else None | None => None end.
