(** Model of internal/textutils, collapse/whitespace.go and marker/marker.go. No proofs in this file. *)
From Coq Require Import List NArith Bool String.
From Verif Require Import Bytes.
Import ListNotations.
Open Scope N_scope.
Open Scope list_scope.

(** marker/marker.go:10,20  BytesMarkerEscaping *)
Definition marker_esc : byte := 7.
(** marker/marker.go:16,22  BytesMarkerCodeBlockNewline (U+F002) *)
Definition marker_nl : bytes := [239; 128; 130].

(** internal/textutils/codefence.go:5-26 and 50-61  CalculateCodeFenceOccurrences. [cur] is charsTogether, [mx] the maximum
    of the occurrences collected so far (findMax of the list, which is 0 for the empty list). *)
Fixpoint fence_occ (f : N) (cur mx : nat) (rs : list N) : nat :=
  match rs with
  | [] => Nat.max mx cur
  | r :: rs' => if r =? f then fence_occ f (S cur) mx rs' else fence_occ f O (Nat.max mx cur) rs'
  end.
Definition code_fence_occurrences (f : N) (content : bytes) : nat := fence_occ f O O (runes content).

(** internal/textutils/codefence.go:34-48  CalculateCodeFence (the fence characters are ASCII). *)
Definition calculate_code_fence (f : byte) (content : bytes) : bytes :=
  repeat f (Nat.max 3 (S (code_fence_occurrences f content))).

(** internal/textutils/collapse_code.go:14-30  drop every space that follows a space *)
Fixpoint squeeze_spaces (prev_space : bool) (s : bytes) : bytes :=
  match s with
  | [] => []
  | c :: t =>
      if c =? cSP then (if prev_space then squeeze_spaces true t else c :: squeeze_spaces true t)
      else c :: squeeze_spaces false t
  end.
(** internal/textutils/collapse_code.go:7-31  CollapseInlineCodeContent *)
Definition collapse_inline_code (s : bytes) : bytes :=
  let s := replace_all [cNL] [cSP] s in
  let s := replace_all [cTAB] [cSP] s in
  squeeze_spaces false (trim_space s).

(** internal/textutils/consecutive_newlines.go:8-15  TrimUnnecessaryHardLineBreaks *)
Definition trim_hard_breaks (s : bytes) : bytes :=
  let s := replace_all [cSP; cSP; cNL; cNL] [cNL; cNL] s in
  let s := replace_all [cSP; cSP; cNL; cSP; cSP; cNL] [cNL; cNL] s in
  replace_all [cSP; cSP; cNL; cSP; cNL] [cNL; cNL] s.

(** internal/textutils/consecutive_newlines.go:17-54  TrimConsecutiveNewlines, literally: one step per decoded rune.
    [nl] is newlineCount, [buf] the space buffer; the result is produced in order. [skip] and [cur] are the bytes of the
    current rune that are still to be copied. *)
Fixpoint tcn_go (skip : nat) (nl : nat) (buf : bytes) (s : bytes) : bytes :=
  match s with
  | [] => buf
  | c :: t =>
      match skip with
      | S k => c :: tcn_go k nl buf t                      (* rest of input[i:i+size] *)
      | O =>
          let '(r, n) := decode_rune s in
          if r =? cNL then
            if Nat.leb (S nl) 2 then buf ++ cNL :: tcn_go O (S nl) [] t
            else tcn_go O (S nl) [] t
          else if r =? cSP then tcn_go O nl (buf ++ [c]) t
          else buf ++ c :: tcn_go (pred n) O [] t
      end
  end.
Definition trim_consecutive_newlines_go (s : bytes) : bytes := tcn_go O O [] s.

(** The same loop per byte; equal to the above on every string (TextFacts.tcn_go_eq): a newline or a space is never part of a
    longer rune. [sp] counts the buffered spaces. *)
Fixpoint tcn (nl sp : nat) (s : bytes) : bytes :=
  match s with
  | [] => repeat cSP sp
  | c :: t =>
      if c =? cNL then
        if Nat.leb (S nl) 2 then repeat cSP sp ++ cNL :: tcn (S nl) O t else tcn (S nl) O t
      else if c =? cSP then tcn nl (S sp) t
      else repeat cSP sp ++ c :: tcn O O t
  end.
Definition trim_consecutive_newlines (s : bytes) : bytes := tcn O O s.

(** internal/textutils/surrounding_spaces.go:46-58  SurroundingSpaces *)
Definition surrounding_spaces (s : bytes) : bytes * bytes * bytes :=
  let right_trimmed := trim_right s in
  let right_extra := skipn (List.length right_trimmed) s in
  let trimmed := trim_left right_trimmed in
  let left_extra := firstn (List.length right_trimmed - List.length trimmed) s in
  (left_extra, trimmed, right_extra).

(** internal/textutils/delimiter.go:16-28  one line of DelimiterForEveryLine *)
Definition delimit_line (delim line : bytes) : bytes :=
  let '(l, t, r) := surrounding_spaces line in
  if is_empty t then l ++ r else l ++ delim ++ t ++ delim ++ r.
(** internal/textutils/delimiter.go:11-37  DelimiterForEveryLine *)
Definition delimiter_for_every_line (text delim : bytes) : bytes :=
  join [cNL] (map (delimit_line delim) (split_on cNL text)).

(** internal/textutils/escape_multiline.go:24-53  the loop of EscapeMultiLine *)
Fixpoint escape_multi_parts (parts : list bytes) : bytes :=
  match parts with
  | [] => []
  | p :: rest =>
      let tl := trim_left p in
      (if is_empty tl then [cBSL; cNL]
       else if is_empty rest then tl
       else if has_suffix [cSP; cSP] tl then tl ++ [cNL]
       else tl ++ [cSP; cSP; cNL]) ++ escape_multi_parts rest
  end.
(** internal/textutils/escape_multiline.go:17-56  EscapeMultiLine *)
Definition escape_multi_line (s : bytes) : bytes :=
  match split_on cNL s with
  | [_] => s
  | parts => escape_multi_parts parts
  end.

(** internal/textutils/prefix_lines.go:3-16  PrefixLines *)
Definition prefix_lines (s repl : bytes) : bytes :=
  repl ++ flat_map (fun c => if c =? cNL then c :: repl else [c]) s.

(** internal/textutils/quote.go:10-14  SurroundBy *)
Definition surround_by (s chars : bytes) : bytes := chars ++ s ++ chars.
(** internal/textutils/quote.go:15-39  SurroundByQuotes *)
Definition surround_by_quotes (s : bytes) : bytes :=
  if is_empty s then []
  else if contains_byte 34 s && contains_byte 39 s then surround_by (replace_all [34] [92; 34] s) [34]
  else if contains_byte 34 s then surround_by s [39]
  else surround_by s [34].

(** collapse/whitespace.go:30 *)
Definition is_ws (c : byte) : bool := (c =? cSP) || (c =? cCR) || (c =? cNL) || (c =? cTAB).

(** collapse/whitespace.go:12-79  replaceAnyWhitespaceWithSpace, literally, with its batched appends.
    State: [ret] (None = nil), startNormal, startMatch (None = -1), index i. *)
Definition slice (lo hi : nat) (s : bytes) : bytes := firstn (hi - lo) (skipn lo s).
Record raw_state := { rw_ret : option bytes; rw_normal : nat; rw_match : option nat }.
Definition rw_append (r : option bytes) (x : bytes) : option bytes :=
  match r with None => Some x | Some y => Some (y ++ x) end.
(** collapse/whitespace.go:29-55  one iteration *)
Definition rw_step (src : bytes) (i : nat) (c : byte) (st : raw_state) : raw_state :=
  match rw_match st, is_ws c with
  | None, true => {| rw_ret := rw_ret st; rw_normal := rw_normal st; rw_match := Some i |}
  | Some _, true => st
  | Some m, false =>
      if Nat.eqb (i - m) 1 && (nth m src 0 =? cSP)
      then {| rw_ret := rw_ret st; rw_normal := rw_normal st; rw_match := None |}
      else {| rw_ret := rw_append (rw_ret st) (slice (rw_normal st) m src ++ [cSP]);
              rw_normal := i; rw_match := None |}
  | None, false => st
  end.
Fixpoint rw_loop (src : bytes) (i : nat) (rest : bytes) (st : raw_state) : raw_state :=
  match rest with
  | [] => st
  | c :: t => rw_loop src (S i) t (rw_step src i c st)
  end.
(** collapse/whitespace.go:57-78 *)
Definition rw_finish (src : bytes) (st : raw_state) : bytes :=
  let n := List.length src in
  let ret :=
    match rw_match st with
    | None => if Nat.eqb (rw_normal st) 0 then rw_ret st
              else rw_append (rw_ret st) (skipn (rw_normal st) src)
    | Some m =>
        if (match rw_ret st with None => true | Some _ => false end)
           && Nat.eqb (n - m) 1 && (nth m src 0 =? cSP)
        then rw_ret st
        else rw_append (rw_ret st) (slice (rw_normal st) m src ++ [cSP])
    end in
  match ret with None => src | Some r => r end.
Definition replace_any_whitespace_go (src : bytes) : bytes :=
  match src with
  | [] => []
  | _ => rw_finish src (rw_loop src O src {| rw_ret := None; rw_normal := O; rw_match := None |})
  end.

(** The specification-shaped version used in the rest of the model (equal on every string,
    TextFacts.replace_any_whitespace_go_eq). *)
Fixpoint collapse_ws_from (prev : bool) (s : bytes) : bytes :=
  match s with
  | [] => []
  | c :: t =>
      if is_ws c then (if prev then collapse_ws_from true t else cSP :: collapse_ws_from true t)
      else c :: collapse_ws_from false t
  end.
Definition collapse_ws (s : bytes) : bytes := collapse_ws_from false s.
