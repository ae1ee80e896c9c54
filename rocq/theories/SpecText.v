(** Specification vocabulary for the text utilities and the textual part of the renderers. Written independently of the
    model's helpers (only UTF-8 decoding and the table of white space characters are shared). No proofs in this file. *)
From Coq Require Import List NArith ZArith Bool.
From Verif Require Import Bytes.
Import ListNotations.
Open Scope N_scope.
Open Scope list_scope.

(** ** White space collapse (C16) *)
Definition html_blank (c : N) : Prop := c = 32 \/ c = 9 \/ c = 10 \/ c = 13.
(** [run_collapsed blank s o]: o is s with every maximal run of blank characters replaced by one space. *)
Inductive run_collapsed (blank : N -> Prop) : bytes -> bytes -> Prop :=
| col_nil : run_collapsed blank [] []
| col_char c s o : ~ blank c -> run_collapsed blank s o -> run_collapsed blank (c :: s) (c :: o)
| col_run w s o : w <> [] -> Forall blank w -> (match s with [] => True | c :: _ => ~ blank c end) ->
    run_collapsed blank s o -> run_collapsed blank (w ++ s) (32 :: o).
Definition collapsed : bytes -> bytes -> Prop := run_collapsed html_blank.

(** ** Consecutive newlines (C18) *)
(** Three line ends with at most spaces between them. *)
Definition three_newlines (s : bytes) : Prop :=
  exists x p q z, s = x ++ [10] ++ repeat 32 p ++ [10] ++ repeat 32 q ++ [10] ++ z.
(** The third of three line ends is dropped together with the spaces before it; nothing else is ever changed. *)
Inductive newline_squeeze : bytes -> bytes -> Prop :=
| nsq_refl s : newline_squeeze s s
| nsq_step x p q z o :
    newline_squeeze (x ++ [10] ++ repeat 32 p ++ [10] ++ z) o ->
    newline_squeeze (x ++ [10] ++ repeat 32 p ++ [10] ++ repeat 32 q ++ [10] ++ z) o.
Definition unblank_line (l : bytes) : bool := existsb (fun c => negb (c =? 32)) l.
(** The lines that contain something. *)
Definition text_lines (s : bytes) : list bytes := filter unblank_line (split_on 10 s).

(** ** Fences (C20, C21) *)
(** [f] occurs [k] times in a row in [s]. *)
Definition has_run (f : N) (k : nat) (s : bytes) : Prop := exists x y, s = x ++ repeat f k ++ y.

Fixpoint run_length (f : N) (s : bytes) : nat :=
  match s with c :: t => if c =? f then S (run_length f t) else O | [] => O end.
Fixpoint drop_run (f : N) (s : bytes) : bytes :=
  match s with c :: t => if c =? f then drop_run f t else s | [] => [] end.
(** CommonMark 4.5: up to three spaces, at least [n] fence characters, then only spaces and tabs. *)
Definition closes_fence (f : N) (n : nat) (line : bytes) : bool :=
  Nat.leb (run_length 32 line) 3 &&
  (let rest := drop_run 32 line in
   Nat.leb n (run_length f rest) && forallb (fun c => (c =? 32) || (c =? 9)) (drop_run f rest)).
(** The lines before the first closing line, and the lines after it. *)
Fixpoint fence_body (f : N) (n : nat) (lines : list bytes) : option (list bytes * list bytes) :=
  match lines with
  | [] => None
  | l :: rest => if closes_fence f n l then Some ([], rest)
                 else option_map (fun '(x, y) => (l :: x, y)) (fence_body f n rest)
  end.
(** Reads a fenced code block at the first line: info string, content lines, lines after the block. *)
Definition read_fenced (f : N) (lines : list bytes) : option (bytes * list bytes * list bytes) :=
  match lines with
  | [] => None
  | l :: rest =>
      let n := run_length f l in
      let info := drop_run f l in
      if Nat.leb 3 n && negb ((f =? 96) && existsb (N.eqb 96) info)
      then option_map (fun '(x, y) => (info, x, y)) (fence_body f n rest)
      else None
  end.

(** ** Code spans (C22), CommonMark 6.1 *)
(** Looks for a run of exactly [n] backticks; [cur] is the run read so far. Returns the text before it and after it. *)
Fixpoint find_close (n cur : nat) (s : bytes) : option (bytes * bytes) :=
  match s with
  | [] => if Nat.eqb cur n then Some ([], []) else None
  | c :: t =>
      if c =? 96 then find_close n (S cur) t
      else if Nat.eqb cur n then Some ([], s)
      else option_map (fun '(x, y) => (repeat 96 cur ++ c :: x, y)) (find_close n O t)
  end.
Definition all_spaces (s : bytes) : bool := forallb (N.eqb 32) s.
(** Line endings become spaces; one space is stripped from both sides unless the span has only spaces. *)
Definition span_content (s : bytes) : bytes :=
  let s := map (fun c => if c =? 10 then 32 else c) s in
  match s with
  | c :: t => if (c =? 32) && (match rev t with d :: _ => d =? 32 | [] => false end) && negb (all_spaces s)
              then removelast t else s
  | [] => []
  end.
(** Reads a code span at the start of [s]: its content and the text after it. *)
Definition read_code_span (s : bytes) : option (bytes * bytes) :=
  match run_length 96 s with
  | O => None
  | n => option_map (fun '(x, y) => (span_content x, y)) (find_close n O (drop_run 96 s))
  end.
(** Blank in inline code: space, tab and line feed. *)
Definition code_blank (c : N) : Prop := c = 32 \/ c = 9 \/ c = 10.
Definition first_is (c : N) (s : bytes) : bool := match s with d :: _ => d =? c | [] => false end.
Definition last_is (c : N) (s : bytes) : bool := first_is c (rev s).

(** ** White space around a text (C23) *)
(** A sequence of complete white space characters. *)
Inductive spaces : bytes -> Prop :=
| spaces_nil : spaces []
| spaces_cons e r s : decode_rune e = (r, List.length e) -> is_space_rune r = true -> spaces s -> spaces (e ++ s).
(** Neither the first nor the last character is white space, and there is one. *)
Definition hugs (t : bytes) : Prop :=
  t <> [] /\ is_space_rune (fst (decode_rune t)) = false /\ is_space_rune (fst (decode_last_rune t)) = false.
(** A line with the delimiter put around its text. *)
Inductive delimited (d : bytes) : bytes -> bytes -> Prop :=
| del_blank l : spaces l -> delimited d l l
| del_text l t r : spaces l -> spaces r -> hugs t -> delimited d (l ++ t ++ r) (l ++ d ++ t ++ d ++ r).

(** ** Titles (C26) and bracketed texts (C29): a backslash takes the next character with it. *)
(** The text up to the first unescaped [q], and what follows it. *)
Fixpoint until_unescaped (q : N) (esc : bool) (s : bytes) : option (bytes * bytes) :=
  match s with
  | [] => None
  | c :: t =>
      if esc then option_map (fun '(x, y) => (c :: x, y)) (until_unescaped q false t)
      else if c =? q then Some ([], t)
      else option_map (fun '(x, y) => (c :: x, y)) (until_unescaped q (c =? 92) t)
  end.
(** A link title at the start of [s] (CommonMark 6.3): raw inner text and the rest. *)
Definition read_title (s : bytes) : option (bytes * bytes) :=
  match s with
  | q :: t => if (q =? 34) || (q =? 39) then until_unescaped q false t else None
  | [] => None
  end.
(** Removes the backslash in front of the character [q]. *)
Fixpoint strip_escapes (q : N) (s : bytes) : bytes :=
  match s with
  | c :: t => match t with
              | d :: t' => if (c =? 92) && (d =? q) then d :: strip_escapes q t' else c :: strip_escapes q t
              | [] => [c]
              end
  | [] => []
  end.
(** The first unescaped closing bracket when brackets must balance (a link text or image description). *)
Fixpoint until_bracket (depth : nat) (esc : bool) (s : bytes) : option (bytes * bytes) :=
  match s with
  | [] => None
  | c :: t =>
      let k := fun d e => option_map (fun '(x, y) => (c :: x, y)) (until_bracket d e t) in
      if esc then k depth false
      else if c =? 93 then match depth with O => Some ([], t) | S d => k d false end
      else if c =? 91 then k (S depth) false
      else k depth (c =? 92)
  end.

(** ** Headings (C32) *)
(** The optional closing sequence of an ATX heading: a run of '#' after a space or tab (or nothing), at the end. *)
Definition has_closing_sequence (content : bytes) : Prop :=
  exists x k, content = x ++ repeat 35 (S k) /\ (x = [] \/ exists y c, x = y ++ [c] /\ (c = 32 \/ c = 9)).

(** ** Numbers (C30) *)
Fixpoint digits_value (acc : N) (s : bytes) : option N :=
  match s with
  | [] => Some acc
  | c :: t => if (48 <=? c) && (c <=? 57) then digits_value (acc * 10 + (c - 48)) t else None
  end.

(** ** Multi-line content of links and setext headings (C24, C33) *)
(** A line that is followed by another one: blank lines become a lone backslash, all others end in a hard line break (two
    spaces); leading white space is dropped. *)
Inductive broken_line : bytes -> bytes -> Prop :=
| bl_blank l : spaces l -> broken_line l [92]
| bl_text l t : spaces l -> t <> [] -> is_space_rune (fst (decode_rune t)) = false -> broken_line (l ++ t) (t ++ [32; 32])
| bl_hard l t : spaces l -> is_space_rune (fst (decode_rune (t ++ [32; 32]))) = false -> broken_line (l ++ t ++ [32; 32]) (t ++ [32; 32]).
(** The last line only loses leading white space. *)
Inductive last_line : bytes -> bytes -> Prop :=
| ll_text l t : spaces l -> t <> [] -> is_space_rune (fst (decode_rune t)) = false -> last_line (l ++ t) t.

(** [p] occurs in [s]. *)
Definition infix (p s : bytes) : Prop := exists x y, s = x ++ p ++ y.

(** ** List items (C31): the prefix before the first line, the same number of spaces before all others. *)
Definition item_lines (prefix : bytes) (ls : list bytes) : list bytes :=
  match ls with
  | h :: t => (prefix ++ h) :: map (app (repeat 32 (List.length prefix))) t
  | [] => []
  end.
Fixpoint items_lines (prefix : nat -> bytes) (i : nat) (items : list (list bytes)) : list bytes :=
  match items with
  | it :: rest => item_lines (prefix i) it ++ items_lines prefix (S i) rest
  | [] => []
  end.

(** A backslash directly before a double quote or at the very end (C26). *)
Definition stray_backslash (s : bytes) : Prop := exists x, (exists y, s = x ++ [92; 34] ++ y) \/ s = x ++ [92].
(** Two backslashes in a row, or one at the very end (C29). *)
Definition double_backslash (s : bytes) : Prop := exists x, (exists y, s = x ++ [92; 92] ++ y) \/ s = x ++ [92].

(** Visible ASCII characters other than the backslash (C32). *)
Definition ink (c : N) : bool := (33 <=? c) && (c <=? 126) && negb (c =? 92).
Definition inked (s : bytes) : bytes := filter ink s.
(** Every '#' stands directly after the escape marker 0x07, as escaping guarantees. *)
Definition hashes_marked (s : bytes) : Prop := forall x y, s = x ++ [35] ++ y -> exists x', x = x' ++ [7].
