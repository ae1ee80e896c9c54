(** Specification side of the escaping properties: what a reader of the produced markdown sees.  Nothing here mentions the
    detectors or any other helper of the model; only the marker byte 7 is shared. Written from the CommonMark 0.31 rules. *)
From Coq Require Import List NArith Bool.
From Verif Require Import Bytes.
Import ListNotations.
Open Scope N_scope.
Open Scope list_scope.

(** Where a byte of the final markdown comes from: written by a renderer (or a harmless character of a text), a protected
    character of a text (it stood behind a marker), or a backslash inserted by the un-escaping. *)
Inductive kind := Raw | Lit | Ins.
Notation kbyte := (N * kind)%type (only parsing).

(** [explains s D]: the annotated output D arises from the marked content s by dropping all markers and inserting
    backslashes only in front of protected characters. A marker that protects nothing is dropped. *)
Inductive explains : bytes -> list kbyte -> Prop :=
| ex_nil : explains [] []
| ex_raw c s D : c <> 7 -> explains s D -> explains (c :: s) ((c, Raw) :: D)
| ex_lit c s D : c <> 7 -> explains s D -> explains (7 :: c :: s) ((c, Lit) :: D)
| ex_ins c s D : c <> 7 -> explains s D -> explains (7 :: c :: s) ((92, Ins) :: (c, Lit) :: D)
| ex_stray_end : explains [7] []
| ex_stray s D : explains (7 :: s) D -> explains (7 :: 7 :: s) D.

(** The position after [A] is the first non-blank one of its line. *)
Definition starts_line (A : list kbyte) : Prop :=
  exists A1 S, A = A1 ++ S /\ Forall (fun x => fst x = 32) S
               /\ (A1 = [] \/ exists A2 k, A1 = A2 ++ [(10, k)]).

(** Same, and the line before it exists and is not blank. *)
Definition starts_line_after_text (A : list kbyte) : Prop :=
  exists A0 L k S, A = A0 ++ L ++ (10, k) :: S /\ Forall (fun x => fst x = 32) S
                   /\ Forall (fun x => fst x <> 10) L /\ Exists (fun x => fst x <> 32) L.

(** End of line or white space, as a CommonMark reader sees it (space, tab, line ending). *)
Definition blank_or_end (s : bytes) : bool :=
  match s with [] => true | c :: _ => (c =? 32) || (c =? 9) || (c =? 10) || (c =? 13) end.

(** The recognisers below look at the text from the first non-blank character of a line on. *)

(** ATX heading: 1-6 # followed by blank or end of line. *)
Fixpoint hashes (n : nat) (s : bytes) : bool :=
  match s with
  | c :: t => if c =? 35 then match n with O => false | S k => hashes k t end else blank_or_end s
  | [] => true
  end.
Definition atx_heading (s : bytes) : bool :=
  match s with c :: t => (c =? 35) && hashes 5 t | [] => false end.

(** Thematic break: three or more of the same - _ * with only spaces between. *)
Fixpoint break_rest (c : byte) (n : nat) (s : bytes) : bool :=
  match s with
  | [] => Nat.leb 3 n
  | x :: t => if x =? c then break_rest c (S n) t
              else if x =? 32 then break_rest c n t
              else (x =? 10) && Nat.leb 3 n
  end.
Definition thematic_break (s : bytes) : bool :=
  match s with
  | c :: _ => ((c =? 45) || (c =? 95) || (c =? 42)) && break_rest c 0 s
  | [] => false
  end.

(** Setext underline: a run of one of = -, then only blanks up to the end of the line. *)
Fixpoint only_blanks (s : bytes) : bool :=
  match s with [] => true | c :: t => if c =? 10 then true else ((c =? 32) || (c =? 9)) && only_blanks t end.
Fixpoint underline_rest (c : byte) (s : bytes) : bool :=
  match s with
  | x :: t => if x =? c then underline_rest c t else only_blanks s
  | [] => true
  end.
Definition setext_underline (s : bytes) : bool :=
  match s with c :: t => ((c =? 61) || (c =? 45)) && underline_rest c t | [] => false end.

Definition block_quote (s : bytes) : bool := match s with c :: _ => c =? 62 | [] => false end.

(** Bullet list item. *)
Definition bullet_item (s : bytes) : bool :=
  match s with c :: t => ((c =? 45) || (c =? 43) || (c =? 42)) && blank_or_end t | [] => false end.

(** Ordered list item: the position of the delimiter . or ), directly behind the digits that start the line. *)
Definition after_line_digits (A : list kbyte) : Prop :=
  exists A1 G, A = A1 ++ G /\ starts_line A1 /\ G <> [] /\ Forall (fun x => is_digit (fst x) = true) G.
Definition item_delimiter (s : bytes) : bool :=
  match s with c :: t => ((c =? 46) || (c =? 41)) && blank_or_end t | [] => false end.

(** White space for the emphasis rules of CommonMark (Unicode category Zs, tab, line feed, form feed, carriage return) *)
Definition cm_whitespace (r : N) : bool :=
  (r =? 9) || (r =? 10) || (r =? 12) || (r =? 13) || (r =? 32) || (r =? 160) || (r =? 5760)
  || in_range 8192 8202 r || (r =? 8239) || (r =? 8287) || (r =? 12288).
Fixpoint drop_run (c : byte) (s : bytes) : bytes :=
  match s with x :: t => if x =? c then drop_run c t else s | [] => [] end.
(** A run of emphasis characters c followed by this text cannot open emphasis: white space or the end follows.
    Four more characters count as white space for Go only: VT, NEL, U+2028, U+2029. *)
Definition go_only_whitespace (r : N) : bool := (r =? 11) || (r =? 133) || (r =? 8232) || (r =? 8233).
Definition not_opening (c : byte) (s : bytes) : Prop :=
  match drop_run c s with
  | [] => True
  | u => cm_whitespace (fst (decode_rune u)) = true \/ go_only_whitespace (fst (decode_rune u)) = true
  end.

(** A closing bracket before the end of the line. *)
Fixpoint bracket_closes (s : bytes) : bool :=
  match s with [] => false | c :: t => if c =? 10 then false else (c =? 93) || bracket_closes t end.

(** The byte before is an inserted backslash. *)
Definition escaped_here (A : list kbyte) : Prop := exists A0, A = A0 ++ [(92, Ins)].

(** Code fence: at least three ` or three ~ (what follows on the line does not matter here). *)
Definition code_fence (s : bytes) : bool :=
  has_prefix [96; 96; 96] s || has_prefix [126; 126; 126] s.

(** Backslash escapes: a backslash before ASCII punctuation stands for that character. *)
Definition ascii_punct (c : byte) : bool :=
  in_range 33 47 c || in_range 58 64 c || in_range 91 96 c || in_range 123 126 c.
Fixpoint read_escapes (s : bytes) : bytes :=
  match s with
  | x :: r =>
      match r with
      | c :: t => if (x =? 92) && ascii_punct c then c :: read_escapes t else x :: read_escapes r
      | [] => [x]
      end
  | [] => []
  end.

(** All lines of a text start with non-blank content satisfying / not satisfying a recogniser. *)
Fixpoint skip_spaces (s : bytes) : bytes :=
  match s with c :: t => if c =? 32 then skip_spaces t else s | [] => [] end.
Definition some_line (p : bytes -> bool) (s : bytes) : Prop :=
  exists l, In l (split_on 10 s) /\ p (skip_spaces l) = true.

(** The character here is escaped, or it continues a run of backticks and tildes whose first character is escaped. *)
Definition escaped_run (A : list kbyte) : Prop :=
  exists A1 G, A = A1 ++ (92, Ins) :: G /\ Forall (fun x => fst x = 96 \/ fst x = 126) G.

(** White space or the end of the text follows (with the four characters above). *)
Definition space_follows (s : bytes) : Prop :=
  match s with
  | [] => True
  | _ => cm_whitespace (fst (decode_rune s)) = true \/ go_only_whitespace (fst (decode_rune s)) = true
  end.

(** One line, from its first non-blank character on, is an ordered list item. *)
Fixpoint drop_digits (s : bytes) : bytes :=
  match s with c :: t => if is_digit c then drop_digits t else s | [] => [] end.
Definition ordered_item (s : bytes) : bool :=
  match s with c :: t => is_digit c && item_delimiter (drop_digits t) | [] => false end.

(** Two consecutive lines form a setext heading. *)
Definition some_setext (s : bytes) : Prop :=
  exists before l1 l2 after, split_on 10 s = before ++ l1 :: l2 :: after
    /\ existsb (fun c => negb (c =? 32)) l1 = true /\ setext_underline (skip_spaces l2) = true.

(** Thematic break where tabs may stand between the characters too. *)
Definition thematic_break_tabs (s : bytes) : bool := thematic_break (map (fun c => if c =? 9 then 32 else c) s).

(** The text a reader should get back: NUL replaced by U+FFFD, the bell character (used as marker) dropped. *)
Definition plain (t : bytes) : bytes :=
  flat_map (fun c => if c =? 0 then [239; 191; 189] else if c =? 7 then [] else [c]) t.

(** Code spans: reading from the left, a backslash escape hides its character; an unescaped run of n backticks opens a
    code span if a run of exactly n backticks follows anywhere later (backslashes do not count there). *)
Fixpoint tick_run (s : bytes) : nat * bytes :=
  match s with
  | c :: t => if c =? 96 then let '(n, r) := tick_run t in (S n, r) else (O, s)
  | [] => (O, [])
  end.
(** [closes fuel n s]: s (which does not start inside a run) contains a run of exactly n backticks. *)
Fixpoint closes (fuel n : nat) (s : bytes) : bool :=
  match fuel with
  | O => false
  | S f =>
      match s with
      | [] => false
      | c :: t => if c =? 96 then let '(m, r) := tick_run s in Nat.eqb n m || closes f n r else closes f n t
      end
  end.
Fixpoint code_spans (fuel : nat) (s : bytes) : bool :=
  match fuel with
  | O => false
  | S f =>
      match s with
      | [] => false
      | c :: t =>
          if c =? 92 then
            match t with
            | d :: t' => if ascii_punct d then code_spans f t' else code_spans f t
            | [] => false
            end
          else if c =? 96 then let '(n, r) := tick_run s in closes (List.length r) n r || code_spans f r
          else code_spans f t
      end
  end.
Definition code_span_opens (s : bytes) : bool := code_spans (List.length s) s.
Definition is_tick (c : byte) : bool := (c =? 96) || (c =? 126).

(** An unescaped run of c followed by this text can open emphasis: something that is not white space follows. *)
Definition may_open (c : byte) (s : bytes) : bool :=
  match drop_run c s with [] => false | u => negb (cm_whitespace (fst (decode_rune u))) end.

(** [inserts t u]: u is t with backslashes inserted in front of some characters, nothing else. *)
Inductive inserts : bytes -> bytes -> Prop :=
| ins_nil : inserts [] []
| ins_same c t u : inserts t u -> inserts (c :: t) (c :: u)
| ins_bsl c t u : inserts t u -> inserts (c :: t) (92 :: c :: u).
