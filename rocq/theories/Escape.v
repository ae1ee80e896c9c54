(** Model of converter/escape.go, internal/escape/*.go and the strikethrough detector. No proofs in this file.

    Go passes the whole slice and an index. The model passes the same information split at the index:
    [rb] is the part before the index, reversed (nearest byte first), [c] the byte at the index and [af] the part after. *)
From Coq Require Import List NArith Bool String.
From Verif Require Import Bytes TextUtils.
Import ListNotations.
Open Scope N_scope.
Open Scope list_scope.

(** A Go UnEscapeHandler (converter/register.go, type HandleUnEscapeFunc): -1 is [None], a skip count is [Some n].
    A Go handler may return any int; the value 0 makes the Go loop examine the same marker for ever, the bundled handlers never
    return it (EscapeFacts.detectors_positive). *)
Definition detector := bytes -> byte -> bytes -> option nat.

(** internal/escape/util.go:7-13  IsSpace (a byte, not a rune: 0x85 and 0xA0 count) *)
Definition is_space_byte (c : byte) : bool :=
  (c =? 9) || (c =? 10) || (c =? 11) || (c =? 12) || (c =? 13) || (c =? 32) || (c =? 133) || (c =? 160).

(** Drop markers at the head: the loops "if chars[i] == placeholderByte continue" of internal/escape/util.go:23-63 *)
Fixpoint skip_markers (s : bytes) : bytes :=
  match s with
  | c :: t => if c =? marker_esc then skip_markers t else s
  | [] => []
  end.

(** internal/escape/util.go:33-41  getNext (0 if there is none) *)
Definition get_next (af : bytes) : byte := match skip_markers af with c :: _ => c | [] => 0 end.
(** internal/escape/util.go:56-67  getNextAsRune *)
Definition get_next_rune (af : bytes) : N :=
  match skip_markers af with [] => 0 | s => fst (decode_rune s) end.
(** internal/escape/util.go:43-55  getPrevAsRune *)
Definition get_prev_rune (rb : bytes) : N :=
  match skip_markers rb with [] => 0 | s => fst (decode_last_rune_rev s) end.

(** unicode.IsDigit of the previous rune: the model tests the ASCII digits. A non-ASCII digit passes the Go test at
    internal/escape/elem_list.go:42 but its last byte then fails IsDigit(chars[i]) at line 55, so the result is the same. *)
Definition is_digit_rune (r : N) : bool := in_range 48 57 r.

(** internal/escape/elem_italic_bold.go:7-22  IsItalicOrBold *)
Definition is_italic_or_bold : detector := fun rb c af =>
  if negb ((c =? 42) || (c =? 95)) then None
  else let next := get_next_rune af in
       if is_space_rune next || (next =? 0) then None else Some 1%nat.

(** The common backwards loop "only spaces and markers back to the start of the line"
    (elem_quote.go:8-20, elem_header.go:8-19, elem_divider.go:8-20, elem_list.go:12-23). *)
Fixpoint only_blank_before (rb : bytes) : bool :=
  match rb with
  | [] => true
  | c :: t => if c =? cNL then true
              else if (c =? marker_esc) || (c =? cSP) then only_blank_before t else false
  end.

(** internal/escape/elem_quote.go:3-23  IsBlockQuote *)
Definition is_block_quote : detector := fun rb c af =>
  if negb (c =? 62) then None else if only_blank_before rb then Some 1%nat else None.

(** internal/escape/elem_header.go:21-43  the forward loop; [n] is nPoundSigns, [d] is i - index *)
Fixpoint atx_scan (n d : nat) (af : bytes) : option nat :=
  match af with
  | [] => Some 1%nat
  | c :: t =>
      if c =? 35 then (if Nat.ltb 6 (S n) then None else atx_scan (S n) (S d) t)
      else if c =? marker_esc then atx_scan n (S d) t
      else if (c =? 32) || (c =? 9) || (c =? 10) || (c =? 13) then Some d
      else None
  end.
(** internal/escape/elem_header.go:3-44  IsAtxHeader *)
Definition is_atx_header : detector := fun rb c af =>
  if negb (c =? 35) then None
  else if only_blank_before rb then atx_scan 1 1 af else None.

(** internal/escape/elem_header.go:51-76  the backwards loop; [nl] is newlineCount *)
Fixpoint setext_back (nl : nat) (rb : bytes) : option nat :=
  match rb with
  | [] => None
  | c :: t =>
      if (c =? marker_esc) || (c =? cSP) then setext_back nl t
      else if c =? cNL then setext_back (S nl) t
      else match nl with 1%nat => Some 1%nat | _ => None end
  end.
(** internal/escape/elem_header.go:46-77  IsSetextHeader *)
Definition is_setext_header : detector := fun rb c af =>
  if negb ((c =? 61) || (c =? 45)) then None else setext_back O rb.

(** internal/escape/elem_divider.go:22-46  the forward loop; [n] is count, [d] is i - index *)
Fixpoint divider_scan (c : byte) (n d : nat) (af : bytes) : option nat :=
  match af with
  | [] => if Nat.leb 3 n then Some d else None
  | x :: t =>
      if x =? marker_esc then divider_scan c n (S d) t
      else if x =? cSP then divider_scan c n (S d) t
      else if x =? c then divider_scan c (S n) (S d) t
      else if x =? cNL then (if Nat.leb 3 n then Some d else None)
      else None
  end.
(** internal/escape/elem_divider.go:3-51  IsDivider *)
Definition is_divider : detector := fun rb c af =>
  if negb ((c =? 45) || (c =? 95) || (c =? 42)) then None
  else if only_blank_before rb then divider_scan c 1 1 af else None.

(** internal/escape/elem_list.go:46-61  backwards over digits, spaces and markers *)
Fixpoint only_digits_before (rb : bytes) : bool :=
  match rb with
  | [] => true
  | c :: t => if c =? cNL then true
              else if (c =? cSP) || (c =? marker_esc) || is_digit c then only_digits_before t else false
  end.
(** internal/escape/elem_list.go:35-69  IsOrderedList *)
Definition is_ordered_list : detector := fun rb c af =>
  if negb ((c =? 46) || (c =? 41)) then None
  else if negb (is_digit_rune (get_prev_rune rb)) then None
  else if negb (only_digits_before rb) then None
  else let next := get_next af in
       if is_space_byte next || (next =? 0) then Some 1%nat else None.
(** internal/escape/elem_list.go:7-33  IsUnorderedList *)
Definition is_unordered_list : detector := fun rb c af =>
  if negb ((c =? 45) || (c =? 42) || (c =? 43)) then None
  else if negb (only_blank_before rb) then None
  else let next := get_next af in
       if is_space_byte next || (next =? 0) then Some 1%nat else None.

(** internal/escape/elem_image.go:25-37  isImageOrLinkStartBracket *)
Fixpoint bracket_scan (af : bytes) : option nat :=
  match af with
  | [] => None
  | c :: t => if c =? cNL then None else if c =? 93 then Some 1%nat else bracket_scan t
  end.
(** internal/escape/elem_image.go:3-23  IsImageOrLink *)
Definition is_image_or_link : detector := fun rb c af =>
  if c =? 33 then match af with d :: _ => if d =? 91 then Some 1%nat else None | [] => None end
  else if c =? 91 then bracket_scan af
  else None.

(** internal/escape/elem_code.go:8-17  backwards loop (as only_blank_before) *)
(** internal/escape/elem_code.go:19-32  forward count; result (count, i - index) *)
Fixpoint fence_scan (n d : nat) (af : bytes) : nat * nat :=
  match af with
  | [] => (n, d)
  | c :: t =>
      if c =? marker_esc then fence_scan n (S d) t
      else if (c =? 96) || (c =? 126) then fence_scan (S n) (S d) t
      else (n, d)
  end.
(** internal/escape/elem_code.go:3-38  IsFencedCode *)
Definition is_fenced_code : detector := fun rb c af =>
  if negb ((c =? 96) || (c =? 126)) then None
  else if negb (only_blank_before rb) then None
  else let '(n, d) := fence_scan 1 1 af in
       if Nat.ltb n 3 then None else Some d.
(** internal/escape/elem_code.go:40-46  IsInlineCode *)
Definition is_inline_code : detector := fun rb c af => if c =? 96 then Some 1%nat else None.
(** internal/escape/elem_backslash.go:3-9  IsBackslash *)
Definition is_backslash : detector := fun rb c af => if c =? 92 then Some 1%nat else None.

(** plugin/strikethrough/strikethrough.go:60-74  handleUnEscapers *)
Definition is_strikethrough : detector := fun rb c af =>
  if negb (c =? 126) then None
  else let next := get_next_rune af in
       if is_space_rune next || (next =? 0) then None else Some 1%nat.

(** plugin/commonmark/commonmark.go:165-175  all registered with the same priority, in this order *)
Definition commonmark_detectors : list detector :=
  [is_italic_or_bold; is_block_quote; is_atx_header; is_setext_header; is_divider; is_ordered_list;
   is_unordered_list; is_image_or_link; is_fenced_code; is_inline_code; is_backslash].

(** plugin/commonmark/commonmark.go:155-164  EscapedChar (the 20 characters by code) *)
Definition commonmark_escaped : list N :=
  [92; 42; 95; 45; 43; 46; 62; 124; 36; 35; 61; 91; 93; 40; 41; 33; 126; 96; 34; 39].
Definition is_escaped_in (l : list N) (r : N) : bool := existsb (N.eqb r) l.

(** converter/escape.go:17-41  escapeContent in smart mode; [esc] is checkIsEscapedChar *)
Fixpoint escape_content (esc : N -> bool) (s : bytes) : bytes :=
  match s with
  | [] => []
  | c :: t =>
      if c =? cNUL then rune_error_bytes ++ escape_content esc t
      else if esc (fst (decode_rune s)) then marker_esc :: c :: escape_content esc t
      else c :: escape_content esc t
  end.

(** converter/escape.go:48-56  checkElements: the first detector that does not say -1 *)
Fixpoint first_skip (ds : list detector) (rb : bytes) (c : byte) (af : bytes) : option nat :=
  match ds with
  | [] => None
  | d :: ds' => match d rb c af with Some n => Some n | None => first_skip ds' rb c af end
  end.

(** converter/escape.go:43-89  unEscapeContent in smart mode. The two Go passes (mark, then rebuild) are fused:
    a marker that the first pass marks becomes a backslash, every other marker is dropped, every other byte is kept.
    [skip] counts the positions the first pass jumps over (index += skip - 1). *)
Fixpoint unescape_from (ds : list detector) (skip : nat) (rb s : bytes) : bytes :=
  match s with
  | [] => []
  | c :: t =>
      if c =? marker_esc then
        match skip with
        | S k => unescape_from ds k (c :: rb) t
        | O =>
            match t with
            | [] => []
            | d :: t' =>
                match first_skip ds (c :: rb) d t' with
                | None => unescape_from ds O (c :: rb) t
                | Some n => cBSL :: unescape_from ds (pred n) (c :: rb) t
                end
            end
        end
      else c :: unescape_from ds (pred skip) (c :: rb) t
  end.
Definition unescape_content (ds : list detector) (s : bytes) : bytes := unescape_from ds O [] s.

(** converter/escape.go:43-89 once more, literally with the array [changes] and the index, for the comparison lemma
    EscapeFacts.unescape_go_eq. [fuel] bounds the number of loop iterations. *)
Fixpoint mark_loop (ds : list detector) (chars : bytes) (fuel i : nat) (marked : list nat) : list nat :=
  match fuel with
  | O => marked
  | S k =>
      if Nat.leb (List.length chars) i then marked
      else if negb (nth i chars 0 =? marker_esc) then mark_loop ds chars k (S i) marked
      else if Nat.leb (List.length chars) (S i) then marked
      else match first_skip ds (rev (firstn (S i) chars)) (nth (S i) chars 0) (skipn (S (S i)) chars) with
           | None => mark_loop ds chars k (S i) marked
           | Some n => mark_loop ds chars k (i + n) (i :: marked)
           end
  end.
Fixpoint rebuild (marked : list nat) (i : nat) (s : bytes) : bytes :=
  match s with
  | [] => []
  | c :: t =>
      if negb (c =? marker_esc) then c :: rebuild marked (S i) t
      else if existsb (Nat.eqb i) marked then cBSL :: rebuild marked (S i) t
      else rebuild marked (S i) t
  end.
Definition unescape_go (ds : list detector) (s : bytes) : bytes :=
  rebuild (mark_loop ds s (S (List.length s)) O []) O s.

(** converter/converter.go  WithEscapeMode *)
Inductive escape_mode := Smart | Disabled.
(** converter/escape.go:17-20 and 43-46 *)
Definition escape_with (m : escape_mode) (esc : N -> bool) (s : bytes) : bytes :=
  match m with Disabled => s | Smart => escape_content esc s end.
Definition unescape_with (m : escape_mode) (ds : list detector) (s : bytes) : bytes :=
  match m with Disabled => s | Smart => unescape_content ds s end.

(** Detectors of the bundled plugins, in any order and any number
    (plugin/commonmark/commonmark.go:165-175, plugin/strikethrough/strikethrough.go:36-37). *)
Definition only_bundled (ds : list detector) : Prop := incl ds (commonmark_detectors ++ [is_strikethrough]).
(** The detectors of a converter with the commonmark plugin, with or without the strikethrough plugin; in any order: handlers
    of equal priority are tried in the order of registration, and a plugin may be registered more than once. *)
Definition bundled (ds : list detector) : Prop := incl commonmark_detectors ds /\ only_bundled ds.
(** At least the characters of the commonmark plugin are escaped (other plugins may add more). *)
Definition protects (esc : N -> bool) : Prop := forall c, In c commonmark_escaped -> esc c = true.
