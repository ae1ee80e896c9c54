(** Model of the textual part of the renderers of plugin/commonmark: what each renderer makes of the rendered content of its
    children and of the attribute values. The part that walks the tree is in CommonMark.v. No proofs in this file. *)
From Coq Require Import List NArith ZArith Bool String.
From Verif Require Import Bytes TextUtils.
Import ListNotations.
Open Scope N_scope.
Open Scope list_scope.

(** plugin/commonmark/options.go:41-88  config. Strings are kept as byte strings. *)
Record config := {
  em_delimiter : bytes;
  strong_delimiter : bytes;
  horizontal_rule : bytes;
  bullet_marker : bytes;
  disable_end_comment : bool;
  code_fence_opt : bytes;
  heading_style : bytes;
  link_style : bytes;
  link_empty_href : bytes;
  link_empty_content : bytes
}.
(** plugin/commonmark/options.go:90-130  fillInDefaultConfig *)
Definition or_default (v d : bytes) : bytes := if is_empty v then d else v.
Definition fill_defaults (c : config) : config := {|
  em_delimiter := or_default (em_delimiter c) (b "*");
  strong_delimiter := or_default (strong_delimiter c) (b "**");
  horizontal_rule := or_default (horizontal_rule c) (b "* * *");
  bullet_marker := or_default (bullet_marker c) (b "-");
  disable_end_comment := disable_end_comment c;
  code_fence_opt := or_default (code_fence_opt c) (b "```");
  heading_style := or_default (heading_style c) (b "atx");
  link_style := or_default (link_style c) (b "inlined");
  link_empty_href := or_default (link_empty_href c) (b "render");
  link_empty_content := or_default (link_empty_content c) (b "render")
|}.
(** The config of NewCommonmarkPlugin() without options, before the defaults are filled in. *)
Definition empty_config : config := {|
  em_delimiter := []; strong_delimiter := []; horizontal_rule := []; bullet_marker := [];
  disable_end_comment := false; code_fence_opt := []; heading_style := []; link_style := [];
  link_empty_href := []; link_empty_content := []
|}.
Definition default_config : config := fill_defaults empty_config.

(** plugin/commonmark/validation.go:8-15  contains *)
Definition one_of (l : list bytes) (v : bytes) : bool := existsb (beqb v) l.
(** plugin/commonmark/validation.go:41-101  validateConfig; Some key = the error names that key *)
Definition validate_config (c : config) : option bytes :=
  if negb (Nat.eqb (count_byte 95 (em_delimiter c)) 1) && negb (Nat.eqb (count_byte 42 (em_delimiter c)) 1)
  then Some (b "EmDelimiter")
  else if negb (Nat.eqb (count_byte 95 (strong_delimiter c)) 2) && negb (Nat.eqb (count_byte 42 (strong_delimiter c)) 2)
  then Some (b "StrongDelimiter")
  else if Nat.ltb (count_byte 42 (horizontal_rule c)) 3 && Nat.ltb (count_byte 95 (horizontal_rule c)) 3
          && Nat.ltb (count_byte 45 (horizontal_rule c)) 3
  then Some (b "HorizontalRule")
  else if negb (one_of [b "-"; b "+"; b "*"] (bullet_marker c)) then Some (b "BulletListMarker")
  else if negb (one_of [b "```"; b "~~~"] (code_fence_opt c)) then Some (b "CodeBlockFence")
  else if negb (one_of [b "atx"; b "setext"] (heading_style c)) then Some (b "HeadingStyle")
  else if negb (one_of [b "inlined"; b "referenced_index"; b "referenced_short"] (link_style c)) then Some (b "LinkStyle")
  else None.

(** plugin/commonmark/render_code.go:32-65  renderInlineCode *)
Definition inline_code_text (code : bytes) : bytes :=
  if is_empty (trim_space code) then [96] ++ code ++ [96]
  else
    let code := collapse_inline_code code in
    let fence := repeat 96 (S (code_fence_occurrences 96 code)) in
    let code1 := if has_prefix [96] code then cSP :: code else code in
    let code2 := if has_suffix [96] code1 then code1 ++ [cSP] else code1 in
    fence ++ code2 ++ fence.

(** plugin/commonmark/render_code.go:70-72 *)
Definition drop_last_newline (code : bytes) : bytes :=
  if has_suffix [cNL] code then removelast code else code.
(** plugin/commonmark/render_code.go:70-88  renderBlockCode; the fence character is the first rune of an option that the
    validation restricts to three backticks or three tildes (first byte in the model) *)
Definition block_code_text (fence_opt info code : bytes) : bytes :=
  let code := drop_last_newline code in
  let fence := calculate_code_fence (hd 96 fence_opt) code in
  [cNL; cNL] ++ fence ++ info ++ [cNL] ++ replace_all [cNL] marker_nl code ++ [cNL] ++ fence ++ [cNL; cNL].

(** plugin/commonmark/render_code.go:93-109  getCodeLanguage, on the class attribute *)
Fixpoint first_language (parts : list bytes) : bytes :=
  match parts with
  | [] => []
  | p :: ps =>
      if contains (b "language-") p || contains (b "lang-") p
      then replace_first (b "lang-") [] (replace_first (b "language-") [] p)
      else first_language ps
  end.
Definition code_language (class : bytes) : bytes := first_language (split_on cSP class).

(** plugin/commonmark/render_blockquote.go:15-29 *)
Definition blockquote_text (content : bytes) : bytes :=
  let content := trim_space content in
  if is_empty content then []
  else [cNL; cNL] ++ prefix_lines (trim_hard_breaks (trim_consecutive_newlines content)) [62; cSP] ++ [cNL; cNL].

(** plugin/commonmark/render_bold_italic.go:29-36 *)
Definition emphasis_text (delim content : bytes) : bytes := delimiter_for_every_line content delim.

(** plugin/commonmark/render_break.go:10 *)
Definition break_text : bytes := [cSP; cSP; cNL].
(** plugin/commonmark/render_divider.go:10-12 *)
Definition divider_text (rule : bytes) : bytes := [cNL; cNL] ++ rule ++ [cNL; cNL].

(** plugin/commonmark/render_heading.go:47-55  runeCount *)
Definition visible_runes (s : bytes) : nat := List.length (filter (fun r => negb (r =? marker_esc)) (runes s)).
(** plugin/commonmark/render_heading.go:56-78  getUnderlineWidth *)
Definition underline_width (content : bytes) (minv : nat) : nat :=
  Nat.max minv (fold_left (fun w p => Nat.max w (visible_runes p)) (split_on cNL content) O).
(** plugin/commonmark/render_heading.go:17-24  setextUnderline *)
Definition setext_line (level width : nat) : bytes := repeat (if Nat.eqb level 1 then 61 else 45) width.
(** plugin/commonmark/render_heading.go:80-102  escapePoundSignAtEnd, on the reversed content; None = index out of range *)
Definition escape_pound_rev (rs : bytes) : option bytes :=
  match rs with
  | [] => None                                     (* s[len(s)-1] *)
  | c :: t =>
      if negb (c =? 35) then Some rs
      else match t with
           | _ :: d :: u => if d =? 92 then Some rs else Some (c :: 92 :: d :: u)
           | [_] => Some [c; 92]
           | [] => None                            (* s[len(s)-2] *)
           end
  end.
Definition escape_pound (s : bytes) : option bytes := option_map (@rev N) (escape_pound_rev (rev s)).
(** plugin/commonmark/render_heading.go:132-140; the regular expression replaces two or more spaces by one *)
Definition atx_content (content : bytes) : option bytes :=
  let content := replace_all [cNL] [cSP] content in
  let content := replace_all [cCR] [cSP] content in
  let content := squeeze_spaces false content in
  escape_pound (trim_space content).
(** plugin/commonmark/render_heading.go:104-150  renderHeading; None = panic *)
Definition heading_text (setext : bool) (level : nat) (content : bytes) : option bytes :=
  if is_empty (trim_space content) then Some []
  else if setext && Nat.ltb level 3 then
    let content := escape_multi_line (trim_consecutive_newlines content) in
    Some ([cNL; cNL] ++ content ++ [cNL] ++ setext_line level (underline_width content 3) ++ [cNL; cNL])
  else
    option_map (fun c => [cNL; cNL] ++ repeat 35 level ++ [cSP] ++ c ++ [cNL; cNL]) (atx_content content).

(** plugin/commonmark/render_image.go:13-28  escapeAlt; [prev_bsl]: the previous byte of the original is a backslash *)
Fixpoint escape_alt_from (prev_bsl : bool) (s : bytes) : bytes :=
  match s with
  | [] => []
  | c :: t =>
      (if ((c =? 91) || (c =? 93)) && negb prev_bsl then [92; c] else [c]) ++ escape_alt_from (c =? 92) t
  end.
Definition escape_alt (s : bytes) : bytes := escape_alt_from false s.

(** plugin/commonmark/render_link.go:35-41 and render_image.go:54-60: destination and title *)
Definition dest_and_title (dest title : bytes) : bytes :=
  [40] ++ dest ++ (if is_empty title then [] else cSP :: surround_by_quotes title) ++ [41].
(** plugin/commonmark/render_image.go:39-60; [src] is the assembled URL *)
Definition image_text (src title alt : bytes) : bytes :=
  let title := replace_all [cNL] [cSP] title in
  let alt := escape_alt (replace_all [cNL] [cSP] alt) in
  [33; 91] ++ alt ++ [93] ++ dest_and_title src title.

(** plugin/commonmark/render_link.go:55-99 with renderLinkInlined (28-45); [href] is the assembled URL.
    None = RenderTryNext *)
Definition link_text (c : config) (href title content : bytes) : option bytes :=
  if is_empty href && beqb (link_empty_href c) (b "skip") then None
  else
    let title := replace_all [cNL] [cSP] title in
    if is_empty (trim_space content) && beqb (link_empty_content c) (b "skip") then None
    else
      let title := if is_empty href then [] else title in
      let '(l, t, r) := surrounding_spaces content in
      let t := escape_multi_line (trim_consecutive_newlines t) in
      if beqb (link_style c) (b "inlined")
      then Some (l ++ [91] ++ t ++ [93] ++ dest_and_title href title ++ r)
      else None.

(** fmt.Sprintf("%0<width>d", z): zero padded after the sign *)
Definition pad_int (width : nat) (z : Z) : bytes :=
  match z with
  | Zneg p => let ds := itoa_N (Npos p) in 45 :: repeat 48 (width - 1 - List.length ds) ++ ds
  | _ => let ds := itoa z in repeat 48 (width - List.length ds) ++ ds
  end.
(** plugin/commonmark/render_list.go:16-24  getStartAt *)
Definition start_at (attr : option bytes) : Z :=
  match atoi (match attr with Some v => v | None => b "1" end) with Some z => z | None => 1%Z end.
(** plugin/commonmark/render_list.go:26-43  getPrefixFunc for ol *)
Definition ordered_prefix (start : Z) (n i : nat) : bytes :=
  let last := (start + Z.of_nat n - 1)%Z in
  pad_int (List.length (itoa last)) (start + Z.of_nat i) ++ [46; cSP].
Definition list_prefix (is_ul : bool) (marker : bytes) (start : Z) (n i : nat) : bytes :=
  if is_ul then marker ++ [cSP] else ordered_prefix start n i.
(** plugin/commonmark/render_list.go:45-66  renderMultiLineListItem *)
Definition indent_item (content : bytes) (k : nat) : bytes :=
  let indent := repeat cSP k in
  let lines := map (replace_all marker_nl (marker_nl ++ indent)) (split_on cNL content) in
  join (cNL :: indent) lines.
(** plugin/commonmark/render_list.go:85-108: the trimmed, non-empty items; [un] is UnEscapeContent *)
Fixpoint list_items (un : bytes -> bytes) (prefix : nat -> bytes) (k i : nat) (items : list bytes) : bytes :=
  match items with
  | [] => []
  | it :: rest =>
      prefix i ++ indent_item (un (trim_hard_breaks (trim_consecutive_newlines it))) k
      ++ (if is_empty rest then [] else [cNL]) ++ list_items un prefix k (S i) rest
  end.
Definition list_text (un : bytes -> bytes) (is_ul : bool) (marker : bytes) (start : Z) (items : list bytes) : bytes :=
  let items := filter (fun x => negb (is_empty x)) (map trim_space items) in
  if is_empty items then []
  else
    let prefix := list_prefix is_ul marker start (List.length items) in
    [cNL; cNL] ++ list_items un prefix (rune_count (prefix O)) O items ++ [cNL; cNL].

(** plugin/commonmark/render_comment.go:11-19 and domutils.ListEndCommentData (list_end_comment.go) *)
Definition end_comment_text (data : bytes) : bytes := [cNL; cNL] ++ b "<!--" ++ data ++ b "-->" ++ [cNL; cNL].

(** plugin/base/base.go:125-134  handlePostRenderTrimContent *)
Definition post_trim (s : bytes) : bytes :=
  trim_hard_breaks (trim_consecutive_newlines (trim_space s)).
(** plugin/commonmark/commonmark.go:186-192  handlePostRenderCodeBlockNewline *)
Definition post_newline (s : bytes) : bytes := replace_all marker_nl [cNL] s.
