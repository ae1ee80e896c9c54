(** Theorems about the text utilities and the texts written by the renderers (C16, C18, C20-C26, C29-C33, C46).
    Only statements; the specification is SpecText.v, the models are TextUtils.v and RenderText.v. *)
From Coq Require Import List NArith ZArith Bool String.
From Verif Require Import Bytes TextUtils RenderText SpecText TextFacts TextFacts2 TextFacts3 SpecText2 Dom Engine CommonMark RenderFacts RenderFacts2 RenderFacts3 RenderFacts4 RenderFacts5.
Import ListNotations.
Open Scope N_scope.
Open Scope list_scope.

Definition nl (s : bytes) : bytes := map (fun c => if c =? 47 then 10 else c) s.

(** C16: the collapsing loop computes exactly the text with each run of white space replaced by one space. *)
Theorem c16_collapse : forall s o, collapsed s o <-> o = replace_any_whitespace_go s.
Proof. exact collapse_go_iff. Qed.
Print Assumptions c16_collapse.
Theorem c16_idempotent : forall s, replace_any_whitespace_go (replace_any_whitespace_go s) = replace_any_whitespace_go s.
Proof. exact collapse_go_idem. Qed.
Print Assumptions c16_idempotent.
Theorem c16_model_is_loop : forall s, replace_any_whitespace_go s = collapse_ws s.
Proof. exact replace_any_whitespace_go_eq. Qed.
Print Assumptions c16_model_is_loop.
Example c16_ex : replace_any_whitespace_go ([9; 32] ++ nl (b "a/ / b c/")) = b " a b c ".
Proof. vm_compute. reflexivity. Qed.

(** C18: only blank lines and the spaces in them are dropped, no three line ends remain, the visible lines stay. *)
Theorem c18_at_most_one_blank_line : forall s,
  newline_squeeze s (trim_consecutive_newlines_go s) /\ ~ three_newlines (trim_consecutive_newlines_go s).
Proof. exact tcn_go_final. Qed.
Print Assumptions c18_at_most_one_blank_line.
Theorem c18_idempotent : forall s,
  trim_consecutive_newlines_go (trim_consecutive_newlines_go s) = trim_consecutive_newlines_go s.
Proof. exact tcn_go_idem. Qed.
Print Assumptions c18_idempotent.
Theorem c18_lines_kept : forall s, text_lines (trim_consecutive_newlines_go s) = text_lines s.
Proof. exact tcn_go_lines. Qed.
Print Assumptions c18_lines_kept.
Theorem c18_model_is_loop : forall s, trim_consecutive_newlines_go s = trim_consecutive_newlines s.
Proof. exact tcn_go_eq. Qed.
Print Assumptions c18_model_is_loop.
Example c18_ex : trim_consecutive_newlines_go (nl (b "a  /  // b/ / / c")) = nl (b "a  /  / b/ / c").
Proof. vm_compute. reflexivity. Qed.

(** Trimming unnecessary hard line breaks keeps every line, drops only spaces, and only where no text line follows. *)
Theorem c18_hard_breaks : forall s, breaks_trimmed (split_on 10 s) (split_on 10 (trim_hard_breaks s)).
Proof. exact hard_lines. Qed.
Print Assumptions c18_hard_breaks.
Example c18_hard_ex : trim_hard_breaks (nl (b "a  /b  //c  /  /d  / /e")) = nl (b "a  /b//c//d//e").
Proof. vm_compute. reflexivity. Qed.

(** C20: for any ASCII fence character. *)
Theorem c20_fence_longer : forall f code, f < 128 ->
  exists n, calculate_code_fence f code = repeat f n /\ (3 <= n)%nat /\ forall k, has_run f k code -> (k < n)%nat.
Proof. exact fence_final. Qed.
Print Assumptions c20_fence_longer.
Example c20_ex : calculate_code_fence 96 (b "x````` y") = b "``````".
Proof. vm_compute. reflexivity. Qed.

(** C21, missing: code that already contains U+F002 and info strings with a newline or a fence character; both are
    refuted below.  [rest] is whatever follows the block. *)
Theorem c21_code_block_round_trip_partial : forall fopt info code rest,
  fopt = b "```" \/ fopt = b "~~~" -> ~ In 10 info -> ~ In 96 info -> ~ In 126 info ->
  ~ infix marker_nl info -> ~ infix marker_nl code ->
  exists B, post_newline (block_code_text fopt info code ++ rest) = [10; 10] ++ B /\
  read_fenced (hd 0 fopt) (split_on 10 B) =
    Some (info, split_on 10 (drop_last_newline code), split_on 10 ([10] ++ post_newline rest)).
Proof. exact block_final. Qed.
Print Assumptions c21_code_block_round_trip_partial.
Theorem c21_one_newline_removed : forall code,
  drop_last_newline code = code /\ last_is 10 code = false \/ code = drop_last_newline code ++ [10].
Proof. exact drop_last_spec. Qed.
Print Assumptions c21_one_newline_removed.
Example c21_ex : exists B, post_newline (block_code_text (b "```") (b "go") (nl (b "if x {//``` }/")) ++ b "z") = [10; 10] ++ B /\
  read_fenced 96 (split_on 10 B) = Some (b "go", [b "if x {"; []; b "``` }"], [[]; b "z"]).
Proof. eexists. split; vm_compute; reflexivity. Qed.
(** A class with a backtick gives an info string that does not open a block; one with a newline moves text into the code. *)
Theorem c21_info_string_refuted : exists cls code B,
  post_newline (block_code_text (b "```") (code_language cls) code) = [10; 10] ++ B /\ read_fenced 96 (split_on 10 B) = None.
Proof.
  exists (b "language-a`b"), (b "x"), (nl (b "```a`b/x/```//")). vm_compute. split; reflexivity.
Qed.
Print Assumptions c21_info_string_refuted.
Theorem c21_info_newline_refuted : exists cls code B info c r,
  post_newline (block_code_text (b "```") (code_language cls) code) = [10; 10] ++ B /\
  read_fenced 96 (split_on 10 B) = Some (info, c, r) /\ c <> split_on 10 code.
Proof.
  exists (nl (b "language-a/b")), (b "x"), (nl (b "```a/b/x/```//")), (b "a"), [b "b"; b "x"], [[]; []].
  vm_compute. repeat split; discriminate.
Qed.
Print Assumptions c21_info_newline_refuted.
(** U+F002 in the code becomes a line break. *)
Theorem c21_marker_in_code_refuted : exists code B info c r,
  post_newline (block_code_text (b "```") [] code) = [10; 10] ++ B /\
  read_fenced 96 (split_on 10 B) = Some (info, c, r) /\ c <> split_on 10 code.
Proof.
  exists (b "a" ++ marker_nl ++ b "b"), (nl (b "```/a/b/```//")), [], [b "a"; b "b"], [[]; []].
  vm_compute. repeat split; discriminate.
Qed.
Print Assumptions c21_marker_in_code_refuted.

(** C56: the first class that names a language gives the info string. *)
Theorem c56_language : forall before class lang after,
  Forall (fun w => ~ In 32 w) (before ++ class :: after) ->
  Forall no_language before -> names_language class lang -> no_language lang ->
  code_language (join [32] (before ++ class :: after)) = lang.
Proof. exact language_found. Qed.
Print Assumptions c56_language.
Theorem c56_no_language : forall ws, Forall (fun w => ~ In 32 w) ws -> Forall no_language ws ->
  code_language (join [32] ws) = [].
Proof. exact language_none. Qed.
Print Assumptions c56_no_language.
Theorem c56_pre_code : forall a c ks lang, code_language (attr_or (b "class") [] a) = [] ->
  code_language (attr_or (b "class") [] c) = lang -> lang <> [] ->
  code_info (Elem (b "pre") a [Elem (b "code") c ks]) = lang.
Proof. exact pre_info. Qed.
Print Assumptions c56_pre_code.
Example c56_ex : code_language (join [32] [b "hljs"; b "lang-go"; b "wide"]) = b "go"
  /\ code_info (Elem (b "pre") [] [Elem (b "code") [(b "class", b "language-go")] []]) = b "go".
Proof. vm_compute. split; reflexivity. Qed.
(** A class that merely contains the letters counts too, and a tab between classes is not a separator. *)
Theorem c56_substring_refuted : exists class, ~ In 32 class /\ (forall lang, ~ names_language class lang) /\
  code_language class = b "sword".
Proof. exact language_substring. Qed.
Print Assumptions c56_substring_refuted.
Theorem c56_tab_refuted : exists lang, no_language lang /\ code_language (b "wide" ++ [9] ++ b "language-" ++ lang) <> lang.
Proof. exact language_tab. Qed.
Print Assumptions c56_tab_refuted.

(** C22: the span ends where the code ends, whatever follows (except another backtick) ... *)
Theorem c22_code_span_delimits : forall code rest, ~ spaces code -> first_is 96 rest = false ->
  exists inner, read_code_span (inline_code_text code ++ rest) = Some (inner, rest).
Proof. exact inline_span. Qed.
Print Assumptions c22_code_span_delimits.
(** ... and the content read is the collapsed code exactly when both or neither of its ends are backticks. *)
Theorem c22_round_trip_iff_partial : forall code rest, ~ spaces code -> first_is 96 rest = false ->
  let c := collapse_inline_code code in
  (read_code_span (inline_code_text code ++ rest) = Some (c, rest) <-> first_is 96 c = last_is 96 c).
Proof. exact inline_round_trip. Qed.
Print Assumptions c22_round_trip_iff_partial.
Theorem c22_collapsed_code : forall code, trim_space code <> [] ->
  exists l t r, code = l ++ t ++ r /\ spaces l /\ spaces r /\ hugs t /\ run_collapsed code_blank t (collapse_inline_code code).
Proof. exact inline_collapse_spec. Qed.
Print Assumptions c22_collapsed_code.
Example c22_ex : inline_code_text (nl (b "/`a`` /b`")) = b "``` `a`` b` ```" /\
  read_code_span (inline_code_text (nl (b "/`a`` /b`")) ++ b "*x") = Some (b "`a`` b`", b "*x").
Proof. vm_compute. split; reflexivity. Qed.
Theorem c22_round_trip_refuted : exists code rest,
  read_code_span (inline_code_text code ++ rest) = Some (b " `a", rest) /\ collapse_inline_code code = b "`a".
Proof. exists (b "`a"), (b "x"). vm_compute. split; reflexivity. Qed.
Print Assumptions c22_round_trip_refuted.
(** Code of only white space is written as it is: with two line feeds the "span" is cut by a blank line. *)
Theorem c22_blank_code_refuted : exists code, spaces code /\ inline_code_text code = [96; 10; 10; 96].
Proof.
  exact (ex_intro _ [10; 10] (conj (spaces_cons [10] 10 [10] eq_refl eq_refl (spaces_cons [10] 10 [] eq_refl eq_refl spaces_nil)) eq_refl)).
Qed.
Print Assumptions c22_blank_code_refuted.

(** C23 *)
Theorem c23_delimiters_hug : forall text d, ~ In 10 d ->
  Forall2 (delimited d) (split_on 10 text) (split_on 10 (emphasis_text d text)).
Proof. exact delimiter_lines. Qed.
Print Assumptions c23_delimiters_hug.
Example c23_ex : emphasis_text (b "**") (nl (b " a b /  /c ")) = nl (b " **a b** /  /**c** ").
Proof. vm_compute. reflexivity. Qed.

(** C24: for every text of a link; [body] is what stands between the brackets. *)
Theorem c24_link_text_no_blank_line : forall c href title content out,
  link_text c href title content = Some out -> ~ spaces content ->
  exists l body r, out = l ++ [91] ++ body ++ [93] ++ dest_and_title href (if is_empty href then [] else replace_all [10] [32] title) ++ r /\
    spaces l /\ spaces r /\ (forall x, In x (split_on 10 body) -> ~ spaces x) /\ inked body = inked content.
Proof. exact link_final. Qed.
Print Assumptions c24_link_text_no_blank_line.
Theorem c24_multi_line : forall s, s <> [] -> is_space_rune (fst (decode_last_rune s)) = false -> ~ spaces s ->
  (split_on 10 s = [s] /\ escape_multi_line s = s) \/
  exists ls l os o, split_on 10 s = ls ++ [l] /\ split_on 10 (escape_multi_line s) = os ++ [o] /\
    Forall2 broken_line ls os /\ last_line l o.
Proof. exact multi_line_final. Qed.
Print Assumptions c24_multi_line.
Example c24_ex : link_text default_config (b "/u") [] (nl (b " a/// b ")) =
  Some (b " [" ++ nl (b "a  /\/b") ++ b "](/u) ").
Proof. vm_compute. reflexivity. Qed.
(** A text that ends in a line break keeps a blank last line. *)
Theorem c24_trailing_newline_refuted : exists s, ~ spaces s /\ exists l, In l (split_on 10 (escape_multi_line s)) /\ spaces l.
Proof.
  exact (ex_intro _ [97; 10] (conj (not_spaces [97; 10] ltac:(discriminate) eq_refl)
    (ex_intro _ [] (conj (or_intror (or_intror (or_introl eq_refl))) spaces_nil)))).
Qed.
Print Assumptions c24_trailing_newline_refuted.

(** C25: [body] has the same visible characters as the content (only white space is tidied). *)
Theorem c25_every_line_quoted : forall content, ~ spaces content ->
  exists q body, blockquote_text content = [10; 10] ++ q ++ [10; 10] /\
    split_on 10 q = map (app [62; 32]) (split_on 10 body) /\ inked body = inked content.
Proof. exact blockquote_final. Qed.
Print Assumptions c25_every_line_quoted.
Example c25_ex : blockquote_text (nl (b "//a///b/")) = nl (b "//> a/> /> b//").
Proof. vm_compute. reflexivity. Qed.
(** The newlines of a code block are still U+F002 at that time, so after the last step lines without '>' appear. *)
Theorem c25_code_block_in_quote_refuted : exists code l,
  In l (split_on 10 (post_newline (blockquote_text (block_code_text (b "```") [] code)))) /\ l = b "b".
Proof. exists (nl (b "a/b")), (b "b"). vm_compute. tauto. Qed.
Print Assumptions c25_code_block_in_quote_refuted.

(** C26: the title is read completely and, its escapes resolved, is the original.  Missing: titles with a backslash
    before a double quote or at the end (refuted below). *)
Theorem c26_title_round_trip_partial : forall s rest, s <> [] -> ~ stray_backslash s ->
  exists q inner, (q = 34 \/ q = 39) /\ surround_by_quotes s = [q] ++ inner ++ [q] /\
  read_title (surround_by_quotes s ++ rest) = Some (inner, rest) /\ strip_escapes q inner = s.
Proof. exact quotes_read. Qed.
Print Assumptions c26_title_round_trip_partial.
Example c26_ex : surround_by_quotes ([97; 34; 39] ++ b "b\c") = [34; 97; 92; 34; 39] ++ b "b\c" ++ [34].
Proof. vm_compute. reflexivity. Qed.
Theorem c26_title_refuted : exists s, read_title (surround_by_quotes s ++ b ")") = None.
Proof. exists (b "a\"). vm_compute. reflexivity. Qed.
Print Assumptions c26_title_refuted.
Theorem c26_quote_refuted : exists s inner rest, read_title (surround_by_quotes s) = Some (inner, rest) /\ rest <> [].
Proof. exists [39; 92; 34; 97], [39; 92; 92], [97; 34]. vm_compute. split; [reflexivity|discriminate]. Qed.
Print Assumptions c26_quote_refuted.

(** C29: every bracket of the description stands after a backslash ... *)
Theorem c29_brackets_preceded : forall s x c y, escape_alt s = x ++ [c] ++ y -> c = 91 \/ c = 93 -> last_is 92 x = true.
Proof. exact (fun s x c y E C => match alt_preceded s false x c y E C with or_introl (conj _ F) => match Bool.diff_false_true F with end | or_intror H => H end). Qed.
Print Assumptions c29_brackets_preceded.
(** ... and the description ends at the bracket that was written.  Missing: alt texts with two backslashes in a row or one
    at the end (refuted below). *)
Theorem c29_description_ends_partial : forall src title alt, ~ double_backslash (replace_all [10] [32] alt) ->
  exists text rest, image_text src title alt = [33; 91] ++ rest /\
  until_bracket O false rest = Some (text, dest_and_title src (replace_all [10] [32] title)) /\
  filter (fun c => negb (c =? 92)) text = filter (fun c => negb (c =? 92)) (replace_all [10] [32] alt).
Proof. exact image_final. Qed.
Print Assumptions c29_description_ends_partial.
Theorem c29_alt_text_kept : forall s, ~ In 92 s -> strip_escapes 91 (strip_escapes 93 (escape_alt s)) = s.
Proof. exact alt_strip. Qed.
Print Assumptions c29_alt_text_kept.
Example c29_ex : image_text (b "/i.png") (b "t") (nl (b "a]/[b")) = b "![a\] \[b](/i.png " ++ [34; 116; 34; 41].
Proof. vm_compute. reflexivity. Qed.
Theorem c29_description_refuted : exists alt text rest,
  until_bracket O false (skipn 2 (image_text (b "/u") [] alt)) = Some (text, rest) /\ rest = b "b](/u)".
Proof. exists (b "a\\]b"), (b "a\\"), (b "b](/u)"). vm_compute. split; reflexivity. Qed.
Print Assumptions c29_description_refuted.
Theorem c29_trailing_backslash_refuted : exists alt, until_bracket O false (skipn 2 (image_text (b "/u") [] alt)) = None.
Proof. exists (b "a\"). vm_compute. reflexivity. Qed.
Print Assumptions c29_trailing_backslash_refuted.

(** C30: item i (from 0) of n gets the number start+i; all prefixes have the same width, also the continuation indent. *)
Theorem c30_consecutive_numbers_partial : forall start n i, (0 <= start)%Z -> (i < n)%nat ->
  exists ds, ordered_prefix start n i = ds ++ [46; 32] /\ digits_value 0 ds = Some (Z.to_N (start + Z.of_nat i)) /\
  List.length ds = List.length (itoa_N (Z.to_N (start + Z.of_nat n - 1))).
Proof. exact ordered_prefix_spec. Qed.
Print Assumptions c30_consecutive_numbers_partial.
Theorem c30_indent_width_partial : forall start n i, (0 <= start)%Z -> (i < n)%nat ->
  rune_count (ordered_prefix start n O) = List.length (ordered_prefix start n i).
Proof. exact ordered_prefix_width. Qed.
Print Assumptions c30_indent_width_partial.
Example c30_ex : ordered_prefix 8 4 1 = b "09. " /\ ordered_prefix 8 4 3 = b "11. ".
Proof. vm_compute. split; reflexivity. Qed.
(** A negative start attribute is accepted: the prefix is no list marker and the widths differ. *)
Theorem c30_negative_start_refuted : exists attr, 
  ordered_prefix (start_at (Some attr)) 12 0 = b "-10. " /\ ordered_prefix (start_at (Some attr)) 12 11 = b "1. ".
Proof. exists (b "-10"). vm_compute. split; reflexivity. Qed.
Print Assumptions c30_negative_start_refuted.

(** C31: a rendered list is, line by line, its items: the prefix before the first line and as many spaces before the
    others, also when the item contains the protected newlines of a code block. *)
Theorem c31_list_lines : forall un is_ul marker start items,
  Forall (fun c => c < 128) marker -> ~ In 10 marker -> (0 <= start)%Z ->
  let items' := filter (fun x => negb (is_empty x)) (map trim_space items) in
  items' <> [] ->
  exists body, list_text un is_ul marker start items = [10; 10] ++ body ++ [10; 10] /\
  split_on 10 (post_newline body) =
    items_lines (list_prefix is_ul marker start (List.length items')) O
      (map (fun it => split_on 10 (post_newline (un (trim_hard_breaks (trim_consecutive_newlines it))))) items').
Proof. exact list_lines. Qed.
Print Assumptions c31_list_lines.
Theorem c31_item_lines : forall content k, split_on 10 (post_newline (indent_item content k)) =
  match split_on 10 (post_newline content) with h :: t => h :: map (app (repeat 32 k)) t | [] => [] end.
Proof. exact indent_item_lines. Qed.
Print Assumptions c31_item_lines.
Example c31_ex : post_newline (list_text (fun s => s) false (b "-") 9 [nl (b "a/b"); []; b "c" ++ marker_nl ++ b "d"]) =
  nl (b "//09. a/    b/10. c/    d//").
Proof. vm_compute. reflexivity. Qed.

(** C32: [hashes_marked] holds for all content rendered with escaping on: '#' is escaped by the commonmark plugin. *)
Theorem c32_atx_heading : forall level s, trim_space s <> [] -> hashes_marked s ->
  exists c, heading_text false level s = Some ([10; 10] ++ repeat 35 level ++ [32] ++ c ++ [10; 10]) /\
  c <> [] /\ ~ In 10 c /\ ~ In 13 c /\ ~ has_closing_sequence c /\
  (forall z, c = z ++ [35] -> exists z', z = z' ++ [92] \/ z = z' ++ [92; 7]) /\ inked c = inked s.
Proof. exact atx_heading. Qed.
Print Assumptions c32_atx_heading.
Example c32_ex : heading_text false 2 (nl (b "a / b ") ++ [7; 35]) = Some (nl (b "//## a b \#//")).
Proof. vm_compute. reflexivity. Qed.
(** With escaping disabled there is no marker: the character before a trailing '#' is overwritten, a lone '#' panics. *)
Theorem c32_disabled_mode_refuted : heading_text false 1 (b "C#") = Some (nl (b "//# \#//")) /\ heading_text false 1 (b "#") = None.
Proof. vm_compute. split; reflexivity. Qed.
Print Assumptions c32_disabled_mode_refuted.

(** C33, missing: content whose last line is blank (refuted below). *)
Theorem c33_setext_heading_partial : forall level s, (level = 1 \/ level = 2)%nat -> trim_left (last (split_on 10 s) []) <> [] ->
  exists body w, heading_text true level s =
    Some ([10; 10] ++ body ++ [10] ++ repeat (if Nat.eqb level 1 then 61 else 45) w ++ [10; 10]) /\
  (3 <= w)%nat /\ (forall l, In l (split_on 10 body) -> (rune_width l <= w)%nat /\ ~ spaces l) /\ inked body = inked s.
Proof. exact setext_final. Qed.
Print Assumptions c33_setext_heading_partial.
Example c33_ex : heading_text true 2 (nl (b "a// bcdef")) = Some (nl (b "//a  /\/bcdef/-----//")).
Proof. vm_compute. reflexivity. Qed.
(** <h1>a<br></h1> renders its content as "a" and a hard line break: the underline then follows a blank line. *)
Theorem c33_trailing_break_refuted : heading_text true 1 (b "a" ++ break_text) = Some (nl (b "//a  /\//===//")).
Proof. vm_compute. reflexivity. Qed.
Print Assumptions c33_trailing_break_refuted.

(** C46: an accepted configuration has documented enum values and enough delimiter characters; missing: nothing else is
    checked about the two delimiters and the rule (refuted below). *)
Theorem c46_accepted_options_partial : forall c, validate_config (fill_defaults c) = None ->
  let c' := fill_defaults c in
  In (bullet_marker c') [b "-"; b "+"; b "*"] /\ In (code_fence_opt c') [b "```"; b "~~~"] /\
  In (heading_style c') [b "atx"; b "setext"] /\ In (link_style c') [b "inlined"; b "referenced_index"; b "referenced_short"] /\
  (count_byte 95 (em_delimiter c') = 1 \/ count_byte 42 (em_delimiter c') = 1)%nat /\
  (count_byte 95 (strong_delimiter c') = 2 \/ count_byte 42 (strong_delimiter c') = 2)%nat /\
  (3 <= count_byte 42 (horizontal_rule c') \/ 3 <= count_byte 95 (horizontal_rule c') \/ 3 <= count_byte 45 (horizontal_rule c'))%nat.
Proof. exact validate_spec. Qed.
Print Assumptions c46_accepted_options_partial.
Example c46_ex : validate_config (fill_defaults empty_config) = None /\ fill_defaults empty_config = default_config.
Proof. vm_compute. split; reflexivity. Qed.
Theorem c46_odd_delimiters_refuted : exists c, validate_config (fill_defaults c) = None /\
  em_delimiter c = b "x*y" /\ strong_delimiter c = b "_*_" /\ horizontal_rule c = b "***abc".
Proof.
  exists (Build_config (b "x*y") (b "_*_") (b "***abc") [] false [] [] [] [] []). vm_compute. repeat split; reflexivity.
Qed.
Print Assumptions c46_odd_delimiters_refuted.
