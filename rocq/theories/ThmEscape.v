(** Theorems about escaping (C01, C03-C14).  Only statements; the specification is SpecEscape.v, the model Escape.v.

    [ds] are the un-escape handlers of a converter with the commonmark plugin, with or without strikethrough; [esc] says
    which characters are escaped and contains at least those of the commonmark plugin.
    The "text" theorems speak about one text that goes through escaping and un-escaping; the "content" theorems speak about
    an arbitrary rendered document [s], in which protected characters are preceded by the marker 7: [D] is the final
    markdown, each byte annotated with its origin (SpecEscape.explains). *)
From Coq Require Import List NArith Bool String.
From Verif Require Import Bytes Escape SpecEscape EscapeFacts6.
From Verif Require EscapeFacts5.
Import ListNotations.
Open Scope N_scope.
Open Scope list_scope.

Definition esc0 : N -> bool := is_escaped_in commonmark_escaped.
Example protects_ex : protects esc0.
Proof. intros c H. repeat (destruct H as [<-|H]; [reflexivity|]). destruct H. Qed.
Example protects_more_ex : protects (is_escaped_in (commonmark_escaped ++ [124; 126; 64])).
Proof. intros c H. repeat (destruct H as [<-|H]; [reflexivity|]). destruct H. Qed.
Example bundled_ex1 : bundled commonmark_detectors. Proof. split; [apply incl_refl|apply incl_appl, incl_refl]. Qed.
Example bundled_ex2 : bundled (commonmark_detectors ++ [is_strikethrough]). Proof. split; [apply incl_appl, incl_refl|apply incl_refl]. Qed.

(** The model's one-pass un-escaping computes what the Go loop (mark, then rebuild) computes. *)
Theorem unescape_refines_loop : forall ds s, bundled ds -> unescape_go ds s = unescape_content ds s.
Proof. exact bundled_go_eq. Qed.
Print Assumptions unescape_refines_loop.
Example unescape_refines_loop_ex :
  unescape_go commonmark_detectors (7 :: b "# a" ++ [7; 42; 98; 7; 42; 7]) = b "\# a\*b*".
Proof. vm_compute. reflexivity. Qed.

(** C01: after un-escaping no marker is left, whatever the content and the handlers. *)
Theorem c01_unescaped_has_no_marker : forall ds s, ~ In 7 (unescape_content ds s).
Proof. exact unescape_no7. Qed.
Print Assumptions c01_unescaped_has_no_marker.

(** C03: with escaping disabled neither step changes anything. *)
Theorem c03_disabled_text_identity : forall ds esc t,
  unescape_with Disabled ds (escape_with Disabled esc t) = t.
Proof. exact (fun _ _ _ => eq_refl). Qed.
Print Assumptions c03_disabled_text_identity.

(** C04: escaping a text only inserts backslashes (NUL replaced, bell dropped). *)
Theorem c04_text_inserts_only : forall ds esc t, bundled ds ->
  inserts (plain t) (unescape_content ds (escape_content esc t)).
Proof. exact (fun ds esc t Bd => text_inserts ds esc t (EscapeFacts4.bundled_wb ds Bd)). Qed.
Print Assumptions c04_text_inserts_only.
Example c04_ex : unescape_content commonmark_detectors (escape_content esc0 (b "a *b* # c")) = b "a \*b* # c".
Proof. vm_compute. reflexivity. Qed.
Theorem c04_content_inserts_only : forall ds s, bundled ds ->
  inserts (filter (fun c => negb (c =? 7)) s) (unescape_content ds s).
Proof. exact (fun ds s Bd => content_inserts ds s (EscapeFacts4.bundled_wb ds Bd)). Qed.
Print Assumptions c04_content_inserts_only.

(** C05: a backslash is inserted only in front of a protected ASCII punctuation character, protected backslashes are always
    escaped, and so a reader that resolves backslash escapes gets the text back. *)
Theorem c05_text_round_trip : forall ds esc t, bundled ds -> protects esc ->
  read_escapes (unescape_content ds (escape_content esc t)) = plain t.
Proof. exact EscapeFacts5.text_read. Qed.
Print Assumptions c05_text_round_trip.
Example c05_ex : unescape_content commonmark_detectors (escape_content esc0 (b "\* 1. [x](y) \")) = b "\\* 1. \[x](y) \\".
Proof. vm_compute. reflexivity. Qed.
Theorem c05_content_backslashes : forall ds s, bundled ds ->
  exists D, explains s D /\ map fst D = unescape_content ds s
  /\ (forall A c B, D = A ++ (c, Ins) :: B -> c = 92 /\ exists d B', B = (d, Lit) :: B' /\ ascii_punct d = true)
  /\ (forall A B, D = A ++ (92, Lit) :: B -> escaped_here A).
Proof. exact ctx_escape. Qed.
Print Assumptions c05_content_backslashes.

(** C06: no NUL byte comes out; each is replaced by U+FFFD (see [plain] in C05). *)
Theorem c06_text_no_nul : forall ds esc t, ~ In 0 (unescape_content ds (escape_content esc t)).
Proof. exact text_no_nul. Qed.
Print Assumptions c06_text_no_nul.
(** C06: apart from the inserted markers the escaped text is the text with every NUL replaced (and every bell dropped). *)
Theorem c06_only_nul_replaced : forall esc t, filter (fun c => negb (c =? 7)) (escape_content esc t) = plain t.
Proof. exact EscapeFacts4.escape_strip. Qed.
Print Assumptions c06_only_nul_replaced.
Example c06_ex : unescape_content commonmark_detectors (escape_content esc0 (97 :: 0 :: b "b")) = 97 :: [239; 191; 189] ++ b "b".
Proof. vm_compute. reflexivity. Qed.

(** C07: no text yields an ATX heading. *)
Theorem c07_text_no_atx : forall ds esc t, bundled ds -> protects esc ->
  ~ some_line atx_heading (unescape_content ds (escape_content esc t)).
Proof. exact EscapeFacts5.text_atx. Qed.
Print Assumptions c07_text_no_atx.
Example c07_ex : some_line atx_heading (b "  ## x")
  /\ unescape_content commonmark_detectors (escape_content esc0 (b "  ## x")) = b "  \## x".
Proof. split; [exists (b "  ## x"); vm_compute; auto|vm_compute; reflexivity]. Qed.
Theorem c07_content_no_atx : forall ds s, bundled ds ->
  exists D, explains s D /\ map fst D = unescape_content ds s
  /\ forall A x B, D = A ++ x :: B -> starts_line A -> atx_heading (map fst (x :: B)) = true -> snd x <> Lit.
Proof. exact ctx_atx. Qed.
Print Assumptions c07_content_no_atx.

(** C08: no text yields a setext underline. *)
Theorem c08_text_no_setext : forall ds esc t, bundled ds -> protects esc ->
  ~ some_setext (unescape_content ds (escape_content esc t)).
Proof. exact EscapeFacts5.text_setext. Qed.
Print Assumptions c08_text_no_setext.
Example c08_ex : some_setext (b "a" ++ [10] ++ b " == ")
  /\ unescape_content commonmark_detectors (escape_content esc0 (b "a" ++ [10] ++ b " == ")) = b "a" ++ [10] ++ b " \== ".
Proof. split; [exists [], (b "a"), (b " == "), []; vm_compute; auto|vm_compute; reflexivity]. Qed.
Theorem c08_content_no_setext : forall ds s, bundled ds ->
  exists D, explains s D /\ map fst D = unescape_content ds s
  /\ forall A x B, D = A ++ x :: B -> starts_line_after_text A -> setext_underline (map fst (x :: B)) = true -> snd x <> Lit.
Proof. exact ctx_setext. Qed.
Print Assumptions c08_content_no_setext.

(** C09: no text without tabs yields a thematic break (tabs never survive white space collapsing; with a tab between the
    characters the claim is false, see the refutation). *)
Theorem c09_text_no_break : forall ds esc t, bundled ds -> protects esc -> ~ In 9 t ->
  ~ some_line thematic_break_tabs (unescape_content ds (escape_content esc t)).
Proof. exact EscapeFacts5.text_break_tabs. Qed.
Print Assumptions c09_text_no_break.
Example c09_ex : some_line thematic_break_tabs (b "_ _ _")
  /\ unescape_content commonmark_detectors (escape_content esc0 (b "_ _ _")) = b "\_ _ _".
Proof. split; [exists (b "_ _ _"); vm_compute; auto|vm_compute; reflexivity]. Qed.
Theorem c09_content_no_break : forall ds s, bundled ds ->
  exists D, explains s D /\ map fst D = unescape_content ds s
  /\ forall A x B, D = A ++ x :: B -> starts_line A -> thematic_break (map fst (x :: B)) = true -> snd x <> Lit.
Proof. exact ctx_break. Qed.
Print Assumptions c09_content_no_break.
Theorem c09_text_with_tabs_refuted : exists t,
  some_line thematic_break_tabs (unescape_content commonmark_detectors (escape_content (is_escaped_in commonmark_escaped) t)).
Proof. exact tab_break_witness. Qed.
Print Assumptions c09_text_with_tabs_refuted.

(** C10: no text yields a block quote. *)
Theorem c10_text_no_quote : forall ds esc t, bundled ds -> protects esc ->
  ~ some_line block_quote (unescape_content ds (escape_content esc t)).
Proof. exact EscapeFacts5.text_quote. Qed.
Print Assumptions c10_text_no_quote.
Example c10_ex : some_line block_quote (b "a" ++ [10] ++ b "> b")
  /\ unescape_content commonmark_detectors (escape_content esc0 (b "a" ++ [10] ++ b "> b")) = b "a" ++ [10] ++ b "\> b".
Proof. split; [exists (b "> b"); vm_compute; auto|vm_compute; reflexivity]. Qed.
Theorem c10_content_no_quote : forall ds s, bundled ds ->
  exists D, explains s D /\ map fst D = unescape_content ds s
  /\ forall A x B, D = A ++ x :: B -> starts_line A -> block_quote (map fst (x :: B)) = true -> snd x <> Lit.
Proof. exact ctx_quote. Qed.
Print Assumptions c10_content_no_quote.

(** C11: no text yields a list item. *)
Theorem c11_text_no_bullet : forall ds esc t, bundled ds -> protects esc ->
  ~ some_line bullet_item (unescape_content ds (escape_content esc t)).
Proof. exact EscapeFacts5.text_bullet. Qed.
Print Assumptions c11_text_no_bullet.
Theorem c11_text_no_ordered : forall ds esc t, bundled ds -> protects esc ->
  ~ some_line ordered_item (unescape_content ds (escape_content esc t)).
Proof. exact EscapeFacts5.text_ordered. Qed.
Print Assumptions c11_text_no_ordered.
Example c11_ex : some_line ordered_item (b "12) a") /\ some_line bullet_item (b "+ a")
  /\ unescape_content commonmark_detectors (escape_content esc0 (b "12) a" ++ [10] ++ b "+ a")) = b "12\) a" ++ [10] ++ b "\+ a".
Proof. split; [exists (b "12) a"); vm_compute; auto|split; [exists (b "+ a"); vm_compute; auto|vm_compute; reflexivity]]. Qed.
Theorem c11_content_no_bullet : forall ds s, bundled ds ->
  exists D, explains s D /\ map fst D = unescape_content ds s
  /\ forall A x B, D = A ++ x :: B -> starts_line A -> bullet_item (map fst (x :: B)) = true -> snd x <> Lit.
Proof. exact ctx_bullet. Qed.
Print Assumptions c11_content_no_bullet.
Theorem c11_content_no_ordered : forall ds s, bundled ds ->
  exists D, explains s D /\ map fst D = unescape_content ds s
  /\ forall A x B, D = A ++ x :: B -> after_line_digits A -> item_delimiter (map fst (x :: B)) = true -> snd x <> Lit.
Proof. exact ctx_ordered. Qed.
Print Assumptions c11_content_no_ordered.

(** C12: no text yields a code fence; no text without three backticks/tildes in a row opens a code span. Without that
    condition the claim is false: the fence detector escapes only the first character of a run at the start of a line. *)
Theorem c12_text_no_fence : forall ds esc t, bundled ds -> protects esc ->
  ~ some_line code_fence (unescape_content ds (escape_content esc t)).
Proof. exact EscapeFacts5.text_fence. Qed.
Print Assumptions c12_text_no_fence.
Theorem c12_content_no_fence : forall ds s, bundled ds ->
  exists D, explains s D /\ map fst D = unescape_content ds s
  /\ forall A x B, D = A ++ x :: B -> starts_line A -> code_fence (map fst (x :: B)) = true -> snd x <> Lit.
Proof. exact ctx_fence. Qed.
Print Assumptions c12_content_no_fence.
Theorem c12_text_no_code_span_partial : forall ds esc t, bundled ds -> protects esc ->
  (forall a x y z r, plain t = a ++ x :: y :: z :: r -> is_tick x = true -> is_tick y = true -> is_tick z = true -> False) ->
  code_span_opens (unescape_content ds (escape_content esc t)) = false.
Proof. exact EscapeFacts5.text_code_span. Qed.
Print Assumptions c12_text_no_code_span_partial.
Example c12_ex : code_span_opens (b "a `b` ``c``") = true
  /\ code_span_opens (unescape_content commonmark_detectors (escape_content esc0 (b "a `b` ``c``"))) = false.
Proof. vm_compute. split; reflexivity. Qed.
Theorem c12_content_backticks : forall ds s, bundled ds ->
  exists D, explains s D /\ map fst D = unescape_content ds s
  /\ forall A B, D = A ++ (96, Lit) :: B -> escaped_run A.
Proof. exact ctx_backtick. Qed.
Print Assumptions c12_content_backticks.
Theorem c12_code_span_refuted : exists t, code_span_opens (unescape_content commonmark_detectors
  (escape_content (is_escaped_in commonmark_escaped) t)) = true.
Proof. exact tick_witness. Qed.
Print Assumptions c12_code_span_refuted.

(** C13: every emphasis character of a text is escaped or cannot open emphasis because white space or the end follows its
    run. White space is meant as in Go, which has four characters more than CommonMark: with CommonMark's own white space
    the claim is false. *)
Theorem c13_text_emphasis : forall ds esc t A c B, bundled ds -> protects esc -> (c = 42 \/ c = 95) ->
  unescape_content ds (escape_content esc t) = A ++ c :: B -> (exists A', A = A' ++ [92]) \/ not_opening c B.
Proof. exact text_emphasis. Qed.
Print Assumptions c13_text_emphasis.
Example c13_ex : unescape_content commonmark_detectors (escape_content esc0 (b "a *b* _c_ * d"))
  = b "a \*b" ++ 42 :: b " \_c_ * d".
Proof. vm_compute. reflexivity. Qed.
Theorem c13_content_emphasis : forall ds s, bundled ds -> ~ In 0 s ->
  exists D, explains s D /\ map fst D = unescape_content ds s
  /\ forall A c B, (c = 42 \/ c = 95) -> D = A ++ (c, Lit) :: B -> escaped_here A \/ not_opening c (map fst B).
Proof. exact ctx_emphasis. Qed.
Print Assumptions c13_content_emphasis.
Theorem c13_content_strikethrough : forall ds s, only_bundled ds -> In is_strikethrough ds -> ~ In 0 s ->
  exists D, explains s D /\ map fst D = unescape_content ds s
  /\ forall A B, D = A ++ (126, Lit) :: B -> escaped_run A \/ space_follows (map fst B).
Proof. exact ctx_tilde. Qed.
Print Assumptions c13_content_strikethrough.
Theorem c13_commonmark_whitespace_refuted : exists t r, unescape_content commonmark_detectors
  (escape_content (is_escaped_in commonmark_escaped) t) = 42 :: r /\ may_open 42 r = true.
Proof. exact emphasis_witness. Qed.
Print Assumptions c13_commonmark_whitespace_refuted.

(** C14: an opening bracket of a text with a closing bracket later on the same line is escaped. Across a line break it is
    not, and the text becomes a link. *)
Theorem c14_text_brackets : forall ds esc t A B, bundled ds -> protects esc ->
  unescape_content ds (escape_content esc t) = A ++ 91 :: B -> bracket_closes B = true -> exists A', A = A' ++ [92].
Proof. exact text_bracket. Qed.
Print Assumptions c14_text_brackets.
Example c14_ex : unescape_content commonmark_detectors (escape_content esc0 (b "x [a](b)")) = b "x \" ++ 91 :: b "a](b)"
  /\ bracket_closes (b "a](b)") = true.
Proof. vm_compute. split; reflexivity. Qed.
Theorem c14_content_brackets : forall ds s, bundled ds ->
  exists D, explains s D /\ map fst D = unescape_content ds s
  /\ forall A B, D = A ++ (91, Lit) :: B -> bracket_closes (map fst B) = true -> escaped_here A.
Proof. exact ctx_bracket. Qed.
Print Assumptions c14_content_brackets.
Theorem c14_across_lines_refuted : exists t, unescape_content commonmark_detectors
  (escape_content (is_escaped_in commonmark_escaped) t) = t /\ t = b "[a" ++ [10] ++ b "b](http://x)".
Proof. exact bracket_witness. Qed.
Print Assumptions c14_across_lines_refuted.
