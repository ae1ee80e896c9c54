(** Theorems about documents without markup (C60).  Only statements; the specification is SpecPlain.v.

    [plain_run no_newline_mark sort us doc out]: the document consists of texts and of elements that stand for nothing in markdown
    (paragraphs, divisions, spans, line breaks, unknown elements; invisible nodes may be anywhere), its texts do not contain the
    character U+F002, and converting it in smart mode with the plugins [us], one of them base, yields [out]. *)
From Coq Require Import List NArith ZArith Bool String.
From Verif Require Import Bytes TextUtils Escape SpecEscape Dom RenderText SpecDom Engine CommonMark Table SpecEngine SpecPipeline SpecPlain PlainFacts5.
Import ListNotations.
Open Scope N_scope.
Open Scope list_scope.

Definition c60_doc : node := Doc [Other (b "html"); Elem (b "p") [] [Text (b "# not a heading"); Elem (b "br") [] []; Text (b "> 1. no _list_ a*b [x](y) ~~z~~")];
  Elem (b "script") [] [Text (b "x < y")]; Elem (b "div") [] [Elem (b "span") [] [Text (b "a < b")]; Comment (b "c"); Text (b " > c\d")]].
Definition c60_uses : list use := [UseCommonmark empty_config; UseBase; UseStrikethrough []; UseTable []].
Definition c60_out : bytes := b "\# not a heading  " ++ [10] ++ b "&gt; 1. no \_list_ a\*b \[x](y) \~\~z\~~" ++ [10; 10] ++ b "a &lt; b &gt; c\\d".
Example c60_setting : plain_run no_newline_mark stable_sort c60_uses c60_doc c60_out /\ plain_run readable stable_sort c60_uses c60_doc c60_out
  /\ base_once c60_uses /\ tidy c60_doc = true.
Proof.
  assert (S : sorts stable_sort) by exact EngineFacts.stable_sort_sorts.
  assert (B : In UseBase c60_uses) by (right; now left).
  split; [|split; [|split]].
  - split; [exact S|]. split; [exact B|]. split; [vm_compute; reflexivity|]. split; [reflexivity|]. exists (fun _ u => u). vm_compute. reflexivity.
  - split; [exact S|]. split; [exact B|]. split; [vm_compute; reflexivity|]. split; [reflexivity|]. exists (fun _ u => u). vm_compute. reflexivity.
  - exists [UseCommonmark empty_config], [UseStrikethrough []; UseTable []]. split; [reflexivity|]. cbn. intuition discriminate.
  - vm_compute. reflexivity.
Qed.

(** C60. No line of the output starts a block construct. *)
Theorem c60_no_blocks : forall sort us doc out cfg, In (UseCommonmark cfg) us -> plain_run no_newline_mark sort us doc out ->
  ~ some_line atx_heading out /\ ~ some_setext out /\ ~ some_line thematic_break out /\ ~ some_line block_quote out
  /\ ~ some_line bullet_item out /\ ~ some_line ordered_item out /\ ~ some_line code_fence out.
Proof. exact plain_blocks. Qed.
Print Assumptions c60_no_blocks.
(** For whole documents tabs do not matter either, because none are left. *)
Theorem c60_no_tabs : forall sort us doc out, plain_run (fun _ => true) sort us doc out -> (exists ks, doc = Doc ks) -> ~ In 9 out.
Proof. exact tabs_out. Qed.
Print Assumptions c60_no_tabs.
Example c60_tabs_ex : plain_run (fun _ => true) stable_sort c60_uses (Doc [Elem (b "p") [] [Text (b "-" ++ [9] ++ b "-" ++ [9] ++ b "-")]]) (b "\- - -").
Proof.
  split; [exact EngineFacts.stable_sort_sorts|]. split; [right; now left|]. split; [vm_compute; reflexivity|]. split; [reflexivity|]. exists (fun _ u => u). vm_compute. reflexivity.
Qed.
Theorem c60_no_breaks : forall sort us cfg doc out, In (UseCommonmark cfg) us -> plain_run no_newline_mark sort us doc out -> (exists ks, doc = Doc ks) ->
  ~ some_line thematic_break_tabs out.
Proof. exact plain_break_tabs. Qed.
Print Assumptions c60_no_breaks.
(** No star, underscore, bracket or tilde of the output opens an inline construct. *)
Theorem c60_no_emphasis : forall sort us doc out cfg, In (UseCommonmark cfg) us -> forall A c B, plain_run no_newline_mark sort us doc out ->
  (c = 42 \/ c = 95) -> out = A ++ c :: B -> (exists A', A = A' ++ [92]) \/ not_opening c B.
Proof. exact plain_emphasis. Qed.
Print Assumptions c60_no_emphasis.
Theorem c60_no_links : forall sort us doc out cfg, In (UseCommonmark cfg) us -> forall A B, plain_run no_newline_mark sort us doc out ->
  out = A ++ 91 :: B -> bracket_closes B = true -> exists A', A = A' ++ [92].
Proof. exact plain_bracket. Qed.
Print Assumptions c60_no_links.
(** No backtick opens a code span, if there are not three backticks or tildes in a row (backslashes not counted): of those at the
    start of a line only the first one is escaped. *)
Theorem c60_no_code_spans_partial : forall sort us doc out cfg, In (UseCommonmark cfg) us -> plain_run no_newline_mark sort us doc out ->
  (forall a x y z r, filter (fun c => negb (c =? 92)) out = a ++ x :: y :: z :: r -> is_tick x = true -> is_tick y = true -> is_tick z = true -> False) ->
  code_span_opens out = false.
Proof. exact plain_code_span. Qed.
Print Assumptions c60_no_code_spans_partial.
Example c60_code_spans_ex : plain_run no_newline_mark stable_sort c60_uses (Doc [Elem (b "p") [] [Text (b "a `b` ``c``")]]) (b "a \`b\` \`\`c\`\`") /\ code_span_opens (b "a `b` ``c``") = true.
Proof.
  split; [|reflexivity]. split; [exact EngineFacts.stable_sort_sorts|]. split; [right; now left|]. split; [vm_compute; reflexivity|]. split; [reflexivity|]. exists (fun _ u => u). vm_compute. reflexivity.
Qed.
Theorem c60_code_span_refuted : exists doc out, plain_run no_newline_mark stable_sort default_uses doc out /\ tidy doc = true /\ code_span_opens out = true.
Proof.
  exists (Doc [Elem (b "p") [] [Text (b "````"); Elem (b "br") [] []; Text (b "```")]]), (b "\````  " ++ [10] ++ b "\```"). split; [|split; vm_compute; reflexivity].
  split; [exact EngineFacts.stable_sort_sorts|]. split; [now left|]. split; [vm_compute; reflexivity|]. split; [reflexivity|]. exists (fun _ u => u). vm_compute. reflexivity.
Qed.
Print Assumptions c60_code_span_refuted.
(** Also without the commonmark plugin: *)
Theorem c60_no_strikethrough : forall sort us d doc out A B, In (UseStrikethrough d) us -> plain_run no_newline_mark sort us doc out ->
  out = A ++ 126 :: B -> run_escaped A \/ space_follows B.
Proof. exact plain_tilde. Qed.
Print Assumptions c60_no_strikethrough.
Example c60_strikethrough_ex : plain_run no_newline_mark stable_sort [UseBase; UseStrikethrough []] (Doc [Text (b "a ~~b~~ *c*")]) (b "a \~\~b\~~ *c*").
Proof.
  split; [exact EngineFacts.stable_sort_sorts|]. split; [now left|]. split; [vm_compute; reflexivity|]. split; [reflexivity|]. exists (fun _ u => u). vm_compute. reflexivity.
Qed.
(** A reader who resolves the escapes gets the visible characters of the document back, all of them and no others (the texts must
    not contain an ampersand, because the code does not escape what looks like an entity: c60_entity_refuted). *)
Theorem c60_read_back : forall sort us doc out cfg, In (UseCommonmark cfg) us -> base_once us -> plain_run readable sort us doc out -> tidy doc = true ->
  filter unquoted (read_text 0 out) = filter unquoted (visible_text doc).
Proof. exact plain_read_back. Qed.
Print Assumptions c60_read_back.
Example c60_read_back_ex : read_text 0 c60_out = b "# not a heading  " ++ [10] ++ b "> 1. no _list_ a*b [x](y) ~~z~~" ++ [10; 10] ++ b "a < b > c\d".
Proof. vm_compute. reflexivity. Qed.
Theorem c60_entity_refuted : exists doc out, plain_run no_newline_mark stable_sort default_uses doc out /\ tidy doc = true
  /\ visible_text doc = b "&lt;" /\ read_text 0 out = b "<".
Proof.
  exists (Doc [Text (b "&lt;")]), (b "&lt;"). split; [|vm_compute; repeat split; reflexivity].
  split; [exact EngineFacts.stable_sort_sorts|]. split; [now left|]. split; [vm_compute; reflexivity|]. split; [reflexivity|]. exists (fun _ u => u). vm_compute. reflexivity.
Qed.
Print Assumptions c60_entity_refuted.
(** The character U+F002, which the code uses as its own mark, becomes a line break, and what follows it a heading. *)
Theorem c60_newline_mark_refuted : exists doc out, plain_run (fun _ => true) stable_sort default_uses doc out
  /\ visible_text doc = b "a" ++ [239; 128; 130] ++ b "# b" /\ some_line atx_heading out.
Proof.
  exists (Doc [Text (b "a" ++ [239; 128; 130] ++ b "# b")]), (b "a" ++ [10] ++ b "# b"). split; [|split; [vm_compute; reflexivity|]].
  - split; [exact EngineFacts.stable_sort_sorts|]. split; [now left|]. split; [vm_compute; reflexivity|]. split; [reflexivity|]. exists (fun _ u => u). vm_compute. reflexivity.
  - exists (b "# b"). vm_compute. tauto.
Qed.
Print Assumptions c60_newline_mark_refuted.
