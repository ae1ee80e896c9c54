(** Theorems about the blocks of a document (C64).  Only statements; the specification is SpecBlocks.v.

    [is_page] says which documents the theorem is about: groups (html, body, div, p, section, unknown elements, ...) and lists, nested
    in any way, with headings, paragraphs, rules and code blocks in them, texts between blocks, invisible nodes and blank texts
    anywhere.  [blocks_of] lists the blocks that a browser shows ([shown_all]: without the invisible nodes), with the words of their
    texts.  [read_blocks] reads the markdown line by line as CommonMark says. *)
From Coq Require Import List NArith ZArith Bool String.
From Verif Require Import Bytes TextUtils Escape SpecEscape Dom RenderText SpecDom SpecText SpecText2 Engine CommonMark Table SpecEngine SpecPipeline SpecNode SpecPlain SpecBlocks BlockFacts8.
Import ListNotations.
Open Scope N_scope.
Open Scope list_scope.

Definition c64_list : node := Elem (b "ul") []
  [ Text [10]; Elem (b "li") [] [Text (b "a")];
    Elem (b "li") [] [Text (b "- b"); Elem (b "ol") [(b "start", b "9")]
      [Elem (b "li") [] [Elem (b "h2") [] [Text (b "c")]; Elem (b "p") [] [Text (b "---")]]; Elem (b "li") [] []; Elem (b "li") [] [Elem (b "hr") [] []]]];
    Elem (b "li") [] [Elem (b "pre") [] [Elem (b "code") [(b "class", b "language-go")] [Text (b "```" ++ [10; 10; 10] ++ b "    # x" ++ [10])]]] ].
Definition c64_doc : node := Doc [Other (b "html"); Elem (b "html") [] [Elem (b "head") [] [Elem (b "title") [] [Text (b "T")]]; Text [10]; Elem (b "body") []
  [ Elem (b "h1") [] [Text (b " A  # title ##")]; Text [10; 32];
    Elem (b "div") [] [Elem (b "p") [] [Text (b "# not a heading"); Comment (b "c"); Text ([10] ++ b "1. no_list < 3")]; Elem (b "hr") [] []; Text (b "+ loose "); Elem (b "section") [] [Elem (b "h3") [] [Text (b "Sub")]]];
    c64_list; Elem (b "script") [] [Text (b "x")]; Elem (b "ul") [] [Elem (b "li") [] [Text (b "d")]];
    Elem (b "p") [] []; Elem (b "p") [] [Text (b "- a")]; Elem (b "p") [] [Text (b "===")] ]]].
Definition c64_blocks : list block := [Heading 1 (b "A # title ##"); Paragraph (b "# not a heading 1. no_list < 3"); Rule; Paragraph (b "+ loose"); Heading 3 (b "Sub");
  Items None [[Paragraph (b "a")]; [Paragraph (b "- b"); Items (Some 9) [[Heading 2 (b "c"); Paragraph (b "---")]; [Rule]]]; [Code (b "go") (b "```" ++ [10; 10; 10] ++ b "    # x")]];
  Items None [[Paragraph (b "d")]]; Paragraph (b "- a"); Paragraph (b "===")].
Definition c64_out : bytes := join [10] [b "# A # title #\#"; []; b "\# not a heading 1. no\_list &lt; 3"; []; b "* * *"; []; b "\+ loose"; []; b "### Sub"; [];
  b "- a"; b "- \- b"; b "  "; b "  09. ## c"; b "      "; b "      \---"; b "  10. * * *"; b "- ````go"; b "  ```"; b "  "; b "  "; b "      # x"; b "  ````"; [];
  b "<!--THE END-->"; []; b "- d"; []; b "\- a"; []; b "==="].
Definition c64_setting : setting := {| st_sort := stable_sort; st_mode := Smart; st_uses := [UseStrikethrough []; UseCommonmark empty_config; UseBase]; st_url := fun _ u => u |}.
Example c64_setting_ex : sorts (st_sort c64_setting) /\ base_once (st_uses c64_setting) /\ options c64_setting (fill_defaults empty_config)
  /\ rule_line (horizontal_rule (fill_defaults empty_config)) = true /\ disable_end_comment (fill_defaults empty_config) = false
  /\ (exists ks, c64_doc = Doc ks /\ is_page (fill_defaults empty_config) ks = true /\ flat_map blocks_of (shown_all ks) = c64_blocks)
  /\ converts (convert_node stable_sort (converter_with Smart (st_uses c64_setting)) (fun _ u => u) c64_doc) c64_out /\ read_blocks c64_out = c64_blocks.
Proof.
  split; [exact EngineFacts.stable_sort_sorts|]. split; [exists [UseStrikethrough []; UseCommonmark empty_config], []; split; [reflexivity|cbn; intuition discriminate]|].
  split; [exists empty_config; split; [right; now left|]; split; [cbn; intuition congruence|]; split; reflexivity|].
  split; [reflexivity|]. split; [reflexivity|]. split; [eexists; split; [reflexivity|]; split; vm_compute; reflexivity|]. split; vm_compute; reflexivity.
Qed.

(** C64. The blocks that a reader finds are those of the page, in order and nested as they are there, with their texts: a paragraph
    never becomes anything else and nothing is lost, joined, split or added.  Partial: only pages as described above; block quotes,
    tables and inline elements are missing, and so are texts with an ampersand (refuted in C60), a bell, U+F002 or white space other
    than ASCII at an end. *)
Theorem c64_blocks_partial : forall x cfg ks out, sorts (st_sort x) -> st_mode x = Smart -> base_once (st_uses x) -> options x cfg ->
  rule_line (horizontal_rule cfg) = true -> disable_end_comment cfg = false -> is_page cfg ks = true ->
  converts (convert_node (st_sort x) (converter_with (st_mode x) (st_uses x)) (st_url x) (Doc ks)) out ->
  read_blocks out = flat_map blocks_of (shown_all ks).
Proof. intros x cfg ks out Hs Hm Ho Hc Hr He Hp C. exact (page_read x Hs Hm Ho cfg Hc Hr He ks out Hp C). Qed.
Print Assumptions c64_blocks_partial.

(** With setext headings, tilde fences and another rule *)
Definition c64_config (rule : bytes) : config := {|
  em_delimiter := []; strong_delimiter := []; horizontal_rule := rule; bullet_marker := []; disable_end_comment := false;
  code_fence_opt := b "~~~"; heading_style := b "setext"; link_style := []; link_empty_href := []; link_empty_content := [] |}.
Definition c64_kids : list node := [Elem (b "h1") [] [Text (b "A")]; Elem (b "hr") [] []; Elem (b "p") [] [Text (b "---")]; Elem (b "pre") [] [Text (b "~~~")]].
Example c64_setext_ex : options {| st_sort := stable_sort; st_mode := Smart; st_uses := [UseBase; UseCommonmark (c64_config (b "---"))]; st_url := fun _ u => u |}
    (fill_defaults (c64_config (b "---"))) /\ rule_line (b "---") = true /\ is_page (fill_defaults (c64_config (b "---"))) c64_kids = true
  /\ converts (convert_node stable_sort (converter_with Smart [UseBase; UseCommonmark (c64_config (b "---"))]) (fun _ u => u) (Doc c64_kids))
       (join [10] [b "A"; b "==="; []; b "---"; []; b "\---"; []; b "~~~~"; b "~~~"; b "~~~~"])
  /\ flat_map blocks_of (shown_all c64_kids) = [Heading 1 (b "A"); Rule; Paragraph (b "---"); Code [] (b "~~~")].
Proof.
  split; [exists (c64_config (b "---")); split; [right; now left|]; split; [cbn; intuition congruence|]; split; reflexivity|].
  repeat split; vm_compute; reflexivity.
Qed.

(** The plugin accepts rules that are none: anything that contains three of the characters. The page then has a paragraph instead. *)
Theorem c64_rule_refuted : exists cfg0 out, validate_config (fill_defaults cfg0) = None
  /\ converts (convert_node stable_sort (converter_with Smart [UseBase; UseCommonmark cfg0]) (fun _ u => u) (Doc [Elem (b "hr") [] []])) out
  /\ read_blocks out <> [Rule].
Proof. exists (c64_config (b "a**" ++ b "*b")). eexists. split; [reflexivity|]. split; [vm_compute; reflexivity|]. vm_compute. discriminate. Qed.
Print Assumptions c64_rule_refuted.
(** In a block quote the claim is false: the text of a quote is prefixed before the escapes are decided, which then look for block
    constructs at the starts of lines only and not behind the prefix.  The texts of these documents become headings, lists and
    rules. *)
Theorem c64_quoted_refuted : exists text out, converts (convert_node stable_sort (converter_with Smart default_uses) (fun _ u => u) (Doc [Elem (b "blockquote") [] [Text text]])) out
  /\ exists line, out = b "> " ++ line /\ read_blocks line = [Heading 1 (b "x")].
Proof.
  exists (b "# x"). eexists. split; [vm_compute; reflexivity|]. exists (b "# x"). split; reflexivity.
Qed.
Print Assumptions c64_quoted_refuted.
Example c64_quoted_ex :
  converts (convert_node stable_sort (converter_with Smart default_uses) (fun _ u => u) (Doc [Elem (b "blockquote") [] [Text (b "1. x")]])) (b "> 1. x")
  /\ converts (convert_node stable_sort (converter_with Smart default_uses) (fun _ u => u) (Doc [Elem (b "blockquote") [] [Text (b "---")]])) (b "> ---")
  /\ converts (convert_node stable_sort (converter_with Smart default_uses) (fun _ u => u) (Doc [Elem (b "blockquote") [] [Elem (b "p") [] [Text (b "a")]; Elem (b "p") [] [Text (b "- x")]]]))
       (join [10] [b "> a"; b "> "; b "> - x"]).
Proof. repeat split; vm_compute; reflexivity. Qed.

(** ** Lists for which the claim is false: what [is_page] leaves out *)
(** An item that starts with two more bullets: the line is a thematic break. *)
Definition c64_conversion (ks : list node) : outcome := convert_node stable_sort (converter_with Smart default_uses) (fun _ u => u) (Doc ks).
Theorem c64_dash_item_refuted : exists text out, converts (c64_conversion [Elem (b "ul") [] [Elem (b "li") [] [Text text]]]) out /\ read_blocks out = [Rule].
Proof. exists (b "--"), (b "- --"). split; vm_compute; reflexivity. Qed.
Print Assumptions c64_dash_item_refuted.
(** A negative number, which CommonMark does not allow: the list becomes a paragraph. *)
Theorem c64_number_refuted : exists start out, converts (c64_conversion [Elem (b "ol") [(b "start", start)] [Elem (b "li") [] [Text (b "a")]]]) out
  /\ read_blocks out = [Paragraph out].
Proof. exists (b "-1"), (b "-1. a"). split; vm_compute; reflexivity. Qed.
Print Assumptions c64_number_refuted.
(** Two texts with an empty heading or an empty list between them are one word afterwards. *)
Theorem c64_empty_refuted : exists between out, converts (c64_conversion [Text (b "x"); between; Text (b "y")]) out
  /\ flat_map blocks_of [Text (b "x"); between; Text (b "y")] = [Paragraph (b "x"); Paragraph (b "y")] /\ read_blocks out = [Paragraph (b "xy")].
Proof. exists (Elem (b "h1") [] []), (b "xy"). split; [vm_compute; reflexivity|split; vm_compute; reflexivity]. Qed.
Print Assumptions c64_empty_refuted.
Example c64_empty_list_ex : converts (c64_conversion [Text (b "x"); Elem (b "ul") [] [Elem (b "li") [] []]; Text (b "y")]) (b "xy").
Proof. vm_compute. reflexivity. Qed.
(** Without the comments between lists, two lists become one. *)
Definition c64_joined : config := {|
  em_delimiter := []; strong_delimiter := []; horizontal_rule := []; bullet_marker := []; disable_end_comment := true;
  code_fence_opt := []; heading_style := []; link_style := []; link_empty_href := []; link_empty_content := [] |}.
Theorem c64_joined_lists_refuted : exists cfg0 ks out, validate_config (fill_defaults cfg0) = None /\ is_page (fill_defaults cfg0) ks = true
  /\ converts (convert_node stable_sort (converter_with Smart [UseBase; UseCommonmark cfg0]) (fun _ u => u) (Doc ks)) out
  /\ flat_map blocks_of (shown_all ks) = [Items None [[Paragraph (b "a")]]; Items None [[Paragraph (b "b")]]]
  /\ read_blocks out = [Items None [[Paragraph (b "a")]; [Paragraph (b "b")]]].
Proof.
  exists c64_joined, [Elem (b "ul") [] [Elem (b "li") [] [Text (b "a")]]; Elem (b "ul") [] [Elem (b "li") [] [Text (b "b")]]]. eexists.
  split; [reflexivity|]. split; [vm_compute; reflexivity|]. split; [vm_compute; reflexivity|]. split; vm_compute; reflexivity.
Qed.
Print Assumptions c64_joined_lists_refuted.
