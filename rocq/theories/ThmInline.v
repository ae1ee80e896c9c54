(** Theorems about the formatting inside the blocks of a document (C67).  Only statements; the specification is SpecInline.v.

    [article] says which documents the theorem is about: groups (html, body, div, section, unknown elements, ...), nested in any way,
    with paragraphs, headings, dividers, code blocks and lists in them; items may have all of this too, and they and the groups that are
    blocks may start with a text of their own.
    These texts have emphasis, code and links; a link may have texts, emphasis and code in it, and so may
    emphasis, if it starts and ends with a text and the emphasis inside is of the other kind ([emphasis_content]).
    The white space is that of the source, with line breaks and indentation; [line] says how a browser shows it.  It is not at the start or
    the end of links, and at the start of emphasis only behind other white space.
    Outside emphasis and links texts may have the characters * _ [ ] ` and backslashes ([busy_text]); inside they may not
    ([quiet_text]).
    [formatted] says how a browser shows each byte of it.  [read_all_blocks] (SpecBlocks.v) reads the blocks of the markdown as CommonMark
    says, and [read_inline] their texts: backslash escapes, code spans, links, and the algorithm for emphasis with the flanking rules.
    What the characters that are not ASCII count as for these rules is a parameter ([wb], [wa]), so the theorem holds for every answer. *)
From Coq Require Import List NArith ZArith Bool String.
From Verif Require Import Bytes TextUtils Escape SpecEscape Dom RenderText SpecDom SpecText SpecText2 Engine CommonMark Table SpecEngine SpecPipeline SpecNode SpecPlain SpecBlocks SpecInline InlineFacts9.
Import ListNotations.
Open Scope N_scope.
Open Scope list_scope.

Definition c67_paragraph : list node :=
  [ Text (b "1. foo"); Elem (b "em") [] [Text (b "bar")]; Text (b "baz < 3 # "); Elem (b "b") [] [Text (b "(bold)")]; Text (b ", "); Elem (b "code") [] [Text (b "a*b``c]")]; Text (b " and ");
    Elem (b "a") [(b "href", b "/page")] [Text (b "a "); Elem (b "strong") [] [Text (b "link")]; Text (b " - "); Elem (b "kbd") [] [Text (b "x > y")]]; Text (b "!") ].
Definition c67_list : list node :=
  [ Elem (b "div") [] [Text [10]; Text (b "- see" ++ [10; 32]); Elem (b "b") [] [Text (b "be" ++ [13; 10] ++ b "low")]; Text (b ":"); Text [32; 10]; Elem (b "hr") [] []; Text [10];
    Elem (b "pre") [] [Elem (b "code") [(b "class", b "language-go")] [Text (b "x := *p")]];
    Elem (b "ul") [] [Text [10]; Elem (b "li") [] [Text ([10; 32; 32] ++ b "a "); Elem (b "em") [] [Text ([32] ++ b "b")]; Text ([10; 9] ++ b "[c]" ++ [10; 32; 32]); Elem (b "ol") [(b "start", b "9")] [Elem (b "li") [] [Elem (b "code") [] [Text (b "1")]]; Elem (b "li") [] [Elem (b "p") [] [Text (b "# d")]; Elem (b "h5") [] [Text (b "e")]]]];
      Elem (b "li") [] []; Elem (b "li") [] [Text [32]; Elem (b "p") [] [Elem (b "a") [(b "href", b "/")] [Text (b "f")]]; Text [10]]] ] ].
Definition c67_doc : node := Doc [Other (b "html"); Elem (b "html") [] [Elem (b "head") [] [Elem (b "title") [] [Text (b "T")]]; Text [10]; Elem (b "body") []
  ([ Elem (b "h1") [] [Text ([10; 32] ++ b "1) #  of "); Elem (b "em") [] [Text (b "foo")]; Text (b " _bar "); Elem (b "code") [] [Text (b "#")]; Text [10]]; Elem (b "p") [] c67_paragraph; Text [10; 32];
    Elem (b "div") [] [Elem (b "script") [] [Text (b "x")]; Elem (b "section") [] [Elem (b "h4") [] [Elem (b "a") [(b "href", b "#x")] [Text (b "A #")]]; Elem (b "p") [] [Elem (b "i") [] [Text (b "- no list")]]; Elem (b "p") [] [Text (b "===")]; Elem (b "p") [] [Text (b "*a* 2 * 3 [x](y) foo_bar \ `q` \* "); Elem (b "em") [] [Text (b "z")]; Text (b " ** [x]")] ] ];
    Elem (b "p") [] [Elem (b "samp") [] [Text (b "a``b")]; Text (b ": "); Elem (b "em") [] [Text (b "c "); Elem (b "b") [] [Text (b "d")]; Text (b "e "); Elem (b "code") [] [Text (b "f")]; Text (b " g")]; Text (b " "); Elem (b "strong") [] [Text (b "h"); Elem (b "i") [] [Text (b "j")]; Text (b "k")]] ] ++ c67_list)]].
Fixpoint c67_kind (bl : gblock (option styled)) : list (nat * nat) :=
  match bl with
  | Paragraph (Some t) => [(O, List.length t)] | Heading k (Some t) => [(k, List.length t)] | Code i d => [(7, List.length d)]%nat | Rule => [(8, 0)]%nat
  | Items _ its => ((9, List.length its) :: flat_map (flat_map c67_kind) its)%nat | _ => []
  end.
Definition c67_setting : setting := {| st_sort := stable_sort; st_mode := Smart; st_uses := [UseStrikethrough []; UseCommonmark empty_config; UseTable []; UseBase]; st_url := fun _ u => b "https://example.com" ++ u |}.
Definition c67_out : bytes := join [10] [
  b "# 1) # of *foo* \_bar `#`"; [];
  b "1\. foo*bar*baz &lt; 3 # **(bold)**, ```a*b``c]``` and [a **link** - `x > y`](https://example.com/page)!"; [];
  b "#### [A #](https://example.com#x)"; []; b "*- no list*"; []; b "==="; []; b "\*a* 2 * 3 \[x](y) foo\_bar \\ \`q\` \\* *z* \** \[x]"; []; b "```a``b```: *c **d**e `f` g* **h*j*k**"; [];
  b "\- see **be low**:"; []; b "* * *"; []; b "```go"; b "x := *p"; b "```"; []; b "- a *b* \[c]"; b "  "; b "  09. `1`"; b "  10. \# d"; b "      "; b "      ##### e"; b "- [f](https://example.com/)"].
Example c67_setting_ex : sorts (st_sort c67_setting) /\ base_once (st_uses c67_setting) /\ options c67_setting (fill_defaults empty_config)
  /\ usual_delimiters (fill_defaults empty_config) /\ link_style (fill_defaults empty_config) = b "inlined" /\ disable_end_comment (fill_defaults empty_config) = false
  /\ (exists ks, c67_doc = Doc ks /\ forallb (article (st_url c67_setting (b "a")) (fill_defaults empty_config)) (shown_all ks) = true
      /\ flat_map c67_kind (flat_map (article_blocks (st_url c67_setting (b "a"))) (shown_all ks)) = [(1, 18); (0, 54); (4, 3); (0, 9); (0, 3); (0, 42); (0, 18); (0, 13); (8, 0); (7, 7); (9, 2); (0, 7); (9, 2); (0, 1); (0, 3); (5, 1); (0, 1)]%nat)
  /\ converts (convert_node stable_sort (converter_with Smart (st_uses c67_setting)) (st_url c67_setting) c67_doc) c67_out.
Proof.
  split; [exact EngineFacts.stable_sort_sorts|]. split; [eexists [_; _; _], []; split; [reflexivity|cbn; intuition discriminate]|].
  split; [exists empty_config; split; [right; now left|]; split; [cbn; intuition congruence|]; split; reflexivity|].
  split; [split; now left|]. split; [reflexivity|]. split; [reflexivity|]. split; [eexists; split; [reflexivity|]; split; vm_compute; reflexivity|]. vm_compute; reflexivity.
Qed.

(** C67. The paragraphs, headings (with their levels), dividers, code blocks and lists (with their numbers and items) are read in order; in the
    texts each character is read, and each of them has the formatting (strong, emphasised, code, link with its address) that it has in the
    document. *)
Theorem c67_formatting_partial : forall x cfg wb wa ks out, sorts (st_sort x) -> st_mode x = Smart -> base_once (st_uses x) -> options x cfg ->
  usual_delimiters cfg -> link_style cfg = b "inlined" -> disable_end_comment cfg = false -> forallb (article (st_url x (b "a")) cfg) (shown_all ks) = true ->
  converts (convert_node (st_sort x) (converter_with (st_mode x) (st_uses x)) (st_url x) (Doc ks)) out ->
  read_all_blocks (read_inline wb wa) out = flat_map (article_blocks (st_url x (b "a"))) (shown_all ks).
Proof. exact article_read_all. Qed.
Print Assumptions c67_formatting_partial.
Example c67_read_ex : exists p, read_all_blocks (read_inline (fun _ => Letter) (fun _ => Letter)) (b "foo*bar*baz **(b)**, [a `b`](/x)!") = [Paragraph (Some p)]
  /\ p = in_format unformatted (b "foo") ++ in_format (as_em unformatted) (b "bar") ++ in_format unformatted (b "baz ") ++ in_format (as_strong unformatted) (b "(b)")
    ++ in_format unformatted (b ", ") ++ in_format (as_link (b "/x") unformatted) (b "a ") ++ in_format (as_code (as_link (b "/x") unformatted)) (b "b") ++ in_format unformatted (b "!").
Proof. eexists. split; vm_compute; reflexivity. Qed.
(** The reader sees other blocks and broken formatting. *)
Example c67_reader_ex : forall wb wa, let read := read_all_blocks (read_inline wb wa) in let text s := Some (in_format unformatted (b s)) in
  read (b "## a *b* ##") = [Heading 2 (Some (in_format unformatted (b "a ") ++ in_format (as_em unformatted) (b "b")))]
  /\ read (b "1. a") = [Items (Some 1) [[Paragraph (text "a"%string)]]] /\ read (join [10] [b "a"; b "---"]) = [Heading 2 (text "a"%string)]
  /\ read (b "[a]: /x") = [Unread] /\ read (b "```a") = [Unread]
  /\ read (b "a * b*") = [Paragraph (text "a * b*"%string)] /\ read (b "a_b_c") = [Paragraph (text "a_b_c"%string)]
  /\ read (b "**a*") = [Paragraph (Some (in_format unformatted (b "*") ++ in_format (as_em unformatted) (b "a")))].
Proof. intros. repeat split; vm_compute; reflexivity. Qed.

(** ** Where the claim is false: what [recognised] and [quiet_text] leave out *)
Definition c67_conversion (ks : list node) : outcome := convert_node stable_sort (converter_with Smart default_uses) (fun _ u => u) (Doc [Elem (b "p") [] ks]).
(** Emphasis that starts and ends with punctuation, between letters: the delimiters are text. *)
Theorem c67_punctuation_refuted : exists ks out, converts (c67_conversion ks) out
  /\ forall wb wa, read_all_blocks (read_inline wb wa) out = [Paragraph (Some (in_format unformatted out))] /\ flat_map (formatted (fun u => u)) ks <> in_format unformatted out.
Proof.
  exists [Text (b "foo"); Elem (b "strong") [] [Text (b "(bar)")]; Text (b "baz")], (b "foo**(bar)**baz"). split; [vm_compute; reflexivity|]. intros. split; vm_compute; [reflexivity|discriminate].
Qed.
Print Assumptions c67_punctuation_refuted.
(** Underscores inside a word: the delimiters are text. *)
Definition c67_underscore : config := {|
  em_delimiter := b "_"; strong_delimiter := []; horizontal_rule := []; bullet_marker := []; disable_end_comment := false;
  code_fence_opt := []; heading_style := []; link_style := []; link_empty_href := []; link_empty_content := [] |}.
Theorem c67_underscore_refuted : exists cfg0 ks out, validate_config (fill_defaults cfg0) = None
  /\ converts (convert_node stable_sort (converter_with Smart [UseBase; UseCommonmark cfg0]) (fun _ u => u) (Doc [Elem (b "p") [] ks])) out
  /\ forall wb wa, read_all_blocks (read_inline wb wa) out = [Paragraph (Some (in_format unformatted out))] /\ flat_map (formatted (fun u => u)) ks <> in_format unformatted out.
Proof.
  exists c67_underscore, [Text (b "foo"); Elem (b "em") [] [Text (b "bar")]], (b "foo_bar_"). split; [reflexivity|]. split; [vm_compute; reflexivity|]. intros. split; vm_compute; [reflexivity|discriminate].
Qed.
Print Assumptions c67_underscore_refuted.
(** A star at the end of a word in emphasised text is not escaped (nothing opens there), but it closes the emphasis. *)
Theorem c67_star_refuted : exists text out, converts (c67_conversion [Elem (b "em") [] [Text text]]) out
  /\ forall wb wa, read_all_blocks (read_inline wb wa) out = [Paragraph (Some (in_format (as_em unformatted) (b "foo") ++ in_format unformatted (b " bar*")))] /\ text = b "foo* bar".
Proof. exists (b "foo* bar"), (b "*foo* bar*"). split; [vm_compute; reflexivity|]. intros. split; vm_compute; reflexivity. Qed.
Print Assumptions c67_star_refuted.
