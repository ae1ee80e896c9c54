(** C58: what a conversion makes of each element. *)
From Coq Require Import List NArith ZArith Bool String.
From Verif Require Import Bytes TextUtils Escape Dom RenderText Engine CommonMark Table EngineFacts SpecText SpecText2 SpecDom SpecEngine SpecPipeline SpecTable SpecUrl SpecNode
  NodeFacts NodeFacts2.
Import ListNotations.
Open Scope N_scope.
Open Scope list_scope.

(** The converter of the examples: all bundled plugins with their defaults *)
Definition c58_all : setting :=
  {| st_sort := stable_sort; st_mode := Smart; st_uses := [UseBase; UseCommonmark empty_config; UseStrikethrough []; UseTable []]; st_url := fun _ u => u |}.
Example c58_setting : sorts (st_sort c58_all) /\ options c58_all default_config /\ In UseBase (st_uses c58_all).
Proof.
  split; [exact stable_sort_sorts|]. split; [|now left]. exists empty_config. split; [now right; left|]. split; [|split; reflexivity].
  intros c I. cbn in I. intuition congruence.
Qed.

(** strong and b, em and i: the delimiter around the text of each line, with the children as content *)
Theorem c58_emphasis : forall x cfg f c anc name a ks s d, sorts (st_sort x) -> options x cfg ->
  In name (map b ["strong"; "b"]%string) /\ d = strong_delimiter cfg \/ In name (map b ["em"; "i"]%string) /\ d = em_delimiter cfg -> ~ In 10 d ->
  rendered x (S f) c anc (Elem name a ks) s ->
  exists parts, inside x f c anc (Elem name a ks) parts /\ Forall2 (delimited d) (split_on 10 (List.concat parts)) (split_on 10 s).
Proof. intros x cfg f c anc name a ks s d H. exact (node_emphasis x H cfg f c anc name a ks s d). Qed.
Print Assumptions c58_emphasis.
Example c58_emphasis_ex : rendered c58_all 9 [] [] (Elem (b "em") [] [Text (b " a"); Elem (b "b") [] [Text (b "c")]]) (b " *a**c***").
Proof. vm_compute. reflexivity. Qed.

(** br is a hard line break, hr the rule of the options. *)
Theorem c58_break : forall x cfg f c anc a ks s, sorts (st_sort x) -> options x cfg -> rendered x (S f) c anc (Elem (b "br") a ks) s -> s = [32; 32; 10].
Proof. intros x cfg f c anc a ks s H. exact (node_break x H cfg f c anc a ks s). Qed.
Print Assumptions c58_break.
Theorem c58_rule : forall x cfg f c anc a ks s, sorts (st_sort x) -> options x cfg -> rendered x (S f) c anc (Elem (b "hr") a ks) s ->
  s = [10; 10] ++ horizontal_rule cfg ++ [10; 10].
Proof. intros x cfg f c anc a ks s H. exact (node_rule x H cfg f c anc a ks s). Qed.
Print Assumptions c58_rule.
Example c58_rule_ex : rendered c58_all 9 [] [] (Elem (b "hr") [] []) ([10; 10] ++ b "* * *" ++ [10; 10])
  /\ rendered c58_all 9 [] [] (Elem (b "br") [] []) [32; 32; 10].
Proof. vm_compute. split; reflexivity. Qed.

(** A blockquote: every line of the content behind the same prefix *)
Theorem c58_quote : forall x cfg f c anc a ks s, sorts (st_sort x) -> options x cfg -> rendered x (S f) c anc (Elem (b "blockquote") a ks) s ->
  exists parts, inside x f c anc (Elem (b "blockquote") a ks) parts /\
  (spaces (List.concat parts) /\ s = []
   \/ ~ spaces (List.concat parts) /\ exists q body, s = [10; 10] ++ q ++ [10; 10]
        /\ split_on 10 q = map (app [62; 32]) (split_on 10 body) /\ inked body = inked (List.concat parts)).
Proof. intros x cfg f c anc a ks s H. exact (node_quote x H cfg f c anc a ks s). Qed.
Print Assumptions c58_quote.
Example c58_quote_ex : rendered c58_all 9 [] [] (Elem (b "blockquote") [] [Text (b "a"); Elem (b "p") [] [Text (b "c")]])
  ([10; 10] ++ b "> a" ++ [10] ++ b "> " ++ [10] ++ b "> c" ++ [10; 10]).
Proof. vm_compute. reflexivity. Qed.

(** h1 to h6: as many number signs as the level says before one line with the visible characters of the content ... *)
Theorem c58_heading : forall x cfg f c anc name k a ks s, sorts (st_sort x) -> options x cfg -> heading_level_of name k ->
  heading_style cfg = b "atx" \/ (3 <= k)%nat -> rendered x (S f) c anc (Elem name a ks) s ->
  exists parts, inside x f c anc (Elem name a ks) parts /\
  (spaces (List.concat parts) /\ s = []
   \/ ~ spaces (List.concat parts) /\ exists line, s = [10; 10] ++ repeat 35 k ++ [32] ++ line ++ [10; 10]
        /\ line <> [] /\ ~ In 10 line /\ ~ In 13 line /\ (closing_hash_marked (List.concat parts) -> inked line = inked (List.concat parts))).
Proof. intros x cfg f c anc name k a ks s H. exact (node_heading x H cfg f c anc name k a ks s). Qed.
Print Assumptions c58_heading.
Example c58_heading_ex : rendered c58_all 9 [] [] (Elem (b "h3") [] [Text (b "a"); Elem (b "br") [] []; Text (b "C#")])
  ([10; 10] ++ b "### a C\#" ++ [10; 10]) /\ closing_hash_marked (b "a C" ++ [7; 35]).
Proof.
  split; [vm_compute; reflexivity|]. intros z w E _. destruct z as [|z0 [|z1 [|z2 [|z3 [|z4 z]]]]]; try discriminate E.
  - injection E as <- <- <- <- <-. now exists (b "a C").
  - exfalso. injection E as _ _ _ _ _ E. destruct z; discriminate E.
Qed.
(** ... or, with the option setext, the content above an underline that tells the level. *)
Theorem c58_setext : forall x cfg f c anc name k a ks s, sorts (st_sort x) -> options x cfg -> heading_level_of name k ->
  heading_style cfg = b "setext" -> (k < 3)%nat -> rendered x (S f) c anc (Elem name a ks) s ->
  exists parts, inside x f c anc (Elem name a ks) parts /\
  (spaces (List.concat parts) /\ s = []
   \/ ~ spaces (List.concat parts) /\ (~ spaces (last (split_on 10 (List.concat parts)) []) ->
      exists body w, s = [10; 10] ++ body ++ [10] ++ repeat (if Nat.eqb k 1 then 61 else 45) w ++ [10; 10] /\ (3 <= w)%nat
        /\ (forall l, In l (split_on 10 body) -> ~ spaces l) /\ inked body = inked (List.concat parts))).
Proof. intros x cfg f c anc name k a ks s H. exact (node_setext x H cfg f c anc name k a ks s). Qed.
Print Assumptions c58_setext.
Definition c58_setext_config : config := {| em_delimiter := []; strong_delimiter := []; horizontal_rule := []; bullet_marker := [];
  disable_end_comment := false; code_fence_opt := []; heading_style := b "setext"; link_style := []; link_empty_href := []; link_empty_content := [] |}.
Example c58_setext_ex : rendered {| st_sort := stable_sort; st_mode := Smart; st_uses := [UseBase; UseCommonmark c58_setext_config]; st_url := fun _ u => u |}
  9 [] [] (Elem (b "h2") [] [Text (b "abcd")]) ([10; 10] ++ b "abcd" ++ [10] ++ b "----" ++ [10; 10]).
Proof. vm_compute. reflexivity. Qed.

(** pre: a fenced code block with the code below the element (a line feed for each br and div, no style, script and textarea) and the
    first language that a class names. *)
Theorem c58_pre : forall x cfg f c anc a ks s, sorts (st_sort x) -> options x cfg -> rendered x (S f) c anc (Elem (b "pre") a ks) s ->
  let n := Elem (b "pre") a ks in
  forall langs, Forall2 language_of (classes_of n) langs -> let info := first_named langs in
  (forall y, In y info -> y <> 10 /\ y <> 96 /\ y <> 126) -> ~ infix marker_nl info -> ~ infix marker_nl (code_of n) ->
  forall rest, exists B code, post_newline (s ++ rest) = [10; 10] ++ B /\ final_newline_dropped (code_of n) code
    /\ read_fenced (hd 0 (code_fence_opt cfg)) (split_on 10 B) = Some (info, split_on 10 code, split_on 10 ([10] ++ post_newline rest)).
Proof. intros x cfg f c anc a ks s H. exact (node_pre x H cfg f c anc a ks s). Qed.
Print Assumptions c58_pre.
Definition c58_pre_node : node := Elem (b "pre") [] [Elem (b "code") [(b "class", b "hljs language-go")]
  [Text (b "a"); Elem (b "br") [] []; Elem (b "script") [] [Text (b "no")]; Elem (b "span") [] [Text (b "b")]]].
Example c58_pre_ex : code_of c58_pre_node = b "a" ++ [10] ++ b "b" /\ classes_of c58_pre_node = [[]; b "hljs language-go"]
  /\ Forall2 language_of (classes_of c58_pre_node) [[]; b "go"]
  /\ (exists s, rendered c58_all 9 [] [] c58_pre_node s /\ post_newline s = [10; 10] ++ b "```go" ++ [10] ++ b "a" ++ [10] ++ b "b" ++ [10] ++ b "```" ++ [10; 10]).
Proof.
  split; [reflexivity|]. split; [reflexivity|]. split; [|eexists; split; [vm_compute; reflexivity|vm_compute; reflexivity]].
  constructor; [right; exists []; repeat split; constructor|]. constructor; [|constructor].
  left. exists [b "hljs"], (b "language-go"), []. split; [reflexivity|]. split; [repeat constructor; vm_compute; intuition discriminate|].
  assert (K : forall p w k, In k p -> ~ In k w -> ~ infix p w).
  { intros p w k I N (y & z & ->). apply N. rewrite !in_app_iff. auto. }
  split; [constructor; [|constructor]; split; apply (K _ _ 97); vm_compute; intuition discriminate|].
  split; [now left|]. split; apply (K _ _ 97); vm_compute; intuition discriminate.
Qed.
(** code and its relatives: a code span with the collapsed code *)
Theorem c58_code : forall x cfg f c anc name a ks s, sorts (st_sort x) -> options x cfg -> In name (map b ["code"; "var"; "samp"; "kbd"; "tt"]%string) ->
  rendered x (S f) c anc (Elem name a ks) s -> let code := code_of (Elem name a ks) in
  spaces code /\ s = [96] ++ code ++ [96]
  \/ ~ spaces code /\ exists t o, trimmed code t /\ run_collapsed code_blank t o
     /\ forall rest, first_is 96 rest = false ->
        exists inner, read_code_span (s ++ rest) = Some (inner, rest) /\ (first_is 96 o = last_is 96 o -> inner = o).
Proof. intros x cfg f c anc name a ks s H. exact (node_code x H cfg f c anc name a ks s). Qed.
Print Assumptions c58_code.
Example c58_code_ex : rendered c58_all 9 [] [] (Elem (b "kbd") [] [Text (b " a  `b")]) (b "``a `b``").
Proof. vm_compute. reflexivity. Qed.

(** ul and ol: the items that are not blank, each behind its marker; the numbers count up from the start attribute. *)
Theorem c58_list : forall x cfg f c anc name a ks s, sorts (st_sort x) -> options x cfg -> name = b "ul" \/ name = b "ol" ->
  (forall z, name = b "ol" -> first_number (Elem name a ks) z -> (0 <= z)%Z) -> rendered x (S f) c anc (Elem name a ks) s ->
  exists parts, inside x f c anc (Elem name a ks) parts /\
  (Forall spaces parts /\ s = []
   \/ exists body outs prefix, s = [10; 10] ++ body ++ [10; 10] /\ items_written parts outs /\ outs <> []
      /\ split_on 10 (post_newline body) = items_lines prefix O (map (split_on 10) outs)
      /\ forall i, (i < List.length outs)%nat ->
           name = b "ul" /\ prefix i = bullet_marker cfg ++ [32]
           \/ name = b "ol" /\ exists z ds, first_number (Elem name a ks) z /\ prefix i = ds ++ [46; 32]
                /\ digits_value 0 ds = Some (Z.to_N (z + Z.of_nat i))
                /\ forall j ds', (j < List.length outs)%nat -> prefix j = ds' ++ [46; 32] -> List.length ds' = List.length ds).
Proof. intros x cfg f c anc name a ks s H. exact (node_list x H cfg f c anc name a ks s). Qed.
Print Assumptions c58_list.
Example c58_list_ex : rendered c58_all 9 [] [] (Elem (b "ol") [(b "start", b "9")]
    [Elem (b "li") [] [Text (b "a")]; Elem (b "li") [] [Text (b " ")]; Elem (b "li") [] [Text (b "b"); Elem (b "p") [] [Text (b "c")]]])
    ([10; 10] ++ b "09. a" ++ [10] ++ b "10. b" ++ [10] ++ b "    " ++ [10] ++ b "    c" ++ [10; 10])
  /\ rendered c58_all 9 [] [] (Elem (b "ul") [] [Elem (b "li") [] [Text (b "a")]]) ([10; 10] ++ b "- a" ++ [10; 10])
  /\ first_number (Elem (b "ol") [(b "start", b "9")] []) 9.
Proof. vm_compute. split; [reflexivity|]. split; [reflexivity|]. now left. Qed.

(** img: the alternative text between brackets, then the source and the title *)
Theorem c58_image : forall x cfg f c anc a ks s, sorts (st_sort x) -> options x cfg -> In UseBase (st_uses x) ->
  rendered x (S f) c anc (Elem (b "img") a ks) s ->
  let n := Elem (b "img") a ks in let alt := on_one_line (attribute n (b "alt")) in let title := on_one_line (attribute n (b "title")) in
  exists raw, trimmed (attribute n (b "src")) raw /\
  (raw = [] /\ (exists parts, inside x f c anc n parts /\ s = List.concat parts)
   \/ raw <> [] /\ let dest := st_url x (b "img") raw in
      (plain_destination dest -> ~ double_backslash alt -> ~ stray_backslash title ->
       exists r, s = [33; 91] ++ r /\ forall rest, exists text tail o,
         until_bracket O false (r ++ rest) = Some (text, tail) /\ filter (fun y => negb (y =? 92)) text = filter (fun y => negb (y =? 92)) alt
         /\ read_tail tail = Some (dest, o, rest) /\ title_is title o)).
Proof. intros x cfg f c anc a ks s H. exact (node_image x H cfg f c anc a ks s). Qed.
Print Assumptions c58_image.
Example c58_image_ex : rendered c58_all 9 [] [] (Elem (b "img") [(b "alt", b "a]b"); (b "src", b " /u "); (b "title", b "t")] []) (b "![a\]b](/u ""t"")")
  /\ plain_destination (b "/u").
Proof.
  split; [vm_compute; reflexivity|]. split; [discriminate|]. split.
  - intros c I. cbn in I. destruct I as [<-|[<-|[]]]; repeat split; discriminate.
  - intros (y & E). destruct y as [|? [|? [|? y]]]; discriminate E.
Qed.

(** a: the content, rendered as the inside of a link, between brackets, then the address and the title *)
Theorem c58_link : forall x cfg f c anc a ks s, sorts (st_sort x) -> options x cfg -> link_style cfg = b "inlined" ->
  rendered x (S f) c anc (Elem (b "a") a ks) s ->
  let n := Elem (b "a") a ks in let title := on_one_line (attribute n (b "title")) in
  exists raw, trimmed (attribute n (b "href")) raw /\ let dest := st_url x (b "a") raw in
  ((dest = [] -> link_empty_href cfg <> b "skip") ->
  exists parts, inside x f ((inside_link_key, true) :: c) anc n parts /\
  (~ spaces (List.concat parts) ->
   exists l body r tail, s = l ++ [91] ++ body ++ [93] ++ tail ++ r /\ spaces l /\ spaces r
     /\ (forall y, In y (split_on 10 body) -> ~ spaces y) /\ inked body = inked (List.concat parts)
     /\ (dest = [] -> tail = [40; 41])
     /\ (plain_destination dest -> ~ stray_backslash title ->
         forall rest, exists o, read_tail (tail ++ rest) = Some (dest, o, rest) /\ title_is title o))).
Proof. intros x cfg f c anc a ks s H. exact (node_link x H cfg f c anc a ks s). Qed.
Print Assumptions c58_link.
Example c58_link_ex : rendered c58_all 9 [] [] (Elem (b "a") [(b "href", b "/u"); (b "title", b "t")] [Text (b " a]b "); Elem (b "em") [] [Text (b "c")]])
  (b " [a\]b *c*](/u ""t"")").
Proof. vm_compute. reflexivity. Qed.
(** In texts below a link a closing bracket always has a backslash before it. *)
Theorem c58_link_brackets : forall x cfg f c anc d s, sorts (st_sort x) -> options x cfg -> In UseBase (st_uses x) -> st_mode x = Smart ->
  ctx_value inside_link_key c = true -> rendered x (S f) c anc (Text d) s ->
  forall u v, s = u ++ [93] ++ v -> exists u', u = u' ++ [92].
Proof. intros x cfg f c anc d s H. exact (link_brackets x H cfg f c anc d s). Qed.
Print Assumptions c58_link_brackets.
Example c58_link_brackets_ex : rendered c58_all 1 [(inside_link_key, true)] [] (Text (b "a]]")) (b "a\]\]").
Proof. vm_compute. reflexivity. Qed.

(** All other elements: the content, with blank lines around it for block elements *)
Theorem c58_other : forall x cfg f c anc name a ks s, sorts (st_sort x) -> options x cfg -> In UseBase (st_uses x) ->
  ~ In name rendered_names -> ~ In name hidden_names -> rendered x (S f) c anc (Elem name a ks) s ->
  exists parts, inside x f c anc (Elem name a ks) parts /\
    s = if is_block_name name then [10; 10] ++ List.concat parts ++ [10; 10] else List.concat parts.
Proof. intros x cfg f c anc name a ks s H. exact (node_other x H cfg f c anc name a ks s). Qed.
Print Assumptions c58_other.
Example c58_other_ex : rendered c58_all 9 [] [] (Elem (b "p") [] [Text (b "a"); Elem (b "span") [] [Text (b "b")]]) ([10; 10] ++ b "ab" ++ [10; 10]).
Proof. vm_compute. reflexivity. Qed.
Theorem c58_document : forall x cfg f c anc ks s, sorts (st_sort x) -> options x cfg -> In UseBase (st_uses x) -> rendered x (S f) c anc (Doc ks) s ->
  exists parts, inside x f c anc (Doc ks) parts /\ s = List.concat parts.
Proof. intros x cfg f c anc ks s H. exact (node_document x H cfg f c anc ks s). Qed.
Print Assumptions c58_document.
Theorem c58_comment : forall x cfg f c anc d s, sorts (st_sort x) -> options x cfg -> In UseBase (st_uses x) -> rendered x (S f) c anc (Comment d) s ->
  s = if beqb d (b "THE END") then [10; 10] ++ b "<!--THE END-->" ++ [10; 10] else [].
Proof. intros x cfg f c anc d s H. exact (node_comment x H cfg f c anc d s). Qed.
Print Assumptions c58_comment.
Example c58_comment_ex : rendered c58_all 1 [] [] (Comment (b "x")) [].
Proof. vm_compute. reflexivity. Qed.

(** del, s and strike with the strikethrough plugin, rows outside a table with the table plugin *)
Theorem c58_strike : forall x d f c anc name a ks s, sorts (st_sort x) ->
  (exists d0, In (UseStrikethrough d0) (st_uses x) /\ d = or_default d0 (b "~~")) ->
  (forall d1, In (UseStrikethrough d1) (st_uses x) -> or_default d1 (b "~~") = d) -> ~ In 10 d ->
  In name (map b ["del"; "s"; "strike"]%string) -> rendered x (S f) c anc (Elem name a ks) s ->
  exists parts, inside x f c anc (Elem name a ks) parts /\ Forall2 (delimited d) (split_on 10 (List.concat parts)) (split_on 10 s).
Proof. intros x d f c anc name a ks s H. exact (node_strike x H d f c anc name a ks s). Qed.
Print Assumptions c58_strike.
Example c58_strike_ex : rendered c58_all 9 [] [] (Elem (b "del") [] [Text (b "a ")]) (b "~~a~~ ").
Proof. vm_compute. reflexivity. Qed.
Theorem c58_row : forall x os tc f c anc a ks s, sorts (st_sort x) -> In (UseTable os) (st_uses x) -> apply_table_options os table_defaults = (tc, None) ->
  rendered x (S f) c anc (Elem (b "tr") a ks) s ->
  exists parts, inside x f c anc (Elem (b "tr") a ks) parts /\ s = [10; 10] ++ List.concat parts ++ [10; 10].
Proof. intros x os tc f c anc a ks s H. exact (node_row x H os tc f c anc a ks s). Qed.
Print Assumptions c58_row.
