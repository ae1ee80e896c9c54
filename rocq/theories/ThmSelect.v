(** Theorems about the selectors and the conversion of the command line program (C53, C54, C61, C45, C52). *)
From Coq Require Import List NArith ZArith Bool String Permutation.
From Verif Require Import Bytes TextUtils Escape Dom RenderText SpecDom Engine CommonMark Table SpecEngine SpecPipeline Cli SpecCli CliSim CliConvert SpecSelect
  SelectFacts SelectFacts2 SelectFacts3 NetUrl Url.
Import ListNotations.
Open Scope N_scope.
Open Scope list_scope.

(** ** C53: --include-selector *)
(** The texts inside selected nodes are kept, each once, and no other text. *)
Theorem c53_include : forall sel ks, sel [] (Doc ks) = false ->
  Permutation (text_of (include_nodes sel (Doc ks))) (text_where true (pieces sel false [] (Doc ks))).
Proof. exact include_text. Qed.
Print Assumptions c53_include.
(** If no selected node stands in another one the order is that of the document. *)
Theorem c53_include_order : forall sel ks, sel [] (Doc ks) = false -> no_nesting sel false [] (Doc ks) = true ->
  text_of (include_nodes sel (Doc ks)) = text_where true (pieces sel false [] (Doc ks)).
Proof. exact include_order. Qed.
Print Assumptions c53_include_order.
Definition tag (x : string) (pl : place) (n : node) : bool := named [b x] n.
Definition p1 : list node :=
  [Elem (b "p") [] [Text (b "Some "); Elem (b "strong") [] [Elem (b "i") [] [Text (b "a")]; Text (b "b")]; Text (b " and ");
    Elem (b "strong") [] [Text (b "c")]]].
Example c53_ex : tag "strong" [] (Doc p1) = false /\ no_nesting (tag "strong") false [] (Doc p1) = true /\
  pieces (tag "strong") false [] (Doc p1) = [(false, b "Some "); (true, b "a"); (true, b "b"); (false, b " and "); (true, b "c")] /\
  include_nodes (tag "strong") (Doc p1) = Doc [Elem (b "strong") [] [Elem (b "i") [] [Text (b "a")]; Text (b "b")]; Elem (b "strong") [] [Text (b "c")]].
Proof. vm_compute. repeat split. Qed.
(** With nested matches the order is lost: the inner node is moved behind the outer one. *)
Theorem c53_nested_refuted : exists sel ks, sel [] (Doc ks) = false /\
  text_of (include_nodes sel (Doc ks)) <> text_where true (pieces sel false [] (Doc ks)).
Proof.
  exists (tag "div"), [Elem (b "div") [] [Text (b "a"); Elem (b "div") [] [Text (b "b")]; Text (b "c")]]. split; vm_compute; [reflexivity|discriminate].
Qed.
Print Assumptions c53_nested_refuted.

(** ** C54: --exclude-selector *)
(** For a selector that does not look to the right: the selected nodes, each judged in the original document, are gone and
    nothing else. *)
Theorem c54_exclude_partial : forall sel doc, looks_left sel -> sel [] doc = false -> [exclude_nodes sel doc] = pruned sel [] doc.
Proof. exact exclude_tree. Qed.
Print Assumptions c54_exclude_partial.
Theorem c54_exclude_text_partial : forall sel doc, looks_left sel -> sel [] doc = false ->
  text_of (exclude_nodes sel doc) = text_where false (pieces sel false [] doc).
Proof. exact exclude_text. Qed.
Print Assumptions c54_exclude_text_partial.
(** p + p (a paragraph directly after a paragraph): both of the later ones are judged in the original document *)
Definition after_p (pl : place) (n : node) : bool :=
  named [b "p"] n && match pl with (l :: _, _, _) :: _ => named [b "p"] l | _ => false end.
Example c54_ex : looks_left after_p /\ after_p [] (Doc p1) = false /\
  exclude_nodes after_p (Doc [Elem (b "p") [] [Text (b "a")]; Elem (b "p") [] [Text (b "b")]; Elem (b "p") [] [Text (b "c")]]) =
    Doc [Elem (b "p") [] [Text (b "a")]].
Proof.
  split; [|vm_compute; auto]. intros pl pl' n E. unfold after_p.
  destruct pl as [|[[l s] r] pl], pl' as [|[[l' s'] r'] pl']; try discriminate; [reflexivity|]. injection E as -> -> _. reflexivity.
Qed.
(** li:last-child removes every item: after the last one is gone the next one is the last. *)
Definition last_li (pl : place) (n : node) : bool := named [b "li"] n && match pl with (_, _, []) :: _ => true | _ => false end.
Theorem c54_last_child_refuted : exists sel doc, sel [] doc = false /\ [exclude_nodes sel doc] <> pruned sel [] doc /\
  text_where false (pieces sel false [] doc) = b "ab" /\ text_of (exclude_nodes sel doc) = [].
Proof.
  exists last_li, (Doc [Elem (b "ul") [] [Elem (b "li") [] [Text (b "a")]; Elem (b "li") [] [Text (b "b")]; Elem (b "li") [] [Text (b "c")]]]).
  split; [reflexivity|]. split; [vm_compute; discriminate|]. split; vm_compute; reflexivity.
Qed.
Print Assumptions c54_last_child_refuted.
(** A selector that matches the document itself (such as :contains in cascadia) removes nothing. *)
Theorem c54_root_refuted : exists sel doc, looks_left sel /\ text_of (exclude_nodes sel doc) <> text_where false (pieces sel false [] doc).
Proof.
  exists (fun _ n => negb (is_empty (text_of n))), (Doc [Elem (b "p") [] [Text (b "secret")]]). split; [intros ? ? ? _; reflexivity|vm_compute; discriminate].
Qed.
Print Assumptions c54_root_refuted.

(** ** C61: what the flags do *)
(** A selector list selects what one of its selectors matches; first --include-selector, then --exclude-selector, each only if given. *)
Theorem c61_select : forall selector (matches : selector -> place -> node -> bool) (c : Cli.config selector) si se doc,
  decides matches (c_include selector c) si -> decides matches (c_exclude selector c) se ->
  (c_include selector c = [] -> c_exclude selector c = [] -> select selector matches c doc = doc)
  /\ (c_include selector c <> [] -> c_exclude selector c = [] -> select selector matches c doc = include_nodes si doc)
  /\ (c_include selector c = [] -> c_exclude selector c <> [] -> select selector matches c doc = exclude_nodes se doc)
  /\ (c_include selector c <> [] -> c_exclude selector c <> [] -> select selector matches c doc = exclude_nodes se (include_nodes si doc)).
Proof. exact select_flags. Qed.
Print Assumptions c61_select.
Theorem c61_only_included : forall selector (matches : selector -> place -> node -> bool) (c : Cli.config selector) si ks,
  decides matches (c_include selector c) si -> c_include selector c <> [] -> c_exclude selector c = [] -> si [] (Doc ks) = false ->
  Permutation (text_of (select selector matches c (Doc ks))) (text_where true (pieces si false [] (Doc ks))).
Proof. exact only_included. Qed.
Print Assumptions c61_only_included.
Theorem c61_excluded_gone : forall selector (matches : selector -> place -> node -> bool) (c : Cli.config selector) se doc,
  decides matches (c_exclude selector c) se -> c_include selector c = [] -> c_exclude selector c <> [] -> looks_left se -> se [] doc = false ->
  [select selector matches c doc] = pruned se [] doc.
Proof. exact excluded_gone. Qed.
Print Assumptions c61_excluded_gone.
(** The program converts the selected part as the library does with the plugins and options the flags name, and resolves
    addresses against --domain. *)
Theorem c61_converts : forall selector matches parse_html sort (c : Cli.config selector) us d md, named_plugins c us ->
  (cli_convert selector matches parse_html sort c d = Some md <->
   exists doc, parse_html d = Some doc /\
     converts (convert_node sort (converter_with Smart us) (fun _ raw => assemble_absolute_url go_url (c_domain selector c) raw)
       (select selector matches c doc)) md).
Proof. exact cli_converts. Qed.
Print Assumptions c61_converts.
(** --include-selector strong --include-selector i --exclude-selector b --plugin-strikethrough --opt-strong-delimiter __ *)
Definition c61_config : option (Cli.config bytes) :=
  match parse_flags bytes (fun s => Some [s]) (map b ["--include-selector"; "strong"; "--include-selector"; "i"; "--exclude-selector"; "b";
    "--plugin-strikethrough"; "--opt-strong-delimiter"; "__"; "--domain"; "example.com"]%string) with inl (c, _) => Some c | inr _ => None end.
Example c61_ex : exists c us, c61_config = Some c /\ c_include _ c = [b "strong"; b "i"] /\ c_exclude _ c = [b "b"] /\
  decides (fun x _ n => named [x] n) (c_include _ c) (fun _ n => named [b "strong"; b "i"] n) /\
  named_plugins c us /\ In (UseStrikethrough []) us /\
  select bytes (fun x _ n => named [x] n) c (Doc p1) = Doc [Elem (b "strong") [] [Text (b "b")]; Elem (b "i") [] [Text (b "a")]; Elem (b "strong") [] [Text (b "c")]] /\
  cli_convert bytes (fun x _ n => named [x] n) (fun _ => Some (Doc p1)) stable_sort c [] = Some (b "__bac__").
Proof.
  eexists. exists [UseBase; UseCommonmark {| em_delimiter := []; strong_delimiter := b "__"; horizontal_rule := []; bullet_marker := []; disable_end_comment := false;
    code_fence_opt := []; heading_style := []; link_style := []; link_empty_href := []; link_empty_content := [] |}; UseStrikethrough []].
  split; [vm_compute; reflexivity|]. split; [reflexivity|]. split; [reflexivity|]. split; [|split; [|split; [|split]]].
  - intros pl n. cbn [c_include]. split.
    + destruct n as [?|x a ks|?|?|?]; try discriminate. cbn [named name_in existsb]. intros H. destruct (beqb x (b "strong")) eqn:E.
      * exists (b "strong"). split; [now left|]. cbn [named name_in existsb]. now rewrite E.
      * exists (b "i"). split; [right; now left|]. exact H.
    + intros (s & [<-|[<-|[]]] & H); destruct n as [?|x a ks|?|?|?]; try discriminate; cbn in H |- *; rewrite orb_false_r in H; rewrite H; auto using orb_true_r.
  - eexists. split; [reflexivity|]. repeat split.
  - right. right. now left.
  - vm_compute. reflexivity.
  - vm_compute. reflexivity.
Qed.

(** ** The conversion of an input *)
(** C45 for the command line: no input makes the conversion panic. *)
Theorem c45_cli_never_panics : forall selector matches sort, sorts sort -> forall c doc,
  match cli_outcome selector matches sort c doc with Failed _ | Returned (Done _) => True | _ => False end.
Proof. exact cli_never_panics. Qed.
Print Assumptions c45_cli_never_panics.
(** C52 and C44 together: after a successful run every output holds, in order, all visible letters of the selected part of an
    input. Not covered: the table and strikethrough plugins. *)
Theorem c52_letters_partial : forall w matches parse_html sort keep i o e args c tr,
  sorts sort -> (forall c, keep c = true -> spelled c = true) ->
  accepts (real w matches parse_html sort) args c -> c_version _ c = false -> c_table _ c = false -> c_strikethrough _ c = false ->
  ~ In 35 (c_strong _ c) -> trace (program (real w matches parse_html sort) i o e args) tr (Exit 0) ->
  forall md, (exists q, In (q, md) (written tr)) \/ In (md ++ [10]) (printed tr) ->
  exists d doc, In d (data_read tr) /\ parse_html d = Some doc /\
    (tidy doc = true -> is_doc doc = true -> subsequence (filter keep (visible_text (select _ matches c doc))) md).
Proof. exact cli_letters_run. Qed.
Print Assumptions c52_letters_partial.
(** html2markdown --exclude-selector i, the document p1 on standard input: selectors are tag names *)
Definition tags_world : world :=
  real {| w_selector := bytes; w_parse := fun s => Some [s]; w_convert := fun _ _ => None; w_hash := fun x => x; w_rel := fun _ p => Some p;
          w_split := fun p => p; w_usage := []; w_version := [] |}
    (fun x _ n => named [x] n) (fun _ => Some (Doc p1)) stable_sort.
Example c52_letters_ex :
  let p := program tags_world (Some true) (Some true) (Some true) [b "--exclude-selector"; b "i"] in
  let '(tr, _, q) := simulate (b "<p>..") (fun _ => []) (files [] []) 100 p in
  trace p tr q /\ q = Exit 0 /\ printed tr = [b "Some **b** and **c**" ++ [10]].
Proof.
  cbv zeta. pose proof (simulate_runs (b "<p>..") (fun _ => []) (program tags_world (Some true) (Some true) (Some true) [b "--exclude-selector"; b "i"])
    (files [] []) 100) as H.
  destruct (simulate _ _ _ _ _) as [[tr f] q] eqn:E. destruct H as [H _]. split; [exact H|].
  assert (Eq := f_equal snd E). assert (Et := f_equal (fun x => printed (fst (fst x))) E). cbn [fst snd] in Eq, Et. rewrite <- Eq, <- Et.
  vm_compute. auto.
Qed.
