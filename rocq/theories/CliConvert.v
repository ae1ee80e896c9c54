(** Model of cli/html2markdown/cmd/cmd_convert.go: the selectors and the conversion of one input. No proofs in this file.

    html.Parse and the matcher of cascadia are parameters. *)
From Coq Require Import List NArith ZArith Bool String.
From Verif Require Import Bytes Escape Dom RenderText Engine CommonMark Table NetUrl Url Cli.
Import ListNotations.
Open Scope N_scope.
Open Scope list_scope.

(** Where a node stands: for its parent and each further ancestor the siblings to the left (nearest first), the ancestor
    without its children, and the siblings to the right. A selector sees a node and its place. *)
Definition place := list (list node * node * list node).
Definition shell (n : node) : node := with_kids n [].

Section selectors.
Variable sel : place -> node -> bool.
(** cmd_convert.go:41-47 with cascadia.QueryAll (recalled): all matching nodes below the root in document order, found before
    anything is moved; each is taken out of its parent. The result: the nodes found and what is left of [n]. *)
Fixpoint extract (pl : place) (n : node) : list node * list node :=
  let go := fix go (left l : list node) : list node * list node :=
    match l with
    | [] => ([], [])
    | k :: r => let '(f1, r1) := extract ((left, shell n, r) :: pl) k in
                let '(f2, r2) := go (k :: left) r in (f1 ++ f2, r1 ++ r2)
    end in
  let take inner n' := if sel pl n then (n' :: inner, []) else (inner, [n']) in
  match n with
  | Elem x a ks => let '(inner, rest) := go [] ks in take inner (Elem x a rest)
  | Doc ks => let '(inner, rest) := go [] ks in take inner (Doc rest)
  | _ => take [] n
  end.
Fixpoint extract_kids (pl : place) (n : node) (left l : list node) : list node :=
  match l with
  | [] => []
  | k :: r => fst (extract ((left, shell n, r) :: pl) k) ++ extract_kids pl n (k :: left) r
  end.
(** cmd_convert.go:36-50  includeNodesFromDoc. The new root has type ErrorNode; the model uses a document: the only code that
    could tell them apart (internal/domutils/alternatives.go:13) treats both alike at the root. *)
Definition include_nodes (doc : node) : node := Doc (extract_kids [] doc [] (kids doc)).

(** cmd_convert.go:56-70  finder. The deferred calls run from the last child to the first: when a child is looked at, its right
    siblings (and those of its ancestors) have been handled already. *)
Fixpoint exclude_in (pl : place) (n : node) : list node :=
  let go := fix go (left l : list node) : list node :=
    match l with
    | [] => []
    | k :: r => let r' := go (k :: left) r in exclude_in ((left, shell n, r') :: pl) k ++ r'
    end in
  if sel pl n then []
  else match n with
       | Elem x a ks => [Elem x a (go [] ks)]
       | Doc ks => [Doc (go [] ks)]
       | _ => [n]
       end.
(** cmd_convert.go:51-74  excludeNodesFromDoc. A matching root has no parent: dom.RemoveNode (recalled) does nothing. *)
Definition exclude_nodes (doc : node) : node := hd doc (exclude_in [] doc).
End selectors.

Section convert.
Variable selector : Type.
Variable matches : selector -> place -> node -> bool.          (* cascadia: Sel.Match *)
Variable parse_html : bytes -> option node.                    (* html.Parse *)
Variable sort : forall A : Type, list (Z * A) -> list (Z * A).

(** cascadia.SelectorGroup.Match *)
Definition any_match (l : list selector) (pl : place) (n : node) : bool := existsb (fun s => matches s pl n) l.
(** cmd_convert.go:75-92  parseInputWithSelectors *)
Definition select (c : config selector) (doc : node) : node :=
  let doc := if is_empty (c_include selector c) then doc else include_nodes (any_match (c_include selector c)) doc in
  if is_empty (c_exclude selector c) then doc else exclude_nodes (any_match (c_exclude selector c)) doc.

(** cmd_convert.go:95-119: the plugins *)
Definition cli_commonmark (c : config selector) : RenderText.config := {|
  em_delimiter := []; strong_delimiter := c_strong selector c; horizontal_rule := []; bullet_marker := [];
  disable_end_comment := false; code_fence_opt := []; heading_style := []; link_style := []; link_empty_href := [];
  link_empty_content := [] |}.
Definition cli_table_options (c : config selector) : list table_option :=
  [OSkipEmpty (c_skip_empty_rows selector c); OPromote (c_header_promotion selector c); OSpan (c_span_cells selector c);
   OPresentation (c_presentation selector c); ONewline (c_newlines selector c); OPadding (c_padding selector c)].
Definition cli_converter (c : config selector) : converter :=
  let conv := new_converter [OptPlugins [base_plugin; commonmark_plugin (cli_commonmark c)]] in
  let conv := if c_strikethrough selector c then do_action (RegPlugin (strikethrough_plugin [])) conv else conv in
  if c_table selector c then do_action (RegPlugin (table_plugin (cli_table_options c))) conv else conv.
(** cmd_convert.go:94-137  convert. A panic would end the program; it is counted as a failure here and excluded by
    c45_cli_never_panics. *)
Definition cli_outcome (c : config selector) (doc : node) : outcome :=
  convert_node sort (cli_converter c) (fun _ raw => assemble_absolute_url go_url (c_domain selector c) raw) (select c doc).
Definition cli_convert (c : config selector) (input : bytes) : option bytes :=
  match parse_html input with
  | None => None
  | Some doc => match cli_outcome c doc with Returned (Done md) => Some md | _ => None end
  end.
End convert.
