(** Specification vocabulary for the selectors of the command line program. *)
From Coq Require Import List NArith ZArith Bool String.
From Verif Require Import Bytes Dom Escape RenderText Engine CommonMark Table SpecPipeline Cli CliConvert SpecCli.
Import ListNotations.
Open Scope N_scope.
Open Scope list_scope.

Section sel.
Variable sel : place -> node -> bool.
(** The texts of a tree in document order; the flag tells whether the text stands inside a selected node. *)
Fixpoint pieces (inside : bool) (pl : place) (n : node) : list (bool * bytes) :=
  let i := inside || sel pl n in
  let go := fix go (left l : list node) : list (bool * bytes) :=
    match l with
    | [] => []
    | k :: r => pieces i ((left, shell n, r) :: pl) k ++ go (k :: left) r
    end in
  match n with
  | Text d => [(i, d)]
  | Elem _ _ ks | Doc ks => go [] ks
  | _ => []
  end.
(** No selected node stands inside another one. *)
Fixpoint no_nesting (inside : bool) (pl : place) (n : node) : bool :=
  let i := inside || sel pl n in
  let go := fix go (left l : list node) : bool :=
    match l with
    | [] => true
    | k :: r => no_nesting i ((left, shell n, r) :: pl) k && go (k :: left) r
    end in
  negb (inside && sel pl n) &&
  match n with Elem _ _ ks | Doc ks => go [] ks | _ => true end.
(** The tree without the selected nodes, each judged at its place in the original tree *)
Fixpoint pruned (pl : place) (n : node) : list node :=
  let go := fix go (left l : list node) : list node :=
    match l with
    | [] => []
    | k :: r => pruned ((left, shell n, r) :: pl) k ++ go (k :: left) r
    end in
  if sel pl n then []
  else match n with
       | Elem x a ks => [Elem x a (go [] ks)]
       | Doc ks => [Doc (go [] ks)]
       | _ => [n]
       end.
End sel.
Definition text_where (flag : bool) (l : list (bool * bytes)) : bytes :=
  flat_map (fun p => if Bool.eqb (fst p) flag then snd p else []) l.
(** The selector does not look at the siblings to the right, neither of the node nor of its ancestors. *)
Definition left_of (pl : place) : list (list node * node) := map fst pl.
Definition looks_left (sel : place -> node -> bool) : Prop :=
  forall pl pl' n, left_of pl = left_of pl' -> sel pl n = sel pl' n.

(** The world with the conversion of this development: plugins, selectors and options as the flags say *)
Definition real (w : world) (matches : w_selector w -> place -> node -> bool) (parse_html : bytes -> option node)
  (sort : forall A : Type, list (Z * A) -> list (Z * A)) : world :=
  {| w_selector := w_selector w; w_parse := w_parse w;
     w_convert := cli_convert (w_selector w) matches parse_html sort;
     w_hash := w_hash w; w_rel := w_rel w; w_split := w_split w;
     w_usage := w_usage w; w_version := w_version w |}.

(** The plugins and options the flags name, spelled out *)
Definition named_plugins {selector : Type} (c : Cli.config selector) (us : list use) : Prop :=
  exists cm, us = [UseBase; UseCommonmark cm]
    ++ (if c_strikethrough selector c then [UseStrikethrough []] else [])
    ++ (if c_table selector c then
          [UseTable [OSkipEmpty (c_skip_empty_rows selector c); OPromote (c_header_promotion selector c); OSpan (c_span_cells selector c);
                     OPresentation (c_presentation selector c); ONewline (c_newlines selector c); OPadding (c_padding selector c)]] else [])
  /\ strong_delimiter cm = c_strong selector c
  /\ em_delimiter cm = [] /\ horizontal_rule cm = [] /\ bullet_marker cm = [] /\ disable_end_comment cm = false /\ code_fence_opt cm = []
  /\ heading_style cm = [] /\ link_style cm = [] /\ link_empty_href cm = [] /\ link_empty_content cm = [].
(** A node is selected by a list of selectors if one of them matches it. *)
Definition decides {selector : Type} (matches : selector -> place -> node -> bool) (l : list selector) (sel : place -> node -> bool) : Prop :=
  forall pl n, sel pl n = true <-> exists s, In s l /\ matches s pl n = true.
