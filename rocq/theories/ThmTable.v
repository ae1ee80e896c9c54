(** Theorems about rendered tables (C34, C35, C55). *)
From Coq Require Import List NArith ZArith Bool String Lia.
From Verif Require Import Bytes TextUtils Escape SpecDom Dom RenderText Engine CommonMark Table SpecEngine SpecPipeline SpecTable
  TableFacts TableFacts3 TableFacts4 TableFacts6.
Import ListNotations.
Open Scope N_scope.
Open Scope list_scope.

(** The documents of the examples *)
Definition cell_el (name : string) (at_ : attrs) (ks : list node) : node := Elem (b name) at_ ks.
Definition row_el (ks : list node) : node := Elem (b "tr") [] ks.
Definition table_el (ks : list node) : node := Elem (b "table") [] ks.
Definition with_table (os : list table_option) : list use := default_uses ++ [UseTable os].
(** A header, one row *)
Definition small (cell : node) : node := table_el [row_el [cell_el "th" [] [Text (b "A")]]; row_el [cell]].
(** How many cells a reader sees in the lines *)
Definition cell_counts (out : bytes) : list nat := map (fun l => List.length (read_line l)) (split_on 10 out).

(** C34. A table that is rendered, whatever its spans: all rows have as many cells as the delimiter row; with aligned padding the cells
    of a column have the same width in characters; the delimiter row consists of delimiter cells; no cell contains a line end. This
    holds for every configuration of the plugin and for whatever the other handlers make of the cells. *)
Theorem c34_rectangular : forall tcfg e rec c anc n out, node_name n = b "table" -> table_render tcfg e rec c anc n = Done (true, out) ->
  exists header under body cap, out = table_layout header under body cap
    /\ Forall (fun row => List.length row = List.length under) (header :: body)
    /\ (aligned tcfg = true -> Forall (fun row => map rune_count row = map rune_count under) (header :: body))
    /\ Forall delimiter_cell under
    /\ Forall (Forall (fun x => ~ In 10 x)) (under :: header :: body).
Proof. exact table_rectangular. Qed.
Print Assumptions c34_rectangular.
Example c34_example : let doc := table_el [row_el [cell_el "th" [(b "align", b "center")] [Text (b "A")]];
    row_el [cell_el "td" [(b "rowspan", b "2"); (b "colspan", b "2")] [Text (b "x|y")]; cell_el "td" [] [Text [195; 164]]]; row_el [cell_el "td" [] [Text (b "long text")]]] in
  converts (convert_node stable_sort (converter_with Smart (with_table [])) (fun _ u => u) doc)
    (b "| A    |   |           |" ++ [10] ++ b "|:----:|---|-----------|" ++ [10] ++ b "| x\|y |   | " ++ [195; 164] ++ b "         |" ++ [10]
     ++ b "|      |   | long text |").
Proof. vm_compute. reflexivity. Qed.
(** The colons of the delimiter row: cell by cell as the align attributes of the header (or of the first row, if there is none). *)
Theorem c34_alignment : forall tcfg e rec c anc n out, node_name n = b "table" -> table_render tcfg e rec c anc n = Done (true, out) ->
  exists header under body cap srcs row, out = table_layout header under body cap /\ shown_order (anc, n) srcs /\ aligning_row (anc, n) srcs row
    /\ (forall i u, nth_error under i = Some u ->
         match nth_error row i with Some p => aligned_as p u | None => says_left u = false /\ says_right u = false end).
Proof. exact table_alignment. Qed.
Print Assumptions c34_alignment.
(** The alignment belongs to the number of the cell, not to its column: a header cell over two columns shifts the alignments of the
    following ones. Here B is right-aligned in the source and the column before it in the output. *)
Theorem c34_alignment_colspan_refuted : exists doc out,
  doc = table_el [row_el [cell_el "th" [(b "colspan", b "2")] [Text (b "A")]; cell_el "th" [(b "align", b "right")] [Text (b "B")]]] /\
  converts (convert_node stable_sort (converter_with Smart (with_table [])) (fun _ u => u) doc) out /\
  map read_line (split_on 10 out) = [[b " A "; b "   "; b " B "]; [b "---"; b "--:"; b "---"]].
Proof. eexists. eexists. split; [reflexivity|]. vm_compute. split; reflexivity. Qed.
Print Assumptions c34_alignment_colspan_refuted.

(** C35. With smart escaping and the table plugin, if the bars of the table stand in texts outside of code: no cell contains a line end,
    and every bar in a cell follows a backslash; with padding around the cells, a reader gets back the cells of every line. The table
    may stand anywhere; its cells are rendered with the bundled handlers. Missing: bars in code and in attributes (refuted below),
    padding "none" (refuted below). *)
Theorem c35_cells_read_back_partial : forall sort, sorts sort -> forall us os tcfg0 url tcfg fuel c anc n out,
  let e := env_of sort (converter_with Smart us) url in
  let rec := render e (in_order sort (cv_render (converter_with Smart us))) (in_order sort (cv_text (converter_with Smart us))) fuel in
  In UseBase us -> In (UseTable os) us -> apply_table_options os table_defaults = (tcfg0, None) ->
  (forall k, In (UseCommonmark k) us -> ~ In 124 (em_delimiter k) /\ ~ In 124 (strong_delimiter k) /\ ~ In 124 (horizontal_rule k)) ->
  (forall d, In (UseStrikethrough d) us -> ~ In 124 d) ->
  (forall tag raw, ~ In 124 raw -> ~ In 124 (url tag raw)) ->
  bars_in_text n = true -> (height n <= S fuel)%nat ->
  node_name n = b "table" -> table_render tcfg e rec c anc n = Done (true, out) ->
  exists header under body cap, out = table_layout header under body cap /\ Forall (Forall one_cell) (header :: body)
    /\ (cell_padding tcfg = b "aligned" \/ cell_padding tcfg = b "minimal" ->
        Forall (fun row => read_line (bar_line row) = row) (under :: header :: body)).
Proof. exact table_cells. Qed.
Print Assumptions c35_cells_read_back_partial.
Example c35_example : let doc := small (cell_el "td" [] [Elem (b "a") [(b "href", b "/x")] [Elem (b "em") [] [Text (b "a|b\|c")]]; Elem (b "code") [] [Text (b "d")]]) in
  bars_in_text doc = true /\ apply_table_options [] table_defaults = (table_defaults, None) /\
  exists out, converts (convert_node stable_sort (converter_with Smart (with_table [])) (fun _ u => u) doc) out /\ cell_counts out = [1; 1; 1]%nat /\ In 124 (nth 0 (read_line (nth 2 (split_on 10 out) [])) []).
Proof. vm_compute. repeat split; auto. eexists. repeat split; auto. tauto. Qed.
(** A bar in code, in an alternative text or in a title splits the cell ... *)
Theorem c35_code_refuted : exists doc out, doc = small (cell_el "td" [] [Elem (b "code") [] [Text (b "a|b")]]) /\
  converts (convert_node stable_sort (converter_with Smart (with_table [])) (fun _ u => u) doc) out /\ cell_counts out = [1; 1; 2]%nat.
Proof. eexists. eexists. split; [reflexivity|]. vm_compute. split; reflexivity. Qed.
Print Assumptions c35_code_refuted.
Theorem c35_alt_refuted : exists doc out, doc = small (cell_el "td" [] [Elem (b "img") [(b "src", b "x"); (b "alt", b "a|b")] []]) /\
  converts (convert_node stable_sort (converter_with Smart (with_table [])) (fun _ u => u) doc) out /\ cell_counts out = [1; 1; 2]%nat.
Proof. eexists. eexists. split; [reflexivity|]. vm_compute. split; reflexivity. Qed.
Print Assumptions c35_alt_refuted.
Theorem c35_title_refuted : exists doc out, doc = small (cell_el "td" [] [Elem (b "a") [(b "href", b "x"); (b "title", b "a|b")] [Text (b "c")]]) /\
  converts (convert_node stable_sort (converter_with Smart (with_table [])) (fun _ u => u) doc) out /\ cell_counts out = [1; 1; 2]%nat.
Proof. eexists. eexists. split; [reflexivity|]. vm_compute. split; reflexivity. Qed.
Print Assumptions c35_title_refuted.
(** ... as does any bar if escaping is disabled. *)
Theorem c35_disabled_mode_refuted : exists doc out, doc = small (cell_el "td" [] [Text (b "a|b")]) /\
  converts (convert_node stable_sort (converter_with Disabled (with_table [])) (fun _ u => u) doc) out /\ cell_counts out = [1; 1; 2]%nat.
Proof. eexists. eexists. split; [reflexivity|]. vm_compute. split; reflexivity. Qed.
Print Assumptions c35_disabled_mode_refuted.
(** Without padding a backslash at the end of a cell takes away the bar. *)
Theorem c35_no_padding_refuted : exists doc out,
  doc = table_el [row_el [cell_el "th" [] [Text (b "A")]; cell_el "th" [] [Text (b "B")]]; row_el [cell_el "td" [] [Text (b "a\")]; cell_el "td" [] [Text (b "b")]]] /\
  converts (convert_node stable_sort (converter_with Smart (with_table [OPadding (b "none")])) (fun _ u => u) doc) out /\ cell_counts out = [2; 2; 1]%nat.
Proof. eexists. eexists. split; [reflexivity|]. vm_compute. split; reflexivity. Qed.
Print Assumptions c35_no_padding_refuted.
(** The marker for newlines in code blocks becomes a line end after the table was written: with newlines preserved a code block breaks
    its row, and the character U+F002 in a text does so in every mode. *)
Theorem c35_code_block_refuted : exists doc out, doc = small (cell_el "td" [] [Elem (b "pre") [] [Text [97; 10; 98]]]) /\
  converts (convert_node stable_sort (converter_with Smart (with_table [ONewline (b "preserve")])) (fun _ u => u) doc) out /\
  nth 2 (split_on 10 out) [] = b "| ```<br />a".
Proof. eexists. eexists. split; [reflexivity|]. vm_compute. split; reflexivity. Qed.
Print Assumptions c35_code_block_refuted.
Theorem c35_newline_marker_refuted : exists doc out, doc = small (cell_el "td" [] [Text [97; 239; 128; 130; 98]]) /\
  converts (convert_node stable_sort (converter_with Smart (with_table [])) (fun _ u => u) doc) out /\
  nth 2 (split_on 10 out) [] = b "| a".
Proof. eexists. eexists. split; [reflexivity|]. vm_compute. split; reflexivity. Qed.
Print Assumptions c35_newline_marker_refuted.

(** C55. The rows of a rendered table show the cells of the source row by row: the header first, then the other rows in order; each
    source row is shown by its own row, with all its cells in order among the merged ones; only rows without any text may be left out;
    and what is written in a cell contains all characters that the handlers rendered for it, in order. In a table without spans the
    row consists of just these cells, followed by empty ones. This holds in both modes, for all options of the plugin, and for
    whatever the other handlers make of the cells. *)
Theorem c55_cells_shown : forall sort, sorts sort -> forall m us url tcfg rec c anc n out,
  node_name n = b "table" -> table_render tcfg (env_of sort (converter_with m us) url) rec c anc n = Done (true, out) ->
  exists header under body cap srcs texts, out = table_layout header under body cap
    /\ shown_order (anc, n) srcs /\ Forall2 (Forall2 (fun p s => rec c (fst p) (snd p) = Done s)) srcs texts
    /\ shown row_among true texts (header :: body)
    /\ (Forall (fun p => no_span (snd p)) (places anc n) -> shown row_exact false texts (header :: body)).
Proof. intros sort Hs m us url. exact (fun tcfg rec c => table_shows _ (env_unbell sort Hs m us url) tcfg rec c). Qed.
Print Assumptions c55_cells_shown.
Example c55_example : let doc := table_el [row_el [cell_el "td" [] [Text (b "a")]; cell_el "td" [] [Text (b "b")]]; row_el [];
    row_el [cell_el "th" [] [Text (b "c")]]] in
  map (map (fun p => kids (snd p))) (map cells_below (rows_below ([], doc))) = [[[Text (b "a")]; [Text (b "b")]]; []; [[Text (b "c")]]] /\
  thead_row ([], doc) = None /\
  converts (convert_node stable_sort (converter_with Smart (with_table [OSkipEmpty true])) (fun _ u => u) doc)
    (b "| c |   |" ++ [10] ++ b "|---|---|" ++ [10] ++ b "| a | b |").
Proof. vm_compute. repeat split; reflexivity. Qed.
(** A caption is written below the table; a second one is lost. *)
Theorem c55_second_caption_refuted : exists doc out,
  doc = table_el [Elem (b "caption") [] [Text (b "X")]; Elem (b "caption") [] [Text (b "Y")]; row_el [cell_el "td" [] [Text (b "a")]]] /\
  converts (convert_node stable_sort (converter_with Smart (with_table [])) (fun _ u => u) doc) out /\ ~ In 89 out.
Proof. eexists. eexists. split; [reflexivity|]. split; [vm_compute; reflexivity|]. intros H. cbn in H. repeat destruct H as [H|H]; try discriminate. destruct H. Qed.
Print Assumptions c55_second_caption_refuted.
(** Two cells over several columns in one row: the merged cells are put into the wrong place; B stands in the fourth column although
    the cells before it span two. *)
Theorem c55_two_colspans_refuted : exists doc out,
  doc = table_el [row_el [cell_el "td" [(b "colspan", b "2")] [Text (b "A")]; cell_el "td" [(b "colspan", b "2")] [Text (b "B")]; cell_el "td" [] [Text (b "C")]]] /\
  converts (convert_node stable_sort (converter_with Smart (with_table [])) (fun _ u => u) doc) out /\
  read_line (nth 2 (split_on 10 out) []) = [b " A "; b "   "; b "   "; b " B "; b " C "].
Proof. eexists. eexists. split; [reflexivity|]. vm_compute. split; reflexivity. Qed.
Print Assumptions c55_two_colspans_refuted.
