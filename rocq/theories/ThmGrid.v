(** Theorems about the grid of tables with spans (C57). *)
From Coq Require Import List NArith ZArith Bool String Lia.
From Verif Require Import Bytes TextUtils Escape SpecDom Dom RenderText Engine CommonMark Table SpecEngine SpecPipeline SpecTable SpecGrid
  TableFacts3 TableFacts6 GridFacts3.
Import ListNotations.
Open Scope list_scope.

(** C57. A rendered table shows the grid that HTML defines for its cells: each cell in the columns and rows it spans, its text where it
    starts, and in the other positions nothing (or the same text, if the plugin mirrors spans). The hypotheses of the last line are those
    that the refutations below show to be needed: no cell reaches below the last row; a cell that starts beside a cell over several rows
    does not end below it; at most one cell of a row goes over several columns, and no cell right of it over several rows; no cell over
    several columns meets a covered one. Rows without text are left out only if an option asks for it. *)
Theorem c57_grid_partial : forall sort, sorts sort -> forall m us url tcfg rec c anc n out,
  node_name n = b "table" -> table_render tcfg (env_of sort (converter_with m us) url) rec c anc n = Done (true, out) ->
  exists header under body cap srcs texts, out = table_layout header under body cap
    /\ shown_order (anc, n) srcs /\ Forall2 (Forall2 (fun p s => rec c (fst p) (snd p) = Done s)) srcs texts
    /\ forall G, in_range (grid_cells srcs texts) -> nested (grid_cells srcs texts) -> Forall one_wide (grid_cells srcs texts) ->
       html_grid [] (grid_cells srcs texts) = Some G ->
       grid_shown (beqb (span_behavior tcfg) (b "mirror")) (skip_empty_rows tcfg || promote_first_row tcfg) G (header :: body).
Proof. intros sort Hs m us url. exact (fun tcfg rec c => table_grid _ (env_unbell sort Hs m us url) tcfg rec c). Qed.
Print Assumptions c57_grid_partial.

(** The documents of the examples; the cells of such a document with their texts *)
Definition td (rowspan colspan text : string) : node :=
  Elem (b "td") [(b "rowspan", b rowspan); (b "colspan", b colspan)] [Text (b text)].
Definition tr (ks : list node) : node := Elem (b "tr") [] ks.
Definition tab (ks : list node) : node := Elem (b "table") [] ks.
Definition text_of (p : place) : bytes := match kids (snd p) with [Text s] => s | _ => [] end.
Definition doc_cells (doc : node) : list (list (bytes * nat * nat)) :=
  let srcs := map cells_below (rows_below ([], doc)) in grid_cells srcs (map (map text_of) srcs).
Definition converted (os : list table_option) (doc : node) (out : bytes) : Prop :=
  converts (convert_node stable_sort (converter_with Smart (default_uses ++ [UseTable os])) (fun _ u => u) doc) out.
Definition lines_read (out : bytes) : list (list bytes) := map read_line (split_on 10 out).

(** A cell over two rows and a cell over two columns and two rows *)
Definition two_spans : node := tab [tr [td "1" "1" "a"; td "3" "2" "b"; td "1" "1" "c"]; tr [td "2" "x" "d"; td "1" "" "e"]; tr [td "1" "1" "f"]].
Example c57_example :
  in_range ([] :: doc_cells two_spans) /\ nested ([] :: doc_cells two_spans) /\ Forall one_wide ([] :: doc_cells two_spans) /\
  html_grid [] ([] :: doc_cells two_spans) = Some [[]; [Own (b "a"); Own (b "b"); Merged (b "b"); Own (b "c")];
    [Own (b "d"); Merged (b "b"); Merged (b "b"); Own (b "e")]; [Merged (b "d"); Merged (b "b"); Merged (b "b"); Own (b "f")]] /\
  converted [OSpan (b "mirror"); OPromote true] two_spans
    (b "| a | b | b | c |" ++ [10%N] ++ b "|---|---|---|---|" ++ [10%N] ++ b "| d | b | b | e |" ++ [10%N] ++ b "| d | b | b | f |").
Proof.
  assert (Q := pairs_checked (fun '(_, r1, _) '(_, r2, _) y1 y2 =>
      Nat.leb (y1 + r1) 4 && (negb (Nat.ltb y1 y2 && Nat.ltb y2 (y1 + r1)) || Nat.leb (y2 + r2) (y1 + r1))) ([] :: doc_cells two_spans) ltac:(vm_compute; reflexivity)).
  split; [|split; [|split; [|split]]].
  - intros y row a r k E I. specialize (Q _ _ _ _ _ _ E E I I). cbn beta iota in Q. apply andb_prop in Q as [Q _]. apply Nat.leb_le in Q. exact Q.
  - intros y1 y2 row1 row2 a1 r1 k1 a2 r2 k2 L E1 E2 I1 I2 C. specialize (Q _ _ _ _ _ _ E1 E2 I1 I2). cbn beta iota in Q. apply andb_prop in Q as [_ Q].
    apply Nat.ltb_lt in L. apply Nat.ltb_lt in C. rewrite L, C in Q. cbn in Q. now apply Nat.leb_le in Q.
  - apply wide_checked. vm_compute. reflexivity.
  - vm_compute. reflexivity.
  - vm_compute. reflexivity.
Qed.

(** A cell that starts beside a cell over several rows and ends below it: the third row of the grid is D, (C), E; the output has an
    empty cell, D, E. *)
Theorem c57_staircase_refuted : exists doc out, doc = tab [tr [td "2" "1" "A"; td "1" "1" "B"]; tr [td "2" "1" "C"]; tr [td "1" "1" "D"; td "1" "1" "E"]] /\
  html_grid [] (doc_cells doc) = Some [[Own (b "A"); Own (b "B")]; [Merged (b "A"); Own (b "C")]; [Own (b "D"); Merged (b "C"); Own (b "E")]] /\
  converted [OPromote true] doc out /\ nth 3 (lines_read out) [] = [b "   "; b " D "; b " E "].
Proof. eexists. eexists. split; [reflexivity|]. vm_compute. repeat split; reflexivity. Qed.
Print Assumptions c57_staircase_refuted.
(** A cell whose rowspan goes past the last row (HTML cuts it off): the output has an additional row. *)
Theorem c57_past_end_refuted : exists doc out, doc = tab [tr [td "3" "1" "A"; td "1" "1" "B"]; tr [td "1" "1" "C"]] /\
  html_grid [] (doc_cells doc) = Some [[Own (b "A"); Own (b "B")]; [Merged (b "A"); Own (b "C")]] /\
  converted [OPromote true] doc out /\
  lines_read out = [[b " A "; b " B "]; [b "---"; b "---"]; [b "   "; b " C "]; [b "   "; b "   "]].
Proof. eexists. eexists. split; [reflexivity|]. vm_compute. repeat split; reflexivity. Qed.
Print Assumptions c57_past_end_refuted.
(** A cell over several rows right of a cell over several columns: C is beside the second column of A, not below B. *)
Theorem c57_right_of_wide_refuted : exists doc out, doc = tab [tr [td "1" "2" "A"; td "2" "1" "B"]; tr [td "1" "1" "C"; td "1" "1" "D"]] /\
  html_grid [] (doc_cells doc) = Some [[Own (b "A"); Merged (b "A"); Own (b "B")]; [Own (b "C"); Own (b "D"); Merged (b "B")]] /\
  converted [OPromote true] doc out /\ nth 2 (lines_read out) [] = [b " C "; b "   "; b " D "].
Proof. eexists. eexists. split; [reflexivity|]. vm_compute. repeat split; reflexivity. Qed.
Print Assumptions c57_right_of_wide_refuted.
(** rowspan=0 means all remaining rows of the group; the plugin takes it as one. *)
Theorem c57_zero_refuted : exists doc out, doc = tab [tr [td "0" "1" "A"; td "1" "1" "B"]; tr [td "1" "1" "C"]] /\
  converted [OPromote true] doc out /\ nth 2 (lines_read out) [] = [b " C "; b "   "].
Proof. eexists. eexists. split; [reflexivity|]. vm_compute. repeat split; reflexivity. Qed.
Print Assumptions c57_zero_refuted.
