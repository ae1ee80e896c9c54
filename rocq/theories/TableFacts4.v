(** Lemmas about the alignments of the columns (C34). *)
From Coq Require Import List NArith ZArith Lia Bool String.
From Verif Require Import Bytes TextUtils Escape Dom DomUtils RenderText Engine CommonMark Table.
From Verif Require Import BytesFacts SpecDom SpecTable TableFacts TableFacts2.
Import ListNotations.
Open Scope N_scope.
Open Scope list_scope.

Lemma under_nth tcfg aligns : forall counts i u, nth_error (under_row tcfg aligns counts) i = Some u ->
  exists m, In m counts /\ u = under_cell tcfg (nth i aligns []) m.
Proof.
  unfold under_row. intros counts.
  assert (K : forall i s u, nth_error (map (fun p => under_cell tcfg (nth (fst p) aligns []) (snd p)) (combine (seq s (List.length counts)) counts)) i = Some u ->
    exists m, In m counts /\ u = under_cell tcfg (nth (s + i) aligns []) m).
  { induction counts as [|m ms IH]; intros i s u H; [destruct i; discriminate|]. cbn [List.length seq combine map fst snd] in H. destruct i as [|i].
    - cbn [nth_error] in H. injection H as <-. exists m. rewrite Nat.add_0_r. split; auto. now left.
    - cbn [nth_error] in H. apply IH in H as (m' & I & ->). exists m'. split; [now right|]. now rewrite Nat.add_succ_r. }
  intros i u H. exact (K i O u H).
Qed.
Definition align_of (p : place) : bytes := node_attr (snd p) (b "align") [].
Theorem table_alignment tcfg e rec c anc n out : node_name n = b "table" -> table_render tcfg e rec c anc n = Done (true, out) ->
  exists header under body cap srcs row, out = table_layout header under body cap /\ shown_order (anc, n) srcs /\ aligning_row (anc, n) srcs row
    /\ (forall i u, nth_error under i = Some u ->
         match nth_error row i with Some p => aligned_as p u | None => says_left u = false /\ says_right u = false end).
Proof.
  intros En H. unfold table_render in H. rewrite En in H. change (beqb (b "table") (b "table")) with true in H. cbv iota in H.
  apply render_table_parts in H as (rows & rows' & cap & _ & Nr & Hn & _ & -> & _ & _).
  set (table := {| e_path := []; e_anc := anc; e_node := n |}) in *.
  pose proof (newlines_nonempty _ _ _ Hn Nr) as Nr'.
  pose proof (rows_order table En) as O. cbv zeta in O. pose proof (header_cases table) as Hc.
  set (aligns := alignments _ _). destruct (table_text_eq tcfg aligns rows' cap) as [E|E]; [|contradiction].
  pose proof (max_counts_pos rows') as Pos. set (counts := max_counts rows') in *. clearbody counts.
  set (row := match match header_row table with Some h => Some h | None => hd_error (normal_rows table (header_row table)) end with
              | Some r => map pl (cell_entries r) | None => [] end).
  assert (Ea : aligns = map align_of row).
  { unfold aligns, alignments, row. destruct (match header_row table with Some h => Some h | None => _ end); [|reflexivity]. rewrite map_map. reflexivity. }
  do 4 eexists. eexists. exists row. split; [exact E|]. split; [exact O|]. split.
  - unfold row, aligning_row. cbn [map hd tl]. destruct (header_row table) as [h|] eqn:Eh; [left; split; [exists (pl h); apply Hc|reflexivity]|].
    right. split; [exact Hc|]. destruct (normal_rows table None); reflexivity.
  - intros i u Hu. apply under_nth in Hu as (m & Im & ->). rewrite Forall_forall in Pos.
    destruct (under_delimiter tcfg (nth i aligns []) m (Pos m Im)) as (_ & Hl & Hr).
    destruct (nth_error row i) as [p|] eqn:Ep.
    + assert (Ei : nth i aligns [] = align_of p). { rewrite Ea. apply nth_error_nth. rewrite nth_error_map, Ep. reflexivity. }
      rewrite Ei in *. split; assumption.
    + assert (Ei : nth i aligns [] = []). { apply nth_overflow. rewrite Ea, map_length. now apply nth_error_None. }
      rewrite Ei in *. split; assumption.
Qed.
