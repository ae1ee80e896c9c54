(** The grid of a table with spans (C57): from the collected rows to the written table. *)
From Coq Require Import List NArith ZArith Bool String Arith Lia ZifyBool ZifyNat ZifyN.
From Verif Require Import Bytes BytesFacts Dom TextUtils DomUtils RenderText Escape Engine CommonMark Table SpecDom SpecTable SpecGrid TableFacts TableFacts2 TableFacts3 GridFacts GridFacts2.
Import ListNotations.
Open Scope list_scope.

Lemma attr_find key a : attr_get key a = option_map snd (find (fun kv => beqb (fst kv) key) a).
Proof. induction a as [|(k & v) a IH]; [reflexivity|]. cbn [attr_get find fst]. destruct (beqb k key); auto. Qed.
Lemma number_span n key : number_attr n key = span_of key n.
Proof.
  destruct n as [d|x a ks|d|ks|d]; try reflexivity. cbn [number_attr span_of]. rewrite attr_find. destruct (find _ a) as [(k & v)|]; [|reflexivity]. cbn [option_map snd].
  destruct (atoi v) as [z|]; [|reflexivity]. destruct (z <? 1)%Z eqn:L; lia.
Qed.
Lemma span_pos key n : (1 <= span_of key n)%nat.
Proof. destruct n as [d|x a ks|d|ks|d]; cbn [span_of]; try lia. destruct (find _ a) as [(k & v)|]; [|lia]. destruct (atoi v); lia. Qed.

Lemma f2_length {A B} (R : A -> B -> Prop) l m : Forall2 R l m -> List.length l = List.length m.
Proof. induction 1; cbn; congruence. Qed.

Section content.
Variable e : env.
Hypothesis Hun : forall s, subsequence (unbell s) (unescape_fn e s).
Variable tcfg : table_config.
Variables (rec : render_fn) (c : rctx).
Notation renders := (renders rec c).
Notation own := (cell_text e).
Notation merged := (fun s => merged_content tcfg (cell_text e s)).

Definition cells_of (ps : list place) (ts : list bytes) : list (bytes * nat * nat) := map (fun pt => grid_cell (fst pt) (snd pt)) (combine ps ts).
Lemma contents_of ps : forall ts, List.length ts = List.length ps -> contents own (cells_of ps ts) = map own ts.
Proof. induction ps as [|p ps IH]; intros [|t ts] L; try discriminate; [reflexivity|]. injection L as L. cbn. f_equal. now apply IH. Qed.
Lemma collect_cells_grid y row contents0 mods : collect_cells tcfg e rec c y row = Done (contents0, mods) ->
  exists texts, Forall2 renders (map pl (cell_entries row)) texts /\ contents0 = contents own (cells_of (map pl (cell_entries row)) texts)
    /\ mods = row_mods merged y 0 (cells_of (map pl (cell_entries row)) texts).
Proof.
  unfold collect_cells. destruct (all_done _) as [texts| |] eqn:E; cbn [bind]; try discriminate. intros H. injection H as <- <-.
  exists texts. apply all_done_iff in E.
  assert (R : Forall2 renders (map pl (cell_entries row)) texts).
  { revert E. generalize (cell_entries row). intros l. revert texts. induction l as [|x l IH]; intros texts H; cbn [map] in *; inversion H; subst; constructor; auto. }
  split; [exact R|]. split.
  - rewrite contents_of; auto. symmetry. eapply f2_length. exact R.
  - clear E. assert (K : forall x, List.concat (map (fun p => let '(x, (cell, content)) := p in
        modifications y x (number_attr (e_node cell) (b "rowspan")) (number_attr (e_node cell) (b "colspan")) (merged_content tcfg content))
        (combine (seq x (List.length (cell_entries row))) (combine (cell_entries row) (map own texts))))
        = row_mods merged y x (cells_of (map pl (cell_entries row)) texts)); [|apply K].
    revert texts R. induction (cell_entries row) as [|p l IH]; intros texts R x.
    + reflexivity.
    + cbn [map] in R. inversion R as [|? t ? ts Ht R']; subst. cbn [map List.length seq combine List.concat cells_of]. unfold grid_cell at 1. cbn [row_mods fst snd].
      rewrite !number_span. f_equal. apply (IH ts R').
Qed.
Lemma cells_positive ps ts : spans_positive (cells_of ps ts).
Proof. apply Forall_forall. intros ((a & r) & k) I. apply in_map_iff in I as ((p & t) & E & _). injection E as _ <- <-. split; apply span_pos. Qed.

(** ** Rows without any character *)
Definition slot_text (s : slot bytes) : bytes := show own merged s.
Inductive kept (dropping : bool) : list (list (slot bytes)) -> list (list bytes) -> Prop :=
| Kept_nil : kept dropping [] []
| Kept_row : forall g gs rows, kept dropping gs rows -> kept dropping (g :: gs) (map slot_text g :: rows)
| Kept_drop : forall g gs rows, dropping = true -> empty_row (map slot_text g) = true -> kept dropping gs rows -> kept dropping (g :: gs) rows.
Lemma kept_all d G : kept d G (map (map slot_text) G).
Proof. induction G; constructor; auto. Qed.
Lemma kept_filter G rows : kept true G rows -> kept true G (filter (fun r => negb (empty_row r)) rows).
Proof. induction 1 as [|g gs rows K IH|g gs rows D E K IH]; cbn [filter]; [constructor| |now apply Kept_drop]. destruct (empty_row (map slot_text g)) eqn:E; cbn [negb]; [now apply Kept_drop|now constructor]. Qed.
Lemma kept_header G h rows : kept true G (h :: rows) -> kept true G (h :: filter (fun r => negb (empty_row r)) rows).
Proof.
  remember (h :: rows) as l eqn:El. intros K. revert h rows El. induction K as [|g gs rows K IH|g gs rows D E K IH]; intros h rows' El; [discriminate| |].
  - injection El as <- <-. constructor. now apply kept_filter.
  - apply Kept_drop; auto.
Qed.
Lemma kept_tail G h rows : kept true G (h :: rows) -> empty_row h = true -> kept true G rows.
Proof.
  remember (h :: rows) as l eqn:El. intros K. revert h rows El. induction K as [|g gs rows K IH|g gs rows D E K IH]; intros h rows' El F; [discriminate| |].
  - injection El as <- <-. now apply Kept_drop.
  - apply Kept_drop; eauto.
Qed.
Lemma kept_skip G rows : kept true G rows -> kept true G (remove_empty_rows rows).
Proof.
  intros K. unfold remove_empty_rows. destruct rows as [|h r]; [exact K|]. apply kept_header in K. destruct (filter _ r) as [|x l]; [|exact K].
  destruct (empty_row h) eqn:E; auto. eapply kept_tail; eauto.
Qed.
Lemma kept_promote G rows : kept true G rows -> kept true G (remove_first_if_empty rows).
Proof. intros K. unfold remove_first_if_empty. destruct rows as [|h r]; auto. destruct (empty_row h) eqn:E; auto. eapply kept_tail; eauto. Qed.
Definition mirrored : bool := beqb (span_behavior tcfg) (b "mirror").
Definition droppable : bool := skip_empty_rows tcfg || promote_first_row tcfg.
Lemma bare_slots g : empty_row (map slot_text g) = true -> Forall (slot_bare mirrored) g.
Proof.
  unfold empty_row. intros H. apply Forall_forall. intros s I. rewrite forallb_forall in H. specialize (H (slot_text s) (in_map _ _ _ I)).
  assert (E : slot_text s = []) by (destruct (slot_text s); [reflexivity|discriminate]). destruct s as [t|t|]; cbn in *; auto.
  - now apply (empty_ink e Hun).
  - intros M. unfold merged_content in E. fold mirrored in E. rewrite M in E. now apply (empty_ink e Hun).
Qed.

Lemma collect_rows_grid header normal rows : collect_rows tcfg e rec c header normal = Done rows ->
  let srcs := map (map pl) ((match header with Some h => cell_entries h | None => [] end) :: map cell_entries normal) in
  exists texts, Forall2 (Forall2 renders) srcs texts /\
    forall G, in_range (grid_cells srcs texts) -> nested (grid_cells srcs texts) -> Forall one_wide (grid_cells srcs texts) ->
      html_grid [] (grid_cells srcs texts) = Some G -> kept droppable G rows.
Proof.
  unfold collect_rows. cbv zeta. set (l := _ ++ _). destruct (all_done l) as [xs| |] eqn:E; cbn [bind]; try discriminate. intros H.
  assert (Er : rows = (if promote_first_row tcfg then remove_first_if_empty else fun r => r)
                      ((if skip_empty_rows tcfg then remove_empty_rows else fun r => r) (apply_grouped (map fst xs) (map snd xs)))).
  { destruct (skip_empty_rows tcfg), (promote_first_row tcfg); congruence. }
  clear H. apply all_done_iff in E.
  set (srcs := map (map pl) _).
  assert (T : exists texts, Forall2 (Forall2 renders) srcs texts /\ map fst xs = map (contents own) (grid_cells srcs texts)
     /\ map snd xs = groups merged 0 (grid_cells srcs texts)).
  { unfold l in E. apply Forall2_app_inv_l in E as (x1 & x2 & E1 & E2 & ->). unfold srcs. clear l Er srcs.
    assert (T2 : exists texts, Forall2 (Forall2 renders) (map (map pl) (map cell_entries normal)) texts
       /\ map fst x2 = map (contents own) (grid_cells (map (map pl) (map cell_entries normal)) texts)
       /\ map snd x2 = groups merged 1 (grid_cells (map (map pl) (map cell_entries normal)) texts)).
    { clear E1 x1. revert E2. generalize 1%nat as s. revert x2. induction normal as [|r normal IH]; intros x2 s E2; cbn [List.length seq combine map] in E2.
      - inversion E2; subst. exists []. cbn [map]. auto.
      - inversion E2 as [|? [ct ms] ? x3 Ex E3]; subst. cbn [fst snd] in Ex. apply collect_cells_grid in Ex as (t & Ht & -> & ->).
        destruct (IH _ _ E3) as (ts & Hts & E4 & E5). exists (t :: ts). split; [now constructor|].
        change (grid_cells (map (map pl) (map cell_entries (r :: normal))) (t :: ts)) with (cells_of (map pl (cell_entries r)) t :: grid_cells (map (map pl) (map cell_entries normal)) ts).
        cbn [map fst snd groups]. rewrite E4, E5. split; reflexivity. }
    destruct T2 as (ts & Hts & E4 & E5). destruct header as [h|].
    - inversion E1 as [|? [ct ms] ? ? Ex E3]; subst. inversion E3; subst. apply collect_cells_grid in Ex as (t & Ht & -> & ->).
      exists (t :: ts). split; [now constructor|].
      change (grid_cells (map (map pl) (cell_entries h :: map cell_entries normal)) (t :: ts)) with (cells_of (map pl (cell_entries h)) t :: grid_cells (map (map pl) (map cell_entries normal)) ts).
      cbn [app map fst snd groups]. rewrite E4, E5. split; reflexivity.
    - inversion E1 as [|? ? ? ? Ex E3]; subst. inversion E3; subst. injection Ex as <-. exists ([] :: ts). split; [repeat constructor; auto|].
      change (grid_cells (map (map pl) ([] :: map cell_entries normal)) ([] :: ts)) with (@nil (bytes * nat * nat) :: grid_cells (map (map pl) (map cell_entries normal)) ts).
      cbn [app map fst snd groups row_mods]. rewrite E4, E5. split; reflexivity. }
  destruct T as (texts & Ht & Ef & Es). exists texts. split; auto. intros G Hr Hn Hw Hg.
  assert (B : apply_grouped (map fst xs) (map snd xs) = map (map slot_text) G).
  { rewrite Ef, Es, grouped_built. apply built_grid; auto. unfold grid_cells. apply Forall_forall. intros row I. apply in_map_iff in I as ((ps & ts) & <- & _). apply cells_positive. }
  rewrite B in Er. unfold droppable. destruct (skip_empty_rows tcfg), (promote_first_row tcfg); subst rows; cbn [orb].
  - apply kept_promote, kept_skip, kept_all.
  - apply kept_skip, kept_all.
  - apply kept_promote, kept_all.
  - apply kept_all.
Qed.

(** ** The written rows *)
Notation broken := (broken tcfg).
Lemma slot_written count s : slot_shown mirrored s (written tcfg count (broken (slot_text s))).
Proof.
  assert (Z : padded [] (written tcfg count (broken []))).
  { replace (broken []) with (@nil N); [apply written_padded|]. unfold TableFacts3.broken. destruct (beqb _ _); reflexivity. }
  destruct s as [t|t|]; cbn [slot_shown slot_text show].
  - now apply broken_holds.
  - unfold slot_text. cbn [show]. unfold merged_content. fold mirrored. destruct mirrored; [now apply broken_holds|exact Z].
  - exact Z.
Qed.
Lemma grid_written counts g row : fits counts row -> row = map (fun s => broken (slot_text s)) g ->
  grid_row_shown mirrored g (written_row tcfg counts (fill_row (List.length counts) row)).
Proof.
  intros F E. unfold fill_row, grow, grid_row_shown, written_row. revert g E. induction F as [ms|m ms x r L F IH]; intros g E.
  - destruct g; [|discriminate]. exists [], (map (fun p => written tcfg (fst p) (snd p)) (combine ms ([] ++ repeat [] (List.length ms - 0)))).
    split; [reflexivity|]. split; [constructor|]. apply Forall_forall. intros w I. apply in_map_iff in I as ((i & y) & <- & I). apply in_combine_r in I.
    cbn [app] in I. apply repeat_spec in I. subst y. cbn [fst snd]. apply written_padded.
  - destruct g as [|s g]; [discriminate|]. cbn [map] in E. injection E as -> ->. destruct (IH g eq_refl) as (front & fill & E1 & E2 & E3).
    cbn [List.length app combine map fst snd]. rewrite Nat.sub_succ, E1. exists (written tcfg m (broken (slot_text s)) :: front), fill. split; [reflexivity|].
    split; auto. constructor; auto. apply slot_written.
Qed.
Lemma kept_shown counts d G rows : kept d G rows -> Forall (fits counts) (map (map broken) rows) ->
  grid_shown mirrored d G (map (fun r => written_row tcfg counts (fill_row (List.length counts) r)) (map (map broken) rows)).
Proof.
  induction 1 as [|g gs rows K IH|g gs rows D E K IH]; intros F; cbn [map] in *.
  - constructor.
  - inversion F; subst. constructor; auto. apply grid_written; auto. now rewrite map_map.
  - apply Grid_drop; auto. now apply bare_slots.
Qed.
Theorem table_grid anc n out : node_name n = b "table" -> table_render tcfg e rec c anc n = Done (true, out) ->
  exists header under body cap srcs texts, out = table_layout header under body cap
    /\ shown_order (anc, n) srcs /\ Forall2 (Forall2 renders) srcs texts
    /\ forall G, in_range (grid_cells srcs texts) -> nested (grid_cells srcs texts) -> Forall one_wide (grid_cells srcs texts) ->
       html_grid [] (grid_cells srcs texts) = Some G -> grid_shown mirrored droppable G (header :: body).
Proof.
  intros En H. unfold table_render in H. rewrite En in H. change (beqb (b "table") (b "table")) with true in H. cbv iota in H.
  apply render_table_parts in H as (rows & rows' & cap & Hc & Nr & Hn & _ & -> & _ & _).
  set (table := {| e_path := []; e_anc := anc; e_node := n |}) in *.
  pose proof (newlines_nonempty _ _ _ Hn Nr) as Nr'. apply newlines_map in Hn.
  set (aligns := alignments _ _). clearbody aligns. destruct (table_text_eq tcfg aligns rows' cap) as [E|E]; [|contradiction].
  apply collect_rows_grid in Hc as (texts & Ht & Sg).
  pose proof (rows_order table En) as O. cbv zeta in O. cbv zeta in Ht, Sg. set (srcs := map (map pl) _) in *.
  pose proof (max_counts_fits rows') as F. set (counts := max_counts rows') in *. clearbody counts.
  assert (Eb : written_row tcfg counts (fill_row (List.length counts) (hd [] rows')) :: map (fun r => written_row tcfg counts (fill_row (List.length counts) r)) (tl rows')
               = map (fun r => written_row tcfg counts (fill_row (List.length counts) r)) rows') by now destruct rows'.
  do 4 eexists. exists srcs, texts. split; [exact E|]. split; [exact O|]. split; [exact Ht|]. intros G H1 H2 H3 H4. rewrite Eb, Hn. apply kept_shown; [auto|congruence].
Qed.
End content.

(** ** Checking the hypotheses on an example *)
Lemma pairs_checked (P : (bytes * nat * nat) -> (bytes * nat * nat) -> nat -> nat -> bool) rows :
  forallb (fun p1 => forallb (fun p2 => forallb (fun c1 => forallb (fun c2 => P c1 c2 (fst p1) (fst p2)) (snd p2)) (snd p1))
     (combine (seq 0 (List.length rows)) rows)) (combine (seq 0 (List.length rows)) rows) = true ->
  forall y1 y2 row1 row2 c1 c2, nth_error rows y1 = Some row1 -> nth_error rows y2 = Some row2 -> In c1 row1 -> In c2 row2 -> P c1 c2 y1 y2 = true.
Proof.
  assert (K : forall (l : list (list (bytes * nat * nat))) s y r, nth_error l y = Some r -> In (s + y, r)%nat (combine (seq s (List.length l)) l)).
  { induction l as [|x l IH]; intros s [|y] r E; cbn in *; try discriminate; [left; injection E as ->; f_equal; lia|right]. replace (s + S y)%nat with (S s + y)%nat by lia. auto. }
  intros H y1 y2 row1 row2 c1 c2 E1 E2 I1 I2. rewrite forallb_forall in H. specialize (H _ (K _ O _ _ E1)). rewrite forallb_forall in H.
  specialize (H _ (K _ O _ _ E2)). rewrite forallb_forall in H. specialize (H _ I1). rewrite forallb_forall in H. exact (H _ I2).
Qed.
Fixpoint wide_ok (row : list (bytes * nat * nat)) : bool :=
  match row with
  | [] => true
  | (_, _, k) :: v => (Nat.leb k 1 || forallb (fun '(_, r, k) => Nat.eqb r 1 && Nat.eqb k 1) v) && wide_ok v
  end.
Lemma wide_checked rows : forallb wide_ok rows = true -> Forall one_wide rows.
Proof.
  intros H. apply Forall_forall. intros row I. rewrite forallb_forall in H. specialize (H _ I). clear I. intros u a r k v -> L.
  induction u as [|((a1 & r1) & k1) u IH]; cbn [app wide_ok] in H; apply andb_prop in H as [H1 H2]; auto.
  apply orb_prop in H1 as [H1|H1]; [apply Nat.leb_le in H1; lia|]. apply Forall_forall. intros ((a2 & r2) & k2) I2. rewrite forallb_forall in H1. specialize (H1 _ I2).
  cbn beta iota in H1. apply andb_prop in H1 as [E1 E2]. apply Nat.eqb_eq in E1. apply Nat.eqb_eq in E2. auto.
Qed.
