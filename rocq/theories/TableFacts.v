(** The lines of a rendered table (C34). *)
From Coq Require Import List NArith ZArith Bool String Lia ZifyBool ZifyNat ZifyN.
From Verif Require Import Bytes BytesFacts TextUtils RenderText Escape SpecDom SpecText TextFacts TextFacts2 RenderFacts3 Dom DomUtils Engine CommonMark Table
  RenderInv PanicFacts SpecTable.
Import ListNotations.
Open Scope N_scope.
Open Scope list_scope.

(** ** Widths *)
Lemma rune_count_cons c s : c < 128 -> rune_count (c :: s) = S (rune_count s).
Proof. intros H. unfold rune_count. change (c :: s) with ([] ++ c :: s). rewrite runes_ascii by easy. reflexivity. Qed.
Lemma rune_count_app x c s : c < 128 -> rune_count (x ++ c :: s) = (rune_count x + S (rune_count s))%nat.
Proof. intros H. unfold rune_count. rewrite runes_ascii by easy. rewrite app_length. reflexivity. Qed.
Lemma rune_count_repeat c k : c < 128 -> rune_count (repeat c k) = k.
Proof. intros H. induction k; [reflexivity|]. cbn [repeat]. rewrite rune_count_cons by easy. now rewrite IHk. Qed.
Lemma rune_count_tail x c k s : c < 128 -> (forall d t, s = d :: t -> d < 128) -> rune_count (x ++ repeat c k ++ s) = (rune_count x + k + rune_count s)%nat.
Proof.
  intros H Hs. destruct k; cbn [repeat app].
  - destruct s as [|d t]; [rewrite app_nil_r; change (rune_count []) with 0%nat; lia|]. rewrite rune_count_app by (eapply Hs; eauto). rewrite rune_count_cons by (eapply Hs; eauto). lia.
  - rewrite rune_count_app by easy. induction k; cbn [repeat app] in *; [lia|]. rewrite rune_count_cons by easy. lia.
Qed.
Inductive fits : list nat -> list bytes -> Prop :=
| F_nil : forall ms, fits ms []
| F_cons : forall m ms x r, (rune_count x <= m)%nat -> fits ms r -> fits (m :: ms) (x :: r).
Lemma fits_bump ms cells : fits (bump_counts ms cells) cells.
Proof.
  revert ms. induction cells as [|x r IH]; intros ms; [constructor|]. destruct ms as [|m ms]; cbn [bump_counts]; constructor; auto; lia.
Qed.
Lemma fits_mono ms cells row : fits ms row -> fits (bump_counts ms cells) row.
Proof.
  intros H. revert cells. induction H as [ms|m ms x r L H IH]; intros cells; [constructor|].
  destruct cells as [|y cells]; cbn [bump_counts]; constructor; auto; lia.
Qed.
Lemma max_counts_fits rows : Forall (fits (max_counts rows)) rows.
Proof.
  unfold max_counts.
  assert (G : forall rows ms done, Forall (fits ms) done -> Forall (fits (fold_left bump_counts rows ms)) (done ++ rows)).
  { clear rows. induction rows as [|r rows IH]; intros ms done H; cbn [fold_left]; [now rewrite app_nil_r|].
    replace (done ++ r :: rows) with ((done ++ [r]) ++ rows) by now rewrite <- app_assoc. apply IH.
    apply Forall_app. split; [|repeat constructor; apply fits_bump]. eapply Forall_impl; [|exact H]. intros a Ha. now apply fits_mono. }
  apply (G rows [] []). constructor.
Qed.
Lemma bump_pos ms cells : Forall (le 1) ms -> Forall (le 1) (bump_counts ms cells).
Proof.
  revert ms. induction cells as [|x r IH]; intros ms H; auto. destruct H as [|m ms Hm H]; cbn [bump_counts]; constructor; auto; lia.
Qed.
Lemma max_counts_pos rows : Forall (le 1) (max_counts rows).
Proof.
  unfold max_counts. assert (H : Forall (le 1) (@nil nat)) by constructor. revert H. generalize (@nil nat).
  induction rows as [|r rows IH]; intros ms H; cbn [fold_left]; auto. apply IH. now apply bump_pos.
Qed.
Lemma fits_length ms r : fits ms r -> (List.length r <= List.length ms)%nat.
Proof. induction 1; cbn [List.length]; lia. Qed.
Lemma fits_fill ms r : fits ms r -> Forall2 (fun m x => (rune_count x <= m)%nat) ms (fill_row (List.length ms) r).
Proof.
  unfold fill_row, grow. induction 1 as [ms|m ms x r L H IH].
  - cbn [app List.length]. rewrite Nat.sub_0_r. induction ms; cbn [List.length repeat]; constructor; auto. change (rune_count []) with 0%nat. lia.
  - cbn [List.length app]. rewrite Nat.sub_succ. now constructor.
Qed.

(** ** The lines *)
Section lines.
Variable tcfg : table_config.
Definition written (count : nat) (cell : bytes) : bytes :=
  pad_space tcfg ++ cell ++ (if aligned tcfg then repeat cSP (count - rune_count cell) else []) ++ pad_space tcfg.
Definition written_row (counts : list nat) (cells : list bytes) : list bytes := map (fun p => written (fst p) (snd p)) (combine counts cells).
Definition under_cell (align : bytes) (count : nat) : bytes :=
  (if one_of [b "left"; b "center"] align then [58] else [45]) ++ (if aligned tcfg then repeat 45 count else [45])
  ++ (if one_of [b "right"; b "center"] align then [58] else [45]).
Definition under_row (aligns : list bytes) (counts : list nat) : list bytes :=
  map (fun p => under_cell (nth (fst p) aligns []) (snd p)) (combine (seq 0 (List.length counts)) counts).
Lemma bar_line_eq f (l : list (nat * bytes)) : (if is_empty l then [] else [124]) ++ List.concat (map (fun p => f p ++ [124]) l) = bar_line (map f l).
Proof. destruct l as [|p l]; [reflexivity|]. cbn [is_empty map bar_line]. now rewrite map_map. Qed.
Lemma row_text_eq counts cells : List.length counts = List.length cells -> row_text tcfg counts cells = bar_line (written_row counts cells).
Proof.
  intros L. unfold written_row. rewrite <- bar_line_eq. unfold row_text. f_equal.
  - destruct counts, cells; try reflexivity; discriminate.
  - f_equal. apply map_ext. intros p. unfold row_cell, written. now rewrite <- !app_assoc.
Qed.
Lemma underline_eq aligns counts : underline_text tcfg aligns counts = bar_line (under_row aligns counts).
Proof.
  unfold underline_text, under_row. destruct counts as [|m ms]; [reflexivity|]. cbn [is_empty List.length seq combine map bar_line fst snd]. f_equal.
  cbn [List.concat]. unfold underline_cell, under_cell at 1. rewrite <- !app_assoc. do 4 f_equal. f_equal. rewrite map_map. apply map_ext. intros p.
  unfold under_cell. now rewrite <- !app_assoc.
Qed.
Lemma table_text_eq aligns rows cap : let counts := max_counts rows in
  table_text tcfg aligns rows cap =
    table_layout (written_row counts (fill_row (List.length counts) (hd [] rows))) (under_row aligns counts)
      (map (fun r => written_row counts (fill_row (List.length counts) r)) (tl rows)) cap \/ rows = [].
Proof.
  cbv zeta. destruct rows as [|h r]; [now right|left]. unfold table_text, table_layout. cbv zeta.
  pose proof (max_counts_fits (h :: r)) as F. inversion F as [|h' r' Fh Fr]; subst.
  set (counts := max_counts (h :: r)) in *. clearbody counts. cbn [map hd tl].
  assert (L : forall row, fits counts row -> row_text tcfg counts (fill_row (List.length counts) row) = bar_line (written_row counts (fill_row (List.length counts) row))).
  { intros row Hr. apply row_text_eq. unfold fill_row, grow. rewrite app_length, repeat_length. pose proof (fits_length _ _ Hr). lia. }
  rewrite (L h Fh), underline_eq. do 6 f_equal. rewrite !map_map. f_equal. clear Fh F. induction Fr as [|x r Hx Fr IH]; [reflexivity|]. cbn [map]. rewrite IH, (L x Hx). reflexivity.
Qed.
Lemma written_row_length counts row : fits counts row -> List.length (written_row counts (fill_row (List.length counts) row)) = List.length counts.
Proof.
  intros H. unfold written_row. rewrite map_length, combine_length. unfold fill_row, grow. rewrite app_length, repeat_length.
  pose proof (fits_length _ _ H). lia.
Qed.
Lemma under_row_length aligns counts : List.length (under_row aligns counts) = List.length counts.
Proof. unfold under_row. rewrite map_length, combine_length, seq_length. lia. Qed.
Lemma written_width count cell : aligned tcfg = true -> (rune_count cell <= count)%nat -> rune_count (written count cell) = (count + 2)%nat.
Proof.
  intros A L. unfold written, pad_space. rewrite A. cbn [orb]. unfold cSP. cbn [app]. rewrite rune_count_cons by lia.
  rewrite rune_count_tail; [|lia|intros d t [= <- _]; lia]. change (rune_count [32]) with 1%nat. lia.
Qed.
Lemma under_width align count : aligned tcfg = true -> rune_count (under_cell align count) = (count + 2)%nat.
Proof.
  intros A. unfold under_cell. rewrite A. rewrite rune_count_tail; [|lia|].
  - destruct (one_of [b "left"; b "center"] align), (one_of [b "right"; b "center"] align); change (rune_count [58]) with 1%nat; change (rune_count [45]) with 1%nat; lia.
  - intros d t. destruct (one_of _ _); intros [= <- _]; lia.
Qed.
Lemma row_widths counts row : aligned tcfg = true -> fits counts row ->
  map rune_count (written_row counts (fill_row (List.length counts) row)) = map (fun m => m + 2)%nat counts.
Proof.
  intros A H. apply fits_fill in H. unfold written_row. rewrite map_map. induction H as [|m x ms r L H IH]; [reflexivity|].
  cbn [combine map fst snd]. rewrite written_width by easy. now f_equal.
Qed.
Lemma under_widths aligns counts : aligned tcfg = true -> map rune_count (under_row aligns counts) = map (fun m => m + 2)%nat counts.
Proof.
  intros A. unfold under_row. rewrite map_map. set (f := fun m => (m + 2)%nat). generalize O as i.
  induction counts as [|m ms IH]; intros i; [reflexivity|]. cbn [List.length seq combine map fst snd]. rewrite under_width by easy. f_equal. apply IH.
Qed.
Lemma under_delimiter align count : (1 <= count)%nat ->
  let s := under_cell align count in
  delimiter_cell s /\ says_left s = one_of [b "left"; b "center"] align /\ says_right s = one_of [b "right"; b "center"] align.
Proof.
  intros P. cbv zeta. unfold under_cell.
  assert (E : exists k, (if aligned tcfg then repeat 45 count else [45]) = repeat 45 (S k)).
  { destruct (aligned tcfg); [|now exists O]. destruct count; [lia|]. now exists count. }
  destruct E as (k & ->). 
  assert (Ha : forall u : bytes, has_suffix [58] (u ++ [58]) = true).
  { intros u. apply has_suffix_iff. now exists u. }
  assert (Hb : forall u : bytes, has_suffix [58] (u ++ [45]) = false).
  { intros u. destruct (has_suffix [58] (u ++ [45])) eqn:E; auto. apply has_suffix_iff in E as (x & E). apply app_inj_tail in E as [_ E]. discriminate. }
  unfold says_left, says_right.
  destruct (one_of [b "left"; b "center"] align), (one_of [b "right"; b "center"] align).
  - split; [exists [58], k, [58]; auto|]. split; [reflexivity|]. rewrite app_assoc. apply Ha.
  - split; [|split; [reflexivity|rewrite app_assoc; apply Hb]]. exists [58], (S k), []. split; auto. rewrite app_nil_r. f_equal.
    change [45] with (repeat 45 1). rewrite <- repeat_app. f_equal. lia.
  - split; [|split; [reflexivity|rewrite app_assoc; apply Ha]]. exists [], (S k), [58]. split; auto.
  - split; [|split; [reflexivity|rewrite app_assoc; apply Hb]]. exists [], (S (S k)), []. split; auto. rewrite app_nil_r. cbn [app].
    change [45] with (repeat 45 1) at 1. change (45 :: repeat 45 (S k) ++ repeat 45 1) with (repeat 45 (S (S k)) ++ repeat 45 1). rewrite <- repeat_app. f_equal. lia.
Qed.
End lines.

(** ** Lines have no line ends *)
Lemma replaced_no_nl s : ~ In 10 (replace_all [cNL] (b "<br />") s).
Proof.
  apply (replace_ind [cNL] (b "<br />") (fun _ o => ~ In 10 o)); [discriminate|auto| |].
  - intros r o H I. apply in_app_iff in I as [I|I]; auto. vm_compute in I. intuition discriminate.
  - intros c t o E H [->|I]; auto. unfold cNL in E. cbn in E. discriminate.
Qed.
Lemma newlines_gone tcfg rows rows' : handle_newlines tcfg rows = Some rows' -> Forall (Forall (fun x => ~ In 10 x)) rows'.
Proof.
  unfold handle_newlines. destruct (beqb _ _).
  - intros [= <-]. apply Forall_forall. intros r I. apply in_map_iff in I as (r0 & <- & _). apply Forall_forall. intros x I.
    apply in_map_iff in I as (x0 & <- & _). apply replaced_no_nl.
  - destruct (existsb _ rows) eqn:E; [discriminate|]. intros [= <-]. apply Forall_forall. intros r Ir. apply Forall_forall. intros x Ix J.
    assert (K : existsb (existsb (contains [cNL])) rows = true); [|congruence].
    apply existsb_exists. exists r. split; auto. apply existsb_exists. exists x. split; auto. clear - J.
    apply in_split in J as (u & v & ->). unfold cNL. induction u as [|c u IH]; [reflexivity|]. cbn [app contains]. now rewrite IH, orb_true_r.
Qed.
Lemma written_in tcfg count cell c : In c (written tcfg count cell) -> In c cell \/ c = 32.
Proof.
  unfold written, pad_space, cSP. rewrite !in_app_iff. intros [H|[H|[H|H]]]; auto; right.
  - destruct (_ || _); [destruct H as [<-|[]]; auto|destruct H].
  - destruct (aligned tcfg); [now apply repeat_spec in H|destruct H].
  - destruct (_ || _); [destruct H as [<-|[]]; auto|destruct H].
Qed.
Lemma written_row_no_nl tcfg counts row : Forall (fun x => ~ In 10 x) row ->
  Forall (fun x => ~ In 10 x) (written_row tcfg counts (fill_row (List.length counts) row)).
Proof.
  intros F. apply Forall_forall. intros w I J. apply in_map_iff in I as ((m & x) & <- & I). apply in_combine_r in I. cbn [fst snd] in J.
  apply written_in in J as [J|J]; [|discriminate].
  unfold fill_row, grow in I. apply in_app_iff in I as [I|I]; [rewrite Forall_forall in F; eapply F; eauto|]. apply repeat_spec in I. now subst.
Qed.

(** What a table that is rendered consists of *)
Lemma render_table_parts tcfg e rec c anc n out : render_table tcfg e rec c anc n = Done (true, out) ->
  let table := {| e_path := []; e_anc := anc; e_node := n |} in
  let header := header_row table in
  let normal := normal_rows table header in
  exists rows rows' cap, collect_rows tcfg e rec c header normal = Done rows /\ rows <> [] /\ handle_newlines tcfg rows = Some rows'
    /\ caption rec c table = Done cap /\ out = table_text tcfg (alignments header normal) rows' cap
    /\ existsb (entry_is problematic_kids) (below table) = false /\ existsb (name_in problematic_parents) anc = false.
Proof.
  intros H table header normal. unfold render_table in H. destruct (_ && negb _); [discriminate|].
  fold table in H. fold header in H. fold normal in H.
  destruct (existsb (entry_is problematic_kids) _) eqn:E1; [discriminate|]. destruct (existsb _ anc) eqn:E2; [discriminate|].
  destruct (collect_rows tcfg e rec c header normal) as [rows| |]; cbn [bind] in H; try discriminate.
  destruct (is_empty rows) eqn:Er; [discriminate|]. destruct (handle_newlines tcfg rows) as [rows'|] eqn:En; [|discriminate].
  destruct (caption rec c table) as [cap| |]; cbn [bind] in H; try discriminate. injection H as <-.
  exists rows, rows', cap. repeat split; auto. now destruct rows.
Qed.
Lemma newlines_nonempty tcfg rows rows' : handle_newlines tcfg rows = Some rows' -> rows <> [] -> rows' <> [].
Proof.
  unfold handle_newlines. destruct (beqb _ _); [intros [= <-]; now destruct rows|]. destruct (existsb _ _); [discriminate|congruence].
Qed.
Lemma table_rectangular tcfg e rec c anc n out : node_name n = b "table" -> table_render tcfg e rec c anc n = Done (true, out) ->
  exists header under body cap, out = table_layout header under body cap
    /\ Forall (fun row => List.length row = List.length under) (header :: body)
    /\ (aligned tcfg = true -> Forall (fun row => map rune_count row = map rune_count under) (header :: body))
    /\ Forall delimiter_cell under
    /\ Forall (Forall (fun x => ~ In 10 x)) (under :: header :: body).
Proof.
  intros En H. unfold table_render in H. rewrite En in H. change (beqb (b "table") (b "table")) with true in H. cbv iota in H.
  apply render_table_parts in H as (rows & rows' & cap & _ & Nr & Hn & _ & -> & _ & _).
  pose proof (newlines_gone _ _ _ Hn) as Hg. pose proof (newlines_nonempty _ _ _ Hn Nr) as Nr'.
  set (aligns := alignments _ _). clearbody aligns.
  destruct (table_text_eq tcfg aligns rows' cap) as [E|E]; [|contradiction]. rewrite E.
  pose proof (max_counts_fits rows') as F. pose proof (max_counts_pos rows') as Pos. set (counts := max_counts rows') in *. clearbody counts.
  destruct rows' as [|h r]; [contradiction|]. cbn [hd tl] in *. inversion F as [|? ? Fh Fr]; subst. inversion Hg as [|? ? Gh Gr]; subst.
  do 4 eexists. split; [reflexivity|]. repeat split.
  - constructor.
    + now rewrite written_row_length, under_row_length.
    + apply Forall_forall. intros w I. apply in_map_iff in I as (x & <- & I). rewrite Forall_forall in Fr. rewrite written_row_length, under_row_length; auto.
  - intros A. constructor.
    + now rewrite row_widths, under_widths.
    + apply Forall_forall. intros w I. apply in_map_iff in I as (x & <- & I). rewrite Forall_forall in Fr. rewrite row_widths, under_widths; auto.
  - apply Forall_forall. intros w I. apply in_map_iff in I as ((i & m) & <- & I). apply in_combine_r in I. rewrite Forall_forall in Pos. cbn [fst snd].
    now apply under_delimiter, Pos.
  - constructor; [|constructor].
    + apply Forall_forall. intros w I J. apply in_map_iff in I as ((i & m) & <- & _). cbn [fst snd] in J. unfold under_cell in J. rewrite !in_app_iff in J.
      destruct J as [J|[J|J]].
      * destruct (one_of _ _); destruct J as [J|[]]; discriminate.
      * destruct (aligned tcfg); [apply repeat_spec in J; discriminate|destruct J as [J|[]]; discriminate].
      * destruct (one_of _ _); destruct J as [J|[]]; discriminate.
    + now apply written_row_no_nl.
    + apply Forall_forall. intros w I. apply in_map_iff in I as (x & <- & I). rewrite Forall_forall in Gr. now apply written_row_no_nl, Gr.
Qed.
