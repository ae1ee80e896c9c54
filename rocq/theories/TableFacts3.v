(** Every cell of a rendered table is shown, in its row and in order (C55). *)
From Coq Require Import List NArith ZArith Bool String Lia ZifyBool ZifyNat ZifyN.
From Verif Require Import Bytes BytesFacts TextUtils RenderText Escape SpecDom SpecText TextFacts TextFacts2 RenderFacts3 Dom DomUtils Engine CommonMark Table
  RenderInv PanicFacts LetterFacts SpecTable TableFacts TableFacts2.
Import ListNotations.
Open Scope N_scope.
Open Scope list_scope.

Lemma all_done_iff {A} (l : list (res A)) xs : all_done l = Done xs -> Forall2 (fun r x => r = Done x) l xs.
Proof.
  revert xs. induction l as [|r l IH]; intros xs H; cbn [all_done] in H.
  - injection H as <-. constructor.
  - destruct r as [a| |]; cbn [bind] in H; try discriminate. destruct (all_done l) as [ys| |]; cbn [bind] in H; try discriminate. injection H as <-. constructor; auto.
Qed.
Lemma matched_eq_refl {A} (l : list A) : matched eq l l.
Proof. induction l; constructor; auto. Qed.
Lemma matched_app {A B} (R : A -> B -> Prop) x1 y1 x2 y2 : matched R x1 y1 -> matched R x2 y2 -> matched R (x1 ++ x2) (y1 ++ y2).
Proof.
  intros H K. induction H as [ys|x y xs ys Hx H IH|y xs ys H IH]; cbn [app]; [|now constructor|now constructor].
  induction ys; cbn [app]; auto. now constructor.
Qed.
Lemma matched_right {A B} (R : A -> B -> Prop) xs ys zs : matched R xs ys -> matched R xs (ys ++ zs).
Proof. intros H. rewrite <- (app_nil_r xs). apply matched_app; auto. constructor. Qed.
Lemma matched_insert {A B} (R : A -> B -> Prop) xs ys k v : matched R xs ys -> matched R xs (insert_at k v ys).
Proof.
  intros H. unfold insert_at. revert k. induction H as [ys|x y xs ys Hx H IH|y xs ys H IH]; intros k.
  - constructor.
  - destruct k; cbn [firstn skipn app]; [apply Matched_skip; now constructor|]. constructor; auto.
  - destruct k; cbn [firstn skipn app]; [apply Matched_skip; now constructor|]. apply Matched_skip. apply IH.
Qed.
Lemma matched_map {A B C} (R : A -> B -> Prop) (Q : A -> C -> Prop) f xs ys : (forall x y, R x y -> Q x (f y)) -> matched R xs ys -> matched Q xs (map f ys).
Proof. intros H M. induction M; cbn [map]; constructor; auto. Qed.
Lemma matched_impl {A B} (R Q : A -> B -> Prop) xs ys : (forall x y, R x y -> Q x y) -> matched R xs ys -> matched Q xs ys.
Proof. intros H M. induction M; constructor; auto. Qed.

(** ** Growing the grid *)
Definition grown {A} (src rows : list (list A)) : Prop := exists front extra, rows = front ++ extra /\ Forall2 (matched eq) src front.
Lemma grown_grow (src rows : list (list bytes)) k : grown src rows -> grown src (grow rows k []).
Proof. intros (f & e & -> & H). exists f, (e ++ repeat [] (k - List.length (f ++ e))). split; auto. unfold grow. now rewrite <- app_assoc. Qed.
Lemma grown_update (src rows : list (list bytes)) k f : (forall s r, matched eq s r -> matched eq s (f r)) -> grown src rows -> grown src (update k f rows).
Proof.
  intros Hf (front & extra & -> & H). revert k. induction H as [|s r src front Hs H IH]; intros k.
  - exists [], (update k f extra). split; auto.
  - destruct k as [|k]; cbn [app update].
    + exists (f r :: front), extra. split; auto.
    + destruct (IH k) as (f' & e' & E & H'). exists (r :: f'), e'. split; [|now constructor]. rewrite E. reflexivity.
Qed.
Lemma grown_mod (src rows : list (list bytes)) m : grown src rows -> grown src (apply_modification rows m).
Proof.
  intros H. destruct m as [[y x] d]. unfold apply_modification. apply grown_update; [|now apply grown_grow]. intros s r M. apply matched_insert. unfold grow. now apply matched_right.
Qed.
Lemma grown_grouped (rows : list (list bytes)) groups : grown rows (apply_grouped rows groups).
Proof.
  unfold apply_grouped. assert (H : grown rows rows) by (exists rows, []; rewrite app_nil_r; split; auto; clear groups; induction rows; constructor; auto using matched_eq_refl).
  revert H. generalize (rev groups) as gs. generalize rows at 2 4. clear groups. intros acc gs. revert acc. induction gs as [|g gs IH]; intros acc H; cbn [fold_left]; auto. apply IH.
  clear IH. revert acc H. induction g as [|m g IH]; intros acc H; cbn [fold_left]; auto. apply IH. now apply grown_mod.
Qed.
Lemma grouped_nil (rows : list (list bytes)) groups : Forall (fun g => g = []) groups -> apply_grouped rows groups = rows.
Proof.
  intros F. unfold apply_grouped. apply Forall_rev in F. induction F as [|g gs Hg F IH]; [reflexivity|]. cbn [fold_left]. now rewrite Hg.
Qed.

(** ** The text of a cell *)
Definition unbell (s : bytes) : bytes := filter (fun c => negb (c =? 7)) s.
Section content.
Variable e : env.
Hypothesis Hun : forall s, subsequence (unbell s) (unescape_fn e s).
Lemma bar_sub s : subsequence (unbell s) (unbell (replace_all [marker_esc; 124] [92; 124] s)).
Proof.
  apply (replace_ind [marker_esc; 124] [92; 124] (fun s o => subsequence (unbell s) (unbell o))); [discriminate|constructor| |].
  - intros r o H. unfold unbell in *. rewrite !filter_app. apply sub_app; auto. cbn. apply Sub_skip. apply sub_refl.
  - intros c t o _ H. unfold unbell in *. cbn [filter]. destruct (negb _); auto. now constructor.
Qed.
Lemma cell_keeps s : subsequence (unbell (trim_space s)) (cell_text e s).
Proof. unfold cell_text. eapply sub_trans; [apply bar_sub|]. apply Hun. Qed.
Lemma filter_sub (f : N -> bool) s : subsequence (filter f s) s.
Proof. induction s as [|c s IH]; cbn [filter]; [constructor|]. destruct (f c); now constructor. Qed.
Lemma filter_and (f g : N -> bool) s : filter (fun c => f c && g c) s = filter g (filter f s).
Proof. induction s as [|c s IH]; [reflexivity|]. cbn [filter]. destruct (f c); cbn [andb filter]; now rewrite IH. Qed.
Lemma ink_cell s : subsequence (ink s) (cell_text e s).
Proof. unfold ink. rewrite filter_and. eapply sub_trans; [apply filter_sub|]. apply cell_keeps. Qed.
Lemma ink_broken s : subsequence (ink s) (replace_all [cNL] (b "<br />") (cell_text e s)).
Proof.
  unfold ink. rewrite filter_and. set (g := fun c => negb (c =? 10)).
  apply sub_trans with (filter g (cell_text e s)). { apply sub_filter. apply cell_keeps. }
  apply (replace_ind [cNL] (b "<br />") (fun s o => subsequence (filter g s) o)); [discriminate|constructor| |].
  - intros r o H. change (filter g ([cNL] ++ r)) with (filter g r). now apply sub_left.
  - intros c t o _ H. cbn [filter]. destruct (g c); now constructor.
Qed.
Lemma sub_nil_r x : subsequence x [] -> x = [].
Proof. inversion 1; reflexivity. Qed.
Lemma empty_ink s : cell_text e s = [] -> ink s = [].
Proof. intros E. apply sub_nil_r. rewrite <- E. apply ink_cell. Qed.

(** ** Leaving out rows *)
Lemma shown_impl (f g : list bytes -> list bytes -> Prop) x srcs rows : (forall s r, f s r -> g s r) -> shown f x srcs rows -> shown g x srcs rows.
Proof. intros H S. induction S; [now constructor|constructor; auto|apply Shown_drop; auto]. Qed.
Lemma shown_map (f g : list bytes -> list bytes -> Prop) x h srcs rows : (forall s r, f s r -> g s (h r)) -> shown f x srcs rows -> shown g x srcs (map h rows).
Proof.
  intros H S. induction S as [rows D|src row srcs rows Hr S IH|src srcs rows Hd S IH]; cbn [map]; [|constructor; auto|apply Shown_drop; auto].
  constructor. destruct D as [D| ->]; auto.
Qed.
Section drop.
Variable fit : list bytes -> list bytes -> Prop.
Hypothesis Hfit : forall s r, fit s r -> empty_row r = true -> Forall (fun x => ink x = []) s.
Lemma shown_filter x srcs rows : shown fit x srcs rows -> shown fit x srcs (filter (fun r => negb (empty_row r)) rows).
Proof.
  intros S. induction S as [rows D|src row srcs rows Hr S IH|src srcs rows Hd S IH]; cbn [filter].
  - constructor. destruct D as [D| ->]; auto.
  - destruct (empty_row row) eqn:E; cbn [negb]; [apply Shown_drop; eauto|now constructor].
  - now apply Shown_drop.
Qed.
Lemma shown_empty x : forall srcs rows, shown fit x srcs rows -> Forall (fun r => empty_row r = true) rows -> shown fit x srcs [].
Proof.
  intros srcs rows S. induction S as [rows D|src row srcs rows Hr S IH|src srcs rows Hd S IH]; intros F.
  - constructor. now right.
  - inversion F; subst. apply Shown_drop; eauto.
  - apply Shown_drop; auto.
Qed.
Lemma shown_tail x srcs h rows : shown fit x srcs (h :: rows) -> empty_row h = true -> shown fit x srcs rows.
Proof.
  remember (h :: rows) as l eqn:El. intros S. revert h rows El. induction S as [rows D|src row srcs rows Hr S IH|src srcs rows Hd S IH]; intros h r El E.
  - constructor. left. destruct D as [D|D]; auto. congruence.
  - injection El as -> ->. apply Shown_drop; eauto.
  - apply Shown_drop; eauto.
Qed.
Lemma shown_header x srcs h rows : shown fit x srcs (h :: rows) -> shown fit x srcs (h :: filter (fun r => negb (empty_row r)) rows).
Proof.
  remember (h :: rows) as l eqn:El. intros S. revert h rows El. induction S as [rows D|src row srcs rows Hr S IH|src srcs rows Hd S IH]; intros h r El.
  - constructor. left. destruct D as [D|D]; auto. congruence.
  - injection El as -> ->. constructor; auto. now apply shown_filter.
  - apply Shown_drop; eauto.
Qed.
Lemma shown_skip x srcs rows : shown fit x srcs rows -> shown fit x srcs (remove_empty_rows rows).
Proof.
  intros S. unfold remove_empty_rows. destruct rows as [|h r]; auto. apply shown_header in S.
  destruct (filter _ r) as [|k l]; auto. destruct (empty_row h) eqn:E; auto. eapply shown_tail; eauto.
Qed.
Lemma shown_promote x srcs rows : shown fit x srcs rows -> shown fit x srcs (remove_first_if_empty rows).
Proof. intros S. unfold remove_first_if_empty. destruct rows as [|h r]; auto. destruct (empty_row h) eqn:E; auto. eapply shown_tail; eauto. Qed.
End drop.

(** ** Rows as collected *)
Definition fit_among (src row : list bytes) : Prop := matched (fun s w => w = cell_text e s) src row.
Definition fit_exact (src row : list bytes) : Prop := row = map (cell_text e) src.
Lemma among_empty s r : fit_among s r -> empty_row r = true -> Forall (fun x => ink x = []) s.
Proof.
  intros M. induction M as [ys|x y xs ys Hx M IH|y xs ys M IH]; intros E; [constructor| |]; unfold empty_row in *; cbn [forallb] in E; apply andb_true_iff in E as [E1 E2]; auto.
  constructor; auto. apply empty_ink. rewrite <- Hx. now destruct y.
Qed.
Lemma exact_empty s r : fit_exact s r -> empty_row r = true -> Forall (fun x => ink x = []) s.
Proof.
  unfold fit_exact. intros ->. induction s as [|x s IH]; intros E; [constructor|]. unfold empty_row in *. cbn [map forallb] in E. apply andb_true_iff in E as [E1 E2].
  constructor; auto. apply empty_ink. now destruct (cell_text e x).
Qed.
Lemma matched_from_map src row : matched eq (map (cell_text e) src) row -> fit_among src row.
Proof.
  remember (map (cell_text e) src) as l eqn:El. intros M. revert src El. unfold fit_among.
  induction M as [ys|x y xs ys Hx M IH|y xs ys M IH]; intros src El.
  - destruct src; [constructor|discriminate].
  - destruct src as [|s src]; [discriminate|]. injection El as -> ->. constructor; auto.
  - apply Matched_skip. auto.
Qed.
Lemma grown_shown texts rows : grown (map (map (cell_text e)) texts) rows -> shown fit_among true texts rows.
Proof.
  intros (front & extra & -> & H). remember (map (map (cell_text e)) texts) as l eqn:El. revert texts El.
  induction H as [|s r src front Hs H IH]; intros texts El.
  - destruct texts; [|discriminate]. constructor. now left.
  - destruct texts as [|t texts]; [discriminate|]. injection El as -> ->. cbn [app]. constructor; auto. now apply matched_from_map.
Qed.
Lemma exact_shown texts : shown fit_exact false texts (map (map (cell_text e)) texts).
Proof. induction texts; cbn [map]; constructor; auto. reflexivity. Qed.

Variables (tcfg : table_config) (rec : render_fn) (c : rctx).
Definition renders (p : place) (s : bytes) : Prop := rec c (fst p) (snd p) = Done s.
Lemma number_attr_one n key : no_span n -> key = b "rowspan" \/ key = b "colspan" -> number_attr n key = 1%nat.
Proof.
  intros H K. destruct n as [d|x a ks|d|ks|d]; try reflexivity. cbn [number_attr no_span] in *.
  destruct (attr_get key a) as [v|] eqn:E; [|reflexivity].
  assert (I : In (key, v) a).
  { clear H K. induction a as [|(k & w) a IH]; [discriminate|]. cbn [attr_get] in E. destruct (beqb k key) eqn:Ek; [|right; auto]. apply beqb_eq in Ek.
    left. congruence. }
  specialize (H key v I K). destruct (atoi v); [|reflexivity]. destruct (z <? 1)%Z eqn:L; [reflexivity|]. lia.
Qed.
Lemma collect_cells_done y row contents mods : collect_cells tcfg e rec c y row = Done (contents, mods) ->
  exists texts, Forall2 renders (map pl (cell_entries row)) texts /\ contents = map (cell_text e) texts
    /\ (Forall (fun p => no_span (snd p)) (map pl (cell_entries row)) -> mods = []).
Proof.
  unfold collect_cells. destruct (all_done _) as [texts| |] eqn:E; cbn [bind]; try discriminate. intros H. injection H as <- <-.
  exists texts. apply all_done_iff in E. split; [|split; auto].
  - revert E. generalize (cell_entries row). intros l. revert texts. induction l as [|x l IH]; intros texts H; cbn [map] in *; inversion H; subst; constructor; auto.
  - intros F. clear E. generalize (map (cell_text e) texts). intros contents. generalize O as s. revert contents. induction (cell_entries row) as [|x l IH]; intros contents s.
    + reflexivity.
    + destruct contents as [|t contents]; [reflexivity|]. cbn [map] in F. inversion F as [|? ? Fx Fl]; subst. cbn [List.length seq combine map List.concat].
      rewrite !number_attr_one; auto. cbn [modifications]. rewrite IH by auto. reflexivity.
Qed.
Lemma collect_rows_done header normal rows : collect_rows tcfg e rec c header normal = Done rows ->
  let srcs := map (map pl) ((match header with Some h => cell_entries h | None => [] end) :: map cell_entries normal) in
  exists texts, Forall2 (Forall2 renders) srcs texts /\ shown fit_among true texts rows
    /\ (Forall (Forall (fun p => no_span (snd p))) srcs -> shown fit_exact false texts rows).
Proof.
  unfold collect_rows. cbv zeta. set (l := _ ++ _). destruct (all_done l) as [xs| |] eqn:E; cbn [bind]; try discriminate. intros H.
  assert (Er : rows = (if promote_first_row tcfg then remove_first_if_empty else fun r => r)
                      ((if skip_empty_rows tcfg then remove_empty_rows else fun r => r) (apply_grouped (map fst xs) (map snd xs)))).
  { destruct (skip_empty_rows tcfg), (promote_first_row tcfg); congruence. }
  clear H. apply all_done_iff in E.
  set (srcs := map (map pl) _).
  assert (T : exists texts, Forall2 (Forall2 renders) srcs texts /\ map fst xs = map (map (cell_text e)) texts
     /\ (Forall (Forall (fun p => no_span (snd p))) srcs -> Forall (fun g => g = []) (map snd xs))).
  { unfold l in E. apply Forall2_app_inv_l in E as (x1 & x2 & E1 & E2 & ->). unfold srcs. clear l Er srcs.
    assert (T2 : exists texts, Forall2 (Forall2 renders) (map (map pl) (map cell_entries normal)) texts /\ map fst x2 = map (map (cell_text e)) texts
       /\ (Forall (Forall (fun p => no_span (snd p))) (map (map pl) (map cell_entries normal)) -> Forall (fun g => g = []) (map snd x2))).
    { clear E1 x1. revert E2. generalize 1%nat as s. revert x2. induction normal as [|r normal IH]; intros x2 s E2; cbn [List.length seq combine map] in E2.
      - inversion E2; subst. exists []. cbn [map]. auto.
      - inversion E2 as [|? [ct ms] ? x3 Ex E3]; subst. cbn [fst snd] in Ex. apply collect_cells_done in Ex as (t & Ht & -> & Hm).
        destruct (IH _ _ E3) as (ts & Hts & E4 & Hms). exists (t :: ts). split; [now constructor|]. cbn [map fst snd]. split; [congruence|].
        intros F. inversion F; subst. constructor; auto. }
    destruct T2 as (ts & Hts & E4 & Hms). destruct header as [h|].
    - inversion E1 as [|? [ct ms] ? ? Ex E3]; subst. inversion E3; subst. apply collect_cells_done in Ex as (t & Ht & -> & Hm).
      exists (t :: ts). split; [now constructor|]. cbn [app map fst snd]. split; [congruence|]. intros F. inversion F; subst. constructor; auto.
    - inversion E1 as [|? ? ? ? Ex E3]; subst. inversion E3; subst. injection Ex as <-. exists ([] :: ts). split; [repeat constructor; auto|].
      cbn [app map fst snd]. split; [congruence|]. intros F. inversion F; subst. constructor; auto. }
  destruct T as (texts & Ht & Ef & Hm). exists texts. split; auto. split.
  - assert (S : shown fit_among true texts (apply_grouped (map fst xs) (map snd xs))) by (apply grown_shown; rewrite <- Ef; apply grown_grouped).
    rewrite Er. assert (S2 : shown fit_among true texts ((if skip_empty_rows tcfg then remove_empty_rows else fun r => r) (apply_grouped (map fst xs) (map snd xs)))).
    { destruct (skip_empty_rows tcfg); auto. apply shown_skip; auto. apply among_empty. }
    destruct (promote_first_row tcfg); auto. apply shown_promote; auto. apply among_empty.
  - intros F. apply Hm in F. rewrite (grouped_nil _ _ F), Ef in Er. pose proof (exact_shown texts) as S. rewrite Er.
    assert (S2 : shown fit_exact false texts ((if skip_empty_rows tcfg then remove_empty_rows else fun r => r) (map (map (cell_text e)) texts))).
    { destruct (skip_empty_rows tcfg); auto. apply shown_skip; auto. apply exact_empty. }
    destruct (promote_first_row tcfg); auto. apply shown_promote; auto. apply exact_empty.
Qed.

(** ** From the collected rows to the written ones *)
Lemma written_padded count x : padded x (written tcfg count x).
Proof.
  unfold written, pad_space, cSP, padded. destruct (_ || _).
  - exists 1%nat. destruct (aligned tcfg).
    + exists (count - rune_count x + 1)%nat. cbn [repeat app]. now rewrite repeat_app.
    + exists 1%nat. reflexivity.
  - exists O. destruct (aligned tcfg).
    + exists (count - rune_count x)%nat. cbn [repeat app]. now rewrite app_nil_r.
    + exists O. reflexivity.
Qed.
Definition broken (x : bytes) : bytes := if beqb (newline_behavior tcfg) (b "preserve") then replace_all [cNL] (b "<br />") x else x.
Lemma newlines_map rows rows' : handle_newlines tcfg rows = Some rows' -> rows' = map (map broken) rows.
Proof.
  unfold handle_newlines, broken. destruct (beqb _ _); [intros [= <-]; reflexivity|]. destruct (existsb _ _); [discriminate|]. intros [= <-].
  rewrite (map_ext _ (fun r => r)); [now rewrite map_id|]. intros r. now rewrite map_id.
Qed.
Lemma broken_holds count s : holds s (written tcfg count (broken (cell_text e s))).
Proof. exists (broken (cell_text e s)). split; [apply written_padded|]. unfold broken. destruct (beqb _ _); [apply ink_broken|apply ink_cell]. Qed.
Lemma written_among counts src row : fits counts row -> matched (fun s w => w = broken (cell_text e s)) src row ->
  row_among src (written_row tcfg counts (fill_row (List.length counts) row)).
Proof.
  intros F M. unfold row_among, fill_row, grow. apply (matched_right _ _ _ (repeat [] (List.length counts - List.length row))) in M.
  set (full := row ++ _) in *. assert (L : List.length full = List.length counts).
  { unfold full. rewrite app_length, repeat_length. pose proof (fits_length _ _ F). lia. }
  clearbody full. clear F row. unfold written_row. revert counts L. induction M as [ys|x y xs ys Hx M IH|y xs ys M IH]; intros counts L.
  - constructor.
  - destruct counts as [|m ms]; [discriminate|]. cbn [combine map fst snd]. constructor; [subst y; apply broken_holds|]. apply IH. now injection L.
  - destruct counts as [|m ms]; [discriminate|]. cbn [combine map]. apply Matched_skip. apply IH. now injection L.
Qed.
Lemma written_exact counts src row : fits counts row -> row = map (fun s => broken (cell_text e s)) src ->
  row_exact src (written_row tcfg counts (fill_row (List.length counts) row)).
Proof.
  intros F E. unfold fill_row, grow, row_exact, written_row. revert src E. induction F as [ms|m ms x r L F IH]; intros src E.
  - destruct src; [|discriminate]. exists [], (map (fun p => written tcfg (fst p) (snd p)) (combine ms ([] ++ repeat [] (List.length ms - 0)))).
    split; [reflexivity|]. split; [constructor|]. apply Forall_forall. intros w I. apply in_map_iff in I as ((i & y) & <- & I). apply in_combine_r in I.
    cbn [app] in I. apply repeat_spec in I. subst y. cbn [fst snd]. apply written_padded.
  - destruct src as [|s src]; [discriminate|]. cbn [map] in E. injection E as -> ->. destruct (IH src eq_refl) as (front & fill & E1 & E2 & E3).
    cbn [List.length app combine map fst snd]. rewrite Nat.sub_succ, E1. exists (written tcfg m (broken (cell_text e s)) :: front), fill. split; [reflexivity|].
    split; auto. constructor; auto. apply broken_holds.
Qed.
Lemma shown_fits (f g : list bytes -> list bytes -> Prop) x h (counts : list nat) srcs rows : Forall (fits counts) rows ->
  (forall s r, fits counts r -> f s r -> g s (h r)) -> shown f x srcs rows -> shown g x srcs (map h rows).
Proof.
  intros F H S. induction S as [rows D|src row srcs rows Hr S IH|src srcs rows Hd S IH]; cbn [map].
  - constructor. destruct D as [D| ->]; auto.
  - inversion F; subst. constructor; auto.
  - apply Shown_drop; auto.
Qed.
Theorem table_shows anc n out : node_name n = b "table" -> table_render tcfg e rec c anc n = Done (true, out) ->
  exists header under body cap srcs texts, out = table_layout header under body cap
    /\ shown_order (anc, n) srcs /\ Forall2 (Forall2 renders) srcs texts
    /\ shown row_among true texts (header :: body)
    /\ (Forall (fun p => no_span (snd p)) (places anc n) -> shown row_exact false texts (header :: body)).
Proof.
  intros En H. unfold table_render in H. rewrite En in H. change (beqb (b "table") (b "table")) with true in H. cbv iota in H.
  apply render_table_parts in H as (rows & rows' & cap & Hc & Nr & Hn & _ & -> & _ & _).
  set (table := {| e_path := []; e_anc := anc; e_node := n |}) in *.
  pose proof (newlines_nonempty _ _ _ Hn Nr) as Nr'. apply newlines_map in Hn.
  set (aligns := alignments _ _). clearbody aligns. destruct (table_text_eq tcfg aligns rows' cap) as [E|E]; [|contradiction].
  apply collect_rows_done in Hc as (texts & Ht & Sa & Se).
  pose proof (rows_order table En) as O. cbv zeta in O. cbv zeta in Ht, Se. set (srcs := map (map pl) _) in *.
  pose proof (max_counts_fits rows') as F. set (counts := max_counts rows') in *. clearbody counts.
  assert (Eb : written_row tcfg counts (fill_row (List.length counts) (hd [] rows')) :: map (fun r => written_row tcfg counts (fill_row (List.length counts) r)) (tl rows')
               = map (fun r => written_row tcfg counts (fill_row (List.length counts) r)) rows') by now destruct rows'.
  do 4 eexists. exists srcs, texts. split; [exact E|]. split; [exact O|]. split; [exact Ht|]. split.
  - rewrite Eb. apply (shown_fits (fun s r => matched (fun s w => w = broken (cell_text e s)) s r) row_among true _ counts texts rows' F); [intros; now apply written_among|].
    rewrite Hn. apply (shown_map fit_among); auto. intros s r M. eapply matched_map; [|exact M]. intros x y ->. reflexivity.
  - intros G. rewrite Eb. apply (shown_fits (fun s r => r = map (fun s => broken (cell_text e s)) s) row_exact false _ counts texts rows' F); [intros; now apply written_exact|].
    rewrite Hn. apply (shown_map fit_exact); [intros s r ->; now rewrite map_map|]. apply Se.
    assert (K : forall r, In r (table :: below table) -> Forall (fun p => no_span (snd p)) (map pl (cell_entries r))).
    { intros r Ir. apply Forall_forall. intros p Ip. rewrite Forall_forall in G. apply G. apply in_map_iff in Ip as (x & <- & Ix). apply filter_In in Ix as [Ix _].
      rewrite <- (descendants_places n [] anc). apply in_map. destruct Ir as [<-|Ir]; [exact Ix|]. eapply below_below; eauto. }
    unfold srcs. cbn [map]. constructor.
    + pose proof (header_cases table) as Hh. destruct (header_row table) as [h|]; [|constructor]. apply K. apply Hh.
    + apply Forall_forall. intros l Il. apply in_map_iff in Il as (l' & <- & Il). apply in_map_iff in Il as (r & <- & Ir). apply K. now apply filter_In in Ir as [Ir _].
Qed.
End content.
