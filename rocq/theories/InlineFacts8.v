(** From the document to the formatting that is read (C67): paragraphs. *)
From Coq Require Import List NArith ZArith Bool String Lia ZifyBool ZifyNat ZifyN.
From Verif Require Import SpecDom DomFacts4 Bytes BytesFacts TextUtils TextFacts TextFacts2 RenderText RenderFacts RenderFacts2 RenderFacts4 RenderFacts5 Escape SpecEscape SpecText SpecText2
  SpecUrl UrlFacts Dom DomUtils Engine CommonMark SpecEngine EngineFacts SpecPipeline PipelineFacts SpecPlain SpecNode NodeFacts PanicFacts PlainFacts2 PlainFacts3 PlainFacts4 SpecBlocks BlockFacts0 BlockFacts
  BlockFacts1 BlockFacts2 BlockFacts3 BlockFacts4 BlockFacts8 RenderFacts3 EscapeFacts EscapeFacts2 EscapeFacts3 EscapeFacts4 EscapeFacts5 EscapeFacts6 BlockFacts5 BlockFacts6 BlockFacts7 SpecInline InlineFacts1 InlineFacts2 InlineFacts3 InlineFacts4 InlineFacts5 InlineFacts6 InlineFacts7.
Import ListNotations.
Open Scope N_scope.
Open Scope list_scope.


(** ** No line of such a paragraph starts another block *)
(** A line that is (or may be) something else than text of a paragraph *)
Definition other_line (l : bytes) : bool :=
  let s := skip_spaces l in
  indented 0 l || thematic_break_tabs s || atx_heading s || fence_starts s || block_quote s || bullet_item s || ordered_item s
  || definition_starts s || starts_html s.
Section lines.
Variables wb wa : bytes -> class.
Variable url : bytes -> bytes.
Variable cfg : config.
Hypothesis Hcfg : usual_delimiters cfg.
Notation leaf_final := (drawn url cfg quiet_final (only quiet_final) (fun _ _ => False)).
Notation piece_final := (drawn url cfg busy_final leaf_final leaf_final).
Lemma shown_no9 t o : shown_as t o -> ~ In 9 o.
Proof.
  induction 1 as [|c t o Q C H IH|c t o Q P H IH|t o H IH|t o H IH]; cbn [In]; try tauto; try (intros I; decompose [or] I; try discriminate; tauto).
  - intros [->|I]; [discriminate|tauto].
  - intros [I|[->|I]]; [discriminate|discriminate|tauto].
Qed.
Lemma finals_no9 ks os : Forall2 piece_final ks os -> ~ In 9 (List.concat os).
Proof.
  assert (Q9 : forall t s, quiet_final t s -> ~ In 9 s) by (intros t s [_ H]; now apply (shown_no9 t)).
  intros F I. apply in_concat in I as (s & J1 & J2). induction F as [|k u ks ss H F IH]; [contradiction|]. destruct J1 as [->|J1]; [|auto]. revert J2. 
  assert (L9 : forall n o, leaf_final n o -> ~ In 9 o) by (intros n o; apply (drawn_none url cfg Hcfg quiet_final (only quiet_final) _ 9); auto; intros n' o' [t s' Q]; eauto).
  eapply (drawn_none url cfg Hcfg busy_final leaf_final leaf_final 9); eauto.
  intros t o [_ B]. apply (busy_none 9 t); auto.
Qed.
Lemma other_line_first c u : c <> 32 -> c <> 9 -> ~ In 9 (c :: u) ->
  other_line (c :: u) = thematic_break (c :: u) || atx_heading (c :: u) || fence_starts (c :: u) || block_quote (c :: u) || bullet_item (c :: u) || ordered_item (c :: u) || definition_starts (c :: u) || starts_html (c :: u).
Proof. intros C1 C2 N9. destruct (first_facts (fun s : bytes => s) c u C1 C2) as (_ & F2 & F3). unfold other_line. cbv zeta. now rewrite F2, F3, tabs_id. Qed.
Lemma hd_line c u : c <> 35 -> c <> 42 -> c <> 43 -> c <> 45 -> c <> 95 -> c <> 62 -> c <> 60 -> is_digit c = false -> fence_starts (c :: u) = false -> definition_starts (c :: u) = false ->
  thematic_break (c :: u) || atx_heading (c :: u) || fence_starts (c :: u) || block_quote (c :: u) || bullet_item (c :: u) || ordered_item (c :: u) || definition_starts (c :: u) || starts_html (c :: u) = false.
Proof.
  intros. cbn [thematic_break atx_heading block_quote bullet_item ordered_item starts_html].
  replace (c =? 45) with false by lia. replace (c =? 95) with false by lia. replace (c =? 42) with false by lia. replace (c =? 43) with false by lia. replace (c =? 62) with false by lia. replace (c =? 60) with false by lia. replace (c =? 35) with false by lia.
  rewrite H6, H7, H8. reflexivity.
Qed.
Lemma first_not_fence c u : c <> 96 -> c <> 126 -> fence_starts (c :: u) = false.
Proof. intros A B. unfold fence_starts, code_fence. cbn [has_prefix]. replace (96 =? c) with false by lia. replace (126 =? c) with false by lia. reflexivity. Qed.
Lemma emphasis_line c k d z : c = 42 \/ c = 95 -> k = 1%nat \/ k = 2%nat -> d <> c -> d <> 32 -> d <> 9 -> d <> 10 -> d <> 13 -> ~ In 9 (repeat c k ++ d :: z) -> other_line (repeat c k ++ d :: z) = false.
Proof.
  intros C K D1 D2 D3 D4 D5 N9. assert (exists j, k = S j /\ (j = 0 \/ j = 1)%nat) as (j & -> & J) by (destruct K; subst; eexists; eauto). cbn [repeat app] in *.
  rewrite other_line_first by (auto; destruct C; subst; discriminate).
  assert (F : fence_starts (c :: repeat c j ++ d :: z) = false) by (apply first_not_fence; destruct C; subst; discriminate). rewrite F.
  assert (T : break_rest c 0 (c :: repeat c j ++ d :: z) = false).
  { cbn [break_rest]. rewrite N.eqb_refl. destruct J as [-> | ->]; cbn [repeat app break_rest]; rewrite ?N.eqb_refl; replace (d =? c) with false by lia; replace (d =? 32) with false by lia; replace (d =? 10) with false by lia; reflexivity. }
  assert (Bu : blank_or_end (repeat c j ++ d :: z) = false).
  { destruct J as [-> | ->]; cbn [repeat app blank_or_end]; [replace (d =? 32) with false by lia; replace (d =? 9) with false by lia; replace (d =? 10) with false by lia; replace (d =? 13) with false by lia; reflexivity|destruct C; subst; reflexivity]. }
  unfold thematic_break, bullet_item. rewrite T, Bu, !andb_false_r. destruct C; subst; reflexivity.
Qed.
Lemma final_start n ks o os : (forall t, n <> Text t) -> paragraph url cfg (n :: ks) = true -> Forall2 piece_final (n :: ks) (o :: os) -> other_line (List.concat (o :: os)) = false.
Proof.
  intros Nt P F. pose proof (finals_no9 _ _ F) as N9. cbn [List.concat] in *. inversion F as [|? ? ? ? D F']; subst. pose proof (filled_runs _ _ P) as R. cbn [runs] in R. apply andb_true_iff in R as [R1 _].
  generalize dependent (List.concat os). intros z N9. destruct D as [t s H|y a gs ss E G|y a d C Q|a gs ss G A].
  - now elim (Nt t).
  - destruct (run_emphasis_ends url cfg _ _ _ _ _ _ R1 E) as [Rc _]. destruct (run_emphasis url cfg _ _ _ _ _ _ R1 E) as (L & Ct). unfold emphasis_content in Ct. rewrite !andb_true_iff in Ct. destruct Ct as [[Ct _] _].
    destruct (delimiter_cases cfg Hcfg y) as (c & k & Ed & C & K & _). assert (Kk : k = 1%nat \/ k = 2%nat) by (destruct (strong_element y); auto). rewrite Ed in *.
    destruct G as [|m s gs ss D G]; [discriminate|]. cbn [hd] in Ct, Rc. destruct m as [t| | | |]; try discriminate. inversion D as [? ? [Q H]| | |]; subst. cbn [List.concat] in *. rewrite <- !app_assoc in *.
    destruct s as [|d s]; [apply shown_nil in H; subst; discriminate|]. cbn [app] in *. pose proof (shown_no9 _ _ H) as M9. pose proof (shown_no10 _ _ H) as M10.
    destruct (shown_first _ _ _ H) as [S1|(u & -> & ->)].
    + apply emphasis_line; auto; try lia; try (intros ->; cbn in *; tauto). intros ->. inversion H; subst; discriminate.
    + cbn [first_byte hd] in Rc. unfold recognised in Rc. discriminate.
  - destruct (code_written d Q) as (j & Ec & _). rewrite Ec in *. rewrite <- !app_assoc in *. cbn [repeat app] in *. rewrite other_line_first by (auto; discriminate). apply hd_line; try discriminate; try reflexivity.
    unfold fence_starts. cbn [first_is]. change (96 =? 96) with true. cbn [andb]. assert (Ex : existsb (N.eqb 96) (drop_run 96 (96 :: repeat 96 j ++ d ++ 96 :: repeat 96 j ++ z)) = true).
    { change (96 :: repeat 96 j ++ d ++ 96 :: repeat 96 j ++ z) with (repeat 96 (S j) ++ d ++ 96 :: repeat 96 j ++ z). rewrite drop_run_repeat. unfold quiet_code in Q. rewrite !andb_true_iff in Q. destruct Q as [[[[[[N _] _] _] _] Q] _].
      destruct d as [|c d]; [discriminate|]. cbn [first_is] in Q. cbn [app drop_run]. replace (c =? 96) with false by (destruct (c =? 96); auto; discriminate). apply existsb_exists. exists 96. split; [|reflexivity]. right. apply in_app_iff. right. now left. }
    rewrite Ex. now rewrite andb_false_r.
  - cbn [app] in *. rewrite other_line_first by (auto; discriminate). apply hd_line; try discriminate; try reflexivity.
    destruct (run_link _ _ _ _ _ _ R1 eq_refl) as (? & ? & gs' & p & [= <- <- <-] & _ & Ep & _ & Pg & _). injection Ep as <-. destruct (link_text_read wb wa url cfg Hcfg gs ss Pg G) as [Tm _].
    cbn [definition_starts]. rewrite <- app_assoc. cbn [app]. rewrite (tame_until _ Tm). unfold dest_and_title. reflexivity.
Qed.
End lines.

Section first_text.
Variable l : list N.
Hypothesis Hl : forall c, In c l -> c < 128 /\ c <> 0 /\ c <> 7 /\ ~ ws_byte c.
Hypothesis Hp : forall c, In c l -> ascii_punct c = true /\ c <> 38 /\ c <> 59.
Hypothesis Hc : protects (is_escaped_in l).
Notation esc := (is_escaped_in l).
Variable ds : list detector.
Hypothesis Hds : Escape.bundled ds.
Variable S0 : bytes.
Let Hw := bundled_wb ds Hds.
Notation DD := (the_ann ds S0).
(** A line that starts with a text [w]; [Db] explains what follows on the line. *)
Lemma text_start w v A Da Db Z : img l w v -> w <> [] -> (forall u, map fst Da <> 91 :: u) -> ~ In 60 w -> ~ In 9 (map fst (Da ++ Db)) -> explains w Da -> DD = A ++ (Da ++ Db) ++ Z -> line_start A -> ends (map fst Z) ->
  (match Db with (c, _) :: _ => is_digit c = false /\ c <> 46 /\ c <> 41 | [] => True end) ->
  (exists c u, map fst (Da ++ Db) = c :: u /\ c <> 32 /\ c <> 9) -> other_line (map fst (Da ++ Db)) = false.
Proof.
  intros M Nw N91 N60 N9 X E La Ez Hb (c0 & u0 & E0 & C1 & C2). pose proof (line_starts A La) as SL. pose proof (img_parts l Hl Hp w v Da M X) as F.
  assert (Da <> []) as Na by (intros ->; apply explains_none in X; auto; eapply (img_last7 l Hl); eauto).
  assert (Gl : forall p, (forall s z, ends z -> p s = true -> p (s ++ z) = true) -> (forall c r, p (c :: r) = true -> In c commonmark_escaped /\ c <> 92) ->
    (forall A x B, DD = A ++ x :: B -> starts_line A -> p (map fst (x :: B)) = true -> snd x <> Lit) -> p (map fst (Da ++ Db)) = false).
  { intros p Ext Pc L. destruct (p (map fst (Da ++ Db))) eqn:Q; auto. exfalso. destruct Da as [|(c, k) D1]; [contradiction|]. cbn [app map fst] in Q. destruct (Pc _ _ Q) as [Ic N92].
    assert (k = Lit) by (eapply (lit_of l Hl Hp Hc w v _ [] c k D1); eauto). subst k.
    apply (L A (c, Lit) (D1 ++ Db ++ Z)); auto; [rewrite E; cbn [app]; now rewrite <- !app_assoc|]. cbn [map fst]. rewrite !map_app, app_assoc, <- map_app. apply (Ext (c :: map fst (D1 ++ Db))); auto. }
  assert (Q1 : atx_heading (map fst (Da ++ Db)) = false).
  { apply Gl; auto using atx_ext.
    - intros c r Q. cbn in Q. apply andb_prop in Q as [Q _]. apply N.eqb_eq in Q. subst. split; [|easy]. cbn; tauto.
    - intros A' x B' E' SL' Q. apply (atx_line ds S0 A' x B' Hw (bundled_in ds is_atx_header Hds ltac:(cbn; tauto)) E' SL' Q). }
  assert (Q2 : thematic_break (map fst (Da ++ Db)) = false).
  { apply Gl; auto using break_ext.
    - intros c r Q. cbn in Q. apply andb_prop in Q as [Q _]. assert (c = 45 \/ c = 95 \/ c = 42) as [-> |[-> | ->]] by lia; (split; [cbn; tauto|easy]).
    - intros A' x B' E' SL' Q. apply (break_line ds S0 A' x B' Hw (bundled_in ds is_divider Hds ltac:(cbn; tauto)) E' SL' Q). }
  assert (Q3 : code_fence (map fst (Da ++ Db)) = false).
  { apply Gl; auto using fence_ext.
    - intros c r Q. unfold code_fence in Q. cbn [has_prefix] in Q. apply orb_prop in Q as [Q|Q]; apply andb_prop in Q as [Q _]; apply N.eqb_eq in Q; subst; (split; [cbn; tauto|easy]).
    - intros A' x B' E' SL' Q. apply (fence_line ds S0 A' x B' Hw (bundled_in ds is_fenced_code Hds ltac:(cbn; tauto)) E' SL' Q). }
  assert (Q4 : block_quote (map fst (Da ++ Db)) = false).
  { apply Gl; auto using quote_ext.
    - intros c r Q. cbn in Q. apply N.eqb_eq in Q. subst. split; [cbn; tauto|easy].
    - intros A' x B' E' SL' Q. apply (bq_line ds S0 A' x B' Hw (bundled_in ds is_block_quote Hds ltac:(cbn; tauto)) E' SL' Q). }
  assert (Q5 : bullet_item (map fst (Da ++ Db)) = false).
  { apply Gl; auto using bullet_ext.
    - intros c r Q. cbn in Q. apply andb_prop in Q as [Q _]. assert (c = 45 \/ c = 43 \/ c = 42) as [-> |[-> | ->]] by lia; (split; [cbn; tauto|easy]).
    - intros A' x B' E' SL' Q. apply (bullet_line ds S0 A' x B' Hw (bundled_in ds is_unordered_list Hds ltac:(cbn; tauto)) E' SL' Q). }
  assert (Q6 : ordered_item (map fst (Da ++ Db)) = false).
  { destruct (ordered_item (map fst (Da ++ Db))) eqn:Q; auto. exfalso. destruct Da as [|(c, k) D2]; [contradiction|]. cbn [app map fst ordered_item] in Q. apply andb_prop in Q as [Hd Q].
    destruct (drop_digits_eq (map fst (D2 ++ Db))) as (G & Er & FG). destruct (drop_digits (map fst (D2 ++ Db))) as [|d r'] eqn:Ed; [discriminate|].
    apply map_fst_app in Er as (G1 & Y & ED2 & EG & EY). destruct Y as [|[d1 k1] B1]; [discriminate|]. cbn [map fst] in EY. injection EY as -> EY.
    cbn [item_delimiter] in Q. apply andb_prop in Q as [Hdl Q].
    assert (In2 : exists B2, D2 = G1 ++ (d, k1) :: B2 /\ B1 = B2 ++ Db).
    { apply app_eq_app in ED2 as (m & [[E1 E2]|[E1 E2]]).
      - destruct m as [|y m]; [|cbn [app] in E2; injection E2 as <- ->; eauto]. exfalso. cbn [app] in E2. rewrite <- E2 in Hb. lia.
      - destruct m as [|y m]; [exfalso; cbn [app] in E2; rewrite E2 in Hb; lia|]. exfalso. rewrite E2 in Hb. cbn [app] in Hb. destruct y as (y, ky). rewrite E1, map_app in EG. rewrite <- EG in FG. apply Forall_app in FG as [_ FG]. cbn [map fst] in FG. inversion FG; subst. destruct Hb as [Hb _]. congruence. }
    destruct In2 as (B2 & -> & ->).
    assert (k1 = Lit). { eapply (lit_of l Hl Hp Hc w v _ ((c, k) :: G1) d k1 B2); eauto; [assert (d = 46 \/ d = 41) as [-> | ->] by lia; cbn; tauto|lia]. }
    subst k1. assert (ED' : DD = (A ++ (c, k) :: G1) ++ (d, Lit) :: (B2 ++ Db ++ Z)). { rewrite E. cbn [app]. rewrite <- !app_assoc. cbn [app]. rewrite <- ?app_assoc. reflexivity. }
    apply (ordered_line ds S0 _ (d, Lit) (B2 ++ Db ++ Z) Hw (bundled_in ds is_ordered_list Hds ltac:(cbn; tauto)) ED'); [| |easy].
    - exists A, ((c, k) :: G1). repeat split; auto; [discriminate|]. constructor; [easy|]. rewrite <- EG in FG. apply Forall_map in FG. exact FG.
    - cbn [map fst item_delimiter]. rewrite Hdl, app_assoc, map_app. cbn [andb]. rewrite EY. now apply blank_or_end_ext. }
  assert (Fc : c0 = 92 \/ In c0 w). { destruct Da as [|(c, k) D1]; [contradiction|]. cbn [app map fst] in E0. injection E0 as <- _. inversion F as [|? ? F1 _]; subst. cbn in F1. destruct k; tauto. }
  rewrite E0 in *. rewrite other_line_first by auto. unfold fence_starts. rewrite Q1, Q2, Q3, Q4, Q5, Q6. cbn [orb andb definition_starts starts_html].
  replace (c0 =? 91) with false by (symmetry; apply N.eqb_neq; intros ->; destruct Da as [|(c, k) D1]; [contradiction|]; cbn [app map fst] in *; injection E0 as -> _; now apply (N91 (map fst D1))). cbn [andb orb]. apply N.eqb_neq. intros ->. destruct Fc; [discriminate|tauto].
Qed.
Lemma explains_undone w D : explains w D -> undone w (map fst D).
Proof.
  induction 1; cbn [map fst]; auto using un_nil, un_drop.
  - now apply un_keep.
  - apply un_drop. now apply un_keep.
  - apply un_slash. now apply un_keep.
Qed.
(** ** The markers in a text *)
Lemma here_snoc A c k : k <> Ins -> ~ escaped_here (A ++ [(c, k)]).
Proof. intros K (A0 & E). apply app_inj_tail in E as [_ E]. congruence. Qed.
Lemma here_after w D : explains w D -> forall A, ~ escaped_here A -> ~ escaped_here (A ++ D).
Proof.
  induction 1 as [|c s D N X IH|c s D N X IH|c s D N X IH| |s D X IH]; intros A H; auto; try (now rewrite app_nil_r).
  - change ((c, Raw) :: D) with ([(c, Raw)] ++ D). rewrite app_assoc. apply IH. now apply here_snoc.
  - change ((c, Lit) :: D) with ([(c, Lit)] ++ D). rewrite app_assoc. apply IH. now apply here_snoc.
  - change ((92, Ins) :: (c, Lit) :: D) with ([(92, Ins); (c, Lit)] ++ D). rewrite app_assoc. apply IH. change ([(92, Ins); (c, Lit)]) with ([(92, Ins)] ++ [(c, Lit)]). rewrite app_assoc. now apply here_snoc.
Qed.
Lemma busy_in d t o : busy_as t o -> In d t -> d <> 60 -> d <> 62 -> In d o.
Proof. induction 1; cbn [In]; intros I N1 N2; try tauto; destruct I; subst; try tauto; try congruence. Qed.
Lemma busy_closes t o z : busy_as t o -> In 93 t -> bracket_closes (o ++ z) = true.
Proof.
  intros S I. apply (busy_in 93 t o S) in I; [|discriminate|discriminate]. pose proof (busy_none 10 t o (or_intror eq_refl) S) as N. clear S. induction o as [|c o IH]; [contradiction|]. cbn [app bracket_closes].
  replace (c =? 10) with false by (symmetry; apply N.eqb_neq; intros ->; apply N; now left). destruct I as [->|I]; [reflexivity|]. rewrite IH; auto; [apply orb_true_r|]. intros J. apply N. now right.
Qed.
Lemma settled_run c k u : c = 42 \/ c = 95 -> (0 < k)%nat -> settled (repeat c k ++ u) = true -> exists e v, u = e :: v /\ e < 128.
Proof.
  intros C K. induction k as [|k IH]; [lia|]. cbn [repeat app settled]. intros S. rewrite !andb_true_iff in S. destruct S as [[[S1 _] _] S2]. destruct k as [|k].
  - replace (star c) with true in S1 by (destruct C; subst; reflexivity). cbn [repeat app] in S1. destruct u as [|e v]; [discriminate|]. exists e, v. split; auto. lia.
  - apply IH; auto. lia.
Qed.
Lemma star_followed c t o z : c = 42 \/ c = 95 -> settled (c :: t) = true -> busy_as t o -> not_opening c (o ++ z) -> exists u, drop_run c o = 32 :: u.
Proof.
  intros C St S No. destruct (run_parts c o) as (k & Eo & Ff). set (r := drop_run c o) in *. clearbody r. subst o. destruct (busy_run c k C t r S) as (u & -> & Su).
  destruct (settled_run c (Datatypes.S k) u C ltac:(lia) St) as (e & v & -> & Le). destruct r as [|y r]; [now apply busy_nil in Su|].
  unfold not_opening in No. rewrite <- app_assoc, drop_run_repeat in No. cbn [app drop_run first_is] in *. rewrite Ff in No.
  assert (Ly : y < 128). { inversion Su; subst; lia. }
  unfold decode_rune in No. replace (y <? 128) with true in No by lia. cbn [fst] in No. pose proof (busy_none 9 _ _ (or_introl eq_refl) Su) as N9. pose proof (busy_none 10 _ _ (or_intror eq_refl) Su) as N10.
  exists r. f_equal. assert (Ny : ~ In y [11; 12; 13]). { inversion Su as [|? ? ? Q|? ? ? Q|? ? ? C1| |]; subst; cbn [In]; try lia. intros I. apply (busy_not y y Q); auto. cbn [In]. lia. }
  cbn [In] in *. unfold cm_whitespace, go_only_whitespace, in_range in No. lia.
Qed.
Lemma next_zero c t D Z : c = 42 \/ c = 95 -> settled (c :: t) = true -> busy_as t (map fst D) -> ~ shows_zero (D ++ Z).
Proof.
  intros C St B. assert (Nt : t <> []). { intros ->. cbn [settled] in St. unfold star in St. destruct C; subst; discriminate. }
  assert (No : exists y k D', D = (y, k) :: D' /\ y <> 0 /\ (y = 92 -> exists z k2 D2, D' = (z, k2) :: D2 /\ z <> 0)).
  { destruct D as [|(y, k) D]; [inversion B; subst; easy|]. exists y, k, D. split; auto. cbn [map fst] in B.
    inversion B as [|? ? ? Q ? ? ? N2 ? ? ?|c2 ? o Q P Bo Et Eo|? ? ? Q| |]; subst; try (split; [discriminate|discriminate]).
    - split; [intros ->; discriminate Q|intros ->; contradiction].
    - split; [discriminate|]. intros _. match goal with E : _ = map fst D |- _ => destruct D as [|(z, k2) D2]; [discriminate E|]; injection E as E E' end. exists z, k2, D2. split; auto. intros ->. subst c2. discriminate Q.
    - split; lia. }
  destruct No as (y & k & D' & -> & N0 & N92). intros [(k1 & B' & E)|(k1 & B' & E)]; injection E as E1 E2; [congruence|]. subst y. destruct (N92 eq_refl) as (z & k2 & D2 & -> & Nz). cbn [app] in *. congruence.
Qed.
Definition no_tick_before (A : list kbyte) (t : bytes) : Prop := first_is 96 t = true -> forall A1 x, A = A1 ++ [x] -> fst x <> 96 /\ fst x <> 126.
Lemma tick_next c t A k : settled (c :: t) = true -> no_tick_before (A ++ [(c, k)]) t.
Proof.
  intros S F A1 x E. apply app_inj_tail in E as [_ <-]. cbn [fst]. cbn [settled] in S. rewrite F in S. unfold tick in S. destruct ((c =? 96) || (c =? 126)) eqn:T; [rewrite andb_false_r in S; discriminate|lia].
Qed.
Lemma plain_chars c : esc c = false -> c <> 42 /\ c <> 91 /\ c <> 92 /\ c <> 95 /\ c <> 96.
Proof. intros E. repeat split; intros ->; rewrite Hc in E; try discriminate; cbn; tauto. Qed.
Lemma img_busy s t : img l s t -> Forall (fun c => busy_char c = true) t -> settled t = true -> ~ In 60 s ->
  forall A D Z, explains s D -> DD = A ++ D ++ Z -> ~ escaped_here A -> no_tick_before A t -> busy_as t (map fst D).
Proof.
  assert (Step : forall A x D Z, DD = A ++ (x :: D) ++ Z -> DD = (A ++ [x]) ++ D ++ Z) by (intros A x D Z ->; now rewrite <- app_assoc).
  induction 1 as [|c s v N0 N7 N38 E M IH|c s v E M IH|s v M IH|s v M IH]; intros Q St N60 A D Z X ED Hn Ht.
  - inversion X; subst. constructor.
  - inversion Q as [|? ? Q1 Q2]; subst. inversion X as [|? ? D' C X'| | | |]; subst; try easy. destruct (plain_chars c E) as (P1 & P2 & P3 & P4 & P5). cbn [map fst].
    assert (St' : settled v = true) by (cbn [settled] in St; rewrite !andb_true_iff in St; tauto).
    apply ba_char; auto; [intros ->; apply N60; now left|]. apply (IH Q2 St' ltac:(intros I; apply N60; now right) (A ++ [(c, Raw)]) D' Z); auto; [now apply here_snoc|eapply tick_next; eauto].
  - inversion Q as [|? ? Q1 Q2]; subst. assert (Ic : In c l) by (unfold is_escaped_in in E; apply existsb_exists in E as (y & I & Ey); apply N.eqb_eq in Ey; now subst).
    destruct (Hp c Ic) as (Pc & N38 & _). assert (N7 : c <> 7) by (intros ->; discriminate). assert (St' : settled v = true) by (cbn [settled] in St; rewrite !andb_true_iff in St; tauto).
    assert (N' : ~ In 60 s) by (intros I; apply N60; right; now right).
    inversion X as [|? ? ? C X'|? ? D' C X'|? ? D' C X'| |? ? X']; subst; try easy; cbn [map fst].
    + assert (B : busy_as v (map fst D')) by (apply (IH Q2 St' N' (A ++ [(c, Lit)]) D' Z); auto; [now apply here_snoc|eapply tick_next; eauto]).
      assert (ED' : ann ds 0 false [] S0 = A ++ (c, Lit) :: (D' ++ Z)) by exact ED.
      destruct (N.eq_dec c 42) as [E42|E42]; [|destruct (N.eq_dec c 95) as [E95|E95]]; [| |destruct (N.eq_dec c 91) as [->|E91]; [|destruct (N.eq_dec c 92) as [->|E92]; [|destruct (N.eq_dec c 96) as [->|E96]]]].
      1,2: apply ba_star; auto; destruct (emphasis_lit_near ds S0 A c (D' ++ Z) Hw (bundled_rg ds Hds) (bundled_in ds is_italic_or_bold Hds ltac:(cbn; tauto)) (next_zero c v D' Z ltac:(tauto) St B) ED' ltac:(tauto)) as [H|H]; [contradiction|];
        rewrite map_app in H; eapply star_followed; eauto.
      * exfalso. apply Hn. apply (bracket_lit ds S0 A (D' ++ Z) Hw (bundled_rg ds Hds) (bundled_in ds is_image_or_link Hds ltac:(cbn; tauto)) ED'). rewrite map_app. apply (busy_closes v); auto.
        cbn [settled] in St. change (91 =? 91) with true in St. rewrite !andb_true_iff in St. destruct St as [[[_ St] _] _]. cbv iota in St. apply existsb_exists in St as (y & I & Ey). apply N.eqb_eq in Ey. now subst.
      * exfalso. apply Hn. apply (backslash_lit ds S0 A (D' ++ Z) Hw (bundled_rg ds Hds) (bundled_in ds is_backslash Hds ltac:(cbn; tauto)) ED').
      * exfalso. destruct (backtick_lit ds S0 A (D' ++ Z) Hw (bundled_tk ds Hds) (bundled_in ds is_inline_code Hds ltac:(cbn; tauto)) ED') as (A1 & G & EA & FG).
        destruct G as [|y G _] using rev_ind; [apply Hn; now exists A1|]. rewrite Forall_app in FG. destruct FG as [_ FG]. inversion FG as [|? ? Fy _]; subst.
        destruct (Ht eq_refl (A1 ++ (92, Ins) :: G) y) as [T1 T2]; [now rewrite <- app_assoc|]. tauto.
      * apply ba_char; auto. intros ->. apply N60. right. now left.
    + apply ba_escape; auto. change ((92, Ins) :: (c, Lit) :: D') with ([(92, Ins); (c, Lit)] ++ D') in ED.
      apply (IH Q2 St' N' (A ++ [(92, Ins); (c, Lit)]) D' Z); auto.
      * rewrite ED. now rewrite <- !app_assoc.
      * change ([(92, Ins); (c, Lit)]) with ([(92, Ins)] ++ [(c, Lit)]). rewrite app_assoc. now apply here_snoc.
      * change ([(92, Ins); (c, Lit)]) with ([(92, Ins)] ++ [(c, Lit)]). rewrite app_assoc. eapply tick_next; eauto.
  - inversion Q as [|? ? Q1 Q2]; subst. assert (St' : settled v = true) by (cbn [settled] in St; rewrite !andb_true_iff in St; tauto).
    do 4 (match goal with Y : explains (_ :: _) _ |- _ => inversion Y; subst; clear Y; try easy end). cbn [map fst]. apply ba_lt.
    match goal with Y : explains s ?D' |- _ => apply (IH Q2 St' ltac:(intros I; apply N60; cbn [In]; tauto) (A ++ [(38, Raw); (108, Raw); (116, Raw); (59, Raw)]) D' Z); auto end.
    + rewrite ED. now rewrite <- !app_assoc.
    + change [(38, Raw); (108, Raw); (116, Raw); (59, Raw)] with ([(38, Raw); (108, Raw); (116, Raw)] ++ [(59, Raw)]). rewrite app_assoc. now apply here_snoc.
    + intros _ A1 x EA. change [(38, Raw); (108, Raw); (116, Raw); (59, Raw)] with ([(38, Raw); (108, Raw); (116, Raw)] ++ [(59, Raw)]) in EA. rewrite app_assoc in EA. apply app_inj_tail in EA as [_ <-]. split; discriminate.
  - inversion Q as [|? ? Q1 Q2]; subst. assert (St' : settled v = true) by (cbn [settled] in St; rewrite !andb_true_iff in St; tauto).
    do 4 (match goal with Y : explains (_ :: _) _ |- _ => inversion Y; subst; clear Y; try easy end). cbn [map fst]. apply ba_gt.
    match goal with Y : explains s ?D' |- _ => apply (IH Q2 St' ltac:(intros I; apply N60; cbn [In]; tauto) (A ++ [(38, Raw); (103, Raw); (116, Raw); (59, Raw)]) D' Z); auto end.
    + rewrite ED. now rewrite <- !app_assoc.
    + change [(38, Raw); (103, Raw); (116, Raw); (59, Raw)] with ([(38, Raw); (103, Raw); (116, Raw)] ++ [(59, Raw)]). rewrite app_assoc. now apply here_snoc.
    + intros _ A1 x EA. change [(38, Raw); (103, Raw); (116, Raw); (59, Raw)] with ([(38, Raw); (103, Raw); (116, Raw)] ++ [(59, Raw)]) in EA. rewrite app_assoc in EA. apply app_inj_tail in EA as [_ <-]. split; discriminate.
Qed.
Variable url : bytes -> bytes.
Variable cfg : config.
Hypothesis Hcfg : usual_delimiters cfg.
Notation leaf_drawn := (drawn url cfg (quiet_raw l) (only (quiet_raw l)) (fun _ _ => False)).
Notation piece_drawn := (drawn url cfg (busy_raw l) leaf_drawn leaf_drawn).
Notation leaf_final := (drawn url cfg quiet_final (only quiet_final) (fun _ _ => False)).
Notation piece_final := (drawn url cfg busy_final leaf_final leaf_final).
Lemma last7_app x y : last_is 7 y = false -> y <> [] -> last_is 7 (x ++ y) = false.
Proof. intros L N. destruct (exists_last N) as (u & c & ->). unfold last_is in *. rewrite !rev_app_distr in *. exact L. Qed.
Lemma drawn_last7 n s : piece_drawn n s -> last_is 7 s = false /\ s <> [].
Proof.
  intros D. destruct D as [t s H|y a gs zs E H|y a d C Q|a ks ss F P].
  - split; [exact (img_last7 l Hl Hp _ _ (raw_img l Hl Hp t s H))|]. destruct (raw_sound l Hl Hp t s H) as (_ & _ & _ & c & u & -> & _). discriminate.
  - destruct (delimiter_cases cfg Hcfg y) as (c & k & -> & C & -> & _). assert (exists j, (if strong_element y then 2 else 1)%nat = S j) as (j & ->) by (destruct (strong_element y); eauto).
    split; [|discriminate]. rewrite app_assoc. replace (S j) with (j + 1)%nat by lia. rewrite repeat_app, app_assoc. apply last7_app; [|discriminate]. destruct C; subst; reflexivity.
  - destruct (code_written d Q) as (j & -> & _). split; [|discriminate]. rewrite app_assoc. replace (S j) with (j + 1)%nat by lia. rewrite repeat_app, app_assoc. apply last7_app; [reflexivity|discriminate].
  - split; [|discriminate]. unfold dest_and_title. cbn [is_empty app]. rewrite app_comm_cons. match goal with |- last_is 7 (?u ++ ?v :: ?w) = _ => rewrite (app_comm_cons w [] v) || idtac end.
    set (dest := url _). change (93 :: 40 :: dest ++ [41]) with ((93 :: 40 :: dest) ++ [41]) || idtac. rewrite app_assoc. apply last7_app; [reflexivity|discriminate].
Qed.
Lemma drawns_last7 ks ss : Forall2 piece_drawn ks ss -> last_is 7 (List.concat ss) = false.
Proof.
  induction 1 as [|n s ks ss D F IH]; [reflexivity|]. cbn [List.concat]. destruct (drawn_last7 n s D) as [D1 D2]. destruct F as [|m t ks ss D' F]; [cbn; now rewrite app_nil_r|].
  apply last7_app; auto. cbn [List.concat]. destruct (drawn_last7 m t D') as [_ N]. destruct t; [contradiction|discriminate].
Qed.
(** The first byte of a node that follows a text *)
Lemma next_byte n s : piece_drawn n s -> (forall t, n <> Text t) -> exists c u, s = c :: u /\ (c = 42 \/ c = 95 \/ c = 96 \/ c = 91).
Proof.
  intros D Nt. destruct D as [t s H|y a gs zs E H|y a d C Q|a ks ss F P].
  - now elim (Nt t).
  - destruct (delimiter_cases cfg Hcfg y) as (c & k & -> & C & -> & _). assert (exists j, (if strong_element y then 2 else 1)%nat = S j) as (j & ->) by (destruct (strong_element y); eauto).
    cbn [repeat app]. eexists _, _. split; [reflexivity|]. lia.
  - destruct (code_written d Q) as (j & -> & _). cbn [repeat app]. eexists _, _. split; [reflexivity|]. lia.
  - eexists _, _. split; [reflexivity|]. lia.
Qed.
Lemma raw_60 t s : raw l t s -> ~ In 60 s.
Proof. unfold raw. intros -> I. apply written_in in I as [I|[I|[I _]]]; lia. Qed.
Lemma text_final t s A D Z : busy_raw l t s -> explains s D -> DD = A ++ D ++ Z -> ~ escaped_here A -> busy_final t (map fst D).
Proof.
  intros B X E Hn. pose proof (raw_img l Hl Hp t s B) as M. destruct B as [Q R]. split; auto. pose proof (busy_parts t Q) as (_ & _ & F). unfold busy_text in Q. rewrite !andb_true_iff in Q. destruct Q as [[_ St] Ft].
  eapply img_busy; eauto using raw_60. intros F1. rewrite F1 in Ft. discriminate.
Qed.
Lemma leaf_undone n s o : leaf_drawn n s -> undone s o -> leaf_final n o.
Proof. intros D U. eapply (drawn_undone url cfg Hcfg (quiet_raw l) quiet_final (only (quiet_raw l)) (only quiet_final) (fun _ _ => False) (fun _ _ => False)); [| | |exact D|exact U]; [|easy|]; [intros n' s' o' [t u H] V; apply only_text; eapply raw_shown; eauto|]. intros t -> H. eapply raw_shown; eauto. Qed.
Lemma pieces_final ks ss : Forall2 piece_drawn ks ss -> forall A D Z, explains (List.concat ss) D -> DD = A ++ D ++ Z -> ~ escaped_here A -> exists os, map fst D = List.concat os /\ Forall2 piece_final ks os.
Proof.
  induction 1 as [|n s ks ss Dn F IH]; intros A D Z X E Hn.
  - inversion X. exists []. split; [reflexivity|constructor].
  - cbn [List.concat] in X. apply (explains_app _ _ (le_n _)) in X as (Da & Db & -> & Xa & Xb); [|apply (drawn_last7 _ _ Dn)].
    destruct (IH (A ++ Da) Db Z Xb) as (os & Eo & Fo); [rewrite E; now rewrite <- !app_assoc|now apply (here_after s)|].
    exists (map fst Da :: os). split; [rewrite map_app, Eo; reflexivity|]. constructor; auto.
    eapply (drawn_undone url cfg Hcfg (busy_raw l) busy_final leaf_drawn leaf_final leaf_drawn leaf_final leaf_undone leaf_undone n s); [|exact Dn|now apply explains_undone].
    intros t -> H. eapply text_final; eauto. rewrite E. now rewrite <- app_assoc.
Qed.
Lemma paragraph_line (wb wa : bytes -> class) ks ss A D Z : paragraph url cfg ks = true -> Forall2 piece_drawn ks ss -> explains (List.concat ss) D -> DD = A ++ D ++ Z -> line_start A -> ends (map fst Z) ->
  other_line (map fst D) = false /\ exists os, map fst D = List.concat os /\ Forall2 piece_final ks os.
Proof.
  intros P F X E La Ez. pose proof (not_escaped A (line_last A La)) as Hn. destruct (pieces_final ks ss F A D Z X E Hn) as (os & Eo & Ff). split; [|now exists os].
  destruct ks as [|n ks]; [discriminate|]. inversion F as [|? s ? ss' D1 F']; subst. inversion Ff as [|? o ? os' Df Ff']; subst.
  assert (Dec : (exists t, n = Text t) \/ forall t, n <> Text t) by (destruct n; try (right; discriminate); left; eauto).
  destruct Dec as [(t & ->)|Nt]; [|rewrite Eo; eapply final_start; eauto].
  inversion D1 as [? ? H| | |]; subst. pose proof (raw_img l Hl Hp t s H) as M. cbn [List.concat] in X. apply (explains_app _ _ (le_n _)) in X as (Da & Db & -> & Xa & Xb); [|apply (drawn_last7 _ _ D1)].
  eapply (text_start s t A Da Db Z); eauto.
  - apply (drawn_last7 _ _ D1).
  - intros u Eu. assert (Bf : busy_final t (map fst Da)) by (eapply (text_final t s A Da (Db ++ Z)); eauto; rewrite E; now rewrite <- app_assoc). rewrite Eu in Bf. destruct Bf as [_ Bf]. now destruct (busy_first _ _ _ Bf).
  - destruct H as [_ H]. eapply raw_60; eauto.
  - rewrite Eo. eapply finals_no9; eauto.
  - pose proof (filled_runs _ _ P) as R. cbn [runs] in R. apply andb_true_iff in R as [_ R]. cbn [kind_of] in R. apply andb_true_iff in R as [_ R].
    destruct F' as [|m s2 ks ss2 D2 F'']; [cbn in Xb; inversion Xb; exact I|]. cbn [runs] in R. apply andb_true_iff in R as [_ R].
    assert (Nt : forall t, m <> Text t). { intros t' ->. cbn [kind_of apart_kinds andb] in R. discriminate. }
    destruct (next_byte m s2 D2 Nt) as (c & u & -> & C). cbn [List.concat app] in Xb. inversion Xb; subst; try lia. split; [|lia]. unfold is_digit, in_range. lia.
  - rewrite Eo. destruct (final_line wb wa url cfg Hcfg _ _ P Ff) as (_ & _ & B). destruct (piece_final_sound url cfg Hcfg _ _ Df) as (_ & _ & c & u & -> & C1 & C2). cbn [List.concat app]. exists c, (u ++ List.concat os'). split; auto. split; auto.
    intros ->. unfold paragraph, filled in P. rewrite !andb_true_iff in P. destruct P as [[P _] _]. rewrite C1 in P by auto. discriminate.
Qed.
(** No zero bytes, no carriage returns *)
Lemma drawns_none z ks ss : z = 0 \/ z = 9 \/ z = 13 -> Forall2 piece_drawn ks ss -> ~ In z (List.concat ss).
Proof.
  intros Z.
  assert (B0 : forall t s, busy_raw l t s -> ~ In z s).
  { intros t s [Q R] I. unfold raw in R. subst s. apply busy_parts in Q as (_ & _ & F). apply written_in in I as [I|[I|[_ [I|I]]]]; try lia; [|vm_compute in I; lia]. revert I. apply busy_absent; auto. cbn. lia. }
  assert (Q0 : forall t s, quiet_raw l t s -> ~ In z s) by (intros t s H; eapply B0; eapply quiet_busy_raw; eauto).
  assert (L0 : forall n o, leaf_drawn n o -> ~ In z o) by (intros n o; apply (drawn_none url cfg Hcfg (quiet_raw l) (only (quiet_raw l)) _ z); auto; intros n' o' [t s' Q]; eauto).
  intros F. apply (concat_none piece_drawn z ks ss); auto. intros n s D. eapply (drawn_none url cfg Hcfg (busy_raw l) leaf_drawn leaf_drawn z); eauto.
Qed.
End first_text.

(** ** Newline marks *)
Lemma nm_join os : Forall (fun o => nm o = true) os -> nm (join [10; 10] os) = true.
Proof.
  induction 1 as [|o os H F IH]; auto. destruct os as [|o2 os]; [cbn; now rewrite ?app_nil_r|]. change (join [10; 10] (o :: o2 :: os)) with (o ++ 10 :: 10 :: join [10; 10] (o2 :: os)).
  apply nm_app; auto.
Qed.

