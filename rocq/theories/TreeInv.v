(** The preparation of a document keeps properties of its texts and its elements (C19). *)
From Coq Require Import List NArith ZArith Bool String Lia Permutation.
From Verif Require Import Bytes BytesFacts TextUtils TextFacts2 RenderFacts RenderText Dom DomUtils Collapse SpecDom SpecPlain Engine CommonMark Table SpecEngine
  EngineFacts RenderInv SpecPipeline PipelineFacts DomFacts DomFacts2 DomFacts3 EdgeFacts3.
Import ListNotations.
Open Scope N_scope.
Open Scope list_scope.

Section tree_inv.
Variable tok : bytes -> bool.
Variable eok : bytes -> attrs -> bool.
Hypothesis T_app : forall x y, tok x = true -> tok y = true -> tok (x ++ y) = true.
Hypothesis T_sp : tok [32] = true.
Hypothesis T_collapse : forall d, tok d = true -> tok (collapse_ws d) = true.
Hypothesis T_tl : forall r, tok (32 :: r) = true -> tok r = true.
Hypothesis T_init : forall r, tok (r ++ [32]) = true -> tok r = true.
Hypothesis T_open : tok [32; 34] = true.
Hypothesis T_close : tok [34; 32] = true.
Hypothesis E_name : forall x y a, eok x a = true -> In y [b "div"; b "strong"; b "span"; b "code"] -> eok y a = true.
Hypothesis E_br : eok (b "br") [] = true.
Hypothesis E_li : eok (b "li") [] = true.
Notation fr := (tree_ok tok eok).
Notation frs := (forallb fr).
Lemma fr_elem x a ks : fr (Elem x a ks) = eok x a && frs ks.
Proof. reflexivity. Qed.
Lemma fr_doc ks : fr (Doc ks) = frs ks.
Proof. reflexivity. Qed.
Lemma frs_app a c : frs (a ++ c) = frs a && frs c.
Proof. apply forallb_app. Qed.
Lemma frs_cons k ks : frs (k :: ks) = fr k && frs ks.
Proof. reflexivity. Qed.
Lemma frs_map f ks : Forall (fun k => fr k = true -> fr (f k) = true) ks -> frs ks = true -> frs (map f ks) = true.
Proof. induction 1; cbn [map forallb]; auto. intros E. apply andb_true_iff in E as [E1 E2]. now rewrite H, IHForall. Qed.
Lemma frs_flat_map f ks : Forall (fun k => fr k = true -> frs (f k) = true) ks -> frs ks = true -> frs (flat_map f ks) = true.
Proof. induction 1; cbn [flat_map forallb]; auto. intros E. apply andb_true_iff in E as [E1 E2]. now rewrite frs_app, H, IHForall. Qed.
Lemma hd_one n l : frs l = true -> fr n = true -> fr (hd n l) = true.
Proof. destruct l; cbn [hd forallb]; auto. intros E _. now apply andb_true_iff in E. Qed.
Lemma rename_fr n : fr n = true -> fr (rename_fake_spans n) = true.
Proof.
  induction n using node_induction; cbn [rename_fake_spans]; auto.
  - rewrite !fr_elem. intros E. apply andb_true_iff in E as [E1 E2]. rewrite frs_map by auto. rewrite andb_true_r.
    destruct (_ && _); auto. eapply E_name; [exact E1|]. now left.
  - rewrite !fr_doc. now apply frs_map.
Qed.
Lemma redundant_fr cls n : forall anc, fr n = true -> frs (redundant cls anc n) = true.
Proof.
  induction n using node_induction; intros anc T; cbn [redundant]; try (cbn [forallb list_end_comments]; rewrite T; reflexivity).
  - rewrite fr_elem in T. apply andb_true_iff in T as [T1 T2].
    assert (K : forall anc, frs (flat_map (redundant cls anc) ks) = true).
    { intros anc'. apply frs_flat_map; auto. eapply Forall_impl; [|exact H]. auto. }
    destruct (cls x); [destruct (existsb _ _)|]; auto; cbn [forallb]; rewrite fr_elem, T1, K; reflexivity.
  - cbn [forallb]. rewrite andb_true_r, fr_doc. apply frs_flat_map; auto. eapply Forall_impl; [|exact H]. auto.
Qed.
Lemma remove_redundant_fr cls n : fr n = true -> fr (remove_redundant cls n) = true.
Proof. intros T. apply hd_one; auto. now apply redundant_fr. Qed.
Lemma empty_code_fr n : fr n = true -> fr (remove_empty_code n) = true.
Proof.
  assert (K : forall ks, Forall (fun k => fr k = true -> fr (remove_empty_code k) = true) ks -> frs ks = true ->
    frs (flat_map (fun k => if is_empty_code k then [] else [remove_empty_code k]) ks) = true).
  { intros ks H. apply frs_flat_map. eapply Forall_impl; [|exact H]. intros k Hk T. cbv beta. destruct (is_empty_code k); auto. cbn [forallb]. now rewrite Hk. }
  induction n using node_induction; cbn [remove_empty_code]; auto.
  - destruct (is_empty_code _); auto. rewrite !fr_elem. intros E. apply andb_true_iff in E as [E1 E2]. now rewrite E1, K.
  - rewrite !fr_doc. now apply K.
Qed.
Lemma swap_fr outer inner n : fr n = true -> fr (swap_tags outer inner n) = true.
Proof.
  induction n using node_induction; cbn [swap_tags]; auto.
  - rewrite fr_elem. intros E. apply andb_true_iff in E as [E1 E2].
    assert (D : fr (Elem x a (map (swap_tags outer inner) ks)) = true) by (rewrite fr_elem, E1, frs_map; auto).
    destruct (outer _); auto. destruct (filter _ ks) as [|[|y c gs| | |] [|]] eqn:Ef; auto. destruct (inner _); auto.
    rewrite fr_elem. assert (I : In (Elem y c gs) ks). { eapply (proj1 (filter_In _ _ _)). rewrite Ef. now left. }
    pose proof E2 as E3. rewrite forallb_forall in E3. pose proof (E3 _ I) as G. rewrite fr_elem in G. apply andb_true_iff in G as [G _]. rewrite G. cbn [andb].
    apply frs_map; auto. apply Forall_forall. intros k _ Tk. destruct (is_blank_text k); auto. destruct k; auto. cbn [retag]. rewrite fr_elem in *.
    apply andb_true_iff in Tk as [_ Tk]. now rewrite E1, Tk.
  - rewrite !fr_doc. now apply frs_map.
Qed.
(** merge_adjacent *)
Definition frst (st : list (list node)) : bool := forallb frs st.
Section merge.
Variable mt : node -> bool.
Lemma collect_node_fr n : forall c l go, collect_node mt n = (c, l, go) -> fr n = true -> frs c = true /\ frs l = true.
Proof.
  induction n using node_induction; intros c l go E T; try (cbn [collect_node] in E; injection E as <- <- <-; cbn [forallb]; rewrite T; auto; fail).
  - rewrite collect_elem in E. destruct (is_span _).
    + assert (K : forall c ks' go, collect_list mt ks = (c, ks', go) -> frs c = true /\ frs ks' = true).
      { rewrite fr_elem in T. apply andb_true_iff in T as [_ T]. clear E. induction H as [|k ks Hk H IH]; intros c' ks' go' E; cbn [collect_list] in E.
        - injection E as <- <- <-. auto.
        - rewrite frs_cons in T. apply andb_true_iff in T as [T1 T2]. destruct (collect_node mt k) as [[c1 k1] go1] eqn:E1.
          destruct (Hk _ _ _ eq_refl T1) as [A1 A2]. destruct go1.
          + destruct (collect_list mt ks) as [[c2 r2] go2] eqn:E2. injection E as <- <- <-. destruct (IH T2 _ _ _ eq_refl) as [B1 B2].
            rewrite !frs_app, A1, A2, B1, B2. auto.
          + injection E as <- <- <-. rewrite !frs_app, A1, A2, T2. auto. }
      destruct (collect_list mt ks) as [[c1 ks1] go1]. destruct (K _ _ _ eq_refl) as [A1 A2]. injection E as <- <- <-.
      rewrite fr_elem in T. apply andb_true_iff in T as [T _]. cbn [forallb]. now rewrite fr_elem, T, A1, A2.
    + destruct (mt _); injection E as <- <- <-; [|cbn [forallb]; now rewrite T]. rewrite fr_elem in T. apply andb_true_iff in T as [_ T]. now rewrite T.
Qed.
Lemma collect_list_fr ks : forall c l go, collect_list mt ks = (c, l, go) -> frs ks = true -> frs c = true /\ frs l = true.
Proof.
  induction ks as [|k ks IH]; intros c l go E T; cbn [collect_list] in E.
  - injection E as <- <- <-. auto.
  - rewrite frs_cons in T. apply andb_true_iff in T as [T1 T2]. destruct (collect_node mt k) as [[c1 k1] go1] eqn:E1.
    destruct (collect_node_fr _ _ _ _ E1 T1) as [A1 A2]. destruct go1.
    + destruct (collect_list mt ks) as [[c2 r2] go2] eqn:E2. injection E as <- <- <-. destruct (IH _ _ _ eq_refl T2) as [B1 B2].
      rewrite !frs_app, A1, A2, B1, B2. auto.
    + injection E as <- <- <-. rewrite !frs_app, A1, A2, T2. auto.
Qed.
Lemma collect_stack_fr st : forall c st', collect_stack mt st = (c, st') -> frst st = true -> frs c = true /\ frst st' = true.
Proof.
  induction st as [|l up IH]; intros c st' E T; cbn [collect_stack] in E.
  - injection E as <- <-. auto.
  - cbn [frst forallb] in T. apply andb_true_iff in T as [T1 T2]. destruct (collect_list mt l) as [[c1 l1] go1] eqn:E1.
    destruct (collect_list_fr _ _ _ _ E1 T1) as [A1 A2]. destruct go1.
    + destruct (collect_stack mt up) as [c2 up2] eqn:E2. injection E as <- <-. destruct (IH _ _ eq_refl T2) as [B1 B2]. unfold frst in *.
      cbn [forallb]. rewrite frs_app, A1, A2, B1, B2. auto.
    + injection E as <- <-. unfold frst in *. cbn [forallb]. rewrite A1, A2, T2. auto.
Qed.
Lemma merge_adj_fr f : (forall n st n' st', merge_adj mt f n st = (n', st') -> fr n = true -> frst st = true -> fr n' = true /\ frst st' = true) /\
  (forall l st l' st', merge_adj_list mt f l st = (l', st') -> frs l = true -> frst st = true -> frs l' = true /\ frst st' = true).
Proof.
  induction f as [|f [IHn IHl]]; split; intros n st n' st' E T Ts.
  - injection E as <- <-. auto.
  - injection E as <- <-. auto.
  - cbn [merge_adj] in E. destruct (if mt n then collect_adjacent mt st else ([], st)) as [c st1] eqn:Ec.
    assert (C : frs c = true /\ frst st1 = true).
    { destruct (mt n); [|injection Ec as <- <-; auto]. unfold collect_adjacent in Ec.
      destruct st as [|[|k l] up]; try (injection Ec as <- <-; auto; fail). eapply collect_stack_fr; eauto. }
    destruct C as [C1 C2]. destruct (merge_adj_list mt f (kids n ++ c) st1) as [ks st2] eqn:Ek. injection E as <- <-.
    assert (K : frs (kids n) = true) by (destruct n; auto; rewrite fr_elem in T; now apply andb_true_iff in T).
    destruct (IHl _ _ _ _ Ek) as [A B]; auto. { now rewrite frs_app, K, C1. }
    split; auto. destruct n; auto; cbn [with_kids]. rewrite fr_elem in *. apply andb_true_iff in T as [T _]. now rewrite T, A.
  - cbn [merge_adj_list] in E. destruct n as [|x r]; [injection E as <- <-; auto|].
    destruct (merge_adj mt f x (r :: st)) as [x' st1] eqn:Ex. destruct (merge_adj_list mt f (hd [] st1) (tl st1)) as [r' st2] eqn:Er.
    injection E as <- <-. rewrite frs_cons in T. apply andb_true_iff in T as [T1 T2].
    destruct (IHn _ _ _ _ Ex T1) as [A B]. { unfold frst in *. cbn [forallb]. now rewrite T2, Ts. }
    assert (H : frs (hd [] st1) = true /\ frst (tl st1) = true).
    { destruct st1; auto. unfold frst in *. cbn [forallb hd tl] in *. now apply andb_true_iff in B. }
    destruct H as [H1 H2]. destruct (IHl _ _ _ _ Er H1 H2) as [C D]. rewrite frs_cons, A, C. auto.
Qed.
Lemma merge_adjacent_fr n : fr n = true -> fr (merge_adjacent mt n) = true.
Proof.
  intros T. unfold merge_adjacent. destruct (merge_adj mt (merge_fuel n) n []) as [n' st'] eqn:E.
  now destruct (proj1 (merge_adj_fr (merge_fuel n)) _ _ _ _ E T eq_refl).
Qed.
End merge.
(** add_space *)
Lemma touch_fr fwd n : fr n = true -> fr (fst (touch fwd n)) = true.
Proof.
  induction n using node_induction; auto.
  { cbn [touch fst tree_ok]. intros T. destruct fwd; auto. now apply (T_app [32] d). }
  rewrite touch_elem. destruct (is_span _); auto.
  assert (K : frs ks = true -> frs (fst (touch_kids fwd ks)) = true).
  { induction H as [|k ks Hk H IH]; auto. rewrite frs_cons. intros T. apply andb_true_iff in T as [T1 T2]. specialize (Hk T1). specialize (IH T2).
    cbn [touch_kids]. fold (touch_kids fwd). destruct fwd.
    - destruct (touch true k) as [k' f]. cbn [fst] in Hk. destruct f; cbn [fst]; rewrite ?frs_cons.
      + now rewrite Hk, T2.
      + destruct (touch_kids true ks) as [r' f2]. cbn [fst] in *. now rewrite frs_cons, Hk, IH.
    - destruct (touch_kids false ks) as [r' f]. cbn [fst] in IH. destruct f; cbn [fst]; rewrite ?frs_cons.
      + now rewrite IH, T1.
      + destruct (touch false k) as [k' f2]. cbn [fst] in *. now rewrite frs_cons, Hk, IH. }
  destruct (touch_kids fwd ks) as [ks' f]. cbn [fst] in *. rewrite !fr_elem. intros T. apply andb_true_iff in T as [-> T]. auto.
Qed.
Lemma touch_list_fr fwd l : frs l = true -> frs (fst (touch_list fwd l)) = true.
Proof.
  induction l as [|k l IH]; auto. rewrite frs_cons. intros T. apply andb_true_iff in T as [T1 T2]. specialize (IH T2).
  cbn [touch_list]. pose proof (touch_fr fwd k T1) as Hk. destruct (touch fwd k) as [k' f]. cbn [fst] in Hk.
  destruct f; cbn [fst]; rewrite ?frs_cons; [now rewrite Hk, T2|]. destruct (touch_list fwd l). cbn [fst] in *. now rewrite frs_cons, Hk, IH.
Qed.
Lemma touch_stack_fr fwd st : frst st = true -> frst (touch_stack fwd st) = true.
Proof.
  induction st as [|l up IH]; auto. unfold frst in *. cbn [touch_stack forallb]. intros T. apply andb_true_iff in T as [T1 T2]. specialize (IH T2).
  pose proof (touch_list_fr fwd l T1) as Hl. destruct (touch_list fwd l) as [l' f]. cbn [fst] in Hl.
  destruct f; cbn [forallb]; rewrite ?Hl, ?IH, ?T2; auto.
Qed.
Lemma frs_rev l : frs (rev l) = frs l.
Proof. induction l; auto. cbn [rev]. rewrite frs_app, IHl, frs_cons. cbn [forallb]. now rewrite andb_true_r, andb_comm. Qed.
Lemma frst_hd st : frst st = true -> frs (hd [] st) = true /\ frst (tl st) = true.
Proof. destruct st; auto. unfold frst. cbn [forallb hd tl]. intros E. now apply andb_true_iff in E. Qed.
Lemma frst_cons l st : frst (l :: st) = frs l && frst st.
Proof. reflexivity. Qed.
Lemma add_space_fr outer inner f :
  (forall n lt rt n' lt' rt', add_space outer inner f n lt rt = (n', lt', rt') -> fr n = true -> frst lt = true -> frst rt = true ->
     fr n' = true /\ frst lt' = true /\ frst rt' = true) /\
  (forall done todo lt rt l lt' rt', add_space_list outer inner f done todo lt rt = (l, lt', rt') -> frs done = true -> frs todo = true ->
     frst lt = true -> frst rt = true -> frs l = true /\ frst lt' = true /\ frst rt' = true).
Proof.
  induction f as [|f [IHn IHl]]; split.
  - intros n lt rt n' lt' rt' E. injection E as <- <- <-. auto.
  - intros done todo lt rt l lt' rt' E A B. injection E as <- <- <-. rewrite frs_app, frs_rev, A, B. auto.
  - intros n lt rt n' lt' rt' E T L R. cbn [add_space] in E.
    match type of E with (let '(_, _) := add_space_list _ _ _ _ _ ?l _ in _) = _ => set (lt1 := l) in E end.
    match type of E with (let '(_, _) := add_space_list _ _ _ _ _ _ ?r in _) = _ => set (rt1 := r) in E end.
    assert (R1 : frst rt1 = true).
    { unfold rt1. match goal with |- frst (if ?c then _ else _) = _ => destruct c end; auto. now apply touch_stack_fr. }
    assert (L1 : frst lt1 = true).
    { unfold lt1. match goal with |- frst (if ?c then _ else _) = _ => destruct c end; auto. now apply touch_stack_fr. }
    clearbody lt1 rt1.
    destruct (add_space_list outer inner f [] (kids n) lt1 rt1) as [[ks lt2] rt2] eqn:Ek. injection E as <- <- <-.
    assert (K : frs (kids n) = true) by (destruct n; auto; rewrite fr_elem in T; now apply andb_true_iff in T).
    destruct (IHl _ _ _ _ _ _ _ Ek eq_refl K L1 R1) as (A & B & C). split; auto.
    destruct n; auto; cbn [with_kids]. rewrite fr_elem in *. apply andb_true_iff in T as [T _]. now rewrite T, A.
  - intros done todo lt rt l lt' rt' E A B L R. cbn [add_space_list] in E. destruct todo as [|x r].
    { injection E as <- <- <-. rewrite frs_rev. auto. }
    destruct (add_space outer inner f x (done :: lt) (r :: rt)) as [[x' lt1] rt1] eqn:Ex.
    rewrite frs_cons in B. apply andb_true_iff in B as [B1 B2].
    destruct (IHn _ _ _ _ _ _ Ex B1) as (X & L1 & R1). { now rewrite frst_cons, A, L. } { now rewrite frst_cons, B2, R. }
    apply frst_hd in L1 as [L1 L2]. apply frst_hd in R1 as [R1 R2].
    apply (IHl _ _ _ _ _ _ _ E); auto. now rewrite frs_cons, X, L1.
Qed.
Lemma add_space_root_fr outer inner n : fr n = true -> fr (add_space_root outer inner n) = true.
Proof.
  intros T. unfold add_space_root. destruct (add_space outer inner (merge_fuel n) n [] []) as [[n' lt] rt] eqn:E.
  now destruct (proj1 (add_space_fr outer inner (merge_fuel n)) _ _ _ _ _ _ E T eq_refl eq_refl).
Qed.
Lemma leaf_fr n : forall leaf inl, fr n = true -> frs (leaf_alternatives leaf inl n) = true.
Proof.
  induction n using node_induction; intros leaf inl T; cbn [leaf_alternatives]; try (cbn [forallb list_end_comments]; rewrite T; reflexivity).
  - rewrite fr_elem in T. apply andb_true_iff in T as [T1 T2].
    assert (K : forall l i, frs (flat_map (leaf_alternatives l i) ks) = true).
    { intros l i. apply frs_flat_map; auto. eapply Forall_impl; [|exact H]. auto. }
    destruct (_ && _); [|cbn [forallb]; rewrite fr_elem, T1, K; reflexivity].
    assert (N : forall y, In y [b "div"; b "strong"; b "span"; b "code"] -> eok y a = true) by (intros y; eapply E_name; exact T1).
    unfold alternative. destruct (is_heading_name x); [|destruct (beqb x (b "blockquote")); [|destruct (beqb x (b "pre")); [|destruct (beqb x (b "hr")); auto]]];
      cbn [forallb]; rewrite !fr_elem, K, N by (cbn; auto); cbn [andb forallb tree_ok]; rewrite ?E_br, ?T_open, ?T_close; reflexivity.
  - cbn [forallb]. rewrite andb_true_r, fr_doc. apply frs_flat_map; auto. eapply Forall_impl; [|exact H]. auto.
Qed.
Lemma leaf_block_fr n : fr n = true -> fr (leaf_block_alternatives n) = true.
Proof. intros T. apply hd_one; auto. now apply leaf_fr. Qed.

Lemma add_to_li_fr k done : forall done', fr k = true -> frs done = true -> add_to_li k done = Some done' -> frs done' = true.
Proof.
  induction done as [|x r IH]; intros done' K D E; [discriminate|]. cbn [add_to_li] in E. rewrite frs_cons in D. apply andb_true_iff in D as [D1 D2].
  destruct (named _ x).
  - injection E as <-. rewrite frs_cons, D2, andb_true_r. unfold add_kid. destruct x; cbn [with_kids Dom.kids]; auto.
    + rewrite fr_elem in *. apply andb_true_iff in D1 as [D0 D1]. rewrite D0, frs_app, D1. cbn [forallb]. now rewrite K.
    + rewrite fr_doc in *. rewrite frs_app, D1. cbn [forallb]. now rewrite K.
  - destruct (add_to_li k r) as [r'|] eqn:Q; [|discriminate]. injection E as <-. rewrite frs_cons, D1. eapply IH; eauto.
Qed.
Lemma regroup_fr ks : frs ks = true -> frs (regroup ks) = true.
Proof.
  unfold regroup. rewrite frs_rev. assert (G : forall ks done, frs ks = true -> frs done = true -> frs (fold_left regroup_step ks done) = true); [|intros; now apply G].
  clear ks. induction ks as [|k ks IH]; intros done K D; auto. rewrite frs_cons in K. apply andb_true_iff in K as [K1 K2]. cbn [fold_left]. apply IH; auto.
  unfold regroup_step. destruct (_ || _); [now rewrite frs_cons, K1, D|]. destruct (add_to_li k done) eqn:Q; [eapply add_to_li_fr; eauto|].
  rewrite frs_cons, D, fr_elem, E_li. cbn [forallb]. now rewrite K1.
Qed.
Lemma items_fr n : fr n = true -> fr (move_list_items n) = true.
Proof.
  induction n using node_induction; cbn [move_list_items]; auto.
  - cbv zeta. rewrite !fr_elem. intros T. apply andb_true_iff in T as [T1 T2]. rewrite T1. cbn [andb]. assert (M : frs (map move_list_items ks) = true) by now apply frs_map.
    destruct (is_list_name x); auto. now apply regroup_fr.
  - rewrite !fr_doc. now apply frs_map.
Qed.
Lemma commonmark_pre_fr e n : fr n = true -> fr (commonmark_pre e n) = true.
Proof.
  intros T. unfold commonmark_pre. cbv zeta. apply items_fr, leaf_block_fr, swap_fr, swap_fr, remove_redundant_fr, add_space_root_fr, merge_adjacent_fr,
    swap_fr, empty_code_fr, merge_adjacent_fr, remove_redundant_fr, rename_fr, T.
Qed.
Lemma strike_pre_fr e n : fr n = true -> fr (strike_pre e n) = true.
Proof. intros T. unfold strike_pre. apply merge_adjacent_fr, remove_redundant_fr, T. Qed.
Lemma comments_fr n : fr n = true -> forall st, frs (list_end_comments st n) = true.
Proof.
  assert (K : forall ks, Forall (fun n => fr n = true -> forall st, frs (list_end_comments st n) = true) ks -> frs ks = true ->
    forall st, frs (comments_kids st ks) = true).
  { intros ks F. induction F as [|k ks Hk F IH]; intros T st; auto. rewrite frs_cons in T. apply andb_true_iff in T as [T1 T2].
    cbn [comments_kids]. now rewrite frs_app, Hk, IH. }
  induction n using node_induction; intros T st; try (cbn [forallb list_end_comments]; rewrite T; reflexivity).
  - rewrite comments_elem. cbv zeta. rewrite fr_elem in T. apply andb_true_iff in T as [T1 T2].
    destruct (_ && _); cbn [forallb]; rewrite fr_elem, T1, K; auto.
  - rewrite comments_doc. cbn [forallb]. rewrite fr_doc, K; auto.
Qed.
Lemma end_comments_fr cfg e n : fr n = true -> fr (commonmark_end_comments cfg e n) = true.
Proof.
  unfold commonmark_end_comments. destruct (disable_end_comment cfg); auto. intros T. pose proof (comments_fr n T []) as H. rewrite comments_one in H.
  cbn [forallb] in H. now rewrite andb_true_r in H.
Qed.
Section collapse.
Variable is_block : bytes -> bool.
Lemma lead_text_ok s d t : lead_text s d = Some t -> tok d = true -> tok t = true.
Proof.
  unfold lead_text. cbv zeta. intros E T. apply T_collapse in T. destruct (collapse_ws d) as [|c r]; [discriminate|].
  destruct (_ && (c =? cSP)) eqn:Q.
  - apply andb_true_iff in Q as [_ Q]. apply N.eqb_eq in Q. subst c. apply T_tl in T. destruct (is_empty r); [discriminate|]. now injection E as <-.
  - cbn [is_empty] in E. now injection E as <-.
Qed.
Lemma lead_list_fr ks : Forall (fun n => fr n = true -> forall s, frs (snd (lead is_block s n)) = true) ks -> frs ks = true ->
  forall s, frs (snd (lead_list is_block s ks)) = true.
Proof.
  intros F. induction F as [|k ks Hk F IH]; intros T s; auto. rewrite frs_cons in T. apply andb_true_iff in T as [T1 T2]. cbn [lead_list].
  specialize (Hk T1 s). destruct (lead is_block s k) as [s1 k']. specialize (IH T2 s1). destruct (lead_list is_block s1 ks) as [s2 r'].
  cbn [snd] in *. now rewrite frs_app, Hk, IH.
Qed.
Lemma lead_fr n : fr n = true -> forall s, frs (snd (lead is_block s n)) = true.
Proof.
  induction n using node_induction; intros T s; auto.
  - cbn [lead]. destruct (lead_text s d) as [t|] eqn:E; auto. cbn [snd forallb tree_ok]. rewrite (lead_text_ok _ _ _ E T). reflexivity.
  - rewrite lead_elem. cbv zeta. rewrite fr_elem in T. apply andb_true_iff in T as [T1 T2].
    destruct (is_preformatted x). { cbn [snd forallb]. now rewrite fr_elem, T1, T2. }
    rewrite lead_kids_eq. pose proof (lead_list_fr ks H T2 (visit (effect_of is_block x) s)) as A.
    destruct (lead_list is_block (visit (effect_of is_block x) s) ks) as [s2 ks']. cbn [snd forallb] in *. now rewrite fr_elem, T1, A.
Qed.
Lemma trail_ok tr d : tok d = true -> tok (if tr : bool then trim_suffix_space d else d) = true.
Proof.
  destruct tr; auto. unfold trim_suffix_space. intros T. destruct (has_suffix [cSP] d) eqn:E; auto.
  apply has_suffix_iff in E as (z & ->). rewrite removelast_last. now apply T_init.
Qed.
Lemma trail_list_fr ks : Forall (fun n => fr n = true -> forall tr, fr (snd (trail is_block tr n)) = true) ks -> frs ks = true ->
  forall tr, frs (snd (trail_list is_block tr ks)) = true.
Proof.
  intros F. induction F as [|k ks Hk F IH]; intros T tr; auto. rewrite frs_cons in T. apply andb_true_iff in T as [T1 T2]. cbn [trail_list].
  specialize (IH T2 tr). destruct (trail_list is_block tr ks) as [t1 r']. specialize (Hk T1 t1). destruct (trail is_block t1 k) as [t2 k'].
  cbn [snd] in *. now rewrite frs_cons, Hk, IH.
Qed.
Lemma trail_fr n : fr n = true -> forall tr, fr (snd (trail is_block tr n)) = true.
Proof.
  induction n using node_induction; intros T tr; auto.
  - cbn [trail snd tree_ok]. now apply trail_ok.
  - rewrite trail_elem. cbv zeta. rewrite fr_elem in T. apply andb_true_iff in T as [T1 T2].
    destruct (is_preformatted x). { cbn [snd]. now rewrite fr_elem, T1, T2. }
    rewrite trail_kids_eq. pose proof (trail_list_fr ks H T2 (visit_back (effect_of is_block x) tr)) as A.
    destruct (trail_list _ _ ks) as [tr2 ks']. cbn [snd] in *. now rewrite fr_elem, T1, A.
Qed.
Lemma drop_list_fr ks : Forall (fun n => fr n = true -> frs (snd (drop_last is_block n)) = true) ks -> frs ks = true ->
  frs (snd (drop_last_list is_block ks)) = true.
Proof.
  intros F. induction F as [|k ks Hk F IH]; intros T; auto. rewrite frs_cons in T. apply andb_true_iff in T as [T1 T2]. cbn [drop_last_list].
  specialize (IH T2). specialize (Hk T1). destruct (drop_last_list is_block ks) as [f r']. destruct f; cbn [snd] in *.
  - now rewrite frs_cons, T1, IH.
  - destruct (drop_last is_block k) as [f2 k']. cbn [snd] in *. now rewrite frs_app, Hk, IH.
Qed.
Lemma drop_fr n : fr n = true -> frs (snd (drop_last is_block n)) = true.
Proof.
  induction n using node_induction; intros T; auto.
  - cbn [drop_last snd]. destruct (is_empty d); auto. cbn [forallb]. now rewrite T.
  - rewrite drop_elem. rewrite fr_elem in T. apply andb_true_iff in T as [T1 T2].
    destruct (effect_of is_block x); try (cbn [snd forallb]; now rewrite fr_elem, T1, T2). rewrite drop_kids_eq.
    pose proof (drop_list_fr ks H T2) as A. destruct (drop_last_list is_block ks) as [f ks']. cbn [snd forallb] in *. now rewrite fr_elem, T1, A.
  - cbn [drop_last snd forallb]. rewrite fr_doc. cbn [tree_ok] in T. now rewrite T.
Qed.
Lemma collapse_kids_fr ks : frs ks = true -> frs (collapse_kids is_block ks) = true.
Proof.
  intros T. unfold collapse_kids.
  apply (drop_list_fr _ (proj2 (Forall_forall _ _) (fun k _ => drop_fr k))).
  apply (trail_list_fr _ (proj2 (Forall_forall _ _) (fun k _ => trail_fr k))).
  apply (lead_list_fr _ (proj2 (Forall_forall _ _) (fun k _ => lead_fr k))). exact T.
Qed.
Lemma collapse_fr n : fr n = true -> fr (collapse is_block n) = true.
Proof.
  intros H. unfold collapse. destruct (kids n) as [|k ks] eqn:E; auto. destruct (is_preformatted _); auto.
  rewrite <- E. destruct n; try discriminate; cbn [with_kids Dom.kids] in *.
  - rewrite fr_elem in *. apply andb_true_iff in H as [-> H]. now apply collapse_kids_fr.
  - rewrite fr_doc in *. now apply collapse_kids_fr.
Qed.
End collapse.
(** removal and joining of texts *)
Lemma push_text_fr k done : fr k = true -> frs done = true -> frs (push_text k done) = true.
Proof.
  intros T D. unfold push_text. destruct k as [d|x a ks|d|ks|d]; try (rewrite frs_cons, D, T; reflexivity).
  destruct done as [|[d0|x a ks|d0|ks|d0] r]; try (rewrite frs_cons, D, T; reflexivity).
  rewrite frs_cons in *. apply andb_true_iff in D as [D1 D2]. cbn [tree_ok] in *. rewrite T_app; auto.
Qed.
Lemma merge_text_fr n : fr n = true -> fr (merge_text n) = true.
Proof.
  assert (K : forall ks, Forall (fun k => fr k = true -> fr (merge_text k) = true) ks -> frs ks = true -> forall acc, frs acc = true ->
    frs (rev (fold_left (fun acc k => push_text (merge_text k) acc) ks acc)) = true).
  { intros ks F. induction F as [|k ks Hk F IH]; intros T acc A; cbn [fold_left]; [now rewrite frs_rev|].
    rewrite frs_cons in T. apply andb_true_iff in T as [T1 T2]. apply IH; auto. apply push_text_fr; auto. }
  induction n using node_induction; cbn [merge_text]; auto.
  - rewrite !fr_elem. intros T. apply andb_true_iff in T as [-> T]. now apply K.
  - rewrite !fr_doc. intros T. now apply K.
Qed.
Lemma remove_in_fr rm n : fr n = true -> fr (remove_in rm n) = true.
Proof.
  induction n using node_induction; cbn [remove_in]; auto.
  - rewrite !fr_elem. intros T. apply andb_true_iff in T as [-> T]. cbn [andb]. apply frs_flat_map; auto. eapply Forall_impl; [|exact H].
    intros k Hk Tk. cbv beta. destruct (rm _); auto. cbn [forallb]. now rewrite Hk.
  - rewrite !fr_doc. apply frs_flat_map; auto. eapply Forall_impl; [|exact H].
    intros k Hk Tk. cbv beta. destruct (rm _); auto. cbn [forallb]. now rewrite Hk.
Qed.
Lemma pre_remove_fr e n : fr n = true -> fr (pre_remove e n) = true.
Proof. intros T. unfold pre_remove, remove_root. apply merge_text_fr. destruct (is_remove_type _); auto. now apply remove_in_fr. Qed.
Lemma remove_hidden_fr rm (seen : node -> bool) n :
  (forall x a ks, seen (Elem x a ks) = name_in hidden_names x || eok x a && forallb seen ks) -> (forall ks, seen (Doc ks) = forallb seen ks) -> (forall d, seen (Text d) = tok d) ->
  (forall x, rm x = name_in hidden_names x) -> seen n = true -> invisible n = false -> fr (remove_in rm n) = true.
Proof.
  intros S1 S2 S3 Rm. assert (K : forall ks, Forall (fun n => seen n = true -> invisible n = false -> fr (remove_in rm n) = true) ks -> forallb seen ks = true ->
    frs (flat_map (fun k => if rm (node_name k) then [] else [remove_in rm k]) ks) = true).
  { intros ks F. induction F as [|k ks Hk F IH]; intros T; auto. cbn [forallb] in T. apply andb_true_iff in T as [T1 T2]. cbn [flat_map]. rewrite frs_app, IH by auto.
    rewrite andb_true_r. destruct (rm (node_name k)) eqn:E; auto. cbn [forallb]. rewrite Hk; auto. rewrite Rm in E. destruct k; cbn [invisible node_name] in *; auto; try discriminate. }
  induction n using node_induction; intros T I; cbn [remove_in invisible] in *; auto; try discriminate.
  - cbn [tree_ok]. now rewrite <- S3.
  - rewrite S1, I in T. cbn [orb] in T. apply andb_true_iff in T as [T1 T2]. rewrite fr_elem, T1. now apply K.
  - rewrite fr_doc. rewrite S2 in T. now apply K.
Qed.
Lemma pre_remove_free e (seen : node -> bool) n :
  (forall x a ks, seen (Elem x a ks) = name_in hidden_names x || eok x a && forallb seen ks) -> (forall ks, seen (Doc ks) = forallb seen ks) -> (forall d, seen (Text d) = tok d) ->
  (forall x, is_remove_type (tag_type_of e x) = name_in hidden_names x) -> seen n = true -> invisible n = false ->
  fr (pre_remove e n) = true.
Proof.
  intros S1 S2 S3 Rm T I. unfold pre_remove, remove_root. apply merge_text_fr. rewrite Rm.
  assert (E : name_in hidden_names (node_name n) = false) by (destruct n; cbn [invisible node_name] in *; auto; discriminate). rewrite E.
  eapply remove_hidden_fr; eauto.
Qed.
Variable sort : forall A : Type, list (Z * A) -> list (Z * A).
Hypothesis Hsort : sorts sort.
Lemma prepared_tree m us url doc (seen : node -> bool) : In UseBase us ->
  (forall x a ks, seen (Elem x a ks) = name_in hidden_names x || eok x a && forallb seen ks) -> (forall ks, seen (Doc ks) = forallb seen ks) -> (forall d, seen (Text d) = tok d) ->
  seen doc = true -> invisible doc = false -> fr (prepared sort (converter_with m us) url doc) = true.
Proof.
  intros Ib S1 S2 S3 T I.
  apply (prepared_inv sort Hsort m us url doc (fun d => fr d = true) (fun d => fr d = true)); auto.
  - eapply pre_remove_free; eauto. intros x. now apply removes_hidden.
  - intros d A. now apply pre_remove_fr.
  - intros q k J Q d A. apply use_pre_cases in J as [(-> & -> & _) | [(-> & -> & _) | [(-> & -> & _) | [(-> & cfg & ->) | (-> & -> & _)]]]].
    lia. now apply collapse_fr. now apply commonmark_pre_fr. now apply end_comments_fr. now apply strike_pre_fr.
Qed.
End tree_inv.
