(** The preparation brings no new element names into the tree, except a few (C44). *)
From Coq Require Import List NArith ZArith Bool String Lia.
From Verif Require Import Bytes BytesFacts TextUtils TextFacts2 RenderFacts RenderText Dom DomUtils Collapse SpecDom Engine CommonMark Table SpecEngine
  EngineFacts RenderInv SpecPipeline PipelineFacts DomFacts DomFacts2 DomFacts3.
Import ListNotations.
Open Scope N_scope.
Open Scope list_scope.

Section fresh.
Variable names : list bytes.
Hypothesis Hnew : forallb (fun x => negb (name_in names x)) (map b ["div"; "strong"; "br"; "span"; "code"; "li"]%string) = true.
Notation fr := (free_of names).
Notation frs := (forallb (free_of names)).
Lemma new_name s : In s (map b ["div"; "strong"; "br"; "span"; "code"; "li"]%string) -> name_in names s = false.
Proof. rewrite forallb_forall in Hnew. intros I. apply Hnew in I. now apply negb_true_iff. Qed.
Lemma fr_elem x a ks : fr (Elem x a ks) = negb (name_in names x) && frs ks.
Proof. reflexivity. Qed.
Lemma fr_doc ks : fr (Doc ks) = frs ks.
Proof. reflexivity. Qed.
Lemma frs_app a c : frs (a ++ c) = frs a && frs c.
Proof. apply forallb_app. Qed.
Lemma frs_cons k ks : frs (k :: ks) = fr k && frs ks.
Proof. reflexivity. Qed.
Lemma frs_map f ks : Forall (fun k => fr k = true -> fr (f k) = true) ks -> frs ks = true -> frs (map f ks) = true.
Proof. induction 1; cbn [map forallb]; auto. intros E. apply andb_true_iff in E as [E1 E2]. now rewrite H, IHForall. Qed.
Lemma frs_flat_map f ks : Forall (fun k => fr k = true -> frs (f k) = true) ks -> frs ks = true -> frs (flat_map f ks) = true.
Proof. induction 1; cbn [flat_map forallb]; auto. intros E. apply andb_true_iff in E as [E1 E2]. now rewrite frs_app, H, IHForall. Qed.
Lemma hd_one n l : frs l = true -> fr n = true -> fr (hd n l) = true.
Proof. destruct l; cbn [hd forallb]; auto. intros E _. now apply andb_true_iff in E. Qed.
Lemma rename_fr n : fr n = true -> fr (rename_fake_spans n) = true.
Proof.
  induction n using node_induction; cbn [rename_fake_spans]; auto.
  - rewrite !fr_elem. intros E. apply andb_true_iff in E as [E1 E2]. rewrite frs_map by auto. rewrite andb_true_r.
    destruct (_ && _); auto. rewrite new_name; auto. now left.
  - rewrite !fr_doc. now apply frs_map.
Qed.
Lemma redundant_fr cls n : forall anc, fr n = true -> frs (redundant cls anc n) = true.
Proof.
  induction n using node_induction; intros anc T; cbn [redundant]; try (cbn; now rewrite ?T).
  - rewrite fr_elem in T. apply andb_true_iff in T as [T1 T2].
    assert (K : forall anc, frs (flat_map (redundant cls anc) ks) = true).
    { intros anc'. apply frs_flat_map; auto. eapply Forall_impl; [|exact H]. auto. }
    destruct (cls x); [destruct (existsb _ _)|]; auto; cbn [forallb]; rewrite fr_elem, T1, K; reflexivity.
  - cbn [forallb]. rewrite andb_true_r, fr_doc. apply frs_flat_map; auto. eapply Forall_impl; [|exact H]. auto.
Qed.
Lemma remove_redundant_fr cls n : fr n = true -> fr (remove_redundant cls n) = true.
Proof. intros T. apply hd_one; auto. now apply redundant_fr. Qed.
Lemma empty_code_fr n : fr n = true -> fr (remove_empty_code n) = true.
Proof.
  assert (K : forall ks, Forall (fun k => fr k = true -> fr (remove_empty_code k) = true) ks -> frs ks = true ->
    frs (flat_map (fun k => if is_empty_code k then [] else [remove_empty_code k]) ks) = true).
  { intros ks H. apply frs_flat_map. eapply Forall_impl; [|exact H]. intros k Hk T. cbv beta. destruct (is_empty_code k); auto. cbn [forallb]. now rewrite Hk. }
  induction n using node_induction; cbn [remove_empty_code]; auto.
  - destruct (is_empty_code _); auto. rewrite !fr_elem. intros E. apply andb_true_iff in E as [E1 E2]. now rewrite E1, K.
  - rewrite !fr_doc. now apply K.
Qed.
Lemma swap_fr outer inner n : fr n = true -> fr (swap_tags outer inner n) = true.
Proof.
  induction n using node_induction; cbn [swap_tags]; auto.
  - rewrite fr_elem. intros E. apply andb_true_iff in E as [E1 E2].
    assert (D : fr (Elem x a (map (swap_tags outer inner) ks)) = true) by (rewrite fr_elem, E1, frs_map; auto).
    destruct (outer _); auto. destruct (filter _ ks) as [|[|y c gs| | |] [|]] eqn:Ef; auto. destruct (inner _); auto.
    rewrite fr_elem. assert (I : In (Elem y c gs) ks). { eapply (proj1 (filter_In _ _ _)). rewrite Ef. now left. }
    pose proof E2 as E3. rewrite forallb_forall in E3. pose proof (E3 _ I) as G. rewrite fr_elem in G. apply andb_true_iff in G as [G _]. rewrite G. cbn [andb].
    apply frs_map; auto. apply Forall_forall. intros k _ Tk. destruct (is_blank_text k); auto. destruct k; auto. cbn [retag]. rewrite fr_elem in *.
    apply andb_true_iff in Tk as [_ Tk]. now rewrite E1, Tk.
  - rewrite !fr_doc. now apply frs_map.
Qed.
(** merge_adjacent *)
Definition frst (st : list (list node)) : bool := forallb frs st.
Section merge.
Variable mt : node -> bool.
Lemma collect_node_fr n : forall c l go, collect_node mt n = (c, l, go) -> fr n = true -> frs c = true /\ frs l = true.
Proof.
  induction n using node_induction; intros c l go E T; try (cbn [collect_node] in E; injection E as <- <- <-; cbn [forallb]; rewrite T; auto; fail).
  - rewrite collect_elem in E. destruct (is_span _).
    + assert (K : forall c ks' go, collect_list mt ks = (c, ks', go) -> frs c = true /\ frs ks' = true).
      { rewrite fr_elem in T. apply andb_true_iff in T as [_ T]. clear E. induction H as [|k ks Hk H IH]; intros c' ks' go' E; cbn [collect_list] in E.
        - injection E as <- <- <-. auto.
        - rewrite frs_cons in T. apply andb_true_iff in T as [T1 T2]. destruct (collect_node mt k) as [[c1 k1] go1] eqn:E1.
          destruct (Hk _ _ _ eq_refl T1) as [A1 A2]. destruct go1.
          + destruct (collect_list mt ks) as [[c2 r2] go2] eqn:E2. injection E as <- <- <-. destruct (IH T2 _ _ _ eq_refl) as [B1 B2].
            rewrite !frs_app, A1, A2, B1, B2. auto.
          + injection E as <- <- <-. rewrite !frs_app, A1, A2, T2. auto. }
      destruct (collect_list mt ks) as [[c1 ks1] go1]. destruct (K _ _ _ eq_refl) as [A1 A2]. injection E as <- <- <-.
      rewrite fr_elem in T. apply andb_true_iff in T as [T _]. cbn [forallb]. now rewrite fr_elem, T, A1, A2.
    + destruct (mt _); injection E as <- <- <-; [|cbn [forallb]; now rewrite T]. rewrite fr_elem in T. apply andb_true_iff in T as [_ T]. now rewrite T.
Qed.
Lemma collect_list_fr ks : forall c l go, collect_list mt ks = (c, l, go) -> frs ks = true -> frs c = true /\ frs l = true.
Proof.
  induction ks as [|k ks IH]; intros c l go E T; cbn [collect_list] in E.
  - injection E as <- <- <-. auto.
  - rewrite frs_cons in T. apply andb_true_iff in T as [T1 T2]. destruct (collect_node mt k) as [[c1 k1] go1] eqn:E1.
    destruct (collect_node_fr _ _ _ _ E1 T1) as [A1 A2]. destruct go1.
    + destruct (collect_list mt ks) as [[c2 r2] go2] eqn:E2. injection E as <- <- <-. destruct (IH _ _ _ eq_refl T2) as [B1 B2].
      rewrite !frs_app, A1, A2, B1, B2. auto.
    + injection E as <- <- <-. rewrite !frs_app, A1, A2, T2. auto.
Qed.
Lemma collect_stack_fr st : forall c st', collect_stack mt st = (c, st') -> frst st = true -> frs c = true /\ frst st' = true.
Proof.
  induction st as [|l up IH]; intros c st' E T; cbn [collect_stack] in E.
  - injection E as <- <-. auto.
  - cbn [frst forallb] in T. apply andb_true_iff in T as [T1 T2]. destruct (collect_list mt l) as [[c1 l1] go1] eqn:E1.
    destruct (collect_list_fr _ _ _ _ E1 T1) as [A1 A2]. destruct go1.
    + destruct (collect_stack mt up) as [c2 up2] eqn:E2. injection E as <- <-. destruct (IH _ _ eq_refl T2) as [B1 B2]. unfold frst in *.
      cbn [forallb]. rewrite frs_app, A1, A2, B1, B2. auto.
    + injection E as <- <-. unfold frst in *. cbn [forallb]. rewrite A1, A2, T2. auto.
Qed.
Lemma merge_adj_fr f : (forall n st n' st', merge_adj mt f n st = (n', st') -> fr n = true -> frst st = true -> fr n' = true /\ frst st' = true) /\
  (forall l st l' st', merge_adj_list mt f l st = (l', st') -> frs l = true -> frst st = true -> frs l' = true /\ frst st' = true).
Proof.
  induction f as [|f [IHn IHl]]; split; intros n st n' st' E T Ts.
  - injection E as <- <-. auto.
  - injection E as <- <-. auto.
  - cbn [merge_adj] in E. destruct (if mt n then collect_adjacent mt st else ([], st)) as [c st1] eqn:Ec.
    assert (C : frs c = true /\ frst st1 = true).
    { destruct (mt n); [|injection Ec as <- <-; auto]. unfold collect_adjacent in Ec.
      destruct st as [|[|k l] up]; try (injection Ec as <- <-; auto; fail). eapply collect_stack_fr; eauto. }
    destruct C as [C1 C2]. destruct (merge_adj_list mt f (kids n ++ c) st1) as [ks st2] eqn:Ek. injection E as <- <-.
    assert (K : frs (kids n) = true) by (destruct n; auto; rewrite fr_elem in T; now apply andb_true_iff in T).
    destruct (IHl _ _ _ _ Ek) as [A B]; auto. { now rewrite frs_app, K, C1. }
    split; auto. destruct n; auto; cbn [with_kids]. rewrite fr_elem in *. apply andb_true_iff in T as [T _]. now rewrite T, A.
  - cbn [merge_adj_list] in E. destruct n as [|x r]; [injection E as <- <-; auto|].
    destruct (merge_adj mt f x (r :: st)) as [x' st1] eqn:Ex. destruct (merge_adj_list mt f (hd [] st1) (tl st1)) as [r' st2] eqn:Er.
    injection E as <- <-. rewrite frs_cons in T. apply andb_true_iff in T as [T1 T2].
    destruct (IHn _ _ _ _ Ex T1) as [A B]. { unfold frst in *. cbn [forallb]. now rewrite T2, Ts. }
    assert (H : frs (hd [] st1) = true /\ frst (tl st1) = true).
    { destruct st1; auto. unfold frst in *. cbn [forallb hd tl] in *. now apply andb_true_iff in B. }
    destruct H as [H1 H2]. destruct (IHl _ _ _ _ Er H1 H2) as [C D]. rewrite frs_cons, A, C. auto.
Qed.
Lemma merge_adjacent_fr n : fr n = true -> fr (merge_adjacent mt n) = true.
Proof.
  intros T. unfold merge_adjacent. destruct (merge_adj mt (merge_fuel n) n []) as [n' st'] eqn:E.
  now destruct (proj1 (merge_adj_fr (merge_fuel n)) _ _ _ _ E T eq_refl).
Qed.
End merge.
(** add_space *)
Lemma touch_fr fwd n : fr (fst (touch fwd n)) = fr n.
Proof.
  induction n using node_induction; auto. rewrite touch_elem. destruct (is_span _); auto.
  assert (K : frs (fst (touch_kids fwd ks)) = frs ks).
  { induction H as [|k ks Hk H IH]; auto. cbn [touch_kids]. fold (touch_kids fwd). destruct fwd.
    - destruct (touch true k) as [k' f]. cbn [fst] in Hk. destruct f; cbn [fst]; rewrite !frs_cons.
      + now rewrite Hk.
      + destruct (touch_kids true ks) as [r' f2]. cbn [fst] in *. now rewrite frs_cons, Hk, IH.
    - destruct (touch_kids false ks) as [r' f]. cbn [fst] in IH. destruct f; cbn [fst]; rewrite ?frs_cons.
      + now rewrite IH.
      + destruct (touch false k) as [k' f2]. cbn [fst] in *. now rewrite frs_cons, Hk, IH. }
  destruct (touch_kids fwd ks) as [ks' f]. cbn [fst] in *. now rewrite !fr_elem, K.
Qed.
Lemma touch_list_fr fwd l : frs (fst (touch_list fwd l)) = frs l.
Proof.
  induction l as [|k l IH]; auto. cbn [touch_list]. pose proof (touch_fr fwd k) as Hk. destruct (touch fwd k) as [k' f]. cbn [fst] in Hk.
  destruct f; cbn [fst]; rewrite ?frs_cons; [now rewrite Hk|]. destruct (touch_list fwd l). cbn [fst] in *. now rewrite frs_cons, Hk, IH.
Qed.
Lemma touch_stack_fr fwd st : frst (touch_stack fwd st) = frst st.
Proof.
  induction st as [|l up IH]; auto. cbn [touch_stack]. pose proof (touch_list_fr fwd l) as Hl. destruct (touch_list fwd l) as [l' f]. cbn [fst] in Hl.
  unfold frst in *. destruct f; cbn [forallb]; now rewrite Hl, ?IH.
Qed.
Lemma frs_rev l : frs (rev l) = frs l.
Proof. induction l; auto. cbn [rev]. rewrite frs_app, IHl, frs_cons. cbn [forallb]. now rewrite andb_true_r, andb_comm. Qed.
Lemma frst_hd st : frst st = true -> frs (hd [] st) = true /\ frst (tl st) = true.
Proof. destruct st; auto. unfold frst. cbn [forallb hd tl]. intros E. now apply andb_true_iff in E. Qed.
Lemma frst_cons l st : frst (l :: st) = frs l && frst st.
Proof. reflexivity. Qed.
Lemma add_space_fr outer inner f :
  (forall n lt rt n' lt' rt', add_space outer inner f n lt rt = (n', lt', rt') -> fr n = true -> frst lt = true -> frst rt = true ->
     fr n' = true /\ frst lt' = true /\ frst rt' = true) /\
  (forall done todo lt rt l lt' rt', add_space_list outer inner f done todo lt rt = (l, lt', rt') -> frs done = true -> frs todo = true ->
     frst lt = true -> frst rt = true -> frs l = true /\ frst lt' = true /\ frst rt' = true).
Proof.
  induction f as [|f [IHn IHl]]; split.
  - intros n lt rt n' lt' rt' E. injection E as <- <- <-. auto.
  - intros done todo lt rt l lt' rt' E A B. injection E as <- <- <-. rewrite frs_app, frs_rev, A, B. auto.
  - intros n lt rt n' lt' rt' E T L R. cbn [add_space] in E.
    match type of E with (let '(_, _) := add_space_list _ _ _ _ _ ?l _ in _) = _ => set (lt1 := l) in E end.
    match type of E with (let '(_, _) := add_space_list _ _ _ _ _ _ ?r in _) = _ => set (rt1 := r) in E end.
    assert (R1 : frst rt1 = true).
    { unfold rt1. match goal with |- frst (if ?c then _ else _) = _ => destruct c end; auto. now rewrite touch_stack_fr. }
    assert (L1 : frst lt1 = true).
    { unfold lt1. match goal with |- frst (if ?c then _ else _) = _ => destruct c end; auto. now rewrite touch_stack_fr. }
    clearbody lt1 rt1.
    destruct (add_space_list outer inner f [] (kids n) lt1 rt1) as [[ks lt2] rt2] eqn:Ek. injection E as <- <- <-.
    assert (K : frs (kids n) = true) by (destruct n; auto; rewrite fr_elem in T; now apply andb_true_iff in T).
    destruct (IHl _ _ _ _ _ _ _ Ek eq_refl K L1 R1) as (A & B & C). split; auto.
    destruct n; auto; cbn [with_kids]. rewrite fr_elem in *. apply andb_true_iff in T as [T _]. now rewrite T, A.
  - intros done todo lt rt l lt' rt' E A B L R. cbn [add_space_list] in E. destruct todo as [|x r].
    { injection E as <- <- <-. rewrite frs_rev. auto. }
    destruct (add_space outer inner f x (done :: lt) (r :: rt)) as [[x' lt1] rt1] eqn:Ex.
    rewrite frs_cons in B. apply andb_true_iff in B as [B1 B2].
    destruct (IHn _ _ _ _ _ _ Ex B1) as (X & L1 & R1). { now rewrite frst_cons, A, L. } { now rewrite frst_cons, B2, R. }
    apply frst_hd in L1 as [L1 L2]. apply frst_hd in R1 as [R1 R2].
    apply (IHl _ _ _ _ _ _ _ E); auto. now rewrite frs_cons, X, L1.
Qed.
Lemma add_space_root_fr outer inner n : fr n = true -> fr (add_space_root outer inner n) = true.
Proof.
  intros T. unfold add_space_root. destruct (add_space outer inner (merge_fuel n) n [] []) as [[n' lt] rt] eqn:E.
  now destruct (proj1 (add_space_fr outer inner (merge_fuel n)) _ _ _ _ _ _ E T eq_refl eq_refl).
Qed.
Lemma leaf_fr n : forall leaf inl, fr n = true -> frs (leaf_alternatives leaf inl n) = true.
Proof.
  induction n using node_induction; intros leaf inl T; cbn [leaf_alternatives]; try (cbn; now rewrite ?T).
  - rewrite fr_elem in T. apply andb_true_iff in T as [T1 T2].
    assert (K : forall l i, frs (flat_map (leaf_alternatives l i) ks) = true).
    { intros l i. apply frs_flat_map; auto. eapply Forall_impl; [|exact H]. auto. }
    destruct (_ && _); [|cbn [forallb]; rewrite fr_elem, T1, K; reflexivity].
    assert (N : forall s, In s (map b ["div"; "strong"; "br"; "span"; "code"; "li"]%string) -> forall a ks, fr (Elem s a ks) = frs ks).
    { intros s I a' ks'. rewrite fr_elem, new_name; auto. }
    unfold alternative. destruct (is_heading_name x); [|destruct (beqb x (b "blockquote")); [|destruct (beqb x (b "pre")); [|destruct (beqb x (b "hr"))]]];
      cbn [forallb]; rewrite ?N, ?K by (cbn; tauto); reflexivity.
  - cbn [forallb]. rewrite andb_true_r, fr_doc. apply frs_flat_map; auto. eapply Forall_impl; [|exact H]. auto.
Qed.
Lemma leaf_block_fr n : fr n = true -> fr (leaf_block_alternatives n) = true.
Proof. intros T. apply hd_one; auto. now apply leaf_fr. Qed.
Lemma keeps_fr n m : keeps [] names n [m] -> fr n = true -> fr m = true.
Proof. intros [A _] T. apply A in T. unfold frees, free in T. cbn [forallb] in T. now apply andb_true_iff in T. Qed.
Lemma items_fr n : fr n = true -> fr (move_list_items n) = true.
Proof.
  apply keeps_fr. apply items_keeps; auto. left. apply new_name. cbn. tauto.
Qed.
Lemma commonmark_pre_fr e n : fr n = true -> fr (commonmark_pre e n) = true.
Proof.
  intros T. unfold commonmark_pre. cbv zeta. apply items_fr, leaf_block_fr, swap_fr, swap_fr, remove_redundant_fr, add_space_root_fr, merge_adjacent_fr,
    swap_fr, empty_code_fr, merge_adjacent_fr, remove_redundant_fr, rename_fr, T.
Qed.
Lemma strike_pre_fr e n : fr n = true -> fr (strike_pre e n) = true.
Proof. intros T. unfold strike_pre. apply merge_adjacent_fr, remove_redundant_fr, T. Qed.
Lemma end_comments_fr cfg e n : fr n = true -> fr (commonmark_end_comments cfg e n) = true.
Proof.
  unfold commonmark_end_comments. destruct (disable_end_comment cfg); auto. apply keeps_fr. rewrite <- comments_one. apply comments_keeps.
Qed.
Lemma collapse_fr is_block n : fr n = true -> fr (collapse is_block n) = true.
Proof.
  intros H. unfold collapse. destruct (kids n) as [|k ks] eqn:E; auto. destruct (is_preformatted _); auto.
  rewrite <- E. pose proof (collapse_kids_keeps [] names is_block (kids n)) as K. revert H. destruct n; try discriminate; cbn [with_kids Dom.kids] in *.
  - apply keeps_fr. now apply keeps_elem.
  - apply keeps_fr. now apply keeps_doc.
Qed.
Hypothesis Hhid : forallb (fun x => name_in hidden_names x) names = true.
Lemma clean_fr n : clean n = true -> invisible n = false -> fr n = true.
Proof.
  assert (K : forall ks, Forall (fun n => clean n = true -> invisible n = false -> fr n = true) ks ->
    forallb (fun k => negb (invisible k) && clean k) ks = true -> frs ks = true).
  { intros ks F. induction F as [|k ks Hk F IH]; intros T; auto. cbn [forallb] in *. apply andb_true_iff in T as [T1 T2].
    apply andb_true_iff in T1 as [T0 T1]. apply negb_true_iff in T0. rewrite Hk, IH; auto. }
  induction n using node_induction; intros T I; auto.
  - rewrite fr_elem, K, andb_true_r by auto. cbn [invisible] in I. destruct (name_in names x) eqn:E; auto.
    apply in_names in E. rewrite forallb_forall in Hhid. apply Hhid in E. congruence.
  - now apply K.
Qed.
Variable sort : forall A : Type, list (Z * A) -> list (Z * A).
Hypothesis Hsort : sorts sort.
Lemma prepared_fr m us url doc : In UseBase us -> tidy doc = true -> invisible doc = false ->
  fr (prepared sort (converter_with m us) url doc) = true.
Proof.
  intros Ib T I.
  assert (Rm : forall x, is_remove_type (tag_type_of (env_of sort (converter_with m us) url) x) = name_in hidden_names x) by (intros; now apply removes_hidden).
  apply (prepared_inv sort Hsort m us url doc (fun d => tidy d = true /\ clean d = true /\ invisible d = false) (fun d => fr d = true)); auto.
  - unfold pre_remove. apply (remove_ok _ Rm (fun _ => false) doc T I).
  - intros d (A & B & C). unfold pre_remove. apply (remove_ok _ Rm (fun _ => false) d A C).
  - intros d (_ & A & B). now apply clean_fr.
  - intros q k J Q d A. apply use_pre_cases in J as [(-> & -> & _) | [(-> & -> & _) | [(-> & -> & _) | [(-> & cfg & ->) | (-> & -> & _)]]]].
    lia. now apply collapse_fr. now apply commonmark_pre_fr. now apply end_comments_fr. now apply strike_pre_fr.
Qed.
End fresh.
