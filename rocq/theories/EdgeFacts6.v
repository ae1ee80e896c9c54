(** The output of a conversion has no white space at its ends (C19). *)
From Coq Require Import List NArith ZArith Bool String Lia ZifyBool ZifyNat ZifyN Permutation Sorting.Sorted.
From Verif Require Import PanicFacts Bytes BytesFacts TextUtils RenderText Escape SpecEscape EscapeFacts EscapeFacts6 SpecDom SpecText TextFacts TextFacts2 TextFacts3 RenderFacts RenderFacts2 RenderFacts3
  RenderFacts4 RenderFacts5 Dom DomUtils Collapse Engine CommonMark Table SpecEngine EngineFacts RenderInv SpecPipeline PipelineFacts DomFacts DomFacts2 DomFacts3
  LetterFacts SpecPlain SpecTrim PlainFacts PlainFacts2 PlainFacts3 PlainFacts4 EdgeFacts EdgeFacts2 EdgeFacts3 EdgeFacts4 EdgeFacts5 TreeInv.
Import ListNotations.
Open Scope N_scope.
Open Scope list_scope.

Section whole.
Variable sort : forall A : Type, list (Z * A) -> list (Z * A).
Hypothesis Hsort : sorts sort.
Variable strict : bool.
Variable m : escape_mode.
Variable us : list use.
Variable url : bytes -> bytes -> bytes.
Notation cv := (converter_with m us).
Notation e := (env_of sort cv url).
Notation E := (edged strict).
Definition final (s : bytes) : Prop := E s /\ trimmed s /\ ~ three_newlines s /\ (m = Smart -> ~ In 7 s).
Definition finished (x : bytes) : Prop := exists s, final s /\ (x = s \/ x = post_newline s).
Lemma env_un s : unescape_fn e s = s \/ unbelled s (unescape_fn e s).
Proof. unfold env_of. cbn [unescape_fn]. rewrite cw_mode. destruct m; cbn [unescape_with]; [right; apply unescape_unbelled|now left]. Qed.
Lemma no_bell s : m = Smart -> ~ In 7 (unescape_fn e s).
Proof. intros M. unfold env_of. cbn [unescape_fn]. rewrite cw_mode, M. cbn [unescape_with]. apply unescape_no7. Qed.
Lemma un_same s : (m = Smart -> ~ In 7 s) -> unescape_fn e s = s.
Proof. intros H. unfold env_of. cbn [unescape_fn]. rewrite cw_mode. destruct m; cbn [unescape_with]; auto. apply unescape_none. auto. Qed.
Lemma edged_post x : E x -> E (post_trim x).
Proof. intros H. unfold post_trim. now apply edged_hard, edged_tcn, edged_trim. Qed.
Lemma unescape_step x : E x -> trimmed x -> ~ three_newlines x -> final (base_unescape e x).
Proof.
  intros H T Th. unfold base_unescape. pose proof (no_bell x) as N. destruct (env_un x) as [Q|U]; [rewrite Q in *; split; [|split; [|split]]; auto|].
  destruct H as (k & Tk & G & In). pose proof (belled_toks k x Tk) as B. split; [|split; [|split]]; auto.
  - eapply edged_grow; [exists k; eauto|]. intros k' Tk'. eapply toks_unbelled; eauto.
  - eapply trimmed_unbelled; eauto.
  - intros J. apply Th. eapply three_unbelled; eauto.
Qed.
Lemma newline_again s k : toks k s -> post_newline (post_newline s) = post_newline s.
Proof.
  intros T. unfold post_newline at 1. apply replace_none. unfold post_newline, cNL. revert k T.
  assert (K : forall k, inks k -> forall s, toks k s -> ~ infix marker_nl s) by (intros; eapply toks_no_mark; eauto).
  assert (G : forall k s, toks k s -> exists k', toks k' (replace_all marker_nl [10] s) /\ inks k').
  { clear. induction 1 as [|k c s C T (k' & A & B)|k c s C T (k' & A & B)|k c s C1 C2 C3 T (k' & A & B)|k s T (k' & A & B)|k a y s X Y W T (k' & A & B)].
    - exists []. split; [constructor|intros []].
    - rewrite mark_step by byte. exists (true :: k'). split; [now apply tk_ink|]. intros [J|J]; [discriminate|auto].
    - rewrite (mark_step c) in A by (destruct C; byte). rewrite (mark_step 7) by lia. rewrite (mark_step c) by (destruct C; byte). exists k'. split; auto. now apply tk_bell.
    - rewrite mark_step by auto. exists k'. split; auto. now apply tk_other.
    - rewrite replace_all_cons. change (has_prefix marker_nl (239 :: 128 :: 130 :: ?t)) with true. cbv iota. change (skipn _ (128 :: 130 :: ?t)) with t. exists k'. split; auto.
      cbn [app]. apply tk_other; auto; byte.
    - assert (P : forall t, has_prefix marker_nl (239 :: a :: y :: t) = false).
      { intros t. unfold marker_nl. cbn [has_prefix]. destruct (239 =? 239), (128 =? a) eqn:E1, (130 =? y) eqn:E2; auto; lia. }
      rewrite !(replace_all_cons _ _ 239), !P. assert (y <> 239) by (destruct Y; byte). rewrite !mark_step by byte. exists k'. split; auto. now apply tk_wide. }
  intros k T. destruct (G k s T) as (k' & A & B). eapply K; eauto.
Qed.
Lemma finished_unescape x : finished x -> finished (base_unescape e x).
Proof.
  intros (s & F & D). exists s. split; auto. unfold base_unescape. rewrite un_same; auto. destruct F as (_ & _ & _ & N). intros M I. apply (N M). destruct D as [->| ->]; auto.
  unfold post_newline, cNL in I. apply replace_back in I as [I|[I|[]]]; [auto|discriminate|discriminate].
Qed.
Lemma finished_newline x : finished x -> finished (commonmark_post e x).
Proof.
  intros (s & F & D). exists s. split; auto. right. unfold commonmark_post. destruct D as [->| ->]; auto. destruct F as ((k & T & _) & _). eapply newline_again; eauto.
Qed.
Lemma posts_finish l : (forall q k, In (q, k) l -> In (q, k) (flat_map use_post us)) -> by_priority l ->
  (forall x, finished x -> (forall y, In y l -> (520 <= fst y)%Z) -> finished (fold_left (fun s h => h e s) (map snd l) x)) /\
  (forall s, E s -> trimmed s -> ~ three_newlines s -> In (520%Z, base_unescape) l -> finished (fold_left (fun s h => h e s) (map snd l) s)) /\
  (forall s, E s -> In (500%Z, base_trim) l -> In (520%Z, base_unescape) l -> finished (fold_left (fun s h => h e s) (map snd l) s)).
Proof.
  intros Sub Srt. unfold by_priority in Srt. apply Sorted_StronglySorted in Srt; [|intros a b0 c0; lia].
  induction l as [|[q k] l IH]; [repeat split; [auto|intros s _ _ _ []|intros s _ []]|]. inversion Srt as [|? ? S1 S2]; subst. rewrite Forall_forall in S2.
  destruct IH as (IH1 & IH2 & IH3); auto; [intros; apply Sub; now right|]. cbn [map fold_left snd].
  destruct (use_post_cases us q k (Sub _ _ (or_introl eq_refl))) as [(-> & ->)|[(-> & ->)|(-> & ->)]].
  - split; [intros x _ L; specialize (L _ (or_introl eq_refl)); cbn [fst] in L; lia|].
    assert (H : forall s, E s -> In (520%Z, base_unescape) ((500%Z, base_trim) :: l) -> finished (fold_left (fun s h => h e s) (map snd l) (base_trim e s))).
    { intros s Es [I|I]; [discriminate|]. unfold base_trim. apply IH2; auto; [now apply edged_post|apply post_trim_trimmed|apply post_trim_trimmed]. }
    split; auto.
  - assert (L : forall y, In y l -> (520 <= fst y)%Z) by (intros y Iy; exact (S2 y Iy)). split; [intros x F _; apply IH1; auto; now apply finished_unescape|]. split.
    + intros s Es T Th _. apply IH1; auto. exists (base_unescape e s). split; [apply unescape_step; assumption|now left].
    + intros s _ [I|I] _; [discriminate|]. specialize (L _ I). cbn [fst] in L. lia.
  - assert (L : forall y, In y l -> (1000 <= fst y)%Z) by (intros y Iy; exact (S2 y Iy)). split; [intros x F _; apply IH1; [now apply finished_newline|]; intros y Iy; specialize (L y Iy); lia|]. split.
    + intros s _ _ _ [I|I]; [discriminate|]. specialize (L _ I). cbn [fst] in L. lia.
    + intros s _ _ [I|I]; [discriminate|]. specialize (L _ I). cbn [fst] in L. lia.
Qed.

(** The text handlers *)
Lemma chars_ink c : In c (cv_chars cv) -> inkb c.
Proof.
  rewrite cw_chars. intros I. apply in_flat_map in I as (u & _ & I). unfold inkb. destruct u as [|cfg|d|os]; cbn [use_chars] in I.
  - destruct I.
  - destruct (valid_cfg cfg); [|destruct I]. cbn [commonmark_escaped In] in I. repeat (destruct I as [<-|I]; [lia|]). destruct I.
  - destruct I as [<-|[]]. lia.
  - destruct (apply_table_options os table_defaults) as [tc [?|]]; [destruct I|]. cbn in I. repeat (destruct I as [<-|I]; [lia|]). destruct I.
Qed.
Lemma texts_calm d c : unmarked d = true -> calm (fold_left (fun s t => t e c s) (in_order sort (cv_text cv)) d).
Proof.
  intros U. apply pure_unmarked in U. pose proof (text_cases sort Hsort m us) as K. revert K. generalize (in_order sort (cv_text cv)) as ts. intros ts K.
  assert (P : pure (fold_left (fun s t => t e c s) ts d)); [|apply P]. revert d U. induction ts as [|h ts IH]; intros d U; auto. cbn [fold_left].
  apply IH; [intros; apply K; now right|]. destruct (K h (or_introl eq_refl)) as [-> | ->]; [|now apply pure_link].
  apply (pure_base e (cv_chars cv)); auto; [|apply chars_ink]. unfold env_of. cbn [escape_fn]. rewrite cw_mode. destruct m; [right|left]; reflexivity.
Qed.
(** The options *)
Lemma calm_default d dflt : unmarked d = true -> calm dflt -> calm (or_default d dflt).
Proof. intros U D. unfold or_default. destruct (is_empty d); auto. now apply unmarked_calm. Qed.
Lemma edge_options cfg : valid_cfg cfg = true -> unmarked (em_delimiter cfg) = true -> unmarked (strong_delimiter cfg) = true -> unmarked (horizontal_rule cfg) = true ->
  edge_cfg (fill_defaults cfg).
Proof.
  unfold valid_cfg. destruct (validate_config (fill_defaults cfg)) eqn:V; [discriminate|]. intros _ U1 U2 U3. apply validate_spec in V as (Bu & Fe & _).
  split; [apply calm_default; auto; ascii|]. split; [apply calm_default; auto; ascii|]. split; [apply calm_default; auto; ascii|]. split.
  - destruct Bu as [<-|[<-|[<-|[]]]]; ascii.
  - destruct Fe as [<-|[<-|[]]]; vm_compute; split; discriminate.
Qed.

(** The whole conversion *)
Definition seen : node -> bool := seen_ok unmarked (fun x => negb (strict && beqb x (b "pre"))).
Lemma unmarked_spec s : unmarked s = true <-> ~ In 7 s /\ no_newline_mark s = true.
Proof.
  unfold unmarked. rewrite andb_true_iff, forallb_forall. split; intros [A B]; split; auto.
  - intros I. apply A in I. discriminate.
  - intros x I. destruct (N.eqb_spec x 7); auto. subst. now elim A.
Qed.
Lemma unmarked_collapse d : unmarked d = true -> unmarked (collapse_ws d) = true.
Proof.
  rewrite !unmarked_spec. intros [A B]. split; [|now apply nm_collapse]. unfold collapse_ws. intros I. apply collapse_in in I as [I|I]; auto. discriminate.
Qed.
Lemma prepared_edge doc : In UseBase us -> seen doc = true -> invisible doc = false -> edge_node strict (prepared sort cv url doc).
Proof.
  intros Ib S I. unfold edge_node.
  apply (prepared_tree unmarked (edge_elem strict)) with (seen := seen); auto.
  - apply unmarked_app.
  - apply unmarked_collapse.
  - intros r H. exact (unmarked_prefix r [32] eq_refl H).
  - intros x y a H Iy. unfold edge_elem in *. apply andb_true_iff in H as [-> _]. cbn [andb]. destruct Iy as [<-|[<-|[<-|[<-|[]]]]]; cbn [andb]; destruct strict; reflexivity.
  - unfold edge_elem. cbn [forallb andb]. destruct strict; reflexivity.
  - unfold edge_elem. cbn [forallb andb]. destruct strict; reflexivity.
  - intros x a ks. unfold seen. cbn [seen_ok]. unfold edge_elem. f_equal. f_equal. apply andb_comm.
Qed.
Lemma rendered_edge doc x : In UseBase us -> unmarked_options us -> (forall tag raw, unmarked raw = true -> unmarked (url tag raw) = true) ->
  seen doc = true -> invisible doc = false ->
  render e (in_order sort (cv_render cv)) (in_order sort (cv_text cv)) (S (height (prepared sort cv url doc))) [] [] (prepared sort cv url doc) = Done x -> E x.
Proof.
  intros Ib [Oc Od] Hu Sd I C.
  pose proof (prepared_edge doc Ib Sd I) as Pn. set (p := prepared sort cv url doc) in *.
  pose proof (render_inv e (in_order sort (cv_text cv)) _ _ _ _ _ _ _ _ _ _ _
    (edge_closed strict e (in_order sort (cv_text cv)) env_un texts_calm Hu) (in_order sort (cv_render cv))) as H.
  assert (Hbu : Forall (RenderInv.bundled edge_cfg calm True) (in_order sort (cv_render cv))).
  { apply bundled_uses; [exact Hsort|..]; auto.
    - intros c Jc Vc. destruct (Oc c Jc) as (U1 & U2 & U3). now apply edge_options.
    - intros d J. apply calm_default; [now apply Od|ascii]. }
  specialize (H Hbu no_strikes (S (height p)) [] [] p Pn (le_S _ _ (le_n _))). rewrite C in H. exact H.
Qed.
Lemma conversion_finished doc out : In UseBase us -> unmarked_options us -> (forall tag raw, unmarked raw = true -> unmarked (url tag raw) = true) ->
  seen doc = true -> invisible doc = false -> converts (convert_node sort cv url doc) out -> finished out.
Proof.
  intros Ib Op Hu Sd I C. eapply convert_done in C; [|reflexivity]. unfold run_conversion in C. cbv zeta in C.
  destruct (render _ _ _ _ _ _ _) as [x| |] eqn:R; cbn [bind RenderInv.good] in *; try discriminate. injection C as <-.
  assert (H : E x) by now apply (rendered_edge doc). unfold in_order at 1. destruct (Hsort _ (cv_post cv)) as [Pm Sr].
  apply posts_finish; auto.
  - intros q k J. rewrite <- (cw_post m us). eapply Permutation_in; [exact Pm|exact J].
  - eapply Permutation_in; [apply Permutation_sym; exact Pm|]. rewrite cw_post. apply in_flat_map. exists UseBase. split; auto. now left.
  - eapply Permutation_in; [apply Permutation_sym; exact Pm|]. rewrite cw_post. apply in_flat_map. exists UseBase. split; auto. right. now left.
Qed.

(** The last handlers *)
Lemma sorted_same {A} (l1 : list (Z * A)) : forall l2, Permutation l1 l2 -> by_priority l1 -> by_priority l2 ->
  (forall x y, In x l1 -> In y l1 -> fst x = fst y -> x = y) -> l1 = l2.
Proof.
  unfold by_priority. intros l2 P S1 S2. apply Sorted_StronglySorted in S1; [|intros a b0 c0; lia]. apply Sorted_StronglySorted in S2; [|intros a b0 c0; lia].
  revert l2 P S2. induction l1 as [|a l1 IH]; intros l2 P S2 U; [apply Permutation_nil in P; now subst|].
  destruct l2 as [|c l2]; [apply Permutation_sym, Permutation_nil in P; discriminate|]. inversion S1 as [|? ? A1 A2]; subst. inversion S2 as [|? ? B1 B2]; subst.
  rewrite Forall_forall in A2, B2. assert (Ic : In c (a :: l1)) by (eapply Permutation_in; [apply Permutation_sym; exact P|now left]).
  assert (Ia : In a (c :: l2)) by (eapply Permutation_in; [exact P|now left]).
  assert (Q : a = c). { apply U; [now left|auto|]. destruct Ic as [->|Ic]; auto. destruct Ia as [->|Ia]; auto. specialize (A2 _ Ic). specialize (B2 _ Ia). lia. }
  subst c. f_equal. apply IH; auto; [now apply Permutation_cons_inv in P|]. intros x y Ix Iy. apply U; now right.
Qed.
Lemma sorted_parts {A} p (l : list (Z * A)) : by_priority l -> l = filter (fun h => (fst h <? p)%Z) l ++ filter (fun h => negb (fst h <? p)%Z) l.
Proof.
  unfold by_priority. intros S1. apply Sorted_StronglySorted in S1; [|intros a b0 c0; lia].
  induction l as [|a l IH]; auto. inversion S1 as [|? ? A1 A2]; subst. cbn [filter]. destruct (fst a <? p)%Z eqn:L; cbn [negb app]; [now rewrite <- IH|].
  replace (filter (fun h => (fst h <? p)%Z) l) with (@nil (Z * A)); [cbn [app]; f_equal|].
  - clear - A2 L. induction A2 as [|x l H A2 IH]; auto. cbn [filter]. replace (fst x <? p)%Z with false by lia. cbn [negb]. now rewrite <- IH.
  - clear - A2 L. induction A2 as [|x l H A2 IH]; auto. cbn [filter]. replace (fst x <? p)%Z with false by lia. auto.
Qed.
Lemma filter_sorted {A} f (l : list (Z * A)) : by_priority l -> by_priority (filter f l).
Proof.
  unfold by_priority. intros S1. apply Sorted_StronglySorted in S1; [|intros a b0 c0; lia]. apply StronglySorted_Sorted.
  induction S1 as [|a l S1 IH F]; cbn [filter]; [constructor|]. destruct (f a); auto. constructor; auto. rewrite Forall_forall in *. intros x I. apply filter_In in I as [I _]. auto.
Qed.
Lemma filter_perm {A} f (l l' : list A) : Permutation l l' -> Permutation (filter f l) (filter f l').
Proof.
  induction 1 as [|x l l' P IH|x y l|l l' l2 P IH P' IH']; cbn [filter]; auto.
  - destruct (f x); auto.
  - destruct (f y), (f x); auto. apply perm_swap.
  - eapply perm_trans; eauto.
Qed.
Lemma posts_only l : (forall q k, In (q, k) l -> In (q, k) (flat_map use_post us)) -> by_priority l -> (forall y, In y l -> (fst y < 1000)%Z) ->
  (forall x, final x -> (forall y, In y l -> (520 <= fst y)%Z) -> final (fold_left (fun s h => h e s) (map snd l) x)) /\
  (forall s, E s -> trimmed s -> ~ three_newlines s -> In (520%Z, base_unescape) l -> final (fold_left (fun s h => h e s) (map snd l) s)) /\
  (forall s, E s -> In (500%Z, base_trim) l -> In (520%Z, base_unescape) l -> final (fold_left (fun s h => h e s) (map snd l) s)).
Proof.
  intros Sub Srt Bd. unfold by_priority in Srt. apply Sorted_StronglySorted in Srt; [|intros a b0 c0; lia].
  induction l as [|[q k] l IH]; [split; [|split]; [auto|intros s _ _ _ []|intros s _ []]|]. inversion Srt as [|? ? S1 S2]; subst. rewrite Forall_forall in S2.
  destruct IH as (IH1 & IH2 & IH3); auto; [intros; apply Sub; now right|intros; apply Bd; now right|]. cbn [map fold_left snd].
  destruct (use_post_cases us q k (Sub _ _ (or_introl eq_refl))) as [(-> & ->)|[(-> & ->)|(-> & ->)]].
  - split; [intros x _ L; specialize (L _ (or_introl eq_refl)); cbn [fst] in L; lia|].
    assert (H : forall s, E s -> In (520%Z, base_unescape) ((500%Z, base_trim) :: l) -> final (fold_left (fun s h => h e s) (map snd l) (base_trim e s))).
    { intros s Es [I|I]; [discriminate|]. unfold base_trim. apply IH2; auto; [now apply edged_post|apply post_trim_trimmed|apply post_trim_trimmed]. }
    split; auto.
  - assert (L : forall y, In y l -> (520 <= fst y)%Z) by (intros y Iy; exact (S2 y Iy)). split.
    + intros x F _. apply IH1; auto. unfold base_unescape. rewrite un_same; [exact F|]. now destruct F as (_ & _ & _ & N).
    + split; [intros s Es T Th _; apply IH1; auto; apply unescape_step; assumption|]. intros s _ [I|I] _; [discriminate|]. specialize (L _ I). cbn [fst] in L. lia.
  - specialize (Bd _ (or_introl eq_refl)). cbn [fst] in Bd. lia.
Qed.
Lemma stopped_conversion cfg doc out : In UseBase us -> In (UseCommonmark cfg) us -> unmarked_options us -> (forall tag raw, unmarked raw = true -> unmarked (url tag raw) = true) ->
  seen doc = true -> invisible doc = false -> converts (convert_node sort cv url doc) out ->
  exists s, converts (convert_node sort (stopped_before 1000 cv) url doc) s /\ final s /\ out = post_newline s.
Proof.
  intros Ib Ic Op Hu Sd I C0. assert (V : valid_cfg cfg = true) by (eapply converts_valid; eauto).
  pose proof C0 as C. eapply convert_done in C; [|reflexivity]. unfold run_conversion in C. cbv zeta in C.
  destruct (render _ _ _ _ _ _ _) as [x| |] eqn:R; cbn [bind] in *; try discriminate. injection C as C.
  assert (H : E x) by now apply (rendered_edge doc). unfold in_order at 1 in C. destruct (Hsort _ (cv_post cv)) as [Pm Sr].
  set (l := sort post_handler (cv_post cv)) in *. set (l' := sort post_handler (filter (fun h => (fst h <? 1000)%Z) (cv_post cv))).
  assert (Sub : forall q k, In (q, k) l -> In (q, k) (flat_map use_post us)). { intros q k J. rewrite <- (cw_post m us). eapply Permutation_in; [exact Pm|exact J]. }
  assert (Sub' : forall u h, In u us -> In h (use_post u) -> In h l). { intros u h J K. eapply Permutation_in; [apply Permutation_sym; exact Pm|]. rewrite cw_post. apply in_flat_map. eauto. }
  assert (L : filter (fun h => (fst h <? 1000)%Z) l = l').
  { destruct (Hsort _ (filter (fun h => (fst h <? 1000)%Z) (cv_post cv))) as [Pm' Sr']. apply sorted_same; auto.
    - eapply perm_trans; [apply filter_perm; exact Pm|]. apply Permutation_sym. exact Pm'.
    - now apply filter_sorted.
    - intros [q k] [q' k'] J J' Q. apply filter_In in J as [J _]. apply filter_In in J' as [J' _]. cbn [fst] in Q. subst q'. apply Sub, use_post_cases in J. apply Sub, use_post_cases in J'.
      f_equal. destruct J as [[? ->]|[[? ->]|[? ->]]], J' as [[? ->]|[[? ->]|[? ->]]]; auto; lia. }
  exists (fold_left (fun s h => h e s) (map snd l') x). split; [|split].
  - unfold converts, convert_node in *. cbn [stopped_before cv_err cv_render cv_plugins cv_post]. destruct (cv_err cv); [discriminate|]. destruct (is_empty _); [discriminate|].
    destruct (_ && _); [discriminate|]. unfold run_conversion. cbn [stopped_before cv_err cv_render cv_plugins cv_post cv_text]. cbv zeta.
    change (env_of sort (stopped_before 1000 cv) url) with e. change (prepared sort (stopped_before 1000 cv) url doc) with (prepared sort cv url doc). rewrite R. reflexivity.
  - rewrite <- L. apply posts_only; auto.
    + intros q k J. apply filter_In in J as [J _]. auto.
    + now apply filter_sorted.
    + intros y J. apply filter_In in J as [_ J]. lia.
    + apply filter_In. split; [|reflexivity]. apply (Sub' UseBase); auto. now left.
    + apply filter_In. split; [|reflexivity]. apply (Sub' UseBase); auto. right. now left.
  - rewrite <- C, (sorted_parts 1000 l Sr), L, map_app, fold_left_app. set (s := fold_left (fun s h => h e s) (map snd l') x).
    assert (Ts : exists k, toks k s).
    { assert (F : final s); [|destruct F as ((k & T & _) & _); eauto]. unfold s. rewrite <- L. apply posts_only; auto.
      + intros q k J. apply filter_In in J as [J _]. auto.
      + now apply filter_sorted.
      + intros y J. apply filter_In in J as [_ J]. lia.
      + apply filter_In. split; [|reflexivity]. apply (Sub' UseBase); auto. now left.
      + apply filter_In. split; [|reflexivity]. apply (Sub' UseBase); auto. right. now left. }
    assert (Ne : In (1000%Z, commonmark_post) (filter (fun h => negb (fst h <? 1000)%Z) l)).
    { apply filter_In. split; [|reflexivity]. apply (Sub' (UseCommonmark cfg)); auto. cbn [use_post]. rewrite V. now left. }
    assert (All : forall h, In h (map snd (filter (fun h => negb (fst h <? 1000)%Z) l)) -> h = commonmark_post).
    { intros h J. apply in_map_iff in J as ([q k] & <- & J). apply filter_In in J as [J Q]. cbn [fst snd] in *. apply Sub, use_post_cases in J. destruct J as [[? ->]|[[? ->]|[? ->]]]; auto; lia. }
    apply (in_map snd) in Ne. cbn [snd] in Ne. revert Ne All. generalize (map snd (filter (fun h => negb (fst h <? 1000)%Z) l)) as hs. clear - Ts.
    assert (G : forall hs, (forall h, In h hs -> h = commonmark_post) -> fold_left (fun s h => h e s) hs (post_newline s) = post_newline s).
    { destruct Ts as (k & Ts). induction hs as [|h hs IH]; intros All; auto. cbn [fold_left]. rewrite (All h (or_introl eq_refl)). unfold commonmark_post at 1. rewrite (newline_again s k Ts). apply IH.
      intros; apply All; now right. }
    intros hs Ne All. destruct hs as [|h hs]; [destruct Ne|]. cbn [fold_left]. rewrite (All h (or_introl eq_refl)). apply G. intros; apply All; now right.
Qed.
End whole.

Lemma unmarked_trimmed sort m us url doc out : unmarked_run sort m us url doc out -> trimmed out.
Proof.
  intros (Hs & Ib & Op & Hu & S & I & C).
  assert (S' : seen false doc = true).
  { revert S. unfold unmarked_document, seen. clear. induction doc using node_induction; cbn [seen_ok]; auto. }
  destruct (conversion_finished sort Hs false m us url doc out Ib Op Hu S' I C) as (s & ((k & Tk & G & _) & T & _) & [->| ->]); auto. eapply trimmed_newline; eauto.
Qed.
Lemma seen_both doc : unmarked_document doc = true -> without_code_blocks doc = true -> seen true doc = true.
Proof.
  unfold unmarked_document, without_code_blocks, seen.
  assert (K : forall ks, Forall (fun n => seen_ok unmarked (fun _ => true) n = true -> seen_ok (fun _ => true) (fun x => negb (beqb x (b "pre"))) n = true ->
                seen_ok unmarked (fun x => negb (true && beqb x (b "pre"))) n = true) ks ->
    forallb (seen_ok unmarked (fun _ => true)) ks = true -> forallb (seen_ok (fun _ => true) (fun x => negb (beqb x (b "pre")))) ks = true ->
    forallb (seen_ok unmarked (fun x => negb (true && beqb x (b "pre")))) ks = true).
  { intros ks F. rewrite !forallb_forall. intros A B n Hn. rewrite Forall_forall in F. apply F; auto. }
  induction doc as [d|x a ks IH|d|ks IH|d] using node_induction; cbn [seen_ok]; auto.
  intros A B. destruct (name_in hidden_names x); auto. cbn [orb] in *. apply andb_true_iff in A as [A1 A2]. apply andb_true_iff in B as [B1 B2].
  cbn [andb] in A1. apply andb_true_iff in B1 as [B1 _]. rewrite A1. cbn [andb] in *. rewrite B1. cbn [andb]. now apply K.
Qed.
Lemma unmarked_blank_runs sort m us url doc out : unmarked_run sort m us url doc out -> without_code_blocks doc = true -> ~ three_newlines out.
Proof.
  intros (Hs & Ib & Op & Hu & S & I & C) W.
  destruct (conversion_finished sort Hs true m us url doc out Ib Op Hu (seen_both doc S W) I C) as (s & ((k & Tk & _ & J) & _ & T & _) & [->| ->]); auto.
  unfold post_newline. rewrite replace_none; auto. eapply toks_no_mark; eauto.
Qed.

Lemma unmarked_stopped sort m us url doc out cfg : unmarked_run sort m us url doc out -> In (UseCommonmark cfg) us ->
  exists s, converts (convert_node sort (stopped_before 1000 (converter_with m us)) url doc) s /\ trimmed s /\ ~ three_newlines s /\ out = put_back s.
Proof.
  intros (Hs & Ib & Op & Hu & S & I & C) Ic.
  assert (S' : seen false doc = true).
  { revert S. unfold unmarked_document, seen. clear. induction doc using node_induction; cbn [seen_ok]; auto. }
  destruct (stopped_conversion sort Hs false m us url cfg doc out Ib Ic Op Hu S' I C) as (s & Cs & (_ & T & Th & _) & ->). exists s. auto.
Qed.
