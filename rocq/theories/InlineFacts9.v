(** From the document to the formatting that is read (C67): headings, and the whole document. *)
From Coq Require Import List NArith ZArith Bool String Lia ZifyBool ZifyNat ZifyN.
From Verif Require Import SpecDom DomFacts DomFacts2 DomFacts3 DomFacts4 Bytes BytesFacts TextUtils TextFacts TextFacts2 RenderText RenderFacts RenderFacts2 RenderFacts4 RenderFacts5 Escape SpecEscape SpecText SpecText2
  SpecUrl UrlFacts Dom DomUtils Engine CommonMark SpecEngine EngineFacts SpecPipeline PipelineFacts SpecPlain SpecNode NodeFacts PanicFacts PlainFacts2 PlainFacts3 PlainFacts4 SpecBlocks BlockFacts0 BlockFacts
  BlockFacts1 BlockFacts2 BlockFacts3 BlockFacts4 BlockFacts8 RenderFacts3 EscapeFacts EscapeFacts2 EscapeFacts3 EscapeFacts4 EscapeFacts5 EscapeFacts6 BlockFacts5 BlockFacts6 BlockFacts7 SpecInline InlineFacts1 InlineFacts2 InlineFacts3 InlineFacts4 InlineFacts5 InlineFacts6 InlineFacts7 InlineFacts8.
Import ListNotations.
Open Scope N_scope.
Open Scope list_scope.

(** ** The last byte *)
Lemma last_app_ne (x y : bytes) d : y <> [] -> last (x ++ y) d = last y d.
Proof. intros N. destruct (exists_last N) as (u & c & ->). now rewrite app_assoc, !last_last. Qed.
Lemma last_cons_ne (c : N) (y : bytes) d : y <> [] -> last (c :: y) d = last y d.
Proof. intros N. now apply (last_app_ne [c] y d). Qed.
Lemma busy_last t o : busy_as t o -> t <> [] -> last o 0 = last t 0 \/ last o 0 = 59.
Proof.
  assert (K : forall (t o : bytes) c d, (o = [] <-> t = []) -> (t <> [] -> last o 0 = last t 0 \/ last o 0 = 59) -> c = d \/ c = 59 -> last (c :: o) 0 = last (d :: t) 0 \/ last (c :: o) 0 = 59).
  { intros t' o' c d E H D. destruct t' as [|e t']; [rewrite (proj2 E eq_refl); cbn; lia|]. assert (o' <> []) by (intros ->; now discriminate (proj1 E eq_refl)). rewrite !last_cons_ne by (auto; discriminate). apply H. discriminate. }
  assert (E : forall t o, busy_as t o -> (o = [] <-> t = [])) by (intros t' o' H; split; intros ->; inversion H; reflexivity).
  induction 1 as [|c t o _ _ _ _ _ _ _ H IH|c t o _ _ H IH|c t o _ _ H IH|t o H IH|t o H IH]; intros N; [easy| | | | |].
  - apply K; auto.
  - rewrite last_cons_ne by discriminate. apply K; auto.
  - apply K; auto.
  - do 3 rewrite last_cons_ne by discriminate. apply K; auto.
  - do 3 rewrite last_cons_ne by discriminate. apply K; auto.
Qed.
Lemma img_last l s t : img l s t -> t <> [] -> last s 0 = last t 0 \/ last s 0 = 59.
Proof.
  assert (K : forall (t o : bytes) c d, (o = [] <-> t = []) -> (t <> [] -> last o 0 = last t 0 \/ last o 0 = 59) -> c = d \/ c = 59 -> last (c :: o) 0 = last (d :: t) 0 \/ last (c :: o) 0 = 59).
  { intros t' o' c d E H D. destruct t' as [|e t']; [rewrite (proj2 E eq_refl); cbn; lia|]. assert (o' <> []) by (intros ->; now discriminate (proj1 E eq_refl)). rewrite !last_cons_ne by (auto; discriminate). apply H. discriminate. }
  assert (E : forall s t, img l s t -> (s = [] <-> t = [])) by (intros t' o' H; split; intros ->; inversion H; reflexivity).
  induction 1 as [|c s v _ _ _ _ H IH|c s v _ H IH|s v H IH|s v H IH]; intros N; [easy| | | |].
  - apply K; auto.
  - rewrite last_cons_ne by discriminate. apply K; auto.
  - do 3 rewrite last_cons_ne by discriminate. apply K; auto.
  - do 3 rewrite last_cons_ne by discriminate. apply K; auto.
Qed.
Section ends.
Variable url : bytes -> bytes.
Variable cfg : config.
Hypothesis Hcfg : usual_delimiters cfg.
Variable T : bytes -> bytes -> Prop.
Variables em inner : node -> bytes -> Prop.
Hypothesis HT : forall t s, T t s -> t <> [] /\ s <> [] /\ (last s 0 = last t 0 \/ last s 0 = 59).
Lemma drawn_last n s : drawn url cfg T em inner n s -> s <> [] /\ ((exists t, n = Text t /\ T t s) \/ (In (last s 0) [42; 95; 96; 41] /\ In (hd 0 s) [42; 95; 96; 91])).
Proof.
  intros D. destruct D as [t s H|y a gs zs E H|y a d C Q|a ks ss F P].
  - split; [apply (HT t s H)|]. left. eauto.
  - destruct (delimiter_cases cfg Hcfg y) as (c & k & -> & C & -> & _). assert (exists j, (if strong_element y then 2 else 1)%nat = S j) as (j & ->) by (destruct (strong_element y); eauto).
    split; [discriminate|]. right. split; [|cbn [repeat app hd In]; lia]. rewrite app_assoc. replace (S j) with (j + 1)%nat by lia. rewrite repeat_app, app_assoc. cbn [repeat]. rewrite last_last. cbn [In]. lia.
  - destruct (code_written d Q) as (j & -> & _). split; [discriminate|]. right. split; [|cbn [repeat app hd In]; lia]. rewrite app_assoc. replace (S j) with (j + 1)%nat by lia. rewrite repeat_app, app_assoc. cbn [repeat]. rewrite last_last. cbn [In]. lia.
  - split; [discriminate|]. right. split; [|cbn; tauto]. unfold dest_and_title. cbn [is_empty app]. set (dest := url _). replace (91 :: List.concat ss ++ 93 :: 40 :: dest ++ [41]) with ((91 :: List.concat ss ++ 93 :: 40 :: dest) ++ [41]) by (cbn [app]; rewrite <- app_assoc; reflexivity).
    rewrite last_last. cbn. tauto.
Qed.
Lemma drawns_last ks ss : Forall2 (drawn url cfg T em inner) ks ss -> ks <> [] ->
  List.concat ss <> [] /\ ((exists t, last ks (Comment []) = Text t /\ t <> [] /\ (last (List.concat ss) 0 = last t 0 \/ last (List.concat ss) 0 = 59)) \/ In (last (List.concat ss) 0) [42; 95; 96; 41]).
Proof.
  induction 1 as [|n s ks ss D F IH]; intros N; [easy|]. destruct (drawn_last n s D) as [Ns L]. destruct F as [|n2 s2 ks ss D2 F].
  - cbn [List.concat last]. rewrite app_nil_r. split; auto. destruct L as [(t & -> & H)|[L _]]; auto. left. exists t. destruct (HT t s H) as (A & _ & B). auto.
  - destruct (IH ltac:(discriminate)) as [Nc L']. change (List.concat (s :: s2 :: ss)) with (s ++ List.concat (s2 :: ss)). rewrite last_app_ne by auto. split; [now destruct s|]. exact L'.
Qed.
End ends.
Lemma single_app x y : single_spaced x = true -> single_spaced y = true -> (last x 0 <> 32 \/ hd 0 y <> 32) -> single_spaced (x ++ y) = true.
Proof.
  intros Hx Hy H. induction x as [|c x IH]; auto. cbn [app single_spaced] in *. apply andb_true_iff in Hx as [H1 H2]. destruct x as [|d x].
  - cbn [app last] in *. rewrite Hy, andb_true_r. destruct y as [|e y]; [cbn; now rewrite andb_false_r|]. cbn [first_is hd] in *. lia.
  - rewrite IH; auto. now rewrite andb_true_r.
Qed.
Lemma single_none s : ~ In 32 s -> single_spaced s = true.
Proof. induction s as [|c s IH]; intros N; auto. cbn [single_spaced]. rewrite IH by (intros I; apply N; now right). replace (c =? 32) with false; [reflexivity|]. symmetry. apply N.eqb_neq. intros ->. apply N. now left. Qed.

(** ** Single spaces *)
Fixpoint texts_apart (ks : list node) : bool := match ks with Text _ :: r => negb (is_text (hd (Comment []) r)) && texts_apart r | _ :: r => texts_apart r | [] => true end.
Lemma runs_apart url cfg q ks : forall prev before, runs url cfg q prev before ks = true -> texts_apart ks = true.
Proof.
  induction ks as [|n r IH]; intros prev before R; auto. cbn [runs] in R. apply andb_true_iff in R as [_ R]. destruct (kind_of n) as [k|] eqn:K; [|discriminate]. apply andb_true_iff in R as [_ R]. cbn [texts_apart]. rewrite (IH _ _ R), andb_true_r.
  destruct n; auto. injection K as <-. destruct r as [|m r]; auto. cbn [hd]. cbn [runs] in R. apply andb_true_iff in R as [_ R]. destruct m; auto.
Qed.
Lemma single_concat (D : node -> bytes -> Prop) ks ss : texts_apart ks = true -> Forall2 D ks ss -> Forall2 (fun n s => s <> [] /\ single_spaced s = true /\ (is_text n = true \/ (hd 0 s <> 32 /\ last s 0 <> 32))) ks ss -> single_spaced (List.concat ss) = true.
Proof.
  intros A _ F. induction F as [|n s ks ss (Ns & Ss & E) F IH]; auto. assert (A' : texts_apart ks = true) by (cbn [texts_apart] in A; destruct n; auto; now apply andb_true_iff in A as [_ A]).
  cbn [List.concat]. apply single_app; auto. destruct E as [E|[_ E]]; auto. destruct n; try discriminate. right. cbn [texts_apart] in A. apply andb_true_iff in A as [A _].
  destruct F as [|m t ks ss (Nt & _ & Et) F]; [cbn; discriminate|]. cbn [hd] in A. destruct Et as [Et|[Et _]]; [rewrite Et in A; discriminate|]. cbn [List.concat]. now destruct t.
Qed.
Section spaces.
Variable l : list N.
Hypothesis Hl : forall c, In c l -> c < 128 /\ c <> 0 /\ c <> 7 /\ ~ ws_byte c.
Hypothesis Hp : forall c, In c l -> ascii_punct c = true /\ c <> 38 /\ c <> 59.
Variable url : bytes -> bytes.
Variable cfg : config.
Hypothesis Hcfg : usual_delimiters cfg.
Notation leaf_drawn := (drawn url cfg (quiet_raw l) (only (quiet_raw l)) (fun _ _ => False)).
Notation piece_drawn := (drawn url cfg (busy_raw l) leaf_drawn leaf_drawn).
Lemma squeeze_back s : forall p, squeeze_spaces p s = s -> single_spaced s = true /\ (p = true -> first_is 32 s = false).
Proof.
  induction s as [|c s IH]; intros p E; [easy|]. cbn [squeeze_spaces single_spaced first_is] in *. unfold cSP in E. destruct (c =? 32) eqn:C.
  - destruct p. { exfalso. pose proof (squeeze_short s true) as L. rewrite E in L. cbn in L. lia. }
    injection E as E. destruct (IH _ E) as [A B]. rewrite A, B by auto. easy.
  - injection E as E. destruct (IH _ E) as [A _]. rewrite A. easy.
Qed.
Lemma raw_single t s : busy_raw l t s -> single_spaced s = true.
Proof.
  intros [Q R]. unfold raw in R. subst s. unfold busy_text in Q. rewrite !andb_true_iff in Q. destruct Q as [[[[_ _] Q] _] _].
  apply (squeeze_back _ false). apply (squeeze_written l Hl Hp). now apply squeeze_single.
Qed.
Lemma raw_last t s : busy_raw l t s -> t <> [] /\ s <> [] /\ (last s 0 = last t 0 \/ last s 0 = 59).
Proof.
  intros B. pose proof (raw_img l Hl Hp t s B) as M. destruct (raw_sound l Hl Hp t s B) as (N & _ & _ & c & u & -> & _). split; auto. split; [discriminate|]. eapply img_last; eauto.
Qed.
Lemma leaf_last n s : leaf_drawn n s -> s <> [] /\ (is_text n = true \/ (hd 0 s <> 32 /\ last s 0 <> 32)).
Proof.
  intros D. destruct (drawn_last url cfg Hcfg (quiet_raw l) (only (quiet_raw l)) (fun _ _ => False) ltac:(intros t s' H; apply raw_last; eapply quiet_busy_raw; eauto) n s D) as [N [(t & -> & _)|[A B]]]; split; auto.
  right. cbn [In] in A, B. lia.
Qed.
Lemma piece_last n s : piece_drawn n s -> s <> [] /\ (is_text n = true \/ (hd 0 s <> 32 /\ last s 0 <> 32)).
Proof.
  intros D. destruct (drawn_last url cfg Hcfg (busy_raw l) leaf_drawn leaf_drawn raw_last n s D) as [N [(t & -> & _)|[A B]]]; split; auto.
  right. cbn [In] in A, B. lia.
Qed.
Lemma single_between d s e : ~ In 32 d -> single_spaced s = true -> ~ In 32 e -> single_spaced (d ++ s ++ e) = true.
Proof.
  intros D S E. assert (L : last d 0 <> 32). { intros L. destruct d as [|c d _] using rev_ind; [discriminate|]. rewrite last_last in L. apply D. apply in_app_iff. right. now left. }
  assert (H : hd 0 e <> 32). { intros H. destruct e as [|c e]; [discriminate|]. apply E. now left. }
  apply single_app; auto using single_none. apply single_app; auto using single_none.
Qed.
Lemma delimiter_no32 y : ~ In 32 (delimiter cfg y).
Proof. destruct (delimiter_cases cfg Hcfg y) as (c & k & -> & C & _). intros I. apply repeat_spec in I. lia. Qed.
Lemma code_single d : quiet_code d = true -> single_spaced (inline_code_text d) = true.
Proof.
  intros Q. destruct (code_written d Q) as (j & -> & _). assert (R : ~ In 32 (repeat 96 (S j))) by (intros I; apply repeat_spec in I; discriminate). apply single_between; auto.
  unfold quiet_code in Q. rewrite !andb_true_iff in Q. tauto.
Qed.
Lemma link_single s dest : single_spaced s = true -> plain_address dest = true -> single_spaced (91 :: s ++ 93 :: dest_and_title dest []) = true.
Proof.
  intros S P. apply (single_between [91] s); auto; [cbn; lia|]. unfold dest_and_title. cbn [is_empty app In]. rewrite in_app_iff. cbn [In]. unfold plain_address in P. rewrite !andb_true_iff in P. destruct P as [_ P].
  intros [I|[I|[I|[I|[]]]]]; try lia. rewrite forallb_forall in P. apply P in I. discriminate.
Qed.
Lemma leaf_single before after n s : run url cfg None before after n = true -> leaf_drawn n s -> single_spaced s = true.
Proof.
  intros R D. destruct D as [t s H|y a gs zs E H|y a d C Q|a ks ss F P].
  - eapply raw_single. eapply quiet_busy_raw; eauto.
  - destruct (run_emphasis url cfg _ _ _ _ _ _ R E) as (d & -> & _). inversion H as [|? s ? ? H1 H2]; subst. inversion H2; subst. inversion H1 as [? ? Q]; subst. apply single_between; auto using delimiter_no32. cbn [List.concat]. rewrite app_nil_r. eapply raw_single. eapply quiet_busy_raw; eauto.
  - now apply code_single.
  - destruct F; [|contradiction]. now apply link_single.
Qed.
Lemma leaves_single ks ss : link_content url cfg ks = true -> Forall2 leaf_drawn ks ss -> single_spaced (List.concat ss) = true.
Proof.
  intros L F. pose proof (filled_runs _ _ L) as R. eapply single_concat; eauto; [eapply runs_apart; eauto|]. revert R. generalize 32 at 1. generalize KLink. clear L. induction F as [|n s ks ss D F IH]; intros p bf R; constructor; cbn [runs] in R; apply andb_true_iff in R as [R1 R].
  - destruct (leaf_last n s D) as [A B]. split; auto. split; auto. eapply leaf_single; eauto.
  - destruct (kind_of n); [|discriminate]. apply andb_true_iff in R as [_ R]. eapply IH; eauto.
Qed.
Lemma piece_single before after n s : run url cfg (Some (link_content url cfg)) before after n = true -> piece_drawn n s -> single_spaced s = true.
Proof.
  intros R D. destruct D as [t s H|y a gs zs E H|y a d C Q|a ks ss F P].
  - eapply raw_single; eauto.
  - destruct (run_emphasis url cfg _ _ _ _ _ _ R E) as (L & _). apply single_between; auto using delimiter_no32. now apply (leaves_single gs).
  - now apply code_single.
  - destruct (run_link url cfg _ _ _ _ R eq_refl) as (? & ? & gs' & q & [= <- <- <-] & _ & Ep & _ & Pg & _). injection Ep as <-. apply link_single; auto. now apply (leaves_single ks).
Qed.
Lemma pieces_single ks ss : paragraph url cfg ks = true -> Forall2 piece_drawn ks ss -> single_spaced (List.concat ss) = true.
Proof.
  intros L F. pose proof (filled_runs _ _ L) as R. eapply single_concat; eauto; [eapply runs_apart; eauto|]. revert R. generalize 32 at 1. generalize KLink. clear L. induction F as [|n s ks ss D F IH]; intros p bf R; constructor; cbn [runs] in R; apply andb_true_iff in R as [R1 R].
  - destruct (piece_last n s D) as [A B]. split; auto. split; auto. eapply piece_single; eauto.
  - destruct (kind_of n); [|discriminate]. apply andb_true_iff in R as [_ R]. eapply IH; eauto.
Qed.
(** ** Headings *)
Lemma not_hash_end ks t : ends_in_hash ks = false -> last ks (Comment []) = Text t -> t <> [] -> last t 0 <> 35.
Proof. intros E L N. unfold ends_in_hash in E. rewrite L in E. destruct (exists_last N) as (u & c & ->). rewrite last_is_snoc in E. rewrite last_last. lia. Qed.
Lemma raw_end ks ss : ks <> [] -> ends_in_hash ks = false -> Forall2 piece_drawn ks ss -> List.concat ss <> [] /\ last (List.concat ss) 0 <> 35.
Proof.
  intros N E F. destruct (drawns_last url cfg Hcfg (busy_raw l) leaf_drawn leaf_drawn raw_last ks ss F N) as [Nc [(t & L & Nt & H)|H]]; split; auto.
  - pose proof (not_hash_end ks t E L Nt). lia.
  - cbn [In] in H. lia.
Qed.
Notation leaf_final := (drawn url cfg quiet_final (only quiet_final) (fun _ _ => False)).
Notation piece_final := (drawn url cfg busy_final leaf_final leaf_final).
Lemma busy_final_last t o : busy_final t o -> t <> [] /\ o <> [] /\ (last o 0 = last t 0 \/ last o 0 = 59).
Proof.
  intros [Q B]. apply busy_parts in Q as (N & _ & _). split; auto. split; [intros ->; inversion B; subst; auto|now apply busy_last].
Qed.
Lemma final_last ks os : paragraph url cfg ks = true -> Forall2 piece_final ks os -> exists u c, List.concat os = u ++ [c] /\ (ends_in_hash ks = false -> c <> 35) /\ c <> 32 /\ c <> 9.
Proof.
  intros P F. assert (N : ks <> []) by (intros ->; discriminate). destruct (drawns_last url cfg Hcfg busy_final leaf_final leaf_final busy_final_last ks os F N) as [Nc H].
  destruct (exists_last Nc) as (u & c & Ec). exists u, c. split; auto. pose proof (finals_no9 (fun _ => Blank) (fun _ => Blank) url cfg Hcfg ks os F) as N9. rewrite Ec in *. rewrite last_last in H. assert (C9 : c <> 9) by (intros ->; apply N9; apply in_app_iff; right; now left).
  destruct H as [(t & L & Nt & H)|H]; [|cbn [In] in H; lia]. split; [intros E; pose proof (not_hash_end ks t E L Nt); lia|]. split; auto. destruct H as [H|H]; [|lia]. rewrite H. intros T32.
  unfold paragraph, filled in P. destruct ks as [|n ks]; [discriminate|]. rewrite !andb_true_iff in P. destruct P as [[_ P] _]. unfold snug in P. apply andb_true_iff in P as [_ P]. rewrite L in P.
  destruct (exists_last Nt) as (v & d & ->). rewrite last_last in T32. subst d. unfold decode_last_rune in P. rewrite rev_app_distr in P. discriminate.
Qed.
Lemma final_first ks os : paragraph url cfg ks = true -> Forall2 piece_final ks os -> exists c u, List.concat os = c :: u /\ c <> 32 /\ c <> 9.
Proof.
  intros P F. destruct F as [|n o ks os D F]; [discriminate|]. destruct (piece_final_sound url cfg Hcfg _ _ D) as (_ & _ & c & u & -> & C1 & C2). cbn [List.concat app]. exists c, (u ++ List.concat os). split; auto. split; auto.
  intros ->. unfold paragraph, filled in P. rewrite !andb_true_iff in P. destruct P as [[P _] _]. rewrite C1 in P by auto. discriminate.
Qed.
End spaces.
(** ** Only text is behind bells *)
Inductive belled : bytes -> Prop :=
| be_nil : belled []
| be_char c s : c <> 7 -> belled s -> belled (c :: s)
| be_bell c s : c <> 7 -> ~ ws_byte c -> belled s -> belled (7 :: c :: s).
Lemma belled_app s z : belled s -> belled z -> belled (s ++ z).
Proof. induction 1; intros; cbn [app]; auto; [apply be_char|apply be_bell]; auto. Qed.
Lemma belled_none s : ~ In 7 s -> belled s.
Proof. induction s as [|c s IH]; intros N; constructor; [intros ->; apply N; now left|]. apply IH. intros I. apply N. now right. Qed.
Lemma belled_concat ss : Forall belled ss -> belled (List.concat ss).
Proof. induction 1; cbn [List.concat]; [constructor|]. now apply belled_app. Qed.
Lemma belled_lit s D : explains s D -> belled s -> Forall (fun x => snd x <> Raw -> ~ ws_byte (fst x)) D.
Proof.
  induction 1; intros B; auto.
  - constructor; [cbn; congruence|]. apply IHexplains. inversion B; subst; auto. congruence.
  - inversion B; subst; [congruence|]. constructor; auto.
  - inversion B; subst; [congruence|]. constructor; [cbn; unfold ws_byte; lia|]. constructor; auto.
  - inversion B; subst; congruence.
Qed.
Lemma belled_end w D : belled w -> last_is 7 w = false -> w <> [] -> is_space_rune (fst (decode_last_rune w)) = false -> explains w D -> is_space_rune (fst (decode_last_rune (map fst D))) = false.
Proof.
  intros Bw L7 Nw H X. destruct (is_space_rune (fst (decode_last_rune (map fst D)))) eqn:Q; auto. exfalso. pose proof (belled_lit w D X Bw) as F.
  destruct (trim_right_spaces (map fst D)) as (y & E & Sy). destruct y as [|c y].
  - rewrite app_nil_r in E. pose proof (trim_right_ends (map fst D)) as Z. rewrite <- E in Z. unfold ends_nonspace in Z.
    destruct D; [|rewrite Z in Q; discriminate]. apply explains_none in X; auto.
  - assert (Fw : Forall ws_byte (c :: y)) by now apply spaces_ws. apply map_fst_app in E as (Da & Db & ED & Ea & Eb).
    assert (Rb : Db = map (fun c => (c, Raw)) (c :: y)).
    { rewrite ED in F. apply Forall_app in F as [_ F]. rewrite <- Eb in Fw |- *. clear - F Fw. induction Db as [|(z, k) Db IH]; auto. cbn [map fst] in *.
      inversion F as [|? ? F1 F2]; subst. inversion Fw as [|? ? W1 W2]; subst. rewrite <- IH by auto. f_equal. f_equal. cbn in F1. destruct k; auto; exfalso; apply F1; auto; discriminate. }
    rewrite Rb in ED. destruct (explains_raw_end _ _ X L7 Da (c :: y) ED) as (u & ->). rewrite space_suffix in H by (auto; discriminate). discriminate.
Qed.
Lemma img_belled l s t : (forall c, In c l -> c < 128 /\ c <> 0 /\ c <> 7 /\ ~ ws_byte c) -> img l s t -> belled s.
Proof. intros Hl. induction 1; [constructor|apply be_char; auto|apply be_bell; auto; apply (Hl c); now apply esc_in| |]; repeat (apply be_char; [discriminate|]); auto. Qed.
Section bells.
Variable url : bytes -> bytes.
Variable cfg : config.
Hypothesis Hcfg : usual_delimiters cfg.
Lemma drawn_belled (T : bytes -> bytes -> Prop) (em inner : node -> bytes -> Prop) : (forall t s, T t s -> belled s) -> (forall n s, em n s -> belled s) -> (forall n s, inner n s -> belled s) ->
  forall n s, drawn url cfg T em inner n s -> belled s.
Proof.
  intros HT He Hi. assert (G : forall (P : node -> bytes -> Prop) ks ss, (forall n s, P n s -> belled s) -> Forall2 P ks ss -> belled (List.concat ss)).
  { intros P ks ss H F. apply belled_concat. induction F; constructor; eauto. }
  assert (R : forall c k, c <> 7 -> belled (repeat c k)) by (intros c k C; apply belled_none; intros I; apply repeat_spec in I; congruence).
  intros n s D. destruct D as [t s H|y a gs zs E H|y a d C Q|a ks ss F P].
  - eauto.
  - destruct (delimiter_cases cfg Hcfg y) as (c & k & -> & C & _). assert (c <> 7) by lia. apply belled_app; auto. apply belled_app; eauto.
  - destruct (code_written d Q) as (j & -> & _). apply belled_app; [apply R; lia|]. apply belled_app; [|apply R; lia]. apply belled_none. intros I. unfold quiet_code in Q. rewrite !andb_true_iff in Q. destruct Q as [[[_ Q] _] _]. rewrite forallb_forall in Q. apply Q in I. discriminate.
  - constructor; [discriminate|]. apply belled_app; [eauto|]. unfold dest_and_title. cbn [is_empty app]. constructor; [discriminate|]. constructor; [discriminate|]. apply belled_none. rewrite in_app_iff. intros [I|[I|[]]]; [|discriminate].
    unfold plain_address in P. rewrite !andb_true_iff in P. destruct P as [_ P]. rewrite forallb_forall in P. apply P in I. discriminate.
Qed.
End bells.
Section whole.
Variable x : setting.
Hypothesis Hsort : sorts (st_sort x).
Hypothesis Hmode : st_mode x = Smart.
Hypothesis Hone : exists A B, st_uses x = A ++ UseBase :: B /\ ~ In UseBase (A ++ B).
Variable cfg : config.
Hypothesis Hopt : options x cfg.
Hypothesis Hdel : usual_delimiters cfg.
Hypothesis Hstyle : link_style cfg = b "inlined".
Notation us := (st_uses x).
Notation l := (cv_chars (converter_with Smart us)).
Notation url := (st_url x (b "a")).
Notation cv := (converter_with Smart us).
Notation e := (env_of (st_sort x) cv (st_url x)).
Let Hl := chars_ok Smart us.
Let Hp : forall c, In c l -> ascii_punct c = true /\ c <> 38 /\ c <> 59.
Proof. destruct Hopt as (cfg0 & _ & _ & V & _). apply (chars_punct us (st_url x) cfg0). unfold valid_cfg. now rewrite V. Qed.
Notation leaf_drawn := (drawn url cfg (quiet_raw l) (only (quiet_raw l)) (fun _ _ => False)).
Notation piece_drawn := (drawn url cfg (busy_raw l) leaf_drawn leaf_drawn).
Notation leaf_final := (drawn url cfg quiet_final (only quiet_final) (fun _ _ => False)).
Notation piece_final := (drawn url cfg busy_final leaf_final leaf_final).
Lemma drawn_line ks ss : paragraph url cfg ks = true -> Forall2 piece_drawn ks ss -> hugs (List.concat ss) /\ nm (List.concat ss) = true /\ ~ In 10 (List.concat ss).
Proof.
  intros P F. split; [|apply (concat_sound piece_drawn (piece_sound x cfg Hopt Hdel) ks ss F)].
  eapply drawn_hugs; [exact Hdel|apply (raw_sound l Hl Hp)|apply (leaf_sound x cfg Hopt Hdel)|apply (leaf_sound x cfg Hopt Hdel)|apply (raw_edges l Hl Hp)|exact P|exact F].
Qed.
(** ** The texts of paragraphs and headings *)
Section read.
Variables wb wa : bytes -> class.
Notation decode := (read_inline wb wa).
Definition para_text (w : bytes) (v : option styled) : Prop :=
  exists ks ss, paragraph url cfg ks = true /\ Forall2 piece_drawn ks ss /\ w = List.concat ss /\ v = Some (flat_map (formatted url) ks).
Definition atx_line_text (w : bytes) (v : option styled) : Prop :=
  exists ks ss, paragraph url cfg ks = true /\ ends_in_hash ks = false /\ Forall2 piece_drawn ks ss /\ w = List.concat ss /\ v = Some (flat_map (formatted url) ks).
Lemma atx_para w v : atx_line_text w v -> para_text w v.
Proof. intros (ks & ss & P & _ & F & E & V). exists ks, ss. auto. Qed.
Lemma para_shaped w v : para_text w v -> ~ In 10 w /\ hugs w /\ ~ infix marker_nl w /\ last_is 7 w = false.
Proof.
  intros (ks & ss & P & F & -> & _). destruct (drawn_line ks ss P F) as (H & A & B). split; auto. split; auto. split; [now apply nm_no_mark|]. exact (drawns_last7 l Hl Hp url cfg Hdel ks ss F).
Qed.
Lemma inline_shaped : shaped_texts para_text atx_line_text.
Proof.
  split; [exact para_shaped|]. intros w v A. destruct (para_shaped w v (atx_para w v A)) as (N10 & (N & _ & H) & M & L). repeat split; auto.
Qed.
Lemma pieces_belled ks ss : Forall2 piece_drawn ks ss -> belled (List.concat ss).
Proof.
  assert (B0 : forall t s, busy_raw l t s -> belled s) by (intros t s H; eapply (img_belled l _ _ Hl); eapply (raw_img l Hl Hp); eauto).
  assert (Q0 : forall t s, quiet_raw l t s -> belled s) by (intros t s H; eapply B0; eapply quiet_busy_raw; eauto).
  assert (L0 : forall n o, leaf_drawn n o -> belled o) by (apply (drawn_belled url cfg Hdel); [exact Q0| |easy]; intros n' o' [t s' Q]; eauto).
  intros F. apply belled_concat. induction F as [|n s ks ss D F IH]; constructor; auto. revert D. apply (drawn_belled url cfg Hdel); auto.
Qed.
Lemma para_end w v D : para_text w v -> explains w D -> is_space_rune (fst (decode_last_rune (map fst D))) = false.
Proof. intros P X. destruct (para_shaped w v P) as (_ & (N & _ & H) & _ & L). destruct P as (ks & ss & _ & F & -> & _). eapply belled_end; eauto. eapply pieces_belled; eauto. Qed.
Lemma inline_explained ds : Escape.bundled ds -> protects (is_escaped_in l) -> explained decode para_text atx_line_text ds.
Proof.
  intros Bd Hc.
  assert (C : forall ks os, paragraph url cfg ks = true -> Forall2 piece_final ks os -> ~ In 10 (List.concat os) /\ (exists c u, List.concat os = c :: u /\ c <> 32 /\ c <> 9) /\ decode (List.concat os) = Some (flat_map (formatted url) ks)
     /\ ~ infix marker_nl (List.concat os) /\ ~ In 9 (List.concat os)).
  { intros ks os P F. destruct (final_line wb wa url cfg Hdel ks os P F) as (M & N10 & _). split; auto. split; [eapply final_first; eauto|]. split; [eapply paragraph_read; eauto|]. split; [now apply nm_no_mark|]. exact (finals_no9 wb wa url cfg Hdel ks os F). }
  split; intros S0 w v A D1 Z T X E La Ez.
  - split; [|eapply para_end; eauto]. destruct T as (ks & ss & P & F & -> & ->).
    destruct (paragraph_line l Hl Hp Hc ds Bd S0 url cfg Hdel wb wa ks ss A D1 Z P F X E La Ez) as (O & os & Eo & Fo). destruct (C ks os P Fo) as (C1 & C2 & C3 & C4 & C5).
    destruct (final_last l Hl Hp url cfg Hdel ks os P Fo) as (u & c & Ec & _ & D2 & D3). rewrite Eo in *.
    unfold other_line in O. cbv zeta in O. destruct C2 as (d & z & Ed & Nd1 & Nd2). destruct (first_facts (fun s : bytes => s) d z Nd1 Nd2) as (_ & _ & Fs). rewrite Ed in *. rewrite Fs in O. rewrite !orb_false_iff in O. destruct O as [[[[[[[[_ O1] O2] O3] O4] O5] O6] O7] O8].
    rewrite tabs_id in O1 by auto. unfold plain_line, unread. rewrite O1, O2, O3, O4, O5, O6, O7, O8. repeat split; eauto.
  - split; [|exact (para_end w v D1 (atx_para w v T) X)]. destruct T as (ks & ss & P & H & F & -> & ->).
    destruct (pieces_final l Hl Hp Hc ds Bd S0 url cfg Hdel ks ss F A D1 Z X E (not_escaped A La)) as (os & Eo & Fo). destruct (C ks os P Fo) as (C1 & C2 & C3 & C4 & C5).
    destruct (final_last l Hl Hp url cfg Hdel ks os P Fo) as (u & c & Ec & D1' & D2 & D3). rewrite Eo in *. repeat split; auto. left. exists u, c. auto.
Qed.
Notation hr := (horizontal_rule cfg).
Notation segment := (seg decode para_text atx_line_text hr).
Notation flows := (flow segment).
Notation blocks := (article_blocks url).
Lemma leaf_events n : leaf n -> events n = [EvStop].
Proof.
  destruct 1 as [d|y a d E|y a d E1 E2 N]; auto.
  - unfold strong_element, em_element, name_in in E. cbn [existsb map] in E. rewrite !orb_true_iff in E. decompose [or] E; try discriminate; match goal with Q : beqb _ _ = true |- _ => apply beqb_eq in Q; subst y end; reflexivity.
  - unfold code_element, name_in in E2. cbn [existsb map] in E2. rewrite !orb_true_iff in E2. decompose [or] E2; try discriminate; match goal with Q : beqb _ _ = true |- _ => apply beqb_eq in Q; subst y end; reflexivity.
Qed.
Lemma leaves_events ks : Forall leaf ks -> flat_map events ks = repeat EvStop (List.length ks).
Proof. induction 1 as [|n ks H _ IH]; auto. cbn [flat_map List.length repeat]. now rewrite leaf_events, IH. Qed.
Lemma piece_events before after n k : run url cfg (Some (link_content url cfg)) before after n = true -> kind_of n = Some k -> piece n -> exists j, events n = repeat EvStop (S j).
Proof.
  intros R K P. destruct P as [n L|y a ks E C F _|a ks F _].
  - exists O. now apply leaf_events.
  - destruct (run_emphasis url cfg _ _ _ _ _ _ R E) as [L _]. destruct ks as [|m ks]; [discriminate|]. exists (List.length ks). rewrite <- (leaves_events (m :: ks) F : _ = repeat EvStop (S (List.length ks))).
    clear - E. unfold strong_element, em_element, name_in in E. cbn [existsb map] in E. rewrite !orb_true_iff in E. decompose [or] E; try discriminate; match goal with Q : beqb _ _ = true |- _ => apply beqb_eq in Q; subst y end; reflexivity.
  - destruct (run_link url cfg _ _ _ _ R eq_refl) as (? & ? & gs & q & [= <- <- <-] & _ & [= <-] & _ & L & _). destruct ks as [|m ks]; [discriminate|]. exists (List.length ks). exact (leaves_events (m :: ks) F).
Qed.
Lemma pieces_events ks : forall prev before, runs url cfg (Some (link_content url cfg)) prev before ks = true -> Forall piece ks -> exists j, flat_map events ks = repeat EvStop j /\ (ks <> [] -> j <> O).
Proof.
  induction ks as [|n ks IH]; intros prev before R F; [exists O; auto|]. inversion F as [|? ? F1 F2]; subst. cbn [runs] in R. apply andb_true_iff in R as [R1 R]. destruct (kind_of n) as [k|] eqn:K; [|discriminate]. apply andb_true_iff in R as [_ R].
  destruct (piece_events _ _ n k R1 K F1) as (j & E). destruct (IH _ _ R F2) as (j2 & E2 & _). exists (S j + j2)%nat. cbn [flat_map]. rewrite E, E2, repeat_app. split; auto. lia.
Qed.
Lemma stops_last al j : j <> O -> lastc al (repeat EvStop j) = false.
Proof. intros N. destruct j as [|j]; [easy|]. unfold lastc. cbn [repeat fold_left]. clear N. induction j as [|j IH]; auto. Qed.
Lemma paragraph_events ks al : paragraph url cfg ks = true -> lastc al (flat_map events ks) = false.
Proof.
  intros P. destruct (paragraph_pieces url cfg ks P) as [F _]. destruct (pieces_events ks _ _ (filled_runs _ _ P) F) as (j & -> & N). apply stops_last, N. intros ->. discriminate.
Qed.
Lemma pieces_of f anc ks ss : paragraph url cfg ks = true -> Forall2 (rendered x f [] anc) ks ss -> Forall2 piece_drawn ks ss.
Proof. intros P Ip. eapply (pieces_rendered x Hsort Hmode Hone cfg Hopt Hdel Hstyle); [|apply (filled_runs _ _ P)|exact Ip]. reflexivity. Qed.
Lemma empty_text f anc s : rendered x f [] anc (Text []) s -> s = [].
Proof.
  intros Rn. destruct f as [|f]; [discriminate|]. unfold rendered in Rn. rewrite Hmode in Rn. cbn [render] in Rn. cbv zeta in Rn. rewrite (text_once (st_sort x) Hsort us) in Rn by auto. injection Rn as <-. reflexivity.
Qed.
Lemma fits_of f anc js ks ss : fits Tidy js ks -> paragraph url cfg ks = true -> Forall2 (rendered x f [] anc) js ss -> exists os, Forall2 piece_drawn ks os /\ List.concat ss = List.concat os.
Proof.
  intros [->| ->] P F; [exists ss; split; auto; eapply pieces_of; eauto|]. apply Forall2_app_inv_l in F as (os & parts2 & F1 & F2 & ->). exists os. split; [eapply pieces_of; eauto|]. inversion F2 as [|? s ? ? R1 R2]; subst. inversion R2; subst. apply empty_text in R1. subst s.
  rewrite concat_app. cbn [List.concat app]. apply app_nil_r.
Qed.
Lemma fits_events js ks al : fits Tidy js ks -> paragraph url cfg ks = true -> lastc al (flat_map events js) = false.
Proof. intros [->| ->] P; [now apply paragraph_events|]. rewrite flat_map_app, lastc_app. reflexivity. Qed.
Lemma part_flow f anc y k a js ks s : part_level y = Some k -> fits Tidy js ks -> titled k ks = true -> paragraph url cfg ks = true -> rendered x f [] anc (Elem y a js) s ->
  forall p q al, flows p al s [part_block url k ks] q false.
Proof.
  intros L Fi Ti P Rn p q al. destruct f as [|f]; [discriminate|].
  assert (K : forall ss, inside x f [] anc (Elem y a js) ss -> exists os, Forall2 piece_drawn ks os /\ List.concat ss = List.concat os) by (intros ss Ip; exact (fits_of _ _ _ _ _ Fi P Ip)).
  unfold part_level in L. destruct (beqb y (b "p")) eqn:Ey.
  - injection L as <-. apply beqb_eq in Ey. subst y. destruct (node_other x Hsort cfg f [] anc (b "p") a js s Hopt (base_used x Hone)) as (ss & Ip & E); auto.
    { apply (group_names (b "p")). reflexivity. } { apply (group_names (b "p")). reflexivity. }
    apply K in Ip as (os & Ip & Ec). subst s. rewrite Ec. apply (flow_one segment (List.concat os)); try discriminate. apply seg_para. exists ks, os. auto.
  - apply level_cases in L. assert (Lk : heading_level_of y k) by exact L. assert (Kk : (1 <= k <= 6)%nat). { clear - L. cbn [heading_names_of In] in L. decompose [or] L; try contradiction; match goal with Q : _ = (y, k) |- _ => injection Q as _ <- end; lia. }
    destruct (heading_content x Hsort cfg f [] anc y k a js s Hopt Lk Rn) as (ss' & Ip & E). apply K in Ip as (ss & Ip & Es). rewrite Es in E. destruct (drawn_line _ _ P Ip) as (Hg & A & B0).
    unfold titled in Ti. replace (Nat.eqb k 0) with false in Ti by (symmetry; apply Nat.eqb_neq; lia). cbn [orb] in Ti. apply negb_true_iff in Ti.
    destruct k as [|k]; [lia|]. eapply (heading_flow x cfg Hopt decode para_text atx_line_text _ _ (List.concat ss)); [exact Kk|exact Hg| | | | |exact E].
    * intros c I. repeat split; intros ->; [|contradiction|]; revert I; apply (drawns_none l Hl Hp url cfg Hdel _ ks ss); auto.
    * apply squeeze_single. apply (pieces_single l Hl Hp url cfg Hdel ks ss P Ip).
    * exists ks, ss. auto.
    * intros w' Ep. assert (Ks : ks <> []) by (intros ->; discriminate). destruct (raw_end l Hl Hp url cfg Hdel ks ss Ks Ti Ip) as [Nw L35].
      assert (Pd : escape_pound (List.concat ss) = Some (List.concat ss)).
      { unfold escape_pound. destruct (exists_last Nw) as (u & c & Ec). rewrite Ec in *. rewrite last_last in L35. rewrite rev_app_distr. cbn [rev app escape_pound_rev]. replace (c =? 35) with false by (symmetry; now apply N.eqb_neq). cbn [negb option_map rev]. now rewrite rev_involutive. }
      rewrite Pd in Ep. injection Ep as <-. exists ks, ss. auto.
Qed.
Lemma part_events y k a ks : part_level y = Some k -> events (Elem y a ks) = flat_map events ks.
Proof. intros L. apply part_names in L. cbn [In map fst heading_names_of] in L. decompose [or] L; try contradiction; subst y; reflexivity. Qed.
Lemma two_read d : d = 45 \/ d = 42 -> two_styled d (decode [d; d]) = true.
Proof. intros [->| ->]; reflexivity. Qed.
Hypothesis Hex : explained decode para_text atx_line_text (in_order (st_sort x) (cv_unescape cv)).
Lemma article_flow :
  (forall n B, apage url cfg Tidy true n B -> forall f anc s al p, apart (pre al ++ events n) = true -> rendered x f [] anc n s -> flows p al s B p (lastc al (events n))) /\
  (forall ns B, apages url cfg Tidy true ns B -> forall f anc parts al p, apart (pre al ++ flat_map events ns) = true -> Forall2 (rendered x f [] anc) ns parts -> flows p al (List.concat parts) B p (lastc al (flat_map events ns))) /\
  (forall js B, acontent url cfg Tidy true js B -> forall f anc parts al, apart (pre al ++ flat_map events js) = true -> Forall2 (rendered x f [] anc) js parts -> exists q, flows false al (List.concat parts) B q (lastc al (flat_map events js))) /\
  (forall ks its, aitems url cfg Tidy true ks its -> forall f anc parts, apart (flat_map events ks) = true -> Forall2 (rendered x f [] anc) ks parts -> Forall2 (fun s B => exists q al, flows false false s B q al) parts its).
Proof.
  apply apage_all; try discriminate.
  - intros y k a ks ps L Fi Ti P f anc s al p A Rn. rewrite (part_events y k a ks L), (fits_events ks ps al Fi P). eapply part_flow; eauto.
  - intros a R f anc s al p A Rn. destruct f as [|f]; [discriminate|]. rewrite (node_rule x Hsort cfg f [] anc a [] s Hopt Rn). apply (flow_one segment hr [Rule]); try discriminate. now apply seg_rule.
  - intros a ks i d E R f anc s al p A Rn. destruct f as [|f]; [discriminate|].
    assert (Ev : lastc al (events (Elem (b "pre") a ks)) = false). { apply code_in_cases in E as [(Ek & _)|(c & Ek & _)]; cbn [kids] in Ek; subst ks; reflexivity. }
    rewrite Ev. exact (code_flow x Hsort cfg Hopt decode para_text atx_line_text f anc a ks i d s E R Rn p al p).
  - intros y a ks its Ln Q IH Lo f anc s al p A Rn. destruct f as [|f]; [discriminate|].
    assert (Ev : events (Elem y a ks) = EvOpen :: flat_map events ks ++ [EvClose]) by (apply list_cases in Ln as [->| ->]; reflexivity). rewrite Ev in *.
    assert (al = false) by (destruct al; auto; discriminate). subst al. rewrite app_comm_cons, lastc_app. cbn [lastc fold_left].
    apply (list_flow x Hsort Hmode cfg Hopt decode para_text atx_line_text inline_shaped Hex two_styled two_read f anc y a ks s its Ln Lo Rn). intros parts Ip. eapply IH; [|exact Ip].
    cbn [pre app] in A. apply apart_cons in A as [A _]. eapply apart_first; eauto.
  - intros y a ks B G Ht Q IH f anc s al p A Rn. destruct f as [|f]; [discriminate|]. pose proof (group_names y G) as Hn.
    destruct (node_other x Hsort cfg f [] anc y a ks s Hopt (base_used x Hone) (proj1 Hn) (proj2 Hn) Rn) as (parts & Ip & E). rewrite (holds_block y Ht) in E. subst s.
    rewrite (events_group y a ks G) in *. destruct (IH _ _ _ _ A Ip) as (q & Fl). eapply flow_around. exact Fl.
  - intros y a ks B G Ht Q IH f anc s al p A Rn. destruct f as [|f]; [discriminate|]. pose proof (group_names y G) as Hn.
    destruct (node_other x Hsort cfg f [] anc y a ks s Hopt (base_used x Hone) (proj1 Hn) (proj2 Hn) Rn) as (parts & Ip & E). rewrite (inline_group y G Ht) in E. subst s.
    rewrite (events_group y a ks G) in *. eapply IH; eauto.
  - intros f anc parts al p A F. inversion F; subst. constructor; auto.
  - intros n ns B C Q IH Qs IHs f anc parts al p A F. inversion F as [|? s ? ps P1 P2]; subst. cbn [List.concat flat_map] in *. apply apart_both in A as [A1 A2]. rewrite lastc_app. eapply flow_app; eauto.
  - intros y a ks ns B C _ Ln Q IH Qs IHs f anc parts al p A F. inversion F as [|? s ? ps P1 P2]; subst. inversion P2 as [|? s2 ? ps2 P3 P4]; subst. cbn [List.concat flat_map] in *. apply apart_both in A as [A1 A2]. apply apart_both in A2 as [A2 A3].
    rewrite !lastc_app. eapply flow_app; [eapply IH; eauto|]. change C with ([] ++ C).
    assert (Lc : lastc al (events (Elem y a ks)) = true) by (apply list_cases in Ln as [->| ->]; cbn [events]; change (name_in [b "ul"; b "ol"] (b "ul")) with true; change (name_in [b "ul"; b "ol"] (b "ol")) with true; cbn iota; rewrite app_comm_cons, lastc_app; reflexivity).
    rewrite Lc in *. assert (Lq : lastc true (events (Comment end_comment_data)) = false) by reflexivity. rewrite Lq in *.
    eapply flow_app; [|eapply IHs; eauto]. destruct f as [|f]; [discriminate|]. rewrite (node_comment x Hsort cfg f [] anc _ s2 Hopt (base_used x Hone) P3). change (beqb end_comment_data (b "THE END")) with true. cbn iota.
    apply (flow_one segment end_comment_line []); [constructor|auto|discriminate].
  - intros ks B _ IH f anc parts al A F. exists false. eapply IH; eauto.
  - intros qs ps ks B Fi P Br _ IH f anc parts al A F. apply Forall2_app_inv_l in F as (ss & parts2 & F1 & F2 & ->). rewrite flat_map_app in *. apply apart_both in A as [_ A]. rewrite lastc_app. rewrite (fits_events qs ps al Fi P) in *. rewrite concat_app. exists true. destruct (fits_of _ _ _ _ _ Fi P F1) as (os & D & ->).
    change (part_block url 0 ps :: B) with ([part_block url 0 ps] ++ B). apply flow_seg; try discriminate.
    + apply seg_para. exists ps, os. auto.
    + eapply IH; eauto.
  - intros f anc parts A F. inversion F; subst. constructor.
  - intros a js B ks its Q IH Qs IHs f anc parts A F. inversion F as [|? s ? ps P1 P2]; subst. cbn [flat_map] in A.
    assert (Ev : events (Elem (b "li") a js) = EvStop :: flat_map events js) by reflexivity. rewrite Ev in A. cbn [app] in A. apply apart_cons in A as [A _]. constructor; [|eapply IHs; eauto; eapply apart_last; eauto].
    destruct f as [|f]; [discriminate|].
    destruct (node_other x Hsort cfg f [] anc (b "li") a js s Hopt (base_used x Hone)) as (parts' & Ip & E); auto; [vm_compute; intuition discriminate|vm_compute; intuition discriminate|].
    change (is_block_name (b "li")) with true in E. cbn iota in E. subst s. exists false. eexists. destruct (IH f _ parts' false ltac:(eapply apart_first; eauto) Ip) as (q & Fl). eapply flow_around. exact Fl.
Qed.
End read.
Hypothesis Hend : disable_end_comment cfg = false.
Lemma article_read wb wa ks out : forallb (article url cfg) (shown_all ks) = true -> converts (convert_node (st_sort x) (converter_with (st_mode x) us) (st_url x) (Doc ks)) out ->
  read_all_blocks (read_inline wb wa) out = flat_map (article_blocks url) (shown_all ks).
Proof.
  intros P C. rewrite Hmode in C. eapply convert_done in C; [|reflexivity]. unfold run_conversion in C. cbv zeta in C.
  destruct (prepared_article url cfg (st_sort x) Hsort Smart us (st_url x) ks (base_used x Hone) P) as (ns & Ed & Q). pose proof Hopt as (cfg0 & Ic & _ & V & Ecfg). assert (Vc : valid_cfg cfg0 = true) by (unfold valid_cfg; now rewrite V).
  assert (Ap : apart (flat_map events ns) = true).
  { change (flat_map events ns) with (events (Doc ns)). rewrite <- Ed. apply (prepared_apart (st_sort x) Hsort Smart us cfg0 (st_url x) (Doc ks) Ic Vc). rewrite Ecfg in Hend. exact Hend. }
  rewrite Ed in C. destruct (render _ _ _ _ _ _ _) as [s| |] eqn:Rn; cbn [bind] in C; try discriminate. injection C as <-.
  assert (Rd : rendered x (S (height (Doc ns))) [] [] (Doc ns) s) by (unfold rendered; rewrite Hmode; exact Rn).
  destruct (node_document x Hsort cfg _ _ _ _ _ Hopt (base_used x Hone) Rd) as (parts & I & ->).
  assert (Hex : explained (read_inline wb wa) para_text atx_line_text (in_order (st_sort x) (cv_unescape cv))).
  { apply inline_explained; [apply (unescapers_bundled (st_sort x) Hsort Smart us cfg0 Ic Vc)|apply (protects_uses Smart us cfg0 Ic Vc)]. }
  destruct (article_flow wb wa Hex) as (_ & G & _).
  eapply (posts_blocks x Hsort Hone cfg Hopt (read_inline wb wa) para_text atx_line_text inline_shaped Hex). eapply (G _ _ Q _ _ _ false false); eauto.
Qed.
End whole.
Lemma article_read_all : forall x cfg wb wa ks out, sorts (st_sort x) -> st_mode x = Smart -> base_once (st_uses x) -> options x cfg ->
  usual_delimiters cfg -> link_style cfg = b "inlined" -> disable_end_comment cfg = false -> forallb (article (st_url x (b "a")) cfg) (shown_all ks) = true ->
  converts (convert_node (st_sort x) (converter_with (st_mode x) (st_uses x)) (st_url x) (Doc ks)) out ->
  read_all_blocks (read_inline wb wa) out = flat_map (article_blocks (st_url x (b "a"))) (shown_all ks).
Proof. intros. eapply article_read; eauto. Qed.
