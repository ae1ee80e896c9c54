(** From the document to the blocks that are read (C64). *)
From Coq Require Import List NArith ZArith Bool String Lia ZifyBool ZifyNat ZifyN Permutation Sorted.
From Verif Require Import SpecDom DomFacts4 Bytes BytesFacts TextUtils TextFacts TextFacts2 RenderText RenderFacts Escape SpecEscape EscapeFacts EscapeFacts6 EscapeFacts4
  Dom DomUtils Collapse Engine CommonMark Table SpecEngine EngineFacts PipelineFacts SpecText SpecPipeline SpecPlain PlainFacts2 PlainFacts3 PlainFacts4
  SpecNode NodeFacts SpecBlocks BlockFacts0 BlockFacts1 BlockFacts2 BlockFacts3 BlockFacts4 BlockFacts5 BlockFacts6 BlockFacts7.
Import ListNotations.
Open Scope N_scope.
Open Scope list_scope.

Lemma posts_order sort us cfg : sorts sort -> (exists A B, us = A ++ UseBase :: B /\ ~ In UseBase (A ++ B)) -> In (UseCommonmark cfg) us -> valid_cfg cfg = true ->
  exists n, in_order sort (cv_post (converter_with Smart us)) = base_trim :: base_unescape :: commonmark_post :: repeat commonmark_post n.
Proof.
  intros Hs (A & B & E & Nb) Ic V. pose proof (Hs _ (cv_post (converter_with Smart us))) as [Pm Sr]. unfold in_order. rewrite cw_post in Pm at 2.
  assert (F : forall y, In y (flat_map use_post (A ++ B)) -> y = (1000%Z, commonmark_post)).
  { intros y I. apply in_flat_map in I as (u & Iu & I). destruct u as [|cf|d|os]; cbn [use_post] in I; try (now destruct I).
    destruct (valid_cfg cf); [|destruct I]. now destruct I as [<-|[]]. }
  assert (Nq : flat_map use_post (A ++ B) <> []).
  { intros Q. assert (I : In (1000%Z, commonmark_post) (flat_map use_post (A ++ B))); [|rewrite Q in I; destruct I]. apply in_flat_map. exists (UseCommonmark cfg).
    split; [|cbn [use_post]; rewrite V; now left]. rewrite E in Ic. apply in_app_iff in Ic as [I|[I|I]]; [|discriminate|]; apply in_app_iff; tauto. }
  assert (Pq : Permutation (sort _ (cv_post (converter_with Smart us))) ((500%Z, base_trim) :: (520%Z, base_unescape) :: flat_map use_post (A ++ B))).
  { etransitivity; [exact Pm|]. rewrite E, !flat_map_app. change (flat_map use_post (UseBase :: B)) with ([(500%Z, base_trim); (520%Z, base_unescape)] ++ flat_map use_post B).
    etransitivity; [apply Permutation_app_swap_app|]. reflexivity. }
  clear Pm. revert Sr Pq. generalize (sort _ (cv_post (converter_with Smart us))) as l. intros l Sr Pq. unfold by_priority in Sr. apply Sorted_StronglySorted in Sr; [|intros a b0 c0; lia].
  revert F Nq Pq. generalize (flat_map use_post (A ++ B)). clear - Sr. intros q F Nq Pq.
  destruct l as [|y1 l]; [apply Permutation_length in Pq; discriminate|]. inversion Sr as [|? ? Sr1 M1]; subst. rewrite Forall_forall in M1.
  assert (E1 : y1 = (500%Z, base_trim)).
  { destruct (Permutation_in _ Pq (or_introl eq_refl)) as [<-|I]; auto.
    assert (I2 : In (500%Z, base_trim) (y1 :: l)) by (eapply Permutation_in; [apply Permutation_sym; exact Pq|now left]). destruct I2 as [->|I2]; auto. apply M1 in I2. cbn [fst] in I2.
    destruct I as [<-|I]; [cbn in I2; lia|]. apply F in I. subst. cbn in I2. lia. }
  subst y1. apply Permutation_cons_inv in Pq.
  destruct l as [|y1 l]; [apply Permutation_length in Pq; discriminate|]. inversion Sr1 as [|? ? Sr2 M2]; subst. rewrite Forall_forall in M2.
  assert (E1 : y1 = (520%Z, base_unescape)).
  { destruct (Permutation_in _ Pq (or_introl eq_refl)) as [<-|I]; auto.
    assert (I2 : In (520%Z, base_unescape) (y1 :: l)) by (eapply Permutation_in; [apply Permutation_sym; exact Pq|now left]). destruct I2 as [->|I2]; auto. apply M2 in I2. cbn [fst] in I2.
    apply F in I. subst. cbn in I2. lia. }
  subst y1. apply Permutation_cons_inv in Pq. 
  assert (Fl : forall y, In y l -> y = (1000%Z, commonmark_post)) by (intros y I; apply F; eapply Permutation_in; eauto).
  destruct l as [|y1 l]; [apply Permutation_nil in Pq; contradiction|]. exists (List.length l). cbn [map snd]. rewrite (Fl y1 (or_introl eq_refl)). cbn [snd]. do 3 f_equal.
  assert (Fm : forall y, In y l -> y = (1000%Z, commonmark_post)) by (intros; apply Fl; now right). clear - Fm.
  induction l as [|y l IH]; auto. cbn [map List.length repeat]. rewrite (Fm y (or_introl eq_refl)). cbn [snd]. f_equal. apply IH. intros; apply Fm; now right.
Qed.
Section whole.
Variable x : setting.
Hypothesis Hsort : sorts (st_sort x).
Hypothesis Hmode : st_mode x = Smart.
Hypothesis Hone : exists A B, st_uses x = A ++ UseBase :: B /\ ~ In UseBase (A ++ B).
Variable cfg : config.
Hypothesis Hopt : options x cfg.
Hypothesis Hrule : rule_line (horizontal_rule cfg) = true.
Notation hr := (horizontal_rule cfg).
Notation us := (st_uses x).
Notation l := (cv_chars (converter_with Smart us)).
Notation cv := (converter_with Smart us).
Notation e := (env_of (st_sort x) cv (st_url x)).
Section any_texts.
Context {TT : Type}.
Variable decode : bytes -> TT.
Variable para atx : bytes -> TT -> Prop.
Hypothesis Hsh : shaped_texts para atx.
Hypothesis Hex : explained decode para atx (in_order (st_sort x) (cv_unescape cv)).
Notation segment := (seg decode para atx hr).
Lemma posts_blocks p s B q al : flow segment p false s B q al -> read_all_blocks decode (fold_left (fun s h => h e s) (in_order (st_sort x) (cv_post cv)) s) = B.
Proof.
  intros F. pose proof Hopt as (cfg0 & Ic & _ & V & _). assert (Vc : valid_cfg cfg0 = true) by (unfold valid_cfg; now rewrite V).
  destruct (posts_order (st_sort x) us cfg0 Hsort Hone Ic Vc) as (n & ->). cbn [fold_left].
  destruct (flow_trim segment (seg_tidy decode para atx Hsh hr) p s B q al F) as (ws & Et & Fw & _). unfold base_trim. rewrite Et.
  set (ds := in_order (st_sort x) (cv_unescape cv)). pose proof (unescapers_bundled (st_sort x) Hsort Smart us cfg0 Ic Vc) as Bd. fold ds in Bd.
  destruct (unescape_pieces decode para atx Hsh ds Hex (join [10; 10] ws) hr false ws B Fw [] (the_ann ds (join [10; 10] ws))) as (os & Eo & Fo & _); auto.
  { apply ann_explains. now apply bundled_wb. } { now left. }
  rewrite the_ann_out in Eo. assert (Eu : base_unescape e (join [10; 10] ws) = join [10; 10] os).
  { unfold base_unescape, env_of. cbn [unescape_fn]. rewrite cw_mode. exact Eo. }
  rewrite Eu. assert (Hf : exists fs, post_newline (join [10; 10] os) = join [10; 10] fs /\ goods decode hr false fs B).
  { destruct os as [|o os]; [inversion Fo; subst; exists []; split; [reflexivity|constructor]|]. destruct (mids_joined decode hr false (o :: os) B Fo ltac:(discriminate)) as (fs & E1 & E2 & _). eauto. }
  destruct Hf as (fs & Ef & Ff). change (commonmark_post e (join [10; 10] os)) with (post_newline (join [10; 10] os)). rewrite Ef.
  assert (R : fold_left (fun s h => h e s) (repeat commonmark_post n) (join [10; 10] fs) = join [10; 10] fs).
  { clear - Ff. induction n as [|n IH]; auto. cbn [repeat fold_left]. change (commonmark_post e (join [10; 10] fs)) with (post_newline (join [10; 10] fs)). pose proof (join_posted decode hr false fs B Ff) as U. unfold unmarked in U. now rewrite U. }
  rewrite R. exact (read_good decode hr false fs B Ff).
Qed.
End any_texts.
Hypothesis Hend : disable_end_comment cfg = false.
Lemma page_read ks out : is_page cfg ks = true -> converts (convert_node (st_sort x) (converter_with (st_mode x) us) (st_url x) (Doc ks)) out ->
  read_blocks out = flat_map blocks_of (shown_all ks).
Proof.
  intros P C. rewrite Hmode in C. eapply convert_done in C; [|reflexivity]. unfold run_conversion in C. cbv zeta in C.
  destruct (prepared_page (st_sort x) Hsort cfg Smart us (st_url x) ks (base_used x Hone) P) as (ns & q & Ed & Q). pose proof Hopt as (cfg0 & Ic & _ & V & Ecfg). assert (Vc : valid_cfg cfg0 = true) by (unfold valid_cfg; now rewrite V).
  assert (Ap : apart (flat_map events ns) = true).
  { change (flat_map events ns) with (events (Doc ns)). rewrite <- Ed. apply (prepared_apart (st_sort x) Hsort Smart us cfg0 (st_url x) (Doc ks) Ic Vc). rewrite Ecfg in Hend. exact Hend. }
  rewrite Ed in C. destruct (render _ _ _ _ _ _ _) as [s| |] eqn:Rn; cbn [bind] in C; try discriminate. injection C as <-.
  assert (Rd : rendered x (S (height (Doc ns))) [] [] (Doc ns) s) by (unfold rendered; rewrite Hmode; exact Rn).
  destruct (node_document x Hsort cfg _ _ _ _ _ Hopt (base_used x Hone) Rd) as (parts & I & ->).
  destruct (page_flow x Hsort Hmode Hone cfg Hopt Hrule) as (_ & G & _). eapply (posts_blocks (read_text 0) (line_text l) (head_text l)); [exact (plain_sh x cfg Hopt)|exact (plain_ex x Hsort cfg Hopt)|]. eapply (G _ _ _ _ Q _ _ _ false); eauto.
Qed.
End whole.
