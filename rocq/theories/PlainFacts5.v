(** Documents without markup: what follows for the output (C60). *)
From Coq Require Import List NArith ZArith Bool String Lia ZifyBool ZifyNat ZifyN Permutation Sorted.
From Verif Require Import Bytes BytesFacts TextUtils RenderText Escape SpecEscape EscapeFacts EscapeFacts4 EscapeFacts5 EscapeFacts6
  Dom DomUtils Collapse SpecDom SpecText SpecPlain Engine CommonMark Table SpecEngine
  EngineFacts RenderInv SpecPipeline PipelineFacts DomFacts3 PlainFacts PlainFacts2 PlainFacts3 PlainFacts4.
Import ListNotations.
Open Scope N_scope.
Open Scope list_scope.

Lemma text_lit_any ds esc t A c k B : Forall well_behaved ds -> esc c = true -> 0 < c < 128 -> c <> 92 -> text_ann ds esc t = A ++ (c, k) :: B -> k = Lit.
Proof.
  intros W P I Hc E. destruct k; [|easy|].
  - exfalso. pose proof (escape_no_raw esc t (text_ann ds esc t) (ann_explains ds _ W O [])) as H.
    specialize (H c). rewrite E in H. specialize (H ltac:(apply in_app_iff; right; now left)).
    rewrite P in H. assert (true = false) by (apply H; lia). discriminate.
  - exfalso. apply Hc. apply (ann_ins_92 ds (escape_content esc t) O false [] (c, Ins)); [|easy].
    unfold text_ann in E. rewrite E. apply in_app_iff. right. now left.
Qed.
Lemma text_tilde ds esc t A B : only_bundled ds -> In is_strikethrough ds -> esc 126 = true ->
  unescape_content ds (escape_content esc t) = A ++ 126 :: B -> run_escaped A \/ space_follows B.
Proof.
  intros Bd I P E. pose proof (only_wb _ Bd) as W. rewrite <- the_ann_out in E.
  apply map_fst_app in E as (A1 & Y & ED & EA & EY). destruct Y as [|[c1 k] B1]; [discriminate|].
  cbn [map fst] in EY. inversion EY; subst c1.
  assert (k = Lit) by (apply (text_lit_any ds esc t A1 126 k B1 W P) with (3 := ED); lia). subst k.
  destruct (tilde_lit _ _ A1 B1 W (only_tk _ Bd) I (escape_no_nul esc t) ED) as [(A0 & G & -> & F)|H].
  - left. exists (map fst A0), (map fst G). rewrite <- EA, map_app. split; [reflexivity|]. apply Forall_forall. intros c Ic. apply in_map_iff in Ic as (x & <- & Ix).
    rewrite Forall_forall in F. now apply F.
  - right. exact H.
Qed.

Section results.
Variable sort : forall A : Type, list (Z * A) -> list (Z * A).
Variable us : list use.
Variable doc : node.
Variable out : bytes.
Notation cv := (converter_with Smart us).
Notation ds := (in_order sort (cv_unescape cv)).
Lemma plain_image : plain_run no_newline_mark sort us doc out -> exists t, out = text_out ds (escaped_char cv) t.
Proof. intros (Hs & Ib & P & Iv & url & C). exact (plain_output sort Hs us url doc out Ib P Iv C). Qed.
Lemma plain_settings cfg tok : plain_run tok sort us doc out -> In (UseCommonmark cfg) us -> Escape.bundled ds /\ protects (escaped_char cv) /\ valid_cfg cfg = true.
Proof.
  intros (Hs & _ & _ & _ & url & C) I. pose proof (converts_valid sort Smart us cfg url doc out I C) as V.
  split; [now apply (unescapers_bundled sort Hs Smart us cfg)|]. split; auto. now apply (protects_uses Smart us cfg).
Qed.
Variable cfg : config.
Hypothesis Hc : In (UseCommonmark cfg) us.
Lemma plain_blocks : plain_run no_newline_mark sort us doc out ->
  ~ some_line atx_heading out /\ ~ some_setext out /\ ~ some_line thematic_break out /\ ~ some_line block_quote out
  /\ ~ some_line bullet_item out /\ ~ some_line ordered_item out /\ ~ some_line code_fence out.
Proof.
  intros R. destruct (plain_settings cfg _ R Hc) as (Bd & P & _). destruct (plain_image R) as (t & ->).
  split; [now apply text_atx|]. split; [now apply text_setext|]. split; [now apply text_break|]. split; [now apply text_quote|].
  split; [now apply text_bullet|]. split; [now apply text_ordered|now apply text_fence].
Qed.
Lemma plain_emphasis A c B : plain_run no_newline_mark sort us doc out -> (c = 42 \/ c = 95) -> out = A ++ c :: B -> (exists A', A = A' ++ [92]) \/ not_opening c B.
Proof.
  intros R Hc' E. destruct (plain_settings cfg _ R Hc) as (Bd & P & _). destruct (plain_image R) as (t & Et). eapply text_emphasis; eauto. unfold text_out in Et. now rewrite <- Et.
Qed.
Lemma plain_bracket A B : plain_run no_newline_mark sort us doc out -> out = A ++ 91 :: B -> bracket_closes B = true -> exists A', A = A' ++ [92].
Proof.
  intros R E. destruct (plain_settings cfg _ R Hc) as (Bd & P & _). destruct (plain_image R) as (t & Et). eapply text_bracket; eauto. unfold text_out in Et. now rewrite <- Et.
Qed.
Lemma plain_code_span : plain_run no_newline_mark sort us doc out ->
  (forall a x y z r, filter (fun c => negb (c =? 92)) out = a ++ x :: y :: z :: r -> is_tick x = true -> is_tick y = true -> is_tick z = true -> False) -> code_span_opens out = false.
Proof.
  intros R H. destruct (plain_settings cfg _ R Hc) as (Bd & P & _). destruct (plain_image R) as (t & Et). rewrite Et. apply text_code_span; auto.
  assert (I : inserts (plain t) out) by (rewrite Et; apply text_inserts; now apply bundled_wb). clear Et R P Bd.
  assert (F : filter (fun c => negb (c =? 92)) out = filter (fun c => negb (c =? 92)) (plain t)).
  { clear H. induction I as [|c u v I IH|c u v I IH]; auto; cbn [filter]; rewrite ?IH; reflexivity. }
  intros a x y z r E X Y Z. apply (H (filter (fun c => negb (c =? 92)) a) x y z (filter (fun c => negb (c =? 92)) r)); auto.
  rewrite F, E, filter_app. cbn [filter]. unfold is_tick in *. replace (x =? 92) with false by lia. replace (y =? 92) with false by lia. replace (z =? 92) with false by lia. reflexivity.
Qed.
Lemma plain_read_back : base_once us -> plain_run readable sort us doc out -> tidy doc = true ->
  filter unquoted (read_text 0 out) = filter unquoted (visible_text doc).
Proof.
  intros Ob R Td. destruct (plain_settings cfg _ R Hc) as (_ & _ & V). destruct R as (Hs & Ib & P & Iv & url & C).
  assert (Hk : forall c, unquoted c = true -> 33 <= c < 127) by (unfold unquoted, graphic; intros; lia).
  apply (plain_read sort Hs us url cfg Ob Hc V unquoted Hk doc out P Iv Td (fun c H => H) C).
Qed.
End results.
Lemma markup_free_any tok n : markup_free tok n = true -> markup_free (fun _ => true) n = true.
Proof.
  induction n as [d|x a ks IH|d|ks IH|d] using node_induction; intros H; auto; cbn [markup_free] in *.
  - destruct (name_in hidden_names x); auto. cbn [orb] in *. apply andb_true_iff in H as [-> H]. cbn [andb]. rewrite forallb_forall in *. rewrite Forall_forall in IH. auto.
  - rewrite forallb_forall in *. rewrite Forall_forall in IH. auto.
Qed.
Lemma tabs_out sort us doc out : plain_run (fun _ => true) sort us doc out -> (exists ks, doc = Doc ks) -> ~ In 9 out.
Proof. intros (Hs & Ib & P & Iv & url & C) D. exact (plain_no_tab sort Hs us url doc out Ib P D C). Qed.
Lemma plain_break_tabs sort us cfg doc out : In (UseCommonmark cfg) us -> plain_run no_newline_mark sort us doc out -> (exists ks, doc = Doc ks) ->
  ~ some_line thematic_break_tabs out.
Proof.
  intros Hc R D. destruct (plain_settings sort us doc out cfg _ R Hc) as (Bd & P & _). destruct (plain_image sort us doc out R) as (t & Et).
  assert (N9 : ~ In 9 out).
  { apply (tabs_out sort us doc); auto. destruct R as (A & B & C & E). split; auto. split; auto. split; [now apply markup_free_any in C|exact E]. }
  intros (l & I & Q). destruct (plain_blocks sort us doc out cfg Hc R) as (_ & _ & H & _). apply H. exists l. split; [exact I|].
  unfold thematic_break_tabs in Q. rewrite <- Q. f_equal.
  assert (N9' : ~ In 9 (skip_spaces l)).
  { intros J. apply N9. apply split_on_app_line in I as (a & z & -> & _). apply in_app_iff. right. apply in_app_iff. left.
    destruct (skip_spaces_eq l) as (S & -> & _). apply in_app_iff. now right. }
  symmetry. rewrite <- (map_id (skip_spaces l)) at 2. apply map_ext_in. intros x Ix.
  destruct (x =? 9) eqn:E9; [|easy]. apply N.eqb_eq in E9. now subst.
Qed.
Lemma plain_tilde sort us d doc out A B : In (UseStrikethrough d) us -> plain_run no_newline_mark sort us doc out -> out = A ++ 126 :: B -> run_escaped A \/ space_follows B.
Proof.
  intros I R E. destruct (plain_image sort us doc out R) as (t & Et). destruct R as (Hs & _). unfold text_out in Et.
  apply (text_tilde (in_order sort (cv_unescape (converter_with Smart us))) (escaped_char (converter_with Smart us)) t); [now apply unescapers_only|eapply unescapers_strike; eauto| |congruence].
  unfold escaped_char. apply existsb_exists. exists 126. split; [|reflexivity]. rewrite cw_chars. apply in_flat_map. exists (UseStrikethrough d). split; auto. now left.
Qed.

