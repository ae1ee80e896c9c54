(** Whole conversions keep every visible character (C44). *)
From Coq Require Import List NArith ZArith Bool String Lia.
From Verif Require Import Bytes BytesFacts TextUtils RenderText Escape SpecEscape SpecText TextFacts TextFacts2 RenderFacts RenderFacts2 RenderFacts3
  RenderFacts4 RenderFacts5 EscapeFacts EscapeFacts4 EscapeFacts6 Dom DomUtils Collapse SpecDom Engine CommonMark Table SpecEngine EngineFacts RenderInv PanicFacts
  SpecPipeline PipelineFacts DomFacts DomFacts2 DomFacts3 FreeFacts StrikeFacts LetterFacts.
Import ListNotations.
Open Scope N_scope.
Open Scope list_scope.

Section whole.
Variable sort : forall A : Type, list (Z * A) -> list (Z * A).
Hypothesis Hsort : sorts sort.
Lemma detectors_wb m us : Forall well_behaved (in_order sort (cv_unescape (converter_with m us))).
Proof.
  assert (H : Forall well_behaved commonmark_detectors).
  { unfold commonmark_detectors; repeat apply Forall_cons; try apply Forall_nil; auto using wb_italic, wb_quote, wb_inline, wb_backslash, wb_unordered,
      wb_ordered, wb_image, wb_setext, wb_atx, wb_divider, wb_fence. }
  rewrite cw_unescape. apply Forall_forall. intros h I. apply (in_order_in sort Hsort) in I as (p & I). apply in_flat_map in I as (u & _ & I).
  destruct u as [|cfg|d|os]; cbn [use_unescape] in I.
  - destruct I.
  - destruct (valid_cfg cfg); [|destruct I]. apply in_map_iff in I as (k & [= <- <-] & I). rewrite Forall_forall in H. auto.
  - destruct I as [[= <- <-]|[]]. apply wb_strike.
  - destruct I.
Qed.
Variable keep : N -> bool.
Hypothesis Hkeep : forall c, keep c = true -> spelled c = true.
Notation F := (filter keep).
Lemma env_unescape_letters us url s : subsequence (F s) (F (unescape_fn (env_of sort (converter_with Smart us) url) s)).
Proof. unfold env_of. cbn [unescape_fn]. rewrite cw_mode. cbn [unescape_with]. apply unescape_letters; auto. apply detectors_wb. Qed.
Lemma texts_letters us cfg url d c : In UseBase us -> In (UseCommonmark cfg) us -> valid_cfg cfg = true ->
  let out := fold_left (fun s t => t (env_of sort (converter_with Smart us) url) c s) (in_order sort (cv_text (converter_with Smart us))) d in
  subsequence (F d) (F out) /\ hash_ok out.
Proof.
  intros Ib Ic V. cbv zeta. set (e := env_of _ _ _).
  assert (Ee : escape_fn e = escape_content (escaped_char (converter_with Smart us))) by (unfold e, env_of; cbn [escape_fn]; now rewrite cw_mode).
  assert (E35 : escaped_char (converter_with Smart us) 35 = true) by (eapply protects_uses; eauto; cbn; tauto).
  assert (Hb : forall s, subsequence (F s) (F (base_text e c s)) /\ marked 0 (base_text e c s) = true).
  { intros s. unfold base_text. rewrite Ee. split; [|now apply marked_escape]. rewrite escape_letters by auto. now apply entity_letters. }
  assert (Hl : forall s, subsequence (F s) (F (commonmark_text e c s)) /\ (marked 0 s = true -> marked 0 (commonmark_text e c s) = true)).
  { intros s. unfold commonmark_text. destruct (ctx_value _ _); [|auto using sub_refl]. split; [now apply link_mark_letters|apply marked_link]. }
  assert (Hall : forall l s, (forall h, In h l -> h = base_text \/ h = commonmark_text) ->
    subsequence (F s) (F (fold_left (fun s t => t e c s) l s)) /\ (marked 0 s = true \/ In base_text l -> marked 0 (fold_left (fun s t => t e c s) l s) = true)).
  { induction l as [|h l IH]; intros s Hh; cbn [fold_left]; [split; [apply sub_refl|intros [M|[]]; exact M]|].
    destruct (IH (h e c s)) as [A B]; [intros; apply Hh; now right|]. destruct (Hh h (or_introl eq_refl)) as [->| ->].
    - destruct (Hb s) as [C D]. split; [eapply sub_trans; eauto|]. auto.
    - destruct (Hl s) as [C D]. split; [eapply sub_trans; eauto|]. intros [M|[M|M]]; auto.
      discriminate (f_equal (fun h => h e [] [60]) M) || (apply B; left). 
      rewrite M. apply Hb. }
  destruct (Hall (in_order sort (cv_text (converter_with Smart us))) d) as [A B]; [intros h; now apply text_cases|].
  split; auto. apply marked_ok, B. right. now apply text_base.
Qed.
Lemma valid_plain cfg : valid_cfg cfg = true -> ~ In 35 (em_delimiter (fill_defaults cfg)) -> ~ In 35 (strong_delimiter (fill_defaults cfg)) ->
  letter_cfg (fill_defaults cfg).
Proof.
  unfold valid_cfg. destruct (validate_config (fill_defaults cfg)) eqn:E; [discriminate|]. intros _ N1 N2.
  apply validate_spec in E as (_ & _ & _ & _ & He & Hs & _). split; (split; [assumption|]).
  - destruct He as [He|He]; [exists 95|exists 42]; split; auto; apply count_in; lia.
  - destruct Hs as [Hs|Hs]; [exists 95|exists 42]; split; auto; apply count_in; lia.
Qed.
Lemma plain_strike d : d = [] \/ (~ In 35 d /\ exists c, In c d /\ graphic c = true) -> plain_delim (or_default d (b "~~")).
Proof.
  intros [->|H]; [split; [vm_compute; intuition discriminate|exists 126; split; [now left|reflexivity]]|]. destruct d as [|c d]; [destruct H as [_ (c & [] & _)]|exact H].
Qed.
Lemma post_letters us url s : subsequence (F s)
  (F (fold_left (fun s h => h (env_of sort (converter_with Smart us) url) s) (in_order sort (flat_map use_post us)) s)).
Proof.
  assert (G : forall l s, (forall h, In h l -> exists q, In (q, h) (flat_map use_post us)) ->
    subsequence (F s) (F (fold_left (fun s h => h (env_of sort (converter_with Smart us) url) s) l s))).
  { clear s. induction l as [|h l IH]; intros s Hh; cbn [fold_left]; [apply sub_refl|]. eapply sub_trans; [|apply IH; intros; apply Hh; now right].
    destruct (Hh h (or_introl eq_refl)) as (q & I). apply use_post_cases in I as [(-> & ->)|[(-> & ->)|(-> & ->)]].
    - unfold base_trim, post_trim. rewrite (F_hard keep (keep_ws keep Hkeep)), (F_tcn keep (keep_ws keep Hkeep)), (F_trim keep (keep_ws keep Hkeep)).
      apply sub_refl.
    - apply env_unescape_letters.
    - unfold commonmark_post. rewrite (F_post_newline keep (keep_ws keep Hkeep)). apply sub_refl. }
  apply G. intros h I. now apply (in_order_in sort Hsort) in I.
Qed.
Lemma conversion_letters us cfg url doc out : In UseBase us -> In (UseCommonmark cfg) us ->
  (forall c, In (UseCommonmark c) us -> ~ In 35 (em_delimiter (fill_defaults c)) /\ ~ In 35 (strong_delimiter (fill_defaults c))) ->
  (forall d, In (UseStrikethrough d) us -> d = [] \/ ~ In 35 d /\ exists c, In c d /\ graphic c = true) -> (forall os, ~ In (UseTable os) us) ->
  tidy doc = true -> invisible doc = false ->
  converts (convert_node sort (converter_with Smart us) url doc) out -> subsequence (F (visible_text doc)) out.
Proof.
  intros Ib Ic Hd Ns Nt T I C.
  assert (V : valid_cfg cfg = true) by (eapply converts_valid; eauto).
  eapply convert_done in C; [|reflexivity]. unfold run_conversion in C. cbv zeta in C.
  set (e := env_of sort (converter_with Smart us) url) in *. set (ts := in_order sort (cv_text (converter_with Smart us))) in *.
  set (p := prepared sort (converter_with Smart us) url doc) in *.
  pose proof (render_inv e ts _ _ _ _ _ _ _ _ _ _ _
    (letters_closed keep Hkeep (strikes_in us) e ts (env_unescape_letters us url) (fun d c => texts_letters us cfg url d c Ib Ic V)) (in_order sort (cv_render (converter_with Smart us)))) as H.
  assert (Hp : forall d, In (UseStrikethrough d) us -> plain_delim (or_default d (b "~~"))) by (intros d J; now apply plain_strike, Ns).
  assert (Hbu : Forall (RenderInv.bundled letter_cfg plain_delim False) (in_order sort (cv_render (converter_with Smart us)))).
  { apply bundled_uses; [exact Hsort|..].
    - intros c Jc Vc. destruct (Hd c Jc). now apply valid_plain.
    - exact Hp.
    - intros os J. now apply Nt in J. }
  assert (Hu : forall c, keep c = true -> unquoted c = true).
  { intros c K. apply Hkeep in K. unfold spelled in K. unfold unquoted. destruct (graphic c), (c =? 34); auto. }
  destruct (prepared_text sort Hsort keep Hu Smart us url doc Ib T I) as [Px Pt].
  assert (Pn : letter_node (strikes_in us) p).
  { split; [exact Pt|split]; [eapply prepared_sealed; eauto|]. apply prepared_fr; auto. }
  specialize (H Hbu (uses_striking sort Hsort plain_delim Smart us Hp) (S (height p)) [] [] p Pn (le_S _ _ (le_n _))).
  destruct (render _ _ _ _ _ _ _) as [x| |]; cbn [bind good] in *; try discriminate. injection C as <-.
  destruct H as [H _]. rewrite vis_letters in H by auto. fold p in Px. rewrite Px in H.
  eapply sub_trans; [exact H|]. rewrite cw_post. eapply sub_trans; [apply post_letters|]. apply sub_of_filter.
Qed.
End whole.
