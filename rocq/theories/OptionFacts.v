(** Facts about the options of the plugins (C46). *)
From Coq Require Import List NArith ZArith Bool String Lia ZifyBool ZifyNat ZifyN.
From Verif Require Import Bytes TextUtils Dom Engine RenderText CommonMark Table SpecEngine SpecPipeline SpecOptions BytesFacts EngineFacts RenderFacts5 PipelineFacts.
Import ListNotations.
Open Scope N_scope.
Open Scope list_scope.

Lemma or_default_cases v d : or_default v d = match v with [] => d | _ => v end.
Proof. now destruct v. Qed.
Lemma one_of_among l v : among l v -> one_of (map b l) v = true.
Proof. intros H. unfold one_of. apply existsb_exists. exists v. split; [exact H|apply beqb_refl]. Qed.
Lemma among_default l v d : unset_or (among l) v -> one_of (map b l) d = true -> one_of (map b l) (or_default v d) = true.
Proof. intros [->|H] D; [exact D|]. rewrite or_default_cases. destruct v; [exact D|]. now apply one_of_among. Qed.
Lemma one_of_back l v d : one_of (map b l) (or_default v d) = true -> unset_or (among l) v.
Proof. intros H. rewrite or_default_cases in H. destruct v; [now left|]. right. unfold one_of in H. apply existsb_exists in H as (y & I & E). apply beqb_eq in E. now subst. Qed.
Lemma documented_valid c : documented_config c -> validate_config (fill_defaults c) = None.
Proof.
  intros (He & Hs & Hr & Hb & Hf & Hh & Hl & _). unfold validate_config, fill_defaults. cbn [em_delimiter strong_delimiter horizontal_rule bullet_marker code_fence_opt heading_style link_style].
  change [b "-"; b "+"; b "*"] with (map b ["-"; "+"; "*"]%string). change [b "```"; b "~~~"] with (map b ["```"; "~~~"]%string).
  change [b "inlined"; b "referenced_index"; b "referenced_short"] with (map b ["inlined"; "referenced_index"; "referenced_short"]%string).
  rewrite (among_default _ _ _ Hb) by reflexivity. rewrite (among_default _ _ _ Hf) by reflexivity. rewrite (among_default _ _ _ Hl) by reflexivity.
  assert (Eh : one_of [b "atx"; b "setext"] (or_default (heading_style c) (b "atx")) = true).
  { destruct Hh as [->|[<-|[<-|[]]]]; reflexivity. }
  rewrite Eh. cbn [negb].
  destruct He as [->|[<-|[<-|[]]]]; (destruct Hs as [->|[<-|[<-|[]]]]); cbn [or_default is_empty];
    (destruct Hr as [->|(k & Ik & _ & K)]; [reflexivity|]);
    (destruct (horizontal_rule c) as [|x r] eqn:E; [reflexivity|]; cbn [or_default is_empty];
     destruct Ik as [<-|[<-|[<-|[]]]];
     match goal with |- context [if ?q then Some (b "HorizontalRule") else None] => replace q with false; [reflexivity|] end;
     destruct (Nat.ltb_spec (count_byte 42 (x :: r)) 3), (Nat.ltb_spec (count_byte 95 (x :: r)) 3), (Nat.ltb_spec (count_byte 45 (x :: r)) 3); auto; lia).
Qed.
Lemma refused_invalid c : refused_config c -> validate_config (fill_defaults c) <> None.
Proof.
  intros R V. apply validate_spec in V as (B & F & H & L & E & S & T). unfold fill_defaults in *.
  cbn [em_delimiter strong_delimiter horizontal_rule bullet_marker code_fence_opt heading_style link_style] in *. rewrite or_default_cases in B, F, H, L, E, S, T.
  unfold unset_or, among in R. destruct R as [R|[R|[R|[R|[R|[R|R]]]]]]; apply R; clear R.
  - destruct (bullet_marker c); [now left|right; exact B].
  - destruct (code_fence_opt c); [now left|right; exact F].
  - destruct (heading_style c); [now left|right]. destruct H as [H|[H|[]]]; [right; left|left]; exact H.
  - destruct (link_style c); [now left|right; exact L].
  - destruct (em_delimiter c); [now left|right; lia].
  - destruct (strong_delimiter c); [now left|right; lia].
  - destruct (horizontal_rule c); [now left|right; lia].
Qed.
Lemma option_ok o c : documented_option o -> snd (apply_table_option o c) = None.
Proof.
  destruct o as [v|v|v|v|v|v]; cbn [documented_option apply_table_option]; auto;
    (intros [->|H]; [reflexivity|]; destruct H as [<-|H]; [reflexivity|]; repeat (destruct H as [<-|H]; [reflexivity|]); destruct H).
Qed.
Lemma option_wrong_value o c : ~ documented_option o -> snd (apply_table_option o c) <> None.
Proof.
  destruct o as [v|v|v|v|v|v]; cbn [documented_option apply_table_option]; try (intros H; now contradiction H);
    (intros H E; apply H; clear H; destruct v as [|x v]; [now left|]; right; cbn [is_empty] in E;
     match type of E with context [one_of ?l ?w] => destruct (one_of l w) eqn:O; [|discriminate E] end;
     unfold one_of in O; apply existsb_exists in O as (y & I & O); apply beqb_eq in O; subst y; exact I).
Qed.
Lemma options_ok os : forall c, Forall documented_option os -> snd (apply_table_options os c) = None.
Proof.
  induction os as [|o os IH]; intros c H; [reflexivity|]. inversion H as [|? ? H1 H2]; subst. cbn [apply_table_options].
  pose proof (option_ok o c H1) as E. destruct (apply_table_option o c) as [c' [e|]]; [discriminate|]. now apply IH.
Qed.
Lemma options_wrong os o : In o os -> ~ documented_option o -> forall c, snd (apply_table_options os c) <> None.
Proof.
  induction os as [|o' os IH]; intros I W c; [destruct I|]. cbn [apply_table_options]. destruct I as [->|I].
  - pose proof (option_wrong_value o c W) as E. destruct (apply_table_option o c) as [c' [e|]]; [discriminate|]. now contradiction E.
  - destruct (apply_table_option o' c) as [c' [e|]]; [discriminate|]. now apply IH.
Qed.
Lemma table_values os : forall c tc, apply_table_options os c = (tc, None) ->
  span_behavior tc = last_given (fun o => match o with OSpan v => unless_empty v | _ => None end) (span_behavior c) os
  /\ newline_behavior tc = last_given (fun o => match o with ONewline v => unless_empty v | _ => None end) (newline_behavior c) os
  /\ cell_padding tc = last_given (fun o => match o with OPadding v => Some (match v with [] => b "aligned" | _ => v end) | _ => None end) (cell_padding c) os
  /\ skip_empty_rows tc = last_given (fun o => match o with OSkipEmpty v => Some v | _ => None end) (skip_empty_rows c) os
  /\ promote_first_row tc = last_given (fun o => match o with OPromote v => Some v | _ => None end) (promote_first_row c) os
  /\ convert_presentation tc = last_given (fun o => match o with OPresentation v => Some v | _ => None end) (convert_presentation c) os.
Proof.
  induction os as [|o os IH]; intros c tc H.
  - injection H as ->. repeat split.
  - cbn [apply_table_options] in H. destruct (apply_table_option o c) as [c' [e|]] eqn:E; [discriminate|]. specialize (IH c' tc H).
    unfold last_given in *. cbn [fold_left].
    destruct o as [v|v|v|v|v|v]; cbn [apply_table_option] in E; [| | |injection E as <-; exact IH..];
      (destruct v as [|x v]; cbn [is_empty] in E;
           [injection E as <-; exact IH|
            match type of E with context [one_of ?l ?w] => destruct (one_of l w); [|discriminate E] end; injection E as <-; exact IH]).
Qed.
Lemma use_right u : documented_use u -> goes_wrong (RegPlugin (plugin_of u)) = false.
Proof.
  destruct u as [|c|d|os]; cbn [documented_use plugin_of]; intros H; try reflexivity.
  - unfold commonmark_plugin. cbv zeta. rewrite (documented_valid c H). reflexivity.
  - unfold table_plugin. pose proof (options_ok os table_defaults H) as E. destruct (apply_table_options os table_defaults) as [tc [e|]]; [discriminate|]. reflexivity.
Qed.
Lemma use_wrong u : refused_use u -> goes_wrong (RegPlugin (plugin_of u)) = true.
Proof.
  destruct u as [|c|d|os]; cbn [refused_use plugin_of]; intros H; [destruct H| |destruct H|].
  - unfold commonmark_plugin. cbv zeta. pose proof (refused_invalid c H) as E. destruct (validate_config (fill_defaults c)); [reflexivity|]. now contradiction E.
  - unfold table_plugin. destruct H as (x & I & W). pose proof (options_wrong os x I W table_defaults) as E.
    destruct (apply_table_options os table_defaults) as [tc [e|]]; [reflexivity|]. now contradiction E.
Qed.
Lemma wrong_fails sort m us u url doc : In u us -> refused_use u -> exists e, convert_node sort (converter_with m us) url doc = Failed e.
Proof.
  intros I W. apply (error_sticks sort [OptMode m; OptPlugins (map plugin_of us)] [] url doc). cbn [existsb]. rewrite orb_false_r.
  apply orb_true_iff. right. apply orb_true_iff. left. unfold option_wrong. cbn [option_calls]. apply orb_true_iff. left. apply existsb_exists.
  exists (RegPlugin (plugin_of u)). split; [|now apply use_wrong]. rewrite map_map. now apply (in_map (fun u => RegPlugin (plugin_of u))).
Qed.
Lemma right_works sort m us url doc : sorts sort -> Forall documented_use us -> In UseBase us -> (exists u, In u us /\ u <> UseBase) ->
  exists r, convert_node sort (converter_with m us) url doc = Returned r.
Proof.
  intros So R B (u0 & I0 & N0). apply (no_error sort [OptMode m; OptPlugins (map plugin_of us)] [] url doc So).
  - cbn [existsb]. unfold option_wrong. cbn [existsb option_calls orb]. rewrite !orb_false_r. apply not_true_is_false. intros E. apply existsb_exists in E as (a & I & E).
    rewrite map_map in I. apply in_map_iff in I as (u & <- & I). rewrite use_right in E; [discriminate|]. exact (proj1 (Forall_forall _ _) R u I).
  - reflexivity.
  - cbn [flat_map option_calls app]. rewrite !app_nil_r. intros E. assert (Q : exists p, In p (registered_render [RegPlugin (plugin_of u0)])).
    { pose proof (proj1 (Forall_forall _ _) R u0 I0) as D. destruct u0 as [|c|d|os]; [now contradiction N0| | |]; cbn [documented_use plugin_of] in *.
      - unfold commonmark_plugin. cbv zeta. rewrite (documented_valid c D). eexists. cbn. left. reflexivity.
      - eexists. cbn. left. reflexivity.
      - unfold table_plugin. pose proof (options_ok os table_defaults D) as W. destruct (apply_table_options os table_defaults) as [tc [e|]]; [discriminate|].
        eexists. cbn. left. reflexivity. }
    destruct Q as (p & Q). apply in_flat_map in Q as (a & Qa & Qp). unfold expand_all in Qa. cbn [flat_map] in Qa. rewrite app_nil_r in Qa.
    assert (K : In p (registered_render (map RegPlugin (map plugin_of us)))); [|rewrite E in K; destruct K].
    unfold registered_render, expand_all. apply in_flat_map. exists a. split; [|exact Qp]. apply in_flat_map. exists (RegPlugin (plugin_of u0)). split; [|exact Qa].
    rewrite map_map. now apply (in_map (fun u => RegPlugin (plugin_of u))).
  - intros _. cbn [flat_map option_calls app]. rewrite !app_nil_r. apply in_flat_map. exists (RegPlugin base_plugin). split.
    + rewrite map_map. change (RegPlugin base_plugin) with (RegPlugin (plugin_of UseBase)). now apply (in_map (fun u => RegPlugin (plugin_of u))).
    + now left.
Qed.
