(** Lemmas about whole conversions with the bundled plugins. *)
From Coq Require Import List NArith ZArith Bool String Lia Sorting.Permutation Sorting.Sorted.
From Verif Require Import Bytes BytesFacts TextUtils RenderText Escape SpecText TextFacts TextFacts2 RenderFacts RenderFacts2 RenderFacts3
  RenderFacts4 RenderFacts5 EscapeFacts6 Dom DomUtils Engine CommonMark Table SpecEngine EngineFacts RenderInv PanicFacts SpecPipeline.
Import ListNotations.
Open Scope N_scope.
Open Scope list_scope.

Definition calls_of (us : list use) : list action := map RegPlugin (map plugin_of us).
Lemma converter_with_eq m us : converter_with m us = do_actions (calls_of us) (set_mode m empty_converter).
Proof. reflexivity. Qed.

(** What each plugin registers *)
Definition valid_cfg (cfg : config) : bool := match validate_config (fill_defaults cfg) with None => true | Some _ => false end.
Definition use_render (u : use) : list (Z * renderer) :=
  match u with
  | UseBase => []
  | UseCommonmark cfg => if valid_cfg cfg then [(500%Z, commonmark_render (fill_defaults cfg))] else []
  | UseStrikethrough d => [(500%Z, strike_render (or_default d (b "~~")))]
  | UseTable os => match apply_table_options os table_defaults with (cfg, None) => [(500%Z, table_render cfg)] | _ => [] end
  end.
Definition use_text (u : use) : list (Z * text_handler) :=
  match u with
  | UseBase => [(500%Z, base_text)]
  | UseCommonmark cfg => if valid_cfg cfg then [(1000%Z, commonmark_text)] else []
  | _ => []
  end.
Definition use_post (u : use) : list (Z * post_handler) :=
  match u with
  | UseBase => [(500%Z, base_trim); (520%Z, base_unescape)]
  | UseCommonmark cfg => if valid_cfg cfg then [(1000%Z, commonmark_post)] else []
  | _ => []
  end.
Definition use_chars (u : use) : list N :=
  match u with
  | UseBase => []
  | UseCommonmark cfg => if valid_cfg cfg then commonmark_escaped else []
  | UseStrikethrough _ => [126]
  | UseTable os => match apply_table_options os table_defaults with (_, None) => [124] | _ => [] end
  end.
Definition use_unescape (u : use) : list (Z * detector) :=
  match u with
  | UseCommonmark cfg => if valid_cfg cfg then map (fun d => (500%Z, d)) commonmark_detectors else []
  | UseStrikethrough _ => [(500%Z, is_strikethrough)]
  | _ => []
  end.
Lemma flat_map_flat_map {A B C} (f : B -> list C) (g : A -> list B) l : flat_map f (flat_map g l) = flat_map (fun x => flat_map f (g x)) l.
Proof. induction l as [|x l IH]; [reflexivity|]. cbn. now rewrite flat_map_app, IH. Qed.
Lemma calls_flat {B} (f : action -> list B) us : flat_map f (expand_all (calls_of us)) = flat_map (fun u => flat_map f (expand (RegPlugin (plugin_of u)))) us.
Proof.
  unfold expand_all, calls_of. rewrite flat_map_flat_map. induction us as [|u us IH]; [reflexivity|]. cbn [map flat_map]. now rewrite IH.
Qed.
Lemma flat_map_ext_all {A B} (f g : A -> list B) l : (forall x, f x = g x) -> flat_map f l = flat_map g l.
Proof. intros H. induction l; cbn; congruence. Qed.
Ltac use_case := intros [|cfg|d|os]; [reflexivity| |reflexivity|];
  [unfold plugin_of, commonmark_plugin; cbn [use_render use_text use_post use_chars use_unescape]; unfold valid_cfg;
   destruct (validate_config (fill_defaults cfg)); reflexivity
  |unfold plugin_of, table_plugin; cbn [use_render use_text use_post use_chars use_unescape];
   destruct (apply_table_options os table_defaults) as [? [?|]]; reflexivity].
Lemma registered_render_uses us : registered_render (calls_of us) = flat_map use_render us.
Proof. unfold registered_render. rewrite calls_flat. apply flat_map_ext_all. use_case. Qed.
Lemma registered_text_uses us : registered_text (calls_of us) = flat_map use_text us.
Proof. unfold registered_text. rewrite calls_flat. apply flat_map_ext_all. use_case. Qed.
Lemma registered_post_uses us : registered_post (calls_of us) = flat_map use_post us.
Proof. unfold registered_post. rewrite calls_flat. apply flat_map_ext_all. use_case. Qed.
Lemma registered_chars_uses us : registered_chars (calls_of us) = flat_map use_chars us.
Proof. unfold registered_chars. rewrite calls_flat. apply flat_map_ext_all. use_case. Qed.
Lemma registered_unescape_uses us : registered_unescape (calls_of us) = flat_map use_unescape us.
Proof. unfold registered_unescape. rewrite calls_flat. apply flat_map_ext_all. use_case. Qed.

Lemma cw_render m us : cv_render (converter_with m us) = flat_map use_render us.
Proof. rewrite converter_with_eq, cv_render_actions. cbn [set_mode empty_converter cv_render app]. apply registered_render_uses. Qed.
Lemma cw_text m us : cv_text (converter_with m us) = flat_map use_text us.
Proof. rewrite converter_with_eq, cv_text_actions. cbn [set_mode empty_converter cv_text app]. apply registered_text_uses. Qed.
Lemma cw_post m us : cv_post (converter_with m us) = flat_map use_post us.
Proof. rewrite converter_with_eq, cv_post_actions. cbn [set_mode empty_converter cv_post app]. apply registered_post_uses. Qed.
Lemma cw_chars m us : cv_chars (converter_with m us) = flat_map use_chars us.
Proof. rewrite converter_with_eq, cv_chars_actions. cbn [set_mode empty_converter cv_chars app]. apply registered_chars_uses. Qed.
Lemma cw_unescape m us : cv_unescape (converter_with m us) = flat_map use_unescape us.
Proof. rewrite converter_with_eq, cv_unescape_actions. cbn [set_mode empty_converter cv_unescape app]. apply registered_unescape_uses. Qed.
Lemma cw_mode m us : cv_mode (converter_with m us) = m.
Proof. now rewrite converter_with_eq, cv_mode_actions. Qed.
Lemma use_name u : exists init err, plugin_of u = Plugin (match u with UseBase => b "base" | UseCommonmark _ => b "commonmark"
  | UseStrikethrough _ => b "strikethrough" | UseTable _ => b "table" end) init err.
Proof.
  destruct u as [|cfg|d|os]; cbn [plugin_of]; try (eexists _, _; reflexivity).
  - unfold commonmark_plugin. destruct (validate_config _); eexists _, _; reflexivity.
  - unfold table_plugin. destruct (apply_table_options os table_defaults) as [? [?|]]; eexists _, _; reflexivity.
Qed.
Lemma cw_plugins m us : cv_plugins (converter_with m us) = map (fun u => match u with UseBase => b "base" | UseCommonmark _ => b "commonmark"
  | UseStrikethrough _ => b "strikethrough" | UseTable _ => b "table" end) us.
Proof.
  rewrite converter_with_eq, cv_plugins_actions. cbn [set_mode empty_converter cv_plugins app]. unfold calls_of.
  induction us as [|u us IH]; [reflexivity|]. cbn [map flat_map]. rewrite IH. destruct u as [|cfg|d|os]; try reflexivity.
  - cbn [plugin_of]. unfold commonmark_plugin. destruct (validate_config _); reflexivity.
  - cbn [plugin_of]. unfold table_plugin. destruct (apply_table_options os table_defaults) as [? [?|]]; reflexivity.
Qed.
Lemma cw_base m us : existsb (beqb (b "base")) (cv_plugins (converter_with m us)) = true -> In UseBase us.
Proof.
  rewrite cw_plugins. intros H. apply existsb_exists in H as (x & I & E). apply beqb_eq in E. subst x.
  apply in_map_iff in I as (u & E & I). destruct u; [exact I|discriminate E..].
Qed.
Lemma cw_commonmark m us cfg : In (UseCommonmark cfg) us -> existsb (beqb (b "commonmark")) (cv_plugins (converter_with m us)) = true.
Proof.
  intros I. rewrite cw_plugins. apply existsb_exists. exists (b "commonmark"). split; [|reflexivity].
  apply in_map_iff. exists (UseCommonmark cfg). auto.
Qed.

(** ** Rendering ends (C45) *)
Section pipeline.
Variable sort : forall A : Type, list (Z * A) -> list (Z * A).
Hypothesis Hsort : sorts sort.
Lemma render_uses m us h : In h (in_order sort (cv_render (converter_with m us))) ->
  exists u, In u us /\ In h (map snd (use_render u)).
Proof.
  rewrite cw_render. intros I. apply (in_order_in sort Hsort) in I as (p & I). apply in_flat_map in I as (u & Iu & I). exists u. split; auto.
  apply in_map_iff. now exists (p, h).
Qed.
Lemma text_uses m us h : In h (in_order sort (cv_text (converter_with m us))) <-> exists u, In u us /\ In h (map snd (use_text u)).
Proof.
  rewrite cw_text, (in_order_in sort Hsort). split.
  - intros (p & I). apply in_flat_map in I as (u & Iu & I). exists u. split; auto. apply in_map_iff. now exists (p, h).
  - intros (u & Iu & I). apply in_map_iff in I as ((p & h') & E & I). cbn in E. subst. exists p. apply in_flat_map. eauto.
Qed.
Lemma bundled_uses (okc : config -> Prop) (okd : bytes -> Prop) (tb : Prop) m us :
  (forall cfg, In (UseCommonmark cfg) us -> valid_cfg cfg = true -> okc (fill_defaults cfg)) ->
  (forall d, In (UseStrikethrough d) us -> okd (or_default d (b "~~"))) ->
  (forall os, In (UseTable os) us -> tb) ->
  Forall (RenderInv.bundled okc okd tb) (in_order sort (cv_render (converter_with m us))).
Proof.
  intros H1 H2 H3. apply Forall_forall. intros h I. apply render_uses in I as (u & Iu & I). destruct u as [|cfg|d|os]; cbn [use_render] in I.
  - destruct I.
  - destruct (valid_cfg cfg) eqn:V; [|destruct I]. destruct I as [<-|[]]. apply B_commonmark. auto.
  - destruct I as [<-|[]]. apply B_strike. auto.
  - destruct (apply_table_options os table_defaults) as [tc [?|]]; [destruct I|]. destruct I as [<-|[]]. apply B_table. eauto.
Qed.
Lemma conversion_ends m us url doc : run_conversion sort (converter_with m us) url doc <> OutOfFuel.
Proof.
  unfold run_conversion. cbv zeta. set (c := converter_with m us). set (e := env_of sort c url). set (ts := in_order sort (cv_text c)).
  pose proof (render_inv e ts _ _ _ _ _ _ _ _ _ _ _ (any_closed e ts) (in_order sort (cv_render c))) as H.
  specialize (H (bundled_uses _ _ _ m us (fun _ _ _ => I) (fun _ _ => I) (fun _ _ => I)) no_strikes
              (S (height (prepared sort c url doc))) [] [] (prepared sort c url doc) I (le_S _ _ (le_n _))).
  destruct (render _ _ _ _ _ _ _); cbn [bind good] in *; try discriminate. contradiction.
Qed.

(** ** No panic in smart mode (C45) *)
Lemma count_in c s : (1 <= count_byte c s)%nat -> In c s.
Proof.
  induction s as [|d s IH]; cbn [count_byte]; [lia|]. destruct (c =? d) eqn:E; [apply N.eqb_eq in E; now left|]. right. auto.
Qed.
Lemma count_solid c s : (1 <= count_byte c s)%nat -> solid c -> has_solid s.
Proof. intros H S. exists c. split; auto. now apply count_in. Qed.
Lemma valid_solid cfg : valid_cfg cfg = true -> solid_cfg (fill_defaults cfg).
Proof.
  unfold valid_cfg. destruct (validate_config (fill_defaults cfg)) eqn:E; [discriminate|]. intros _.
  apply validate_spec in E as (Hb & Hf & _ & _ & He & Hs & Hr).
  assert (S42 : solid 42) by (unfold solid; lia). assert (S95 : solid 95) by (unfold solid; lia). assert (S45 : solid 45) by (unfold solid; lia).
  split; [|split; [|split; [|split]]].
  - destruct He as [He|He]; [apply (count_solid 95)|apply (count_solid 42)]; auto; lia.
  - destruct Hs as [Hs|Hs]; [apply (count_solid 95)|apply (count_solid 42)]; auto; lia.
  - destruct Hr as [Hr|[Hr|Hr]]; [apply (count_solid 42)|apply (count_solid 95)|apply (count_solid 45)]; auto; lia.
  - destruct Hb as [<-|[<-|[<-|[]]]].
    + exists 45. split; [now left|auto].
    + exists 43. split; [now left|unfold solid; lia].
    + exists 42. split; [now left|auto].
  - destruct Hf as [<-|[<-|[]]]; cbn; unfold solid; lia.
Qed.
(** The text handlers of the bundled plugins, base among them, give safe texts. *)
Lemma texts_safe e ts : escape_fn e = escape_content (fun r => true) \/ (exists esc, escape_fn e = escape_content esc /\ esc 35 = true) ->
  (forall h, In h ts -> h = base_text \/ h = commonmark_text) -> In base_text ts -> forall d c, safe (fold_left (fun s t => t e c s) ts d).
Proof.
  intros He Ht Ib. assert (Hs : forall s, safe (escape_fn e s)).
  { intros s. destruct He as [->|(esc & -> & E)]; now apply safe_text_mark. }
  assert (Hk : forall l, (forall h, In h l -> h = base_text \/ h = commonmark_text) -> forall s c, safe s -> safe (fold_left (fun s t => t e c s) l s)).
  { induction l as [|h l IH]; intros Hl s c P; [exact P|]. cbn [fold_left]. apply IH; [intros; apply Hl; now right|].
    destruct (Hl h (or_introl eq_refl)) as [->| ->]; [apply Hs|]. unfold commonmark_text. destruct (ctx_value _ _); [now apply safe_link_text|exact P]. }
  intros d c. apply in_split in Ib as (l1 & l2 & ->). rewrite fold_left_app. cbn [fold_left]. apply Hk; [|apply Hs].
  intros h I. apply Ht. apply in_app_iff. right. now right.
Qed.
Lemma text_cases m us h : In h (in_order sort (cv_text (converter_with m us))) -> h = base_text \/ h = commonmark_text.
Proof.
  intros I. apply text_uses in I as (u & _ & I). destruct u; cbn [use_text] in I; try (destruct I as [<-|[]]; auto); try destruct I.
  destruct (valid_cfg cfg); [|destruct I]. destruct I as [<-|[]]. auto.
Qed.
Lemma text_base m us : In UseBase us -> In base_text (in_order sort (cv_text (converter_with m us))).
Proof. intros I. apply text_uses. exists UseBase. split; auto. now left. Qed.
Lemma protects_uses m us cfg : In (UseCommonmark cfg) us -> valid_cfg cfg = true -> protects (escaped_char (converter_with m us)).
Proof.
  intros I V c Ic. unfold escaped_char. apply existsb_exists. exists c. split; [|apply N.eqb_refl]. rewrite cw_chars.
  apply in_flat_map. exists (UseCommonmark cfg). split; auto. cbn [use_chars]. now rewrite V.
Qed.
Lemma none_closed e ts :
  closed e ts false (fun _ => false) (fun _ => []) (fun _ _ => True) (fun _ => True) (fun _ => True) False (fun _ => True) (fun _ => False) (fun _ => True) True.
Proof.
  split; auto.
  - intros n _. apply Forall_forall. auto.
  - intros n _ _. unfold below_vis. induction (kids n); simpl; auto. rewrite vis_nil; auto.
  - intros setext level n x (cfg & []).
Qed.
Lemma find_commonmark us : (exists cfg, In (UseCommonmark cfg) us /\ valid_cfg cfg = true) \/
  (forall cfg, In (UseCommonmark cfg) us -> valid_cfg cfg = true -> False).
Proof.
  induction us as [|u us IH]; [right; intros cfg []|]. destruct IH as [(cfg & I & V)|H].
  - left. exists cfg. split; auto. now right.
  - destruct u as [|cfg|d|os]; try (right; intros cfg' [E|I]; [discriminate|eauto]).
    destruct (valid_cfg cfg) eqn:V; [left; exists cfg; split; auto; now left|].
    right. intros cfg' [[= <-]|I]; [congruence|eauto].
Qed.
Lemma smart_no_panic us url doc :
  (forall d, In (UseStrikethrough d) us -> d = [] \/ exists c, In c d /\ visible_ascii c) ->
  match convert_node sort (converter_with Smart us) url doc with Failed _ | Returned (Done _) => True | _ => False end.
Proof.
  intros Hd. set (c := converter_with Smart us). unfold convert_node. destruct (cv_err c); auto.
  destruct (is_empty _); auto. destruct (existsb (beqb (b "commonmark")) (cv_plugins c) && _) eqn:Eb; auto.
  unfold run_conversion. cbv zeta. set (e := env_of sort c url). set (ts := in_order sort (cv_text c)).
  assert (G : exists out, render e (in_order sort (cv_render c)) ts (S (height (prepared sort c url doc))) [] [] (prepared sort c url doc) = Done out).
  { destruct (find_commonmark us) as [(cfg & Ic & V)|Nc].
    - assert (Ib : In UseBase us).
      { apply (cw_base Smart). unfold c in Eb. rewrite (cw_commonmark Smart us cfg Ic) in Eb. cbn [andb] in Eb. now apply negb_false_iff in Eb. }
      assert (Hs : forall d cx, safe (fold_left (fun s t => t e cx s) ts d)).
      { apply texts_safe.
        - right. exists (escaped_char c). split.
          + unfold e, env_of. cbn [escape_fn]. unfold c. now rewrite cw_mode.
          + eapply protects_uses; eauto. cbn. tauto.
        - intros h. apply text_cases.
        - now apply text_base. }
      pose proof (render_inv e ts _ _ _ _ _ _ _ _ _ _ _ (safe_closed e ts Hs) (in_order sort (cv_render c))) as H.
      assert (Hbu : Forall (RenderInv.bundled solid_cfg has_solid True) (in_order sort (cv_render c))).
      { apply bundled_uses; auto.
        - intros cfg' _ V'. now apply valid_solid.
        - intros d I. destruct (Hd d I) as [->|(k & Ik & Vk)].
          + exists 126. split; [now left|unfold solid; lia].
          + unfold or_default. destruct d; [destruct Ik|]. exists k. split; auto. }
      specialize (H Hbu no_strikes (S (height (prepared sort c url doc))) [] [] (prepared sort c url doc) I (le_S _ _ (le_n _))).
      destruct (render _ _ _ _ _ _ _); cbn [good] in H; [eauto|contradiction..].
    - pose proof (render_inv e ts _ _ _ _ _ _ _ _ _ _ _ (none_closed e ts) (in_order sort (cv_render c))) as H.
      assert (Hbu : Forall (RenderInv.bundled (fun _ => False) (fun _ => True) True) (in_order sort (cv_render c))).
      { apply bundled_uses; auto. }
      specialize (H Hbu no_strikes (S (height (prepared sort c url doc))) [] [] (prepared sort c url doc) I (le_S _ _ (le_n _))).
      destruct (render _ _ _ _ _ _ _); cbn [good] in H; [eauto|contradiction..]. }
  destruct G as (out & ->). cbn [bind]. auto.
Qed.

(** ** The post-renderers: markers (C01, C02) *)
Lemma sorted_after A (l1 l2 : list (Z * A)) x : by_priority (l1 ++ x :: l2) -> forall y, In y l2 -> (fst x <= fst y)%Z.
Proof.
  intros H y I. unfold by_priority in H. apply Sorted_StronglySorted in H; [|intros a b0 c0; lia].
  induction l1 as [|z l1 IH]; cbn [app] in H; inversion H as [|? ? H1 H2]; subst; [|auto].
  rewrite Forall_forall in H2. auto.
Qed.
Lemma post_split us e h p s (Inv : bytes -> Prop) :
  In (p, h) (flat_map use_post us) -> (forall x, Inv (h e x)) ->
  (forall q k, In (q, k) (flat_map use_post us) -> (p <= q)%Z -> forall x, Inv x -> Inv (k e x)) ->
  Inv (fold_left (fun s h => h e s) (in_order sort (flat_map use_post us)) s).
Proof.
  intros I H1 H2. unfold in_order. destruct (Hsort _ (flat_map use_post us)) as [P S].
  assert (J : In (p, h) (sort _ (flat_map use_post us))) by (eapply Permutation_in; [apply Permutation_sym; exact P|exact I]).
  apply in_split in J as (l1 & l2 & E). assert (K : forall y, In y l2 -> In y (flat_map use_post us) /\ (p <= fst y)%Z).
  { intros y Iy. split.
    - eapply Permutation_in; [exact P|]. rewrite E. apply in_app_iff. right. now right.
    - rewrite E in S. apply (sorted_after _ _ _ _ S y Iy). }
  assert (G : forall l x, (forall y, In y l -> In y (flat_map use_post us) /\ (p <= fst y)%Z) -> Inv x ->
                     Inv (fold_left (fun s h => h e s) (map snd l) x)).
  { clear - H2. induction l as [|[q k] l IH]; intros x K Hx; [exact Hx|]. cbn [map fold_left snd]. destruct (K (q, k) (or_introl eq_refl)) as [K1 K2].
    apply IH; [intros; apply K; now right|]. eapply H2; eauto. }
  rewrite E, map_app, fold_left_app. cbn [map fold_left snd]. apply G; auto.
Qed.
Lemma use_post_cases us q k : In (q, k) (flat_map use_post us) ->
  (q = 500%Z /\ k = base_trim) \/ (q = 520%Z /\ k = base_unescape) \/ (q = 1000%Z /\ k = commonmark_post).
Proof.
  intros I. apply in_flat_map in I as (u & _ & I). destruct u as [|cfg|d|os]; cbn [use_post] in I.
  - destruct I as [[= <- <-]|[[= <- <-]|[]]]; auto.
  - destruct (valid_cfg cfg); [|destruct I]. destruct I as [[= <- <-]|[]]. auto.
  - destruct I.
  - destruct I.
Qed.
Lemma run_conversion_out m us url doc out : run_conversion sort (converter_with m us) url doc = Done out ->
  exists s, out = fold_left (fun s h => h (env_of sort (converter_with m us) url) s) (in_order sort (flat_map use_post us)) s.
Proof.
  unfold run_conversion. cbv zeta. rewrite <- (cw_post m us). destruct (render _ _ _ _ _ _ _) as [s| |]; cbn [bind]; try discriminate.
  intros [= <-]. now exists s.
Qed.
Lemma convert_done o out m us url doc : convert_node sort (converter_with m us) url doc = o -> converts o out ->
  run_conversion sort (converter_with m us) url doc = Done out.
Proof.
  intros E C. unfold converts in C. subst o. unfold convert_node in C. destruct (cv_err _); [discriminate|]. destruct (is_empty _); [discriminate|].
  destruct (_ && _); [discriminate|]. now injection C.
Qed.
Lemma no_bell_output us url doc out : In UseBase us ->
  converts (convert_node sort (converter_with Smart us) url doc) out -> ~ In 7 out.
Proof.
  intros Ib C. eapply convert_done in C; [|reflexivity]. apply run_conversion_out in C as (s & ->).
  apply (post_split us _ base_unescape 520%Z).
  - apply in_flat_map. exists UseBase. split; auto. right. now left.
  - intros x. unfold base_unescape, env_of. cbn [unescape_fn]. rewrite cw_mode. apply unescape_no7.
  - intros q k I L x Nx. apply use_post_cases in I as [(-> & ->)|[(-> & ->)|(-> & ->)]]; [lia| |].
    + unfold base_unescape, env_of. cbn [unescape_fn]. rewrite cw_mode. apply unescape_no7.
    + unfold commonmark_post, post_newline. intros J. apply replace_back in J as [J|J]; [now apply Nx| |discriminate].
      destruct J as [J|[]]. discriminate.
Qed.
Lemma no_marker_left s : ~ infix marker_nl (post_newline s).
Proof.
  unfold post_newline.
  apply (replace_ind marker_nl [cNL] (fun s o => ~ infix marker_nl o /\ (has_prefix [130] o = true -> has_prefix [130] s = true) /\
          (has_prefix [128; 130] o = true -> has_prefix [128; 130] s = true))); [discriminate| | |].
  - repeat split; auto. intros (x & y & E). destruct x; discriminate.
  - intros r o (N & _ & _). repeat split; try discriminate. intros (x & y & E). destruct x as [|c x]; [discriminate|].
    injection E as _ E. apply N. now exists x, y.
  - intros c t o P (N & H1 & H2). repeat split.
    + intros (x & y & E). destruct x as [|d x]; [|injection E as _ E; apply N; now exists x, y].
      injection E as -> E. assert (B : has_prefix [128; 130] o = true) by (apply has_prefix_iff; now exists y).
      apply H2 in B. apply has_prefix_iff in B as (z & ->). cbn in P. discriminate.
    + cbn [has_prefix]. now rewrite !andb_true_r.
    + cbn [has_prefix] in *. intros B. apply andb_prop in B as [B1 B2]. rewrite B1. cbn [andb]. auto.
Qed.
Lemma converts_valid m us cfg url doc out : In (UseCommonmark cfg) us ->
  converts (convert_node sort (converter_with m us) url doc) out -> valid_cfg cfg = true.
Proof.
  intros Ic C. unfold valid_cfg. destruct (validate_config (fill_defaults cfg)) eqn:E; [exfalso|reflexivity].
  assert (W : existsb goes_wrong (calls_of us) = true).
  { apply existsb_exists. exists (RegPlugin (commonmark_plugin cfg)). split.
    - apply in_map, (in_map plugin_of us (UseCommonmark cfg)), Ic.
    - unfold commonmark_plugin. rewrite E. reflexivity. }
  assert (W2 : existsb option_wrong [OptMode m; OptPlugins (map plugin_of us)] || existsb goes_wrong [] = true).
  { cbn [existsb]. unfold option_wrong at 2. cbn [option_calls]. unfold calls_of in W. rewrite W. cbn. now rewrite ?orb_true_r. }
  destruct (error_sticks sort [OptMode m; OptPlugins (map plugin_of us)] [] url doc W2) as (x & Ex).
  rewrite do_actions_nil in Ex. unfold converter_with, converts in C. rewrite Ex in C. discriminate.
Qed.
Lemma no_nl_marker_output m us cfg url doc out : In (UseCommonmark cfg) us ->
  converts (convert_node sort (converter_with m us) url doc) out -> ~ infix marker_nl out.
Proof.
  intros Ic C. assert (V : valid_cfg cfg = true) by (eapply converts_valid; eauto).
  eapply convert_done in C; [|reflexivity]. apply run_conversion_out in C as (s & ->).
  apply (post_split us _ commonmark_post 1000%Z).
  - apply in_flat_map. exists (UseCommonmark cfg). split; auto. cbn [use_post]. rewrite V. now left.
  - intros x. apply no_marker_left.
  - intros q k I L x Nx. apply use_post_cases in I as [(-> & ->)|[(-> & ->)|(-> & ->)]]; [lia|lia|]. apply no_marker_left.
Qed.

(** ** Texts (C03, C15) *)
Lemma disabled_identity c url : cv_mode c = Disabled ->
  forall s, escape_fn (env_of sort c url) s = s /\ unescape_fn (env_of sort c url) s = s.
Proof. intros E s. unfold env_of. cbn [escape_fn unescape_fn]. now rewrite E. Qed.
Lemma entity_no_angle s c : c = 60 \/ c = 62 -> ~ In c (entity_replace s).
Proof.
  intros Hc. induction s as [|d s IH]; [auto|]. cbn [entity_replace]. intros I. apply in_app_iff in I as [I|I]; [|auto].
  destruct (d =? 60) eqn:E1; [|destruct (d =? 62) eqn:E2].
  - cbn in I. lia.
  - cbn in I. lia.
  - destruct I as [->|[]]. apply N.eqb_neq in E1, E2. lia.
Qed.
Lemma escape_back esc s c : In c (escape_content esc s) -> In c s \/ c = 7 \/ 128 <= c.
Proof.
  induction s as [|d s IH]; [auto|]. cbn [escape_content]. destruct (d =? cNUL); [|destruct (esc _)].
  - intros I. apply in_app_iff in I as [I|I]; [right; right; cbn in I; lia|]. destruct (IH I); auto. left. now right.
  - intros [I|[I|I]]; [right; left; now symmetry|left; now left|]. destruct (IH I); auto. left. now right.
  - intros [I|I]; [left; now left|]. destruct (IH I); auto. left. now right.
Qed.
Lemma text_no_angle m us url hs fuel cx anc d out c : In UseBase us -> c = 60 \/ c = 62 ->
  render (env_of sort (converter_with m us) url) hs (in_order sort (cv_text (converter_with m us))) (S fuel) cx anc (Text d) = Done out ->
  ~ In c out.
Proof.
  intros Ib Hc. cbn [render]. intros [= <-]. set (e := env_of _ _ _).
  assert (He : forall s, In c (escape_fn e s) -> In c s).
  { intros s. unfold e, env_of. cbn [escape_fn]. rewrite cw_mode. destruct m; cbn [escape_with]; auto.
    intros I. apply escape_back in I. destruct I as [I|I]; auto. lia. }
  assert (Hb : forall s, ~ In c (base_text e cx s)) by (intros s I; apply He in I; eapply entity_no_angle; eauto).
  assert (Hk : forall l, (forall h, In h l -> h = base_text \/ h = commonmark_text) -> forall s, ~ In c s -> ~ In c (fold_left (fun s t => t e cx s) l s)).
  { induction l as [|h l IH]; intros Hl s P; [exact P|]. cbn [fold_left]. apply IH; [intros; apply Hl; now right|].
    destruct (Hl h (or_introl eq_refl)) as [->| ->]; [apply Hb|]. unfold commonmark_text. destruct (ctx_value _ _); [|exact P].
    intros I. apply replace_back in I as [I|I]; [auto| |discriminate]. cbn in I. lia. }
  pose proof (text_base m us Ib) as J. pose proof (text_cases m us) as T. apply in_split in J as (l1 & l2 & E). rewrite E in *.
  rewrite fold_left_app. cbn [fold_left]. apply Hk; [|apply Hb]. intros h I. apply T. apply in_app_iff. right. now right.
Qed.
Lemma read_entity_text s : ~ In 38 s -> read_entities 0 (entity_replace s) = s.
Proof.
  induction s as [|d s IH]; intros N; [reflexivity|]. cbn [entity_replace]. assert (Ns : ~ In 38 s) by (intros I; apply N; now right).
  destruct (d =? 60) eqn:E1; [|destruct (d =? 62) eqn:E2].
  - apply N.eqb_eq in E1. subst d. cbn. now rewrite IH.
  - apply N.eqb_eq in E2. subst d. cbn. now rewrite IH.
  - cbn [app read_entities]. assert (P : forall x, has_prefix (38 :: x) (d :: entity_replace s) = false).
    { intros x. cbn [has_prefix]. destruct (38 =? d) eqn:E; [|reflexivity]. apply N.eqb_eq in E. elim N. now left. }
    change (b "&lt;") with (38 :: b "lt;"). change (b "&gt;") with (38 :: b "gt;"). rewrite !P. now rewrite IH.
Qed.
End pipeline.
