(** Documents without markup through the whole conversion (C60). *)
From Coq Require Import List NArith ZArith Bool String Lia ZifyBool ZifyNat ZifyN Permutation Sorted.
From Verif Require Import Bytes BytesFacts TextUtils TextFacts2 RenderFacts RenderText Escape SpecEscape EscapeFacts EscapeFacts4 EscapeFacts5 EscapeFacts6
  Dom DomUtils Collapse SpecDom SpecText SpecPlain Engine CommonMark Table SpecEngine
  EngineFacts RenderInv SpecPipeline PipelineFacts DomFacts DomFacts2 DomFacts3 PlainFacts PlainFacts2.
Import ListNotations.
Open Scope N_scope.
Open Scope list_scope.

(** ** Rendering *)
Section rendered.
Variable tok : bytes -> bool.
Variable e : env.
Variable hs : list renderer.
Variable ts : list text_handler.
Variable Inv : bytes -> Prop.
Hypothesis Hhs : forall h, In h hs -> (exists cfg, h = commonmark_render cfg) \/ (exists d, h = strike_render d) \/ (exists t, h = table_render t).
Hypothesis I_nil : Inv [].
Hypothesis I_app : forall x y, Inv x -> Inv y -> Inv (x ++ y).
Hypothesis I_nl : Inv [10; 10].
Hypothesis I_break : Inv break_text.
Hypothesis I_text : forall d, tok d = true -> Inv (fold_left (fun s t => t e [] s) ts d).
Lemma write_inv rs out : Forall (fun r => forall x, r = Done x -> Inv x) rs -> write_all rs = Done out -> Inv out.
Proof.
  intros F. revert out. induction F as [|r rs H F IH]; intros out E; cbn [write_all] in E; [injection E as <-; auto|].
  destruct r as [x| |]; try discriminate. cbn [bind] in E. destruct (write_all rs) as [y| |]; try discriminate. cbn [bind] in E. injection E as <-. auto.
Qed.
Lemma not_in_name l x k : name_in l x = false -> In k l -> beqb x k = false.
Proof.
  intros H I. destruct (beqb x k) eqn:E; auto. unfold name_in in H. assert (existsb (beqb x) l = true) by (apply existsb_exists; eauto). congruence.
Qed.
Lemma sub_names l l' x : name_in l x = false -> incl l' l -> name_in l' x = false.
Proof.
  intros H I. unfold name_in in *. destruct (existsb (beqb x) l') eqn:E; auto. apply existsb_exists in E as (k & Ik & E).
  assert (existsb (beqb x) l = true) by (apply existsb_exists; eauto). congruence.
Qed.
Definition tame (x : bytes) : Prop := name_in markup_names x = false.
Lemma commonmark_tame cfg rec c anc n : tame (node_name n) ->
  commonmark_render cfg e rec c anc n = Done (false, []) \/ commonmark_render cfg e rec c anc n = Done (true, break_text).
Proof.
  intros T. unfold tame in T. unfold commonmark_render. cbv zeta.
  rewrite (sub_names _ (bold_names ++ italic_names) _ T) by (intros z; cbn; tauto).
  rewrite (not_in_name _ _ (b "hr") T) by (cbn; tauto).
  destruct (beqb (node_name n) (b "br")); [now right|].
  assert (L : is_list_name (node_name n) = false).
  { unfold is_list_name. rewrite (not_in_name _ _ (b "ul") T) by (cbn; tauto). rewrite (not_in_name _ _ (b "ol") T) by (cbn; tauto). reflexivity. }
  rewrite L.
  rewrite (not_in_name _ _ (b "pre") T) by (cbn; tauto).
  rewrite (sub_names _ inline_code_names _ T) by (intros z; cbn; tauto).
  rewrite (not_in_name _ _ (b "blockquote") T) by (cbn; tauto).
  rewrite (sub_names _ heading_names _ T) by (intros z; cbn; tauto).
  rewrite (not_in_name _ _ (b "img") T) by (cbn; tauto).
  rewrite (not_in_name _ _ (b "a") T) by (cbn; tauto).
  rewrite (not_in_name _ _ (b "#comment") T) by (cbn; tauto).
  now left.
Qed.
Lemma try_plain rec anc n hs' : incl hs' hs -> tame (node_name n) ->
  (forall x, render_kids rec [] anc n = Done x -> Inv x) ->
  forall out, try_renderers e hs' rec [] anc n = Done out -> Inv out.
Proof.
  intros Ih T K. induction hs' as [|h r IH]; intros out E; cbn [try_renderers] in E.
  - unfold fallback in E. destruct (render_kids rec [] anc n) as [x| |] eqn:Ek; try discriminate. cbn [bind] in E. injection E as <-.
    assert (A : Inv (if is_block_type (tag_type_of e (node_name n)) then [cNL; cNL] else [])) by (destruct (is_block_type _); auto).
    auto.
  - assert (G : h e rec [] anc n = Done (false, []) \/ exists y, h e rec [] anc n = Done (true, y) /\ Inv y \/ forall p, h e rec [] anc n <> Done p).
    { destruct (Hhs h) as [(cfg & ->)|[(d & ->)|(t & ->)]]; [apply Ih; now left| | |].
      - destruct (commonmark_tame cfg rec [] anc n T) as [A|A]; [now left|]. right. exists break_text. left. auto.
      - left. unfold strike_render. rewrite (sub_names _ strike_names _ T) by (intros z; cbn; tauto). reflexivity.
      - unfold table_render. rewrite (not_in_name _ _ (b "table") T) by (cbn; tauto). destruct (beqb (node_name n) (b "tr")); [|now left]. right.
        destruct (render_kids rec [] anc n) as [x| |] eqn:Ek; cbn [bind]; [|exists []; right; discriminate|exists []; right; discriminate].
        exists ([cNL; cNL] ++ x ++ [cNL; cNL]). left. split; auto. }
    destruct G as [G|(y & [(G & Iy)|G])].
    + rewrite G in E. cbn [bind fst snd] in E. destruct (try_renderers e r rec [] anc n) as [x| |] eqn:Er; try discriminate. cbn [bind app] in E. injection E as <-.
      apply IH; auto. intros z Iz. apply Ih. now right.
    + rewrite G in E. cbn [bind fst snd] in E. now injection E as <-.
    + destruct (h e rec [] anc n) as [p| |]; try discriminate. now elim (G p).
Qed.
Lemma render_plain fuel : forall anc n out, plain_tree tok n = true -> render e hs ts fuel [] anc n = Done out -> Inv out.
Proof.
  induction fuel as [|f IH]; intros anc n out P E; [discriminate|]. cbn [render] in E.
  assert (K : forall x, render_kids (render e hs ts f) [] anc n = Done x -> Inv x).
  { intros x. unfold render_kids. apply write_inv. apply Forall_forall. intros r Ir y ->. apply in_map_iff in Ir as (k & Ek & Ik).
    apply (IH _ k y) in Ek; auto. destruct n as [d|z a ks|d|ks|d]; cbn [kids] in Ik; try destruct Ik; cbn [plain_tree] in P.
    - apply andb_true_iff in P as [_ P]. rewrite forallb_forall in P. auto.
    - rewrite forallb_forall in P. auto. }
  assert (T : match n with Elem _ _ _ | Doc _ | Other _ => tame (node_name n) | _ => True end).
  { destruct n as [d|z a ks|d|ks|d]; auto; unfold tame; cbn [node_name]; try reflexivity. cbn [plain_tree] in P. apply andb_true_iff in P as [P _].
    now apply negb_true_iff in P. }
  destruct n as [d|z a ks|d|ks|d]; try discriminate P.
  - injection E as <-. now apply I_text.
  - now apply (try_plain (render e hs ts f) anc (Elem z a ks) hs (incl_refl _) T K out).
  - now apply (try_plain (render e hs ts f) anc (Doc ks) hs (incl_refl _) T K out).
  - now apply (try_plain (render e hs ts f) anc (Other d) hs (incl_refl _) T K out).
Qed.
End rendered.

(** ** The classes of texts are kept by the preparation *)
Lemma nm_collapse d : nm d = true -> nm (collapse_ws d) = true.
Proof.
  unfold collapse_ws. generalize false as p.
  assert (G : forall s p, nm s = true -> nm (collapse_ws_from p s) = true /\
    forall x y r, s = x :: y :: r -> continuation x = true -> continuation y = true -> exists r', collapse_ws_from p s = x :: y :: r').
  { clear d. induction s as [|c t IH]; intros p H; [split; auto; discriminate|]. cbn [collapse_ws_from]. rewrite nm_cons in H. apply andb_true_iff in H as [H1 H2]. split.
    - destruct (is_ws c) eqn:W.
      + destruct (IH true H2) as [A _]. destruct p; auto.
      + destruct (IH false H2) as [A B]. rewrite nm_cons, A, andb_true_r. destruct (c =? 239); auto. destruct t as [|x [|y r]]; try discriminate.
        apply andb_true_iff in H1 as [H1 H3]. apply andb_true_iff in H1 as [H1 H1']. destruct (B x y r eq_refl H1 H1') as (r' & ->). now rewrite H1, H1', H3.
    - intros x y r [= -> ->] X Y. unfold continuation in X, Y. assert (Wx : is_ws x = false) by (unfold is_ws, cSP, cCR, cNL, cTAB in *; lia). assert (Wy : is_ws y = false) by (unfold is_ws, cSP, cCR, cNL, cTAB in *; lia).
      rewrite Wx. cbn [collapse_ws_from]. rewrite Wy. eauto. }
  intros p H. now apply G.
Qed.

Section conversion.
Variable sort : forall A : Type, list (Z * A) -> list (Z * A).
Hypothesis Hsort : sorts sort.
Lemma chars_ok m us c : In c (cv_chars (converter_with m us)) -> c < 128 /\ c <> 0 /\ c <> 7 /\ ~ ws_byte c.
Proof.
  rewrite cw_chars. intros I. apply in_flat_map in I as (u & _ & I). unfold ws_byte. destruct u as [|cfg|d|os]; cbn [use_chars] in I.
  - destruct I.
  - destruct (valid_cfg cfg); [|destruct I]. cbn [commonmark_escaped In] in I. repeat (destruct I as [<-|I]; [lia|]). destruct I.
  - destruct I as [<-|[]]. lia.
  - destruct (apply_table_options os table_defaults) as [tc [?|]]; [destruct I|]. destruct I as [<-|[]]. lia.
Qed.
Lemma unescapers_only m us : only_bundled (in_order sort (cv_unescape (converter_with m us))).
Proof.
  intros d I. rewrite cw_unescape in I. apply (in_order_in sort Hsort) in I as (p & I). apply in_flat_map in I as (u & _ & I). apply in_app_iff.
  destruct u as [|cfg|x|os]; cbn [use_unescape] in I; try destruct I.
  - destruct (valid_cfg cfg); [|destruct I]. apply in_map_iff in I as (d' & [= _ ->] & I). now left.
  - injection H as _ <-. right. now left.
  - destruct H.
Qed.
Lemma unescapers_bundled m us cfg : In (UseCommonmark cfg) us -> valid_cfg cfg = true -> Escape.bundled (in_order sort (cv_unescape (converter_with m us))).
Proof.
  intros I V. split; [|apply unescapers_only]. intros d Id. rewrite cw_unescape. apply (in_order_in sort Hsort). exists 500%Z.
  apply in_flat_map. exists (UseCommonmark cfg). split; auto. cbn [use_unescape]. rewrite V. apply in_map_iff. eauto.
Qed.
Lemma unescapers_strike m us x : In (UseStrikethrough x) us -> In is_strikethrough (in_order sort (cv_unescape (converter_with m us))).
Proof.
  intros I. rewrite cw_unescape. apply (in_order_in sort Hsort). exists 500%Z. apply in_flat_map. exists (UseStrikethrough x). split; auto. now left.
Qed.

Lemma renderers_known m us h : In h (in_order sort (cv_render (converter_with m us))) ->
  (exists cfg, h = commonmark_render cfg) \/ (exists d, h = strike_render d) \/ (exists t, h = table_render t).
Proof.
  intros I. apply (render_uses sort Hsort) in I as (u & _ & I). destruct u as [|cfg|d|os]; cbn [use_render] in I.
  - destruct I.
  - destruct (valid_cfg cfg); [|destruct I]. destruct I as [<-|[]]. left. eexists. reflexivity.
  - destruct I as [<-|[]]. right. left. eexists. reflexivity.
  - destruct (apply_table_options os table_defaults) as [tc [?|]]; [destruct I|]. destruct I as [<-|[]]. right. right. eexists. reflexivity.
Qed.

(** after rendering and the handlers after it *)
Section post.
Variable us : list use.
Variable url : bytes -> bytes -> bytes.
Notation cv := (converter_with Smart us).
Notation e := (env_of sort cv url).
Notation ds := (in_order sort (cv_unescape cv)).
Notation MN := (fun s => marked_text (cv_chars cv) s /\ nm s = true).
Definition done_with (x : bytes) : Prop := exists s, MN s /\ x = unescape_content ds s.
Lemma mn_trim s : MN s -> MN (post_trim s).
Proof. intros [A B]. split; [apply mt_trim; auto; apply chars_ok|now apply nm_trim]. Qed.
Lemma done_unescape x : done_with x -> done_with (base_unescape e x).
Proof.
  intros (s & H & ->). exists s. split; auto. unfold base_unescape, env_of. cbn [unescape_fn]. rewrite cw_mode. cbn [unescape_with].
  apply unescape_none. apply unescape_no7.
Qed.
Lemma done_newline x : done_with x -> done_with (commonmark_post e x).
Proof.
  intros (s & H & ->). exists s. split; auto. unfold commonmark_post, post_newline. apply replace_none. intros J.
  pose proof (content_inserts ds s (only_wb _ (unescapers_only Smart us))) as Q.
  apply (inserts_infix _ _ Q) in J; [|cbn; intuition discriminate]. revert J. apply nm_no_mark. now apply nm_bells.
Qed.
Lemma posts_done l : (forall q k, In (q, k) l -> In (q, k) (flat_map use_post us)) -> by_priority l ->
  (forall x, done_with x -> (forall y, In y l -> (520 <= fst y)%Z) -> done_with (fold_left (fun s h => h e s) (map snd l) x)) /\
  (forall s, MN s -> In (520%Z, base_unescape) l -> done_with (fold_left (fun s h => h e s) (map snd l) s)).
Proof.
  intros Sub Srt. unfold by_priority in Srt. apply Sorted_StronglySorted in Srt; [|intros a b0 c0; lia].
  induction l as [|[q k] l IH]; [split; [auto|intros s _ []]|]. inversion Srt as [|? ? S1 S2]; subst.
  destruct IH as [IH1 IH2]; auto; [intros; apply Sub; now right|]. cbn [map fold_left snd]. split.
  - intros x D L. apply IH1; [|intros; apply L; now right]. specialize (L _ (or_introl eq_refl)). cbn [fst] in L.
    destruct (use_post_cases us q k (Sub _ _ (or_introl eq_refl))) as [(-> & ->)|[(-> & ->)|(-> & ->)]]; [lia|now apply done_unescape|now apply done_newline].
  - intros s M I. destruct (use_post_cases us q k (Sub _ _ (or_introl eq_refl))) as [(-> & ->)|[(-> & ->)|(-> & ->)]].
    + destruct I as [I|I]; [discriminate|]. apply IH2; auto. now apply mn_trim.
    + apply IH1.
      * exists s. split; auto. unfold base_unescape, env_of. cbn [unescape_fn]. now rewrite cw_mode.
      * intros y Iy. rewrite Forall_forall in S2. exact (S2 y Iy).
    + destruct I as [I|I]; [discriminate|]. rewrite Forall_forall in S2. specialize (S2 _ I). cbn [fst] in S2. lia.
Qed.
Lemma mn_text d : In UseBase us -> nm d = true -> MN (fold_left (fun s t => t e [] s) (in_order sort (cv_text cv)) d).
Proof.
  intros Ib Nd. pose proof (text_base sort Hsort Smart us Ib) as J. pose proof (text_cases sort Hsort Smart us) as K. revert J K.
  generalize (in_order sort (cv_text cv)) as ts. intros ts J K.
  assert (B : forall s, nm s = true -> MN (base_text e [] s)).
  { intros s Ns. unfold base_text, env_of. cbn [escape_fn]. rewrite cw_mode. cbn [escape_with]. split.
    - apply (mt_escape _ (chars_ok Smart us)).
    - apply (nm_escape _ (chars_ok Smart us)). now apply nm_entity. }
  assert (G : forall ts, (forall h, In h ts -> h = base_text \/ h = commonmark_text) ->
    (forall s, MN s -> MN (fold_left (fun s t => t e [] s) ts s)) /\ (forall s, nm s = true -> In base_text ts -> MN (fold_left (fun s t => t e [] s) ts s))).
  { clear - B. induction ts as [|h r IH]; intros K; [split; [auto|intros s _ []]|]. destruct IH as [IH1 IH2]; [intros; apply K; now right|].
    cbn [fold_left]. destruct (K h (or_introl eq_refl)) as [-> | ->].
    - split; intros s M; intros; apply IH1; apply B; auto. now destruct M.
    - change (commonmark_text e [] ?s) with s. split; auto. intros s Ns [I|I]; auto. exfalso.
      assert (Q : base_text {| tag_type_of := fun _ => None; escape_fn := fun _ => [1]; unescape_fn := fun s => s; assemble_url := fun _ s => s |} [] [] = [1]) by reflexivity.
      rewrite <- I in Q. discriminate. }
  now apply G.
Qed.
Lemma plain_conversion doc out : In UseBase us -> markup_free no_newline_mark doc = true -> invisible doc = false ->
  converts (convert_node sort cv url doc) out -> done_with out.
Proof.
  intros Ib P Iv C. eapply convert_done in C; [|reflexivity]. unfold run_conversion in C. cbv zeta in C.
  pose proof (prepared_plain no_newline_mark nm_app eq_refl nm_collapse (fun r H => H) (fun r H => nm_prefix r [32] eq_refl H) sort Hsort Smart us url doc Ib P Iv) as P'.
  destruct (render _ _ _ _ _ _ _) as [s| |] eqn:R; cbn [bind] in C; try discriminate. injection C as <-.
  assert (M : MN s).
  { apply (render_plain no_newline_mark) with (7 := P') (8 := R).
    - apply renderers_known.
    - split; [constructor|reflexivity].
    - intros x y [A1 A2] [B1 B2]. split; [now apply mt_app|now apply nm_app].
    - split; [|reflexivity]. repeat (apply mt_plain; [lia|apply (esc_no _ (chars_ok Smart us)); unfold ws_byte; lia|]). constructor.
    - split; [|reflexivity]. change (marked_text (cv_chars cv) [32; 32; 10]). repeat (apply mt_plain; [lia|apply (esc_no _ (chars_ok Smart us)); unfold ws_byte; lia|]). constructor.
    - intros d Nd. now apply mn_text. }
  unfold in_order at 1. destruct (Hsort _ (cv_post cv)) as [Pm Sr].
  apply posts_done; auto.
  - intros q k I. rewrite <- (cw_post Smart us). eapply Permutation_in; [exact Pm|exact I].
  - eapply Permutation_in; [apply Permutation_sym; exact Pm|]. rewrite cw_post. apply in_flat_map. exists UseBase. split; auto. right. now left.
Qed.
(** the output is that of one escaped text *)
Lemma plain_output doc out : In UseBase us -> markup_free no_newline_mark doc = true -> invisible doc = false ->
  converts (convert_node sort cv url doc) out -> exists t, out = unescape_content ds (escape_content (escaped_char cv) t).
Proof.
  intros Ib P Iv C. destruct (plain_conversion doc out Ib P Iv C) as (s & [M _] & ->). apply (mt_image _ (chars_ok Smart us)) in M as (t & -> & _). now exists t.
Qed.
(** no tab is left *)
Lemma no_tab_in x : no_tab x = true <-> ~ In 9 x.
Proof.
  unfold no_tab. rewrite forallb_forall. split.
  - intros H I. now specialize (H 9 I).
  - intros H c I. destruct (c =? 9) eqn:E; auto. apply N.eqb_eq in E. now subst.
Qed.
Lemma thin_in s o : thin s o -> forall c, In c o -> In c s.
Proof. induction 1; intros x; cbn [In]; intuition. Qed.
Lemma inserts_in t u : inserts t u -> forall c, c <> 92 -> In c u -> In c t.
Proof.
  induction 1 as [|c t u H IH|c t u H IH]; intros x N I; [exact I| |].
  - destruct I as [<-|I]; [now left|right; auto].
  - destruct I as [I|[<-|I]]; [congruence|now left|right; auto].
Qed.
Lemma entity_in s c : c = 9 -> In c (entity_replace s) -> In c s.
Proof.
  intros ->. induction s as [|d s IH]; [auto|]. cbn [entity_replace]. intros I. apply in_app_iff in I as [I|I]; [|right; auto].
  destruct (d =? 60); [vm_compute in I; intuition discriminate|]. destruct (d =? 62); [vm_compute in I; intuition discriminate|]. destruct I as [->|[]]. now left.
Qed.
Lemma plain_no_tab doc out : In UseBase us -> markup_free (fun _ => true) doc = true -> is_doc doc ->
  converts (convert_node sort cv url doc) out -> ~ In 9 out.
Proof.
  intros Ib P D C. eapply convert_done in C; [|reflexivity]. unfold run_conversion in C. cbv zeta in C.
  pose proof (prepared_no_tab sort Hsort Smart us url doc Ib P D) as P'.
  destruct (render _ _ _ _ _ _ _) as [s| |] eqn:R; cbn [bind] in C; try discriminate. injection C as <-.
  assert (M : ~ In 9 s).
  { apply (render_plain no_tab) with (7 := P') (8 := R).
    - apply renderers_known.
    - auto.
    - intros x y A B I. apply in_app_iff in I as [I|I]; auto.
    - cbn. intuition discriminate.
    - vm_compute. intuition discriminate.
    - intros d Nd. apply no_tab_in in Nd. pose proof (text_cases sort Hsort Smart us) as K. revert K Nd. generalize (in_order sort (cv_text cv)) as ts.
      intros ts. revert d. induction ts as [|h r IH]; intros d K Nd; auto. cbn [fold_left]. apply IH; [intros; apply K; now right|].
      destruct (K h (or_introl eq_refl)) as [-> | ->]; auto. unfold base_text, env_of. cbn [escape_fn]. rewrite cw_mode. cbn [escape_with].
      intros I. apply escape_back in I as [I|[I|I]]; [|discriminate|lia]. now apply (entity_in _ 9) in I. }
  assert (F : forall q k, In (q, k) (cv_post cv) -> forall x, ~ In 9 x -> ~ In 9 (k e x)).
  { intros q k I x Nx. rewrite cw_post in I. apply use_post_cases in I as [(-> & ->)|[(-> & ->)|(-> & ->)]].
    - unfold base_trim, post_trim. intros I. apply (thin_in _ _ (thin_hard _)) in I. apply (thin_in _ _ (thin_tcn _)) in I. apply Nx.
      destruct (trim_space_ws x) as (u & v & E & _). rewrite E. apply in_app_iff. right. apply in_app_iff. now left.
    - unfold base_unescape, env_of. cbn [unescape_fn]. rewrite cw_mode. cbn [unescape_with]. intros I.
      apply (inserts_in _ _ (content_inserts ds x (only_wb _ (unescapers_only Smart us)))) in I; [|discriminate]. apply filter_In in I. tauto.
    - unfold commonmark_post, post_newline. intros J. apply PanicFacts.replace_back in J as [J|J]; [now apply Nx| |discriminate].
      destruct J as [J|[]]. discriminate. }
  assert (G : forall l, (forall h, In h l -> exists q, In (q, h) (cv_post cv)) -> forall x, ~ In 9 x -> ~ In 9 (fold_left (fun s h => h e s) l x)).
  { clear - F. induction l as [|h l IH]; intros K x Nx; auto. cbn [fold_left]. apply IH; [intros; apply K; now right|].
    destruct (K h (or_introl eq_refl)) as (q & I). eapply F; eauto. }
  apply G; auto. intros h I. now apply (in_order_in sort Hsort) in I.
Qed.
End post.
End conversion.
