(** Further elements and texts (C58, C29). *)
From Coq Require Import List NArith ZArith Bool String Lia ZifyBool ZifyNat ZifyN Sorting.Permutation Sorting.Sorted.
From Verif Require Import Bytes BytesFacts TextUtils Escape EscapeFacts Dom DomUtils RenderText Engine CommonMark Table EngineFacts
  SpecText SpecEscape SpecDom SpecEngine SpecPipeline SpecTable SpecUrl SpecText2 SpecNode TextFacts TextFacts2 TextFacts3 RenderFacts RenderFacts2 RenderFacts3 RenderFacts4 RenderFacts5
  RenderInv PanicFacts PipelineFacts UrlFacts DomFacts2 EscapeFacts6 LetterFacts LetterFacts2 NodeFacts.
Import ListNotations.
Open Scope N_scope.
Open Scope list_scope.

(** every closing bracket follows a byte of [g]; p is the byte before *)
Fixpoint bracketed (g : N -> bool) (p : N) (s : bytes) : bool :=
  match s with [] => true | c :: t => (negb (c =? 93) || g p) && bracketed g c t end.
Definition seven_or_bsl (c : N) : bool := (c =? 7) || (c =? 92).
Definition only_bsl (c : N) : bool := c =? 92.
Lemma last_step (d p : N) l : last (d :: l) p = last l d.
Proof. revert d p. induction l as [|k l IH]; intros d p; [reflexivity|]. change (last (d :: k :: l) p) with (last (k :: l) p). rewrite !IH. reflexivity. Qed.
Lemma bracketed_spec g s : forall p x y, bracketed g p s = true -> s = x ++ [93] ++ y -> g (last x p) = true.
Proof.
  induction s as [|c t IH]; intros p x y H E; [destruct x; discriminate|]. cbn [bracketed] in H. apply andb_true_iff in H as [H1 H2].
  destruct x as [|d x]; cbn [app] in E; injection E as -> E.
  - cbn. now destruct (g p).
  - rewrite last_step. now apply (IH d x y).
Qed.
Lemma bracketed_mono g g' s : (forall c, g c = true -> g' c = true) -> forall p, bracketed g p s = true -> bracketed g' p s = true.
Proof.
  intros M. induction s as [|c t IH]; intros p H; auto. cbn [bracketed] in *. apply andb_true_iff in H as [H1 H2]. rewrite IH by auto.
  destruct (c =? 93); cbn in *; auto. now rewrite M.
Qed.
Lemma bracketed_escape esc s : esc 93 = true -> forall p, bracketed (fun c => c =? 7) p (escape_content esc s) = true.
Proof.
  intros H. induction s as [|c t IH]; intros p; cbn [escape_content]; auto. destruct (c =? cNUL); [cbn; apply IH|].
  destruct (esc (fst (decode_rune (c :: t)))) eqn:E; cbn [bracketed]; rewrite IH; [now rewrite orb_true_r|].
  destruct (c =? 93) eqn:Ec; auto. apply N.eqb_eq in Ec. subst c. pose proof (decode_rune_spec 93 t) as S. destruct (decode_rune (93 :: t)) as [r n].
  cbn [fst] in E. destruct S as [(_ & -> & _)|(G & _)]; [congruence|lia].
Qed.
Lemma bracketed_replace s : forall p, p <> 7 \/ first_is 93 s = false -> bracketed seven_or_bsl p s = true ->
  bracketed only_bsl p (replace_all [7; 93] [92; 93] s) = true.
Proof.
  apply (replace_ind [7; 93] [92; 93] (fun s o => forall p, p <> 7 \/ first_is 93 s = false -> bracketed seven_or_bsl p s = true -> bracketed only_bsl p o = true));
    try discriminate; auto.
  - intros r o IH p _ H. cbn [app bracketed] in *. change (bracketed only_bsl 93 o = true). apply IH; [now left; discriminate|]. exact H.
  - intros c t o N IH p Hp H. cbn [bracketed] in *. apply andb_true_iff in H as [H1 H2]. rewrite IH; auto.
    + rewrite andb_true_r. destruct (c =? 93) eqn:E; auto. cbn in *. unfold seven_or_bsl in H1. unfold only_bsl. apply N.eqb_eq in E. subst c.
      destruct Hp as [Hp|Hp]; [lia|cbn in Hp; discriminate].
    + destruct (N.eq_dec c 7) as [->|Nc]; [right|now left]. destruct t as [|d t]; auto. cbn. cbn in N. destruct (d =? 93) eqn:E; auto.
      apply N.eqb_eq in E. subst d. discriminate.
Qed.

Section setting.
Variable x : setting.
Hypothesis Hsort : sorts (st_sort x).
Notation cv := (converter_with (st_mode x) (st_uses x)).
Notation e := (env_of (st_sort x) cv (st_url x)).
Notation hs := (in_order (st_sort x) (cv_render cv)).
Notation ts := (in_order (st_sort x) (cv_text cv)).
Notation rn := (render e hs ts).

(** The handlers of texts: first those of the base plugin, then those of the commonmark plugin *)
Lemma text_order cfg0 : In UseBase (st_uses x) -> In (UseCommonmark cfg0) (st_uses x) -> valid_cfg cfg0 = true ->
  exists A B, ts = A ++ B /\ Forall (eq base_text) A /\ Forall (eq commonmark_text) B /\ A <> [] /\ B <> [].
Proof.
  intros Ib Ic V.
  assert (G : exists A B, ts = A ++ B /\ Forall (eq base_text) A /\ Forall (eq commonmark_text) B
    /\ (In (500%Z, base_text) (cv_text cv) -> A <> []) /\ (In (1000%Z, commonmark_text) (cv_text cv) -> B <> [])).
  { unfold in_order. destruct (Hsort _ (cv_text cv)) as [P S].
    assert (I : Forall (fun y => y = (500%Z, base_text) \/ y = (1000%Z, commonmark_text)) (st_sort x text_handler (cv_text cv))).
    { apply Forall_forall. intros y Iy. apply (Permutation_in _ P) in Iy. rewrite cw_text in Iy. apply in_flat_map in Iy as (u & _ & Iy).
      destruct u; cbn [use_text] in Iy; try (destruct Iy as [<-|[]]; auto); try destruct Iy. destruct (valid_cfg cfg); [|destruct Iy]. destruct Iy as [<-|[]]; auto. }
    assert (J : forall y, In y (cv_text cv) -> In y (st_sort x text_handler (cv_text cv))) by (intros y Iy; apply (Permutation_in _ (Permutation_sym P)); exact Iy).
    assert (L : exists A B, map snd (st_sort x text_handler (cv_text cv)) = A ++ B /\ Forall (eq base_text) A /\ Forall (eq commonmark_text) B
      /\ (In (500%Z, base_text) (st_sort x text_handler (cv_text cv)) -> A <> []) /\ (In (1000%Z, commonmark_text) (st_sort x text_handler (cv_text cv)) -> B <> [])).
    { clear P J. unfold by_priority in S. induction (st_sort x text_handler (cv_text cv)) as [|y l IH].
      - exists [], []. repeat split; try constructor; intros [].
      - inversion I as [|? ? Iy Il]; subst. apply Sorted_StronglySorted in S; [|intros u v w; lia]. inversion S as [|? ? Sl Fl]; subst.
        apply StronglySorted_Sorted in Sl. destruct (IH Sl Il) as (A & B & E & FA & FB & NA & NB). destruct Iy as [->| ->].
        + exists (base_text :: A), B. cbn [map snd]. rewrite E. repeat split; auto; [discriminate|]. intros [Q|Q]; [discriminate|auto].
        + exists [], (commonmark_text :: map snd l). repeat split; auto; try discriminate.
          * constructor; auto. clear - Il Fl. induction l as [|z l IH]; cbn [map]; constructor; inversion Il as [|? ? Iz Iz']; inversion Fl as [|? ? Fz Fz']; subst; auto.
            destruct Iz as [->| ->]; auto. cbn in Fz. lia.
          * intros [Q|Q]; [discriminate|]. pose proof (proj1 (Forall_forall _ _) Fl _ Q) as K. cbn in K. lia. }
    destruct L as (A & B & E & FA & FB & NA & NB). exists A, B. repeat split; auto. }
  destruct G as (A & B & E & FA & FB & NA & NB). exists A, B. repeat split; auto.
  - apply NA. rewrite cw_text. apply in_flat_map. exists UseBase. split; auto. now left.
  - apply NB. rewrite cw_text. apply in_flat_map. exists (UseCommonmark cfg0). split; auto. cbn [use_text]. rewrite V. now left.
Qed.
Lemma link_brackets cfg f c anc d s : options x cfg -> In UseBase (st_uses x) -> st_mode x = Smart -> ctx_value inside_link_key c = true ->
  rendered x (S f) c anc (Text d) s -> forall u v, s = u ++ [93] ++ v -> exists u', u = u' ++ [92].
Proof.
  intros (cfg0 & Ic & _ & V & ->) Ib M C R u v E. unfold rendered in R. cbv zeta in R. cbn [render] in R.
  assert (Es : fold_left (fun s t => t e c s) ts d = s) by congruence. clear R.
  assert (Esc : escaped_char cv 93 = true).
  { unfold escaped_char. apply existsb_exists. exists 93. split; [|apply N.eqb_refl]. rewrite cw_chars. apply in_flat_map. exists (UseCommonmark cfg0). split; auto.
    cbn [use_chars]. unfold valid_cfg. rewrite V. cbn. tauto. }
  assert (V' : valid_cfg cfg0 = true) by (unfold valid_cfg; now rewrite V).
  destruct (text_order cfg0 Ib Ic V') as (A & B & Et & FA & FB & NA & NB). rewrite Et in Es.
  assert (Ef : escape_fn e = escape_content (escaped_char cv)) by (cbn [env_of escape_fn]; now rewrite cw_mode, M).
  assert (Hb : forall t p, bracketed seven_or_bsl p (base_text e c t) = true).
  { intros t p. unfold base_text. rewrite Ef. eapply bracketed_mono; [|apply bracketed_escape; exact Esc]. intros y Hy. unfold seven_or_bsl. cbn in Hy. now rewrite Hy. }
  assert (Hm : forall t, bracketed seven_or_bsl 0 t = true -> bracketed only_bsl 0 (commonmark_text e c t) = true).
  { intros t H. unfold commonmark_text. rewrite C. apply bracketed_replace; auto. left. discriminate. }
  assert (Ho : forall t, bracketed only_bsl 0 t = true -> bracketed seven_or_bsl 0 t = true).
  { intros t. apply bracketed_mono. unfold only_bsl, seven_or_bsl. intros y ->. apply orb_true_r. }
  assert (K1 : forall l t, Forall (eq base_text) l -> bracketed seven_or_bsl 0 t = true \/ l <> [] -> bracketed seven_or_bsl 0 (fold_left (fun s t => t e c s) l t) = true).
  { induction l as [|h l IH]; intros t F [H|H]; cbn [fold_left]; auto; try easy; inversion F; subst; apply IH; auto. }
  assert (K2 : forall l t, Forall (eq commonmark_text) l -> bracketed only_bsl 0 t = true \/ bracketed seven_or_bsl 0 t = true /\ l <> [] ->
     bracketed only_bsl 0 (fold_left (fun s t => t e c s) l t) = true).
  { induction l as [|h l IH]; intros t F H; cbn [fold_left]; [destruct H as [H|[_ H]]; easy|]. inversion F; subst. apply IH; auto. left. apply Hm. destruct H as [H|[H _]]; auto. }
  assert (K : bracketed only_bsl 0 s = true).
  { rewrite <- Es, fold_left_app. apply K2; auto. }
  pose proof (bracketed_spec _ _ _ _ _ K E) as L. unfold only_bsl in L. apply N.eqb_eq in L. destruct u as [|k u _] using rev_ind; [discriminate|].
  rewrite last_last in L. subst k. now exists u.
Qed.

(** Elements of the other plugins *)
Lemma one_handler l rec c anc n r s : (forall h, In h l -> h e rec c anc n = r \/ h e rec c anc n = Done (false, [])) ->
  (exists h, In h l /\ h e rec c anc n = r) -> (forall w, r <> Done (false, w)) -> try_renderers e l rec c anc n = Done s -> r = Done (true, s).
Proof.
  intros H (h0 & I0 & E0) N. revert s. induction l as [|h l IH]; intros s T; [destruct I0|]. cbn [try_renderers] in T.
  destruct (H h (or_introl eq_refl)) as [E|E]; rewrite E in T.
  - destruct r as [[[] w]| |]; cbn [bind fst snd] in T; try discriminate; [congruence|now elim (N w)].
  - cbn [bind fst snd] in T. destruct I0 as [->|I0]; [elim (N []); congruence|]. apply IH; auto.
    + intros h' I'. apply H. now right.
    + destruct (try_renderers e l rec c anc n); cbn in T; congruence.
Qed.
Lemma strike_dispatch name : In name strike_names -> forall cfg rec c anc a ks,
  commonmark_render cfg e rec c anc (Elem name a ks) = Done (false, []).
Proof. intros I cfg rec c anc a ks. cbn [strike_names In] in I. decompose [or] I; try contradiction; subst name; reflexivity. Qed.
Lemma node_strike d f c anc name a ks s : (exists d0, In (UseStrikethrough d0) (st_uses x) /\ d = or_default d0 (b "~~")) ->
  (forall d1, In (UseStrikethrough d1) (st_uses x) -> or_default d1 (b "~~") = d) -> ~ In 10 d ->
  In name (map b ["del"; "s"; "strike"]%string) -> rendered x (S f) c anc (Elem name a ks) s ->
  exists parts, inside x f c anc (Elem name a ks) parts /\ Forall2 (delimited d) (split_on 10 (List.concat parts)) (split_on 10 s).
Proof.
  intros (d0 & I0 & E0) U Nd I R. change (In name strike_names) in I.
  assert (Nn : name_in strike_names name = true) by (unfold name_in; apply existsb_exists; exists name; split; auto; apply beqb_refl).
  unfold rendered in R. cbv zeta in R. cbn [render] in R.
  set (r := bind (render_kids (rn f) c anc (Elem name a ks)) (fun y => Done (true, emphasis_text d y))).
  assert (Hr : r = Done (true, s)).
  { eapply (one_handler hs (rn f) c anc (Elem name a ks)); [| | |exact R].
    - intros h Ih. apply (render_uses (st_sort x) Hsort) in Ih as (u & Iu & Ih). destruct u as [|cfg|d1|os]; cbn [use_render] in Ih.
      + destruct Ih.
      + destruct (valid_cfg cfg); [|destruct Ih]. destruct Ih as [<-|[]]. right. cbn [snd]. now apply strike_dispatch.
      + destruct Ih as [<-|[]]. left. cbn [snd]. unfold strike_render. cbn [node_name]. rewrite Nn, (U d1 Iu). reflexivity.
      + destruct (apply_table_options os table_defaults) as [tc [?|]]; [destruct Ih|]. destruct Ih as [<-|[]]. right. cbn [snd]. apply table_declines.
        cbn [strike_names In] in I. decompose [or] I; try contradiction; subst name; reflexivity.
    - exists (strike_render d). split.
      + rewrite cw_render. apply (in_order_in (st_sort x) Hsort). exists 500%Z. apply in_flat_map. exists (UseStrikethrough d0). split; auto. subst d. now left.
      + unfold strike_render. cbn [node_name]. now rewrite Nn.
    - intros w. unfold r. destruct (render_kids _ _ _ _); cbn [bind]; discriminate. }
  unfold r in Hr. destruct (render_kids (rn f) c anc (Elem name a ks)) as [y| |] eqn:E; cbn [bind] in Hr; try discriminate. injection Hr as <-.
  apply kids_inside in E as (parts & Ip & ->). exists parts. split; auto. now apply delimiter_lines.
Qed.
Lemma node_row os tc f c anc a ks s : In (UseTable os) (st_uses x) -> apply_table_options os table_defaults = (tc, None) ->
  rendered x (S f) c anc (Elem (b "tr") a ks) s ->
  exists parts, inside x f c anc (Elem (b "tr") a ks) parts /\ s = [10; 10] ++ List.concat parts ++ [10; 10].
Proof.
  intros I V R. unfold rendered in R. cbv zeta in R. cbn [render] in R. set (n := Elem (b "tr") a ks) in *.
  set (r := bind (render_kids (rn f) c anc n) (fun y => Done (true, [10; 10] ++ y ++ [10; 10]))).
  assert (Hr : r = Done (true, s)).
  { eapply (one_handler hs (rn f) c anc n); [| | |exact R].
    - intros h Ih. apply (render_uses (st_sort x) Hsort) in Ih as (u & Iu & Ih). destruct u as [|cfg|d1|os1]; cbn [use_render] in Ih.
      + destruct Ih.
      + destruct (valid_cfg cfg); [|destruct Ih]. destruct Ih as [<-|[]]. right. reflexivity.
      + destruct Ih as [<-|[]]. right. reflexivity.
      + destruct (apply_table_options os1 table_defaults) as [tc1 [?|]]; [destruct Ih|]. destruct Ih as [<-|[]]. left. reflexivity.
    - exists (table_render tc). split; [|reflexivity]. rewrite cw_render. apply (in_order_in (st_sort x) Hsort). exists 500%Z. apply in_flat_map. exists (UseTable os). split; auto. cbn [use_render]. rewrite V. now left.
    - intros w. unfold r. destruct (render_kids _ _ _ _); cbn [bind]; discriminate. }
  unfold r in Hr. destruct (render_kids (rn f) c anc n) as [y| |] eqn:E; cbn [bind] in Hr; try discriminate. injection Hr as <-.
  apply kids_inside in E as (parts & Ip & ->). exists parts. split; auto.
Qed.
End setting.
