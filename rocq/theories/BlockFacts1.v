(** The preparation of pages (C64). *)
From Coq Require Import List NArith ZArith Bool String Lia ZifyBool ZifyNat ZifyN Permutation Sorted.
From Verif Require Import Bytes BytesFacts TextUtils TextFacts2 RenderFacts RenderText Escape SpecEscape Dom DomUtils Collapse SpecDom SpecText SpecPlain Engine CommonMark Table SpecEngine
  EngineFacts RenderInv SpecPipeline SpecNode PipelineFacts DomFacts DomFacts2 DomFacts3 PlainFacts SpecBlocks BlockFacts0 BlockFacts.
Import ListNotations.
Open Scope N_scope.
Open Scope list_scope.

Section lists.
Variables (cfg : config) (loose ended : bool) (T : bytes -> Prop).
Lemma qpages_app p ns ms B C q r : qpages cfg loose ended T p ns B q -> qpages cfg loose ended T q ms C r -> qpages cfg loose ended T p (ns ++ ms) (B ++ C) r.
Proof.
  intros Q H. induction Q as [|n ns B1 C1 p q1 r1 Q1 Q2 IH|x a ks ns B1 C1 p q1 r1 E L Q1 Q2 IH]; cbn [app]; auto; rewrite <- app_assoc.
  - eapply qs_cons; eauto.
  - eapply qs_ended; eauto.
Qed.
Lemma qpages_one p n B q : qpage cfg loose ended T p n B q -> qpages cfg loose ended T p [n] B q.
Proof. intros Q. rewrite <- (app_nil_r B). eapply qs_cons; eauto. constructor. Qed.
End lists.
Lemma qpage_weaken cfg (loose loose' ended ended' : bool) (T T' : bytes -> Prop) : (loose = true -> loose' = true) -> (ended = true -> ended' = true) -> (forall t, T t -> T' t) ->
  (forall p n B q, qpage cfg loose ended T p n B q -> qpage cfg loose' ended' T' p n B q) /\ (forall p ns B q, qpages cfg loose ended T p ns B q -> qpages cfg loose' ended' T' p ns B q) /\
  (forall ks its, qitems cfg loose ended T ks its -> qitems cfg loose' ended' T' ks its).
Proof.
  intros W1 W2 W. assert (O : forall ks t, one_text T ks t -> one_text T' ks t). { intros ks t [H|[H1 H2]]; [left; auto|right; auto]. }
  apply qpage_all; intros; try (econstructor; eauto; fail).
Qed.
Lemma level_plain x k : level_of x = Some k -> name_in hidden_names x = false /\ is_block_name x = true /\ is_preformatted x = false.
Proof. intros H. apply level_cases in H. repeat (destruct H as [[= <- <-] | H]; [repeat split|]). destruct H. Qed.
Lemma list_plain x : list_name x = true -> name_in hidden_names x = false /\ is_block_name x = true /\ is_preformatted x = false /\ level_of x = None /\
  beqb x (b "hr") = false /\ beqb x (b "pre") = false.
Proof. intros L. apply list_cases in L as [-> | ->]; repeat split. Qed.
Lemma groups_plain x : groups x = true -> name_in hidden_names x = false /\ is_preformatted x = false /\ level_of x = None /\
  beqb x (b "hr") = false /\ beqb x (b "pre") = false.
Proof.
  intros G. split; [apply groups_none; auto|]. split.
  { assert (E : name_in [b "pre"; b "code"] x = false) by now apply groups_none. unfold name_in in E. cbn [existsb] in E. unfold is_preformatted.
    apply orb_false_iff in E as [-> E]. now apply orb_false_iff in E as [-> _]. }
  destruct (groups_level x G) as (E1 & E2 & E3 & _). auto.
Qed.

(** ** The removal *)
Definition glue (acc r : list node) : list node := match acc with [] => r | a :: acc' => rev acc' ++ beside a r end.
Lemma glue_beside acc n r : glue acc (beside n r) = glue (push_text n acc) r.
Proof.
  destruct acc as [|a acc]; [now destruct n|]. cbn [glue]. destruct n as [d|x c ks|d|ks|d]; cbn [push_text beside].
  - destruct a as [p|x c ks|p|ks|p]; cbn [glue rev]; try (rewrite <- app_assoc; reflexivity).
    f_equal. destruct r as [|[e|x c ks|e|ks|e] r]; cbn [beside]; auto. now rewrite app_assoc.
  - cbn [glue rev beside]. rewrite <- app_assoc. now destruct a.
  - cbn [glue rev beside]. rewrite <- app_assoc. now destruct a.
  - cbn [glue rev beside]. rewrite <- app_assoc. now destruct a.
  - cbn [glue rev beside]. rewrite <- app_assoc. now destruct a.
Qed.
Lemma shown_elem x a ks : shown (Elem x a ks) = Elem x a (shown_all ks).
Proof. reflexivity. Qed.
Lemma shown_doc ks : shown (Doc ks) = Doc (shown_all ks).
Proof. reflexivity. Qed.
Section removing.
Variable rm : bytes -> bool.
Hypothesis Hrm : forall x, rm x = name_in hidden_names x.
Lemma cleaned_shown ks : Forall (fun k => merge_text (remove_in rm k) = shown k) ks -> forall acc, rev (cleaned rm ks acc) = glue acc (shown_all ks).
Proof.
  induction 1 as [|k ks H _ IH]; intros acc.
  - unfold cleaned. cbn [flat_map fold_left shown_all]. destruct acc as [|a acc]; auto. cbn [rev glue]. now destruct a.
  - rewrite cleaned_cons, (rm_invisible rm Hrm). cbn [shown_all]. destruct (invisible k); auto. rewrite IH, H. symmetry. apply glue_beside.
Qed.
Lemma removed n : merge_text (remove_in rm n) = shown n.
Proof.
  induction n as [d|x a ks IH|d|ks IH|d] using node_induction; auto.
  - cbn [remove_in merge_text]. fold (cleaned rm ks []). rewrite cleaned_shown; auto.
  - cbn [remove_in merge_text]. fold (cleaned rm ks []). rewrite cleaned_shown; auto.
Qed.
Lemma removed_doc ks : merge_text (remove_root rm (Doc ks)) = Doc (shown_all ks).
Proof. unfold remove_root. rewrite (rm_invisible rm Hrm). cbn [invisible]. rewrite removed. apply shown_doc. Qed.
End removing.
Inductive settled : list node -> Prop :=
| st_nil : settled []
| st_cons n ns : invisible n = false -> shown n = n -> settled ns -> (is_text n = true -> match ns with Text _ :: _ => False | _ => True end) -> settled (n :: ns).
Lemma settled_shown ns : settled ns -> shown_all ns = ns.
Proof.
  induction 1 as [|n ns H1 H2 _ IH H3]; auto. cbn [shown_all]. rewrite H1, H2, IH. destruct n; auto. destruct ns as [|[] ns]; auto. now destruct (H3 eq_refl).
Qed.
Lemma settled_beside n ns : invisible n = false -> shown n = n -> settled ns -> settled (beside n ns).
Proof.
  intros H1 H2 S. destruct n as [d|x a ks|d|ks|d]; cbn [beside]; try (constructor; auto; discriminate).
  destruct ns as [|[e|x a ks|e|ks|e] ns]; try (constructor; auto; fail). inversion S; subst. constructor; auto.
Qed.
Lemma shown_visible n : invisible (shown n) = invisible n.
Proof. now destruct n. Qed.
Lemma shown_all_settled ks : Forall (fun k => shown (shown k) = shown k) ks -> settled (shown_all ks).
Proof.
  induction 1 as [|k ks H _ IH]; [constructor|]. cbn [shown_all]. destruct (invisible k) eqn:E; auto. apply settled_beside; auto. now rewrite shown_visible.
Qed.
Lemma shown_twice n : shown (shown n) = shown n.
Proof.
  induction n as [d|x a ks IH|d|ks IH|d] using node_induction; auto.
  - rewrite !shown_elem. f_equal. apply settled_shown. now apply shown_all_settled.
  - rewrite !shown_doc. f_equal. apply settled_shown. now apply shown_all_settled.
Qed.
Lemma shown_all_twice ks : shown_all (shown_all ks) = shown_all ks.
Proof. apply settled_shown, shown_all_settled, Forall_forall. intros k _. apply shown_twice. Qed.

(** ** Pages as they are shown *)
Lemma one_spaced_blank d : one_spaced d = [] -> forallb separates d = true.
Proof.
  intros E. apply cw_empty in E. induction d as [|c d IH]; auto. cbn [collapse_ws_from forallb] in *. rewrite is_ws_sep in E. destruct (separates c); [auto|discriminate].
Qed.
Section shown_pages.
Variable cfg : config.
Definition item_page (k : node) : bool :=
  match k with
  | Text d => forallb separates d
  | Elem y _ js => beqb y (b "li") && match pages cfg false js with Some _ => true | None => false end
  | _ => false
  end.
Lemma page_elem text x a ks : page cfg text (Elem x a ks) =
  match level_of x with
  | Some _ => match heading_in ks with
              | Some t => if readable_block t && negb (text && is_empty t) then Some false else None
              | None => None
              end
  | None =>
      if beqb x (b "hr") then if is_empty ks then Some false else None
      else if beqb x (b "pre") then match code_in (Elem x a ks) with Some (_, d) => if readable_code d then Some false else None | None => None end
      else if list_name x then
        if forallb item_page ks && list_ok two_of cfg (Elem x a ks) (nonempty_items (map blocks_of ks)) then Some false else None
      else if groups x then
        if holds_text x then match pages cfg false ks with Some _ => Some false | None => None end
        else pages cfg text ks
      else None
  end.
Proof. reflexivity. Qed.
Lemma list_ok_kids n m its : node_name n = node_name m -> (forall k, attribute n k = attribute m k) -> list_ok two_of cfg n its = list_ok two_of cfg m its.
Proof. intros E1 E2. unfold list_ok, list_number. now rewrite E1, !E2. Qed.
Lemma pages_of ks : Forall (fun n => forall p q, page cfg p n = Some q -> qpage cfg true false anyt p n (blocks_of n) q) ks ->
  forall p q, pages cfg p ks = Some q -> qpages cfg true false anyt p ks (flat_map blocks_of ks) q.
Proof.
  induction 1 as [|k ks H _ IH]; intros p q E; cbn [pages flat_map] in *.
  - injection E as ->. constructor.
  - destruct (page cfg p k) as [q'|] eqn:Ek; [|discriminate]. eapply qs_cons; eauto.
Qed.
Lemma page_qpage n : (forall p q, page cfg p n = Some q -> qpage cfg true false anyt p n (blocks_of n) q) /\
  (forall p q, pages cfg p (kids n) = Some q -> qpages cfg true false anyt p (kids n) (flat_map blocks_of (kids n)) q).
Proof.
  induction n as [d|x a ks IH|d|ks IH|d] using node_induction.
  - split; [|intros p q [= ->]; constructor]. intros p q E. cbn [page blocks_of] in *. destruct p; [discriminate|]. destruct (forallb separates d) eqn:S.
    + injection E as <-. unfold some_text. rewrite blank_one by auto. now constructor.
    + destruct (readable_block (one_spaced d)) eqn:R; [|discriminate]. injection E as <-. unfold some_text. destruct (one_spaced d) eqn:O; [apply one_spaced_blank in O; congruence|].
      cbn [is_empty]. rewrite <- O in *. constructor; auto. exact I. congruence.
  - assert (Ks : forall p q, pages cfg p ks = Some q -> qpages cfg true false anyt p ks (flat_map blocks_of ks) q).
    { apply pages_of. eapply Forall_impl; [|exact IH]. cbn. tauto. }
    split; [|exact Ks]. intros p q. rewrite page_elem. cbn [blocks_of]. destruct (level_of x) as [k|] eqn:L.
    { destruct (heading_in ks) as [t|] eqn:Eh; [|discriminate]. destruct (readable_block t && negb (p && is_empty t)) eqn:R; [|discriminate].
      intros [= <-]. apply andb_true_iff in R as [R1 R2]. unfold heading_in in Eh. destruct ks as [|[d|?|?|?|?] [|? ?]]; try discriminate; injection Eh as <-.
      - apply (q_head cfg true false anyt x a k [] [] p); auto. now left. intros ->. discriminate.
      - apply (q_head cfg true false anyt x a k [Text d] d p); auto. now right. intros ->. destruct (one_spaced d); [discriminate|easy]. }
    destruct (beqb x (b "hr")) eqn:Eh.
    { apply beqb_eq in Eh. subst x. destruct ks; [|discriminate]. intros [= <-]. constructor. }
    destruct (beqb x (b "pre")) eqn:Ep.
    { apply beqb_eq in Ep. subst x. destruct (code_in (Elem (b "pre") a ks)) as [[i d]|] eqn:C; [|discriminate].
      destruct (readable_code d) eqn:R; [|discriminate]. intros [= <-]. now constructor. }
    fold (list_name x). destruct (list_name x) eqn:Ln.
    { destruct (forallb item_page ks) eqn:F; [|discriminate]. cbn [andb]. destruct (list_ok two_of cfg (Elem x a ks) (nonempty_items (map blocks_of ks))) eqn:O; [|discriminate].
      intros [= <-]. apply (q_list cfg true false anyt x a ks (map blocks_of ks) p); auto.
      clear - IH F. induction IH as [|k ks H _ IH]; cbn [map forallb] in *; [constructor|]. apply andb_true_iff in F as [F1 F2].
      destruct k as [d|y c js|d|js|d]; try discriminate; cbn [item_page] in F1.
      - cbn [blocks_of]. unfold some_text. rewrite blank_one by auto. constructor; auto.
      - apply andb_true_iff in F1 as [F1 F3]. apply beqb_eq in F1. subst y. destruct (pages cfg false js) as [q'|] eqn:Q; [|discriminate].
        apply (qi_item cfg true false anyt c js _ q'); auto. apply (proj2 H). exact Q. }
    destruct (groups x) eqn:G; [|discriminate]. destruct (holds_text x) eqn:Hx.
    + destruct (pages cfg false ks) as [q'|] eqn:Q; [|discriminate]. intros [= <-]. eapply q_block; eauto.
    + intros Q. eapply q_inline; eauto.
  - split; [discriminate|intros p q [= ->]; constructor].
  - split; [discriminate|]. apply pages_of. eapply Forall_impl; [|exact IH]. cbn. tauto.
  - split; [|intros p q [= ->]; constructor]. intros p q [= ->]. now constructor.
Qed.
Lemma is_page_qpages ks : is_page cfg ks = true -> exists q, qpages cfg true false anyt false (shown_all ks) (flat_map blocks_of (shown_all ks)) q.
Proof.
  unfold is_page. destruct (pages cfg false (shown_all ks)) as [q|] eqn:E; [|discriminate]. intros _. exists q. now apply (proj2 (page_qpage (Doc (shown_all ks)))).
Qed.
End shown_pages.

(** ** The collapsing of white space *)
Section collapsing.
Variable cfg : config.
Variable isb : bytes -> bool.
Hypothesis Hb : forall x, name_in hidden_names x = false -> isb x = is_block_name x.
Definition led (t : bytes) : Prop := one_spaced t <> [] /\ trim_suffix_space t = one_spaced t.
Definition final (t : bytes) : Prop := t <> [] /\ one_spaced t = t.
Lemma effect_block x : name_in hidden_names x = false -> is_block_name x = true -> effect_of isb x = EBlock.
Proof. intros H E. unfold effect_of. now rewrite (Hb x H), E. Qed.
Lemma effect_group x : groups x = true -> effect_of isb x = EBlock \/ effect_of isb x = EInline.
Proof.
  intros G. destruct (groups_plain x G) as (N1 & N2 & _). unfold effect_of. rewrite (Hb x N1). destruct (is_block_name x); auto.
  rewrite N2. assert (E : name_in (b "br" :: void_names ++ [b "code"]) x = false) by now apply groups_none.
  unfold name_in in *. cbn [existsb app] in E. apply orb_false_iff in E as [E1 E2]. rewrite existsb_app in E2. apply orb_false_iff in E2 as [E2 E3].
  cbn [existsb] in E3. apply orb_false_iff in E3 as [E3 _]. rewrite E1, E2, E3. auto.
Qed.
Definition fits (p : bool) (s : cstate) : Prop := s = (None, false) \/ p = true /\ exists e, s = (Some e, false).
Lemma lead_led T d : T d -> one_spaced d <> [] -> exists e, lead isb (None, false) (Text d) = ((Some e, false), [Text (collapse_ws_from true d)]) /\ led (collapse_ws_from true d) /\
  one_spaced (collapse_ws_from true d) = one_spaced d.
Proof.
  intros _ N. eexists. cbn [lead]. rewrite lead_text_eq. destruct (collapse_ws_from true d) as [|c r] eqn:E. { apply cw_empty in E. contradiction. }
  cbn [is_empty]. rewrite <- E. split; [reflexivity|]. split; [|apply one_spaced_cw]. unfold led. rewrite one_spaced_cw, trim_cw. auto.
Qed.
Lemma lead_blank d : one_spaced d = [] -> lead isb (None, false) (Text d) = ((None, false), []).
Proof. intros E. cbn [lead]. rewrite lead_text_eq. now rewrite (proj2 (cw_empty d)). Qed.
Lemma lead_one ks t T : one_text T ks t -> exists ks' t', snd (lead_list isb (None, false) ks) = ks' /\ one_text led ks' t' /\ one_spaced t' = one_spaced t.
Proof.
  intros [[-> ->]|[-> _]].
  - exists [], []. split; [reflexivity|]. split; [left; auto|reflexivity].
  - destruct (one_spaced t) as [|c r] eqn:E.
    + exists [], []. cbn [lead_list]. rewrite lead_blank by auto. split; [reflexivity|]. split; [left; auto|reflexivity].
    + destruct (lead_led anyt t I) as (e & L & L1 & L2); [congruence|]. cbn [lead_list]. rewrite L. exists [Text (collapse_ws_from true t)], (collapse_ws_from true t).
      split; [reflexivity|]. split; [right; auto|]. congruence.
Qed.
Lemma lead_block s x a ks t T : name_in hidden_names x = false -> is_block_name x = true -> is_preformatted x = false -> one_text T ks t ->
  exists ks' t', lead isb s (Elem x a ks) = ((None, false), [Elem x a ks']) /\ one_text led ks' t' /\ one_spaced t' = one_spaced t.
Proof.
  intros N1 N2 N3 O. destruct (lead_one ks t T O) as (ks' & t' & E & O' & Et). exists ks', t'. split; auto.
  rewrite lead_elem, (effect_block x N1 N2), N3. cbn [visit]. rewrite lead_kids_eq. destruct (lead_list isb (None, false) ks) as [s' l]. cbn [snd] in E. now subst l.
Qed.
Lemma nonempty_app {A} (l m : list (list (gblock A))) : nonempty_items (l ++ m) = nonempty_items l ++ nonempty_items m.
Proof. unfold nonempty_items. apply filter_app. Qed.
Lemma lead_page T : (forall p n B q, qpage cfg true false T p n B q -> forall s, fits p s -> exists s' ns, lead isb s n = (s', ns) /\ fits q s' /\ qpages cfg false false led p ns B q) /\
  (forall p ns B q, qpages cfg true false T p ns B q -> forall s, fits p s -> exists s' ms, lead_list isb s ns = (s', ms) /\ fits q s' /\ qpages cfg false false led p ms B q) /\
  (forall ks its, qitems cfg true false T ks its -> exists ks' its', lead_list isb (None, false) ks = ((None, false), ks') /\ qitems cfg false false led ks' its' /\
    nonempty_items its' = nonempty_items its).
Proof.
  assert (F0 : forall p, fits p (None, false)) by (left; auto).
  apply qpage_all.
  - intros d _ D s [-> |[[=] _]]. exists (None, false), []. rewrite lead_blank by now apply blank_one. split; [reflexivity|]. split; auto. constructor.
  - intros d Td N R s [-> |[[=] _]]. destruct (lead_led T d Td N) as (e & E & L & O). eexists _, _. split; [exact E|]. split; [right; eauto|]. apply qpages_one. rewrite <- O in *. now constructor.
  - intros d p _ s F. exists s, []. split; [reflexivity|]. split; auto. constructor.
  - intros x a k ks t p L O R Np s F. destruct (level_plain _ _ L) as (N1 & N2 & N3). destruct (lead_block s x a ks t T N1 N2 N3 O) as (ks' & t' & E & O' & Et).
    eexists _, _. split; [exact E|]. split; auto. apply qpages_one. rewrite <- Et in *. now apply q_head.
  - intros a p s F. exists (None, false), [Elem (b "hr") a []]. split; [|split; auto; apply qpages_one; constructor].
    rewrite lead_elem, effect_block by reflexivity. reflexivity.
  - intros a ks i d p C R s F. exists (None, false), [Elem (b "pre") a ks]. split; [|split; auto; apply qpages_one; now constructor].
    rewrite lead_elem, effect_block by reflexivity. reflexivity.
  - intros x a ks its p L _ (ks' & its' & E & Q & Ei) O s F. destruct (list_plain x L) as (N1 & N2 & N3 & _). exists (None, false), [Elem x a ks'].
    split; [|split; auto; apply qpages_one; rewrite <- Ei in *; now constructor]. rewrite lead_elem, (effect_block x N1 N2), N3. cbn [visit]. rewrite lead_kids_eq, E. reflexivity.
  - intros x a ks B p q G Hx _ IH s F. destruct (groups_plain x G) as (N1 & N3 & _). destruct (IH _ (F0 false)) as (s' & ms & E & F' & Q).
    exists (None, false), [Elem x a ms]. split; [|split; auto; apply qpages_one; eapply q_block; eauto].
    rewrite lead_elem, (effect_block x N1 (holds_block x Hx)), N3. cbn [visit]. rewrite lead_kids_eq, E. reflexivity.
  - intros x a ks B p q G Hx _ IH s F. destruct (groups_plain x G) as (N1 & N3 & _). rewrite lead_elem, N3. cbv zeta.
    destruct (effect_group x G) as [-> | ->]; cbn [visit].
    + destruct (IH _ (F0 p)) as (s' & ms & E & F' & Q). rewrite lead_kids_eq, E. eexists _, _. split; [reflexivity|]. split; auto. apply qpages_one. now apply q_inline.
    + assert (Fs : fits p (match fst s with Some _ => (fst s, false) | None => s end)). { destruct F as [-> |[-> (e & ->)]]; [left; auto|right; cbn; eauto]. }
      destruct (IH _ Fs) as (s' & ms & E & F' & Q). rewrite lead_kids_eq, E. eexists _, _. split; [reflexivity|]. split; [|apply qpages_one; now apply q_inline].
      destruct F' as [-> |[-> (e & ->)]]; [left; auto|right; cbn; eauto].
  - intros p s F. exists s, []. split; [reflexivity|]. split; auto. constructor.
  - intros n ns B C p q r _ IH1 _ IH2 s F. destruct (IH1 s F) as (s1 & ms & E & F1 & Q). destruct (IH2 s1 F1) as (s2 & ms2 & E2 & F2 & Q2).
    exists s2, (ms ++ ms2). split; [|split; auto; eapply qpages_app; eauto]. cbn [lead_list]. now rewrite E, E2.
  - discriminate.
  - exists [], []. split; [reflexivity|]. split; [constructor|reflexivity].
  - intros d ks its _ D _ (ks' & its' & E & Q & Ei). exists ks', its'. split; [|split; auto]. cbn [lead_list]. rewrite lead_blank by now apply blank_one. now rewrite E.
  - intros a js B q ks its _ IH _ (ks' & its' & E & Q & Ei). destruct (IH _ (F0 false)) as (s' & ms & E1 & _ & Q1).
    exists (Elem (b "li") a ms :: ks'), (B :: its'). split; [|split; [eapply qi_item; eauto|]].
    + cbn [lead_list]. rewrite lead_elem, effect_block by reflexivity. change (is_preformatted (b "li")) with false. cbv iota. cbn [visit]. rewrite lead_kids_eq, E1, E. reflexivity.
    + unfold nonempty_items in *. cbn [filter]. now rewrite Ei.
Qed.
Lemma trail_block r x a ks t : name_in hidden_names x = false -> is_block_name x = true -> is_preformatted x = false -> one_text led ks t ->
  exists ks' t', trail isb r (Elem x a ks) = (true, Elem x a ks') /\ one_text final ks' t' /\ one_spaced t' = one_spaced t.
Proof.
  intros N1 N2 N3 O. rewrite trail_elem, (effect_block x N1 N2), N3. cbn [visit_back]. destruct O as [[-> ->]|[-> [L1 L2]]].
  - exists [], []. split; [reflexivity|]. split; [left; auto|reflexivity].
  - exists [Text (one_spaced t)], (one_spaced t). cbn [trail_kids trail]. rewrite L2. split; [reflexivity|]. split; [|apply one_spaced_idem].
    right. split; auto. split; auto. apply one_spaced_idem.
Qed.
Lemma trail_page : (forall p n B q, qpage cfg false false led p n B q -> forall r, (q = true -> r = true) -> exists l m, trail isb r n = (l, m) /\ (p = true -> l = true) /\ qpage cfg false false final p m B q) /\
  (forall p ns B q, qpages cfg false false led p ns B q -> forall r, (q = true -> r = true) -> exists l ms, trail_list isb r ns = (l, ms) /\ (p = true -> l = true) /\ qpages cfg false false final p ms B q) /\
  (forall ks its, qitems cfg false false led ks its -> exists ks', trail_list isb true ks = (true, ks') /\ qitems cfg false false final ks' its).
Proof.
  apply qpage_all; try discriminate.
  - intros d [L1 L2] N R r Hr. rewrite (Hr eq_refl). exists false, (Text (one_spaced d)). cbn [trail]. rewrite L2. split; [reflexivity|]. split; [discriminate|].
    rewrite <- (one_spaced_idem d) in N, R |- *. rewrite (one_spaced_idem d) at 1. constructor; auto. rewrite one_spaced_idem in *. split; auto. apply one_spaced_idem.
  - intros x a k ks t p L O R Np r Hr. destruct (level_plain _ _ L) as (N1 & N2 & N3). destruct (trail_block r x a ks t N1 N2 N3 O) as (ks' & t' & E & O' & Et).
    exists true, (Elem x a ks'). split; auto. split; auto. rewrite <- Et in *. now apply q_head.
  - intros a p r Hr. exists true, (Elem (b "hr") a []). split; [|split; auto; constructor]. rewrite trail_elem, effect_block by reflexivity. reflexivity.
  - intros a ks i d p C R r Hr. exists true, (Elem (b "pre") a ks). split; [|split; auto; now constructor]. rewrite trail_elem, effect_block by reflexivity. reflexivity.
  - intros x a ks its p L _ (ks' & E & Q) O r Hr. destruct (list_plain x L) as (N1 & N2 & N3 & _). exists true, (Elem x a ks').
    split; [|split; auto; now constructor]. rewrite trail_elem, (effect_block x N1 N2), N3. cbn [visit_back]. rewrite trail_kids_eq, E. reflexivity.
  - intros x a ks B p q G Hx _ IH r Hr. destruct (groups_plain x G) as (N1 & N3 & _). destruct (IH true) as (l & ms & E & _ & Q); auto.
    exists true, (Elem x a ms). split; [|split; auto; eapply q_block; eauto].
    rewrite trail_elem, (effect_block x N1 (holds_block x Hx)), N3. cbn [visit_back]. rewrite trail_kids_eq, E. reflexivity.
  - intros x a ks B p q G Hx _ IH r Hr. destruct (groups_plain x G) as (N1 & N3 & _). rewrite trail_elem, N3. cbv zeta.
    destruct (effect_group x G) as [-> | ->]; cbn [visit_back].
    + destruct (IH true) as (l & ms & E & _ & Q); auto. rewrite trail_kids_eq, E. eexists _, _. split; [reflexivity|]. split; auto. now apply q_inline.
    + destruct (IH r Hr) as (l & ms & E & Hl & Q). rewrite trail_kids_eq, E. eexists _, _. split; [reflexivity|]. split; auto. now apply q_inline.
  - intros p r Hr. exists r, []. split; [reflexivity|]. split; auto. constructor.
  - intros n ns B C p q r0 _ IH1 _ IH2 r Hr. destruct (IH2 r Hr) as (l & ms & E & Hl & Q). destruct (IH1 l Hl) as (l2 & m & E2 & Hl2 & Q2).
    exists l2, (m :: ms). split; [|split; auto; eapply qs_cons; eauto]. cbn [trail_list]. now rewrite E, E2.
  - exists []. split; [reflexivity|constructor].
  - intros a js B q ks its _ IH _ (ks' & E & Q). destruct (IH true) as (l & ms & E1 & _ & Q1); auto.
    exists (Elem (b "li") a ms :: ks'). split; [|eapply qi_item; eauto]. cbn [trail_list]. rewrite E. rewrite trail_elem, effect_block by reflexivity.
    change (is_preformatted (b "li")) with false. cbv iota. cbn [visit_back]. rewrite trail_kids_eq, E1. reflexivity.
Qed.
Lemma drop_page : (forall p n B q, qpage cfg false false final p n B q -> snd (drop_last isb n) = [n]) /\
  (forall p ns B q, qpages cfg false false final p ns B q -> snd (drop_last_list isb ns) = ns) /\ (forall ks its, qitems cfg false false final ks its -> True).
Proof.
  apply qpage_all; try discriminate; auto.
  - intros d [N _] _ _. now destruct d.
  - intros x a k ks t p L _ _ _. destruct (level_plain _ _ L) as (N1 & N2 & N3). rewrite drop_elem, (effect_block x N1 N2). reflexivity.
  - intros. rewrite drop_elem, effect_block by reflexivity. reflexivity.
  - intros. rewrite drop_elem, effect_block by reflexivity. reflexivity.
  - intros x a ks its p L _ _ _. destruct (list_plain x L) as (N1 & N2 & N3 & _). rewrite drop_elem, (effect_block x N1 N2). reflexivity.
  - intros x a ks B p q G Hx _ _. destruct (groups_plain _ G) as (N1 & N3 & _). rewrite drop_elem, (effect_block x N1 (holds_block x Hx)). reflexivity.
  - intros x a ks B p q G Hx _ IH. rewrite drop_elem. destruct (effect_group x G) as [-> | ->]; auto. rewrite drop_kids_eq. destruct (drop_last_list isb ks) as [f l]. cbn [snd] in *. now subst l.
  - intros n ns B C p q r _ H _ H0. cbn [drop_last_list]. destruct (drop_last_list isb ns) as [f l]. cbn [snd] in *. subst l. destruct f; auto. destruct (drop_last isb n) as [f2 k']. cbn [snd] in *. now subst k'.
Qed.
Lemma collapse_page T ns B q : qpages cfg true false T false ns B q -> exists ms, collapse isb (Doc ns) = Doc ms /\ qpages cfg false false final false ms B q.
Proof.
  intros Q. unfold collapse. cbn [kids node_name]. destruct ns as [|n ns].
  - exists []. split; auto. inversion Q. constructor.
  - change (is_preformatted (b "#document")) with false. cbv iota. cbn [with_kids]. eexists. split; [reflexivity|].
    unfold collapse_kids. destruct (proj1 (proj2 (lead_page T)) _ _ _ _ Q (None, false)) as (s' & ms & -> & _ & Q1); [left; auto|]. cbn [snd].
    destruct (proj1 (proj2 trail_page) _ _ _ _ Q1 true) as (l & ms2 & -> & _ & Q2); auto. cbn [snd]. now rewrite (proj1 (proj2 drop_page) _ _ _ _ Q2).
Qed.
End collapsing.

(** ** The comments behind lists *)
Lemma end_page cfg T : (forall p n B q, qpage cfg false true T p n B q -> forall st, exists m, qpage cfg false true T p m B q /\
    (list_end_comments st n = [m] \/ exists x a ks, m = Elem x a ks /\ list_name x = true /\ next_list_stack st = true /\ list_end_comments st n = [m; Comment end_comment_data])) /\
  (forall p ns B q, qpages cfg false true T p ns B q -> forall st, qpages cfg false true T p (comments_kids st ns) B q) /\
  (forall ks its, qitems cfg false true T ks its -> forall st, qitems cfg false true T (comments_kids st ks) its).
Proof.
  assert (Nl : forall x, list_name x = false -> is_list_name x = false).
  { intros x. unfold list_name, name_in, is_list_name. cbn [existsb]. now rewrite orb_false_r. }
  apply qpage_all; try discriminate.
  - intros d H1 H2 H3 st. exists (Text d). split; [now constructor|now left].
  - intros x a k ks t p L O R Np st. exists (Elem x a ks). split; [eapply q_head; eauto|left]. rewrite comments_elem. rewrite Nl by now apply (level_none _ x k).
    cbn [andb]. cbv zeta. destruct O as [[-> _]|[-> _]]; reflexivity.
  - intros a p st. exists (Elem (b "hr") a []). split; [constructor|now left].
  - intros a ks i d p C R st. exists (Elem (b "pre") a ks). split; [now constructor|left]. rewrite comments_elem. cbn [andb]. cbv zeta.
    apply code_in_cases in C as [(-> & _)|(c & -> & _)]; reflexivity.
  - intros x a ks its p L _ IH O st. rewrite comments_elem. cbv zeta. match goal with |- context [comments_kids ?s ks] => set (st' := s) end.
    exists (Elem x a (comments_kids st' ks)). split; [constructor; auto|]. destruct (is_list_name x && next_list_stack st) eqn:E; [right|now left].
    apply andb_true_iff in E as [_ E]. eauto 10.
  - intros x a ks B p q G Hx _ IH st. exists (Elem x a (comments_kids st ks)). split; [eapply q_block; eauto|left]. rewrite comments_elem, Nl by now apply groups_level. reflexivity.
  - intros x a ks B p q G Hx _ IH st. exists (Elem x a (comments_kids st ks)). split; [eapply q_inline; eauto|left]. rewrite comments_elem, Nl by now apply groups_level. reflexivity.
  - intros p st. constructor.
  - intros n ns B C p q r _ IH1 _ IH2 st. cbn [comments_kids]. destruct (IH1 (ns :: st)) as (m & Q & [E|(x & a & ks & -> & L & _ & E)]); rewrite E; cbn [app].
    + eapply qs_cons; eauto.
    + eapply qs_ended; eauto.
  - intros x a ks ns B C p q r He L _ IH1 _ IH2 st. cbn [comments_kids].
    destruct (IH1 ((Comment end_comment_data :: ns) :: st)) as (m & Q & [E|(x' & a' & ks' & -> & L' & Z & E)]); [|discriminate].
    assert (Em : exists ks', m = Elem x a ks'). { rewrite comments_elem in E. cbv zeta in E. injection E as <- _. eauto. }
    destruct Em as (ks' & ->). rewrite E. cbn [app list_end_comments]. eapply qs_ended; eauto.
  - intros st. constructor.
  - intros a js B q ks its _ IH1 _ IH2 st. cbn [comments_kids]. rewrite comments_elem. change (is_list_name (b "li")) with false. cbn [andb app]. cbv zeta. eapply qi_item; eauto.
Qed.

(** ** All handlers *)
Section sorted.
Variable sort : forall A : Type, list (Z * A) -> list (Z * A).
Hypothesis Hsort : sorts sort.
Lemma prepared_page cfg m us url ks : In UseBase us -> is_page cfg ks = true ->
  exists ns q, prepared sort (converter_with m us) url (Doc ks) = Doc ns /\ qpages cfg false true final false ns (flat_map blocks_of (shown_all ks)) q.
Proof.
  intros Ib P. rewrite prepared_eq. set (e := env_of sort (converter_with m us) url). set (B := flat_map blocks_of (shown_all ks)).
  destruct (is_page_qpages cfg ks P) as (q0 & Q0). fold B in Q0.
  assert (Rm : forall x, is_remove_type (tag_type_of e x) = name_in hidden_names x) by (intros; now apply removes_hidden).
  assert (Bl : forall x, name_in hidden_names x = false -> is_block_type (tag_type_of e x) = is_block_name x).
  { intros x H. unfold e. rewrite tags_hidden by auto. rewrite H. now destruct (is_block_name x). }
  destruct (Hsort _ (flat_map use_pre us)) as [Pm S].
  set (IB := fun d => exists ns q, d = Doc ns /\ qpages cfg false false final false ns B q).
  set (IC := fun d => exists ns q, d = Doc ns /\ qpages cfg false true final false ns B q).
  assert (Co : forall ns q, qpages cfg true false anyt false ns B q -> IB (pre_collapse e (Doc ns))).
  { intros ns q Q. destruct (collapse_page cfg _ Bl anyt ns B q Q) as (ms & E1 & Q1). exists ms, q. auto. }
  assert (WB : forall d, IB d -> IC d). { intros d (ns & q & -> & Q). exists ns, q. split; auto. eapply (proj1 (proj2 (qpage_weaken _ _ _ _ _ _ _ _ _ _))); eauto. Unshelve. all: auto. }
  assert (StepC : forall q h d, In (q, h) (flat_map use_pre us) -> (1100 <= q)%Z -> IC d -> IC (h e d)).
  { intros q h d J Lq (ns & q' & -> & Q). apply use_pre_cases in J as [(-> & -> & _) | [(-> & -> & _) | [(-> & -> & _) | [(-> & c & ->) | (-> & -> & _)]]]]; try lia.
    unfold commonmark_end_comments. destruct (disable_end_comment c); [exists ns, q'; auto|]. exists (comments_kids [] ns), q'. split; [reflexivity|]. now apply end_page. }
  assert (StepsC : forall l d, (forall y, In y l -> In y (flat_map use_pre us) /\ (1100 <= fst y)%Z) -> IC d -> IC (fold_left (fun d h => h e d) (map snd l) d)).
  { induction l as [|[q h] l IH]; intros d Sb A; auto. cbn [map snd fold_left]. apply IH; [intros; apply Sb; now right|].
    destruct (Sb (q, h) (or_introl eq_refl)). eapply StepC; eauto. }
  assert (StepsB : forall l d, by_priority l -> (forall y, In y l -> In y (flat_map use_pre us) /\ (1000 <= fst y)%Z) -> IB d -> IC (fold_left (fun d h => h e d) (map snd l) d)).
  { induction l as [|[q h] l IH]; intros d Sl Sb A; auto. cbn [map snd fold_left]. destruct (Sb (q, h) (or_introl eq_refl)) as [J Lq].
    assert (Sl' : by_priority l) by now inversion Sl. assert (Hl : forall y, In y l -> (q <= fst y)%Z) by exact (sorted_after _ [] l (q, h) Sl).
    pose proof J as J'. apply use_pre_cases in J' as [(-> & -> & _) | [(-> & -> & _) | [(-> & -> & _) | [(-> & c & ->) | (-> & -> & _)]]]]; cbn [fst] in Lq; try lia.
    - apply IH; [auto|intros; apply Sb; now right|]. destruct A as (ns & q' & -> & Q). apply (Co ns q'). eapply (proj1 (proj2 (qpage_weaken _ _ _ _ _ _ _ _ _ _))); eauto. Unshelve. all: auto. all: intros; exact I.
    - apply StepsC. { intros y Iy. split; [apply Sb; now right|now apply Hl]. } apply (StepC 1100%Z); auto. lia. }
  assert (StepsA : forall l, by_priority l -> (forall y, In y l -> In y (flat_map use_pre us)) -> In (1000%Z, pre_collapse) l ->
    IC (fold_left (fun d h => h e d) (map snd l) (Doc (shown_all ks)))).
  { induction l as [|[q h] l IH]; intros Sl Sb Jc; [destruct Jc|]. cbn [map snd fold_left]. pose proof (Sb (q, h) (or_introl eq_refl)) as J.
    assert (Sl' : by_priority l) by now inversion Sl. assert (Hl : forall y, In y l -> (q <= fst y)%Z) by exact (sorted_after _ [] l (q, h) Sl).
    assert (Nx : (q < 1000)%Z -> In (1000%Z, pre_collapse) l). { intros Lt. destruct Jc as [[= -> ->]|Jc]; auto. lia. }
    assert (Qt : forallb quiet (shown_all ks) = true) by exact (proj1 (proj2 (qpage_quiet cfg true anyt)) _ _ _ _ Q0).
    pose proof J as J'. apply use_pre_cases in J' as [(-> & -> & _) | [(-> & -> & _) | [(-> & -> & _) | [(-> & c & ->) | (-> & -> & _)]]]].
    - unfold pre_remove. rewrite (removed_doc _ Rm), shown_all_twice. apply IH; auto. intros; apply Sb; now right. apply Nx. lia.
    - apply StepsB; auto. { intros y Iy. split; [apply Sb; now right|now apply Hl]. } eapply Co, Q0.
    - rewrite commonmark_pre_id by auto. apply IH; auto. intros; apply Sb; now right. apply Nx. lia.
    - exfalso. destruct Jc as [[= ]|Jc]. apply Hl in Jc. cbn in Jc. lia.
    - rewrite strike_pre_id by auto. apply IH; auto. intros; apply Sb; now right. apply Nx. lia. }
  destruct (pre_order sort Hsort us Ib) as (k & rest & E & R).
  assert (J : In (1000%Z, pre_collapse) (sort _ (flat_map use_pre us))).
  { eapply Permutation_in; [apply Permutation_sym; exact Pm|]. apply in_flat_map. exists UseBase. split; auto. right. now left. }
  assert (Sub : forall y, In y (sort _ (flat_map use_pre us)) -> In y (flat_map use_pre us)) by (intros y Iy; eapply Permutation_in; eauto).
  rewrite E in *. cbn [repeat app map snd fold_left]. unfold pre_remove at 2. rewrite (removed_doc _ Rm). cbn [repeat app] in *.
  apply StepsA. now inversion S. intros y Iy. apply Sub. now right. destruct J as [[=]|J]; auto.
Qed.
End sorted.
