(** Rendering of the parts of a paragraph, and the paragraphs in a document (C67). *)
From Coq Require Import List NArith ZArith Bool String Lia ZifyBool ZifyNat ZifyN.
From Verif Require Import SpecDom DomFacts4 Bytes BytesFacts TextUtils TextFacts TextFacts2 RenderText RenderFacts RenderFacts2 RenderFacts4 RenderFacts5 Escape SpecEscape SpecText SpecText2
  SpecUrl UrlFacts Dom DomUtils Engine CommonMark SpecEngine EngineFacts SpecPipeline PipelineFacts SpecPlain SpecNode NodeFacts PanicFacts PlainFacts2 PlainFacts3 PlainFacts4 SpecBlocks BlockFacts0 BlockFacts
  BlockFacts1 BlockFacts2 BlockFacts3 BlockFacts4 RenderFacts3 EscapeFacts EscapeFacts4 EscapeFacts6 SpecInline InlineFacts1 InlineFacts2 InlineFacts3 InlineFacts4 InlineFacts5.
Import ListNotations.
Open Scope N_scope.
Open Scope list_scope.

Lemma busy_plain t : Forall (fun c => busy_char c = true) t -> plain t = t.
Proof.
  induction 1 as [|c t Q F IH]; auto. unfold plain in *. cbn [flat_map]. rewrite IH. pose proof (busy_not c 0 Q ltac:(cbn; tauto)). pose proof (busy_not c 7 Q ltac:(cbn; tauto)).
  replace (c =? 0) with false by lia. replace (c =? 7) with false by lia. reflexivity.
Qed.
Lemma quiet_none t d : Forall (fun c => quiet_char c = true) t -> In d [0; 7; 9; 10; 11; 12; 13; 38; 42; 91; 92; 93; 95; 96] -> ~ In d t.
Proof. intros F D I. rewrite Forall_forall in F. apply F in I. now apply (quiet_not d d). Qed.
Lemma busy_absent t d : Forall (fun c => busy_char c = true) t -> In d [0; 7; 9; 10; 11; 12; 13; 38] -> ~ In d t.
Proof. intros F D I. rewrite Forall_forall in F. apply F in I. now apply (busy_not d d). Qed.
Section raw.
Variable l : list N.
Hypothesis Hl : forall c, In c l -> c < 128 /\ c <> 0 /\ c <> 7 /\ ~ ws_byte c.
Hypothesis Hp : forall c, In c l -> ascii_punct c = true /\ c <> 38 /\ c <> 59.
Definition raw (t s : bytes) : Prop := s = escape_content (is_escaped_in l) (entity_replace t).
Definition quiet_raw (t s : bytes) : Prop := quiet_text t = true /\ raw t s.
Definition busy_raw (t s : bytes) : Prop := busy_text t = true /\ raw t s.
Lemma quiet_busy_raw t s : quiet_raw t s -> busy_raw t s.
Proof. intros [Q R]. split; auto. now apply quiet_is_busy. Qed.
Lemma raw_img t s : busy_raw t s -> img l s t.
Proof.
  intros [Q ->]. apply busy_parts in Q as (_ & _ & F). rewrite <- (busy_plain t F) at 2. apply (img_text l Hl Hp); apply busy_absent; auto; cbn; tauto.
Qed.
Lemma raw_sound t s : busy_raw t s -> text_sound t s.
Proof.
  intros B. pose proof (raw_img t s B) as M. destruct B as [Q R]. unfold raw in R. apply busy_parts in Q as (N & Nm & F).
  assert (Z : forall z, z = 9 \/ z = 10 -> ~ In z s).
  { intros z Hz I. rewrite R in I. apply written_in in I as [->|[I|[_ [I|I]]]]; try lia; [|vm_compute in I; lia]. revert I. apply busy_absent; auto. cbn. lia. }
  split; [auto|split; [|split]]; auto.
  - rewrite R. apply nm_escape; auto. now apply nm_entity.
  - destruct s as [|c u]; [inversion M; subst; easy|]. exists c, u. split; auto. split.
    + intros C. destruct (img_space l c u t M C) as (v & ->). reflexivity.
    + intros ->. apply (Z 9); auto. now left.
Qed.
Lemma raw_edges t s : busy_raw t s -> (starts_in t -> starts_in s) /\ (ends_in t -> ends_in s).
Proof.
  intros B. pose proof (raw_img t s B) as M. assert (Ns : s <> []). { intros ->. inversion M. subst. now destruct B. }
  split; intros [A Ct]; (split; [exact Ns|]); [eapply img_starts|eapply img_ends]; eauto.
Qed.
Lemma raw_shown t s o : quiet_raw t s -> undone s o -> quiet_text t = true /\ shown_as t o.
Proof.
  intros B U. pose proof (raw_img t s (quiet_busy_raw _ _ B)) as M. destruct B as [Q R]. split; auto. unfold raw in R. pose proof (quiet_parts t Q) as (_ & _ & F). eapply img_shown; eauto.
  rewrite R. intros I. apply written_in in I as [I|[I|[I _]]]; lia.
Qed.
Lemma busy_sound t s : busy_text t = true -> busy_as t s -> text_sound t s.
Proof.
  intros Q S. pose proof (busy_parts t Q) as (N & Nm & F). split; auto. split; [eapply busy_nm; eauto|]. split; [eapply busy_none; eauto|].
  destruct s as [|c u]; [now apply busy_nil in S|]. exists c, u. split; auto. destruct (busy_first _ _ _ S) as (_ & _ & A1 & A2 & _ & A3). split; auto.
  intros E. destruct (A3 E) as (v & ->). reflexivity.
Qed.
End raw.
Lemma plain_first c t : c < 128 -> c <> 32 -> quiet_char c = true -> starts_in (c :: t).
Proof.
  intros A B Q. split; [discriminate|]. unfold decode_rune. replace (c <? 128) with true by lia. cbn [fst].
  pose proof (quiet_not c 9 Q ltac:(cbn; tauto)). pose proof (quiet_not c 10 Q ltac:(cbn; tauto)). pose proof (quiet_not c 11 Q ltac:(cbn; tauto)). pose proof (quiet_not c 12 Q ltac:(cbn; tauto)).
  pose proof (quiet_not c 13 Q ltac:(cbn; tauto)). clear Q. unfold is_space_rune, in_range. lia.
Qed.
Lemma plain_last c t : c < 128 -> c <> 32 -> quiet_char c = true -> ends_in (t ++ [c]).
Proof.
  intros A B Q. split; [now destruct t|]. unfold decode_last_rune. rewrite rev_app_distr. cbn [rev app]. unfold decode_last_rune_rev. replace (c <? 128) with true by lia. cbn [fst].
  pose proof (quiet_not c 9 Q ltac:(cbn; tauto)). pose proof (quiet_not c 10 Q ltac:(cbn; tauto)). pose proof (quiet_not c 11 Q ltac:(cbn; tauto)). pose proof (quiet_not c 12 Q ltac:(cbn; tauto)).
  pose proof (quiet_not c 13 Q ltac:(cbn; tauto)). clear Q. unfold is_space_rune, in_range. lia.
Qed.
Lemma recognised_ascii d o c : recognised d o c = true -> c < 128.
Proof. unfold recognised, ascii. intros R. apply andb_true_iff in R as [R _]. lia. Qed.

Section rendering.
Variable x : setting.
Hypothesis Hsort : sorts (st_sort x).
Hypothesis Hmode : st_mode x = Smart.
Hypothesis Hone : exists A B, st_uses x = A ++ UseBase :: B /\ ~ In UseBase (A ++ B).
Variable cfg : config.
Hypothesis Hopt : options x cfg.
Hypothesis Hdel : usual_delimiters cfg.
Hypothesis Hstyle : link_style cfg = b "inlined".
Notation us := (st_uses x).
Notation l := (cv_chars (converter_with Smart us)).
Notation url := (st_url x (b "a")).
Let Hl := chars_ok Smart us.
Let Hp : forall c, In c l -> ascii_punct c = true /\ c <> 38 /\ c <> 59.
Proof. destruct Hopt as (cfg0 & _ & _ & V & _). apply (chars_punct us (st_url x) cfg0). unfold valid_cfg. now rewrite V. Qed.
Notation raw := (raw l).
Lemma text_rendered f c anc t s : busy_text t = true -> quiet_text t = true \/ ctx_value inside_link_key c = false -> rendered x f c anc (Text t) s -> raw t s.
Proof.
  intros B Q R. destruct f as [|f]; [discriminate|]. unfold rendered in R. rewrite Hmode in R. cbn [render] in R. cbv zeta in R. injection R as <-.
  destruct (one_base_text (st_sort x) Hsort us Hone) as (A & C & -> & H). set (e := env_of _ _ _).
  assert (G : forall q, (forall h, In h q -> h = commonmark_text) -> forall s, ~ In 93 s \/ ctx_value inside_link_key c = false -> fold_left (fun s t => t e c s) q s = s).
  { clear. induction q as [|h q IH]; intros K s N; auto. cbn [fold_left]. rewrite (K h (or_introl eq_refl)).
    assert (E : commonmark_text e c s = s). { unfold commonmark_text. destruct N as [N|N]; [|now rewrite N]. destruct (ctx_value inside_link_key c); auto. apply PlainFacts2.replace_none. intros (p & q0 & ->). apply N. rewrite !in_app_iff. cbn. tauto. }
    rewrite E. apply IH; auto. intros; apply K; now right. }
  rewrite fold_left_app. cbn [fold_left]. rewrite (G A).
  2: intros h I; apply H; apply in_app_iff; tauto.
  2: destruct Q as [Q|Q]; [|now right]; left; pose proof (quiet_parts t Q) as (_ & _ & F); apply quiet_none; auto; cbn; tauto.
  assert (E : base_text e c t = escape_content (is_escaped_in l) (entity_replace t)) by (unfold base_text, e, env_of; cbn [escape_fn]; rewrite cw_mode; reflexivity).
  rewrite E. rewrite (G C); [reflexivity|intros h I; apply H; apply in_app_iff; tauto|]. destruct Q as [Q|Q]; [|now right]. left. pose proof (quiet_parts t Q) as (_ & _ & F).
  intros I. apply written_in in I as [I|[I|[_ [I|I]]]]; try lia; [|vm_compute in I; lia]. revert I. apply quiet_none; auto; cbn; tauto.
Qed.
Lemma emphasis_rendered f c anc y a ks s : strong_element y || em_element y = true -> rendered x (S f) c anc (Elem y a ks) s ->
  exists parts, inside x f c anc (Elem y a ks) parts /\ s = emphasis_text (delimiter cfg y) (List.concat parts).
Proof.
  intros E R. apply emphasis_cases in E. set (e := env_of (st_sort x) (converter_with (st_mode x) us) (st_url x)).
  set (rn := render e (in_order (st_sort x) (cv_render (converter_with (st_mode x) us))) (in_order (st_sort x) (cv_text (converter_with (st_mode x) us)))).
  assert (K : bind (render_kids (rn f) c anc (Elem y a ks)) (fun z => Done (true, emphasis_text (delimiter cfg y) z)) = Done (true, s)).
  { destruct (dispatch_elem x Hsort cfg f c anc y a ks s Hopt ltac:(cbn in E; decompose [or] E; try contradiction; subst y; reflexivity) R) as [H|[H _]].
    all: cbn in E; decompose [or] E; try contradiction; subst y; try exact H.
    all: exfalso; revert H; match goal with |- commonmark_render _ _ _ _ _ (Elem ?nm _ _) = _ -> _ =>
      change (render_bold_italic cfg e (rn f) c anc (Elem nm a ks) = Done (false, []) -> False) end; unfold render_bold_italic;
      destruct (render_kids _ _ _ _); cbn [bind]; discriminate. }
  destruct (render_kids (rn f) c anc (Elem y a ks)) as [z| |] eqn:E2; cbn [bind] in K; try discriminate. injection K as <-.
  apply kids_inside in E2 as (parts & Ip & ->). exists parts. split; auto.
Qed.
Lemma code_rendered f c anc y a d s : code_element y = true -> rendered x (S f) c anc (Elem y a [Text d]) s -> s = inline_code_text d.
Proof.
  intros E R. apply code_cases in E.
  assert (K : s = inline_code_text (code_text (Elem y a [Text d]))).
  { destruct (dispatch_elem x Hsort cfg f c anc y a [Text d] s Hopt ltac:(cbn in E; decompose [or] E; try contradiction; subst y; reflexivity) R) as [H|[H _]].
    all: cbn in E; decompose [or] E; try contradiction; subst y; try discriminate H.
    all: match goal with |- _ = inline_code_text (code_text ?n) => change (Done (true, inline_code_text (code_text n)) = Done (true, s)) in H end; now injection H as <-. }
  rewrite K. f_equal. cbn in E. decompose [or] E; try contradiction; subst y; cbn; now rewrite ?app_nil_r.
Qed.
Lemma link_rendered f c anc a ks s : let n := Elem (b "a") a ks in let dest := url (attribute n (b "href")) in
  attribute n (b "title") = [] -> trim_space (attribute n (b "href")) = attribute n (b "href") -> dest <> [] -> rendered x (S f) c anc n s ->
  exists parts, inside x f ((inside_link_key, true) :: c) anc n parts /\ (hugs (List.concat parts) -> ~ In 10 (List.concat parts) -> s = 91 :: List.concat parts ++ 93 :: dest_and_title dest []).
Proof.
  intros n dest Et Tr Nd R. set (e := env_of (st_sort x) (converter_with (st_mode x) us) (st_url x)).
  set (rn := render e (in_order (st_sort x) (cv_render (converter_with (st_mode x) us))) (in_order (st_sort x) (cv_text (converter_with (st_mode x) us)))).
  assert (E0 : commonmark_render cfg e (rn f) c anc n = render_link cfg e (rn f) c anc n) by reflexivity.
  assert (Sk' : is_empty dest && beqb (link_empty_href cfg) (b "skip") = false) by now destruct dest.
  assert (K : forall st, render_link cfg e (rn f) c anc n = Done st -> exists parts, inside x f ((inside_link_key, true) :: c) anc n parts /\
     st = match link_text cfg dest [] (List.concat parts) with Some t => (true, t) | None => (false, []) end).
  { intros st Hs. unfold render_link in Hs. cbv zeta in Hs. rewrite <- !attribute_eq in Hs. rewrite Tr, Et in Hs.
    change (assemble_url e (b "a") (attribute n (b "href"))) with dest in Hs. rewrite Sk' in Hs.
    destruct (render_kids (rn f) ((inside_link_key, true) :: c) anc n) as [y| |] eqn:E; cbn [bind] in Hs; try discriminate.
    apply kids_inside in E as (parts & Ip & ->). exists parts. split; auto.
    destruct (link_text cfg dest [] (List.concat parts)); now injection Hs as <-. }
  destruct (dispatch_elem x Hsort cfg f c anc (b "a") a ks s Hopt eq_refl R) as [H|[H Hf]]; fold n in H; fold e in H; fold rn in H; rewrite E0 in H; apply K in H as (parts & Ip & E);
    exists parts; (split; [exact Ip|]); intros Hg N10; rewrite (link_hugs cfg dest _ Hstyle Nd Hg N10) in E; [|discriminate]. injection E as ->. reflexivity.
Qed.
Notation leaf_drawn := (drawn url cfg (quiet_raw l) (only (quiet_raw l)) (fun _ _ => False)).
Notation piece_drawn := (drawn url cfg (busy_raw l) leaf_drawn leaf_drawn).
Lemma emphasis_hugging d q o q2 o2 : quiet_text d = true -> recognised q o (hd 32 d) = true -> recognised q2 o2 (last d 32) = true -> starts_in d /\ ends_in d.
Proof.
  intros Q R1 R2. pose proof (quiet_parts d Q) as (N & _ & F). split.
  - destruct d as [|c d]; [easy|]. cbn [hd] in R1. apply plain_first; [eapply recognised_ascii; eauto|eapply recognised_space; eauto|]. now inversion F.
  - destruct d as [|c d _] using rev_ind; [easy|]. rewrite last_last in R2. apply plain_last; [eapply recognised_ascii; eauto|eapply recognised_space; eauto|].
    rewrite Forall_app in F. destruct F as [_ F]. now inversion F.
Qed.
Lemma leaf_rendered (T : bytes -> bytes -> Prop) (em inner : node -> bytes -> Prop) q before after n f c anc s : run url cfg q before after n = true -> kind_of n <> Some KLink -> rendered x f c anc n s ->
  (forall t, n = Text t -> text_ok q t = true -> rendered x f c anc n s -> T t s) ->
  (forall f' y a ks, n = Elem y a ks -> f = S f' -> strong_element y || em_element y = true -> exists ss, s = delimiter cfg y ++ List.concat ss ++ delimiter cfg y /\ Forall2 em ks ss) ->
  drawn url cfg T em inner n s.
Proof.
  intros R K Rn Ht He. destruct f as [|f]; [discriminate|]. destruct (run_kinds url cfg _ _ _ _ R) as [(d & -> & Q)|[(y & a & ks & -> & E)|[(y & a & ks & -> & C)|K2]]]; [| | |contradiction].
  - apply dr_text; auto.
  - destruct (He f y a ks eq_refl eq_refl E) as (ss & -> & F). now apply dr_emphasis.
  - destruct (run_code url cfg _ _ _ _ _ _ R C) as (d & -> & Q & _). rewrite (code_rendered f c anc y a d s C Rn). now apply dr_code.
Qed.
Lemma emphasised_text before after y a ks f c anc s : run url cfg None before after (Elem y a ks) = true -> strong_element y || em_element y = true -> rendered x (S f) c anc (Elem y a ks) s ->
  exists ss, s = delimiter cfg y ++ List.concat ss ++ delimiter cfg y /\ Forall2 (only (quiet_raw l)) ks ss.
Proof.
  intros R E Rn. destruct (run_emphasis _ _ _ _ _ _ _ _ R E) as (d & -> & Q). destruct (quiet_parts d Q) as (Nd & _). destruct (emphasis_ends url cfg _ _ _ _ _ _ R E Nd) as [R1 R2]. destruct (emphasis_rendered f c anc y a [Text d] s E Rn) as (parts & Ip & ->).
  unfold inside in Ip. cbn [kids] in Ip. inversion Ip as [|? p ? ? P Ip']; subst. inversion Ip'; subst. exists [p]. cbn [List.concat]. rewrite app_nil_r.
  apply text_rendered in P; auto using quiet_is_busy. assert (Bq : quiet_raw l d p) by now split. destruct (emphasis_hugging d _ _ _ _ Q R1 R2) as [S1 S2].
  destruct (raw_edges l Hl Hp d p (quiet_busy_raw _ _ _ Bq)) as [G1 G2]. destruct (G1 S1) as [Np H1]. destruct (G2 S2) as [_ H2]. split; [|constructor; constructor; auto].
  rewrite emphasis_hugs; [reflexivity|split; auto|]. now destruct (raw_sound l Hl Hp d p (quiet_busy_raw _ _ _ Bq)) as (_ & _ & ? & _).
Qed.
Lemma leaves_rendered ks : forall prev before f c anc ss, runs url cfg None prev before ks = true -> Forall2 (rendered x f c anc) ks ss -> Forall2 leaf_drawn ks ss.
Proof.
  induction ks as [|n ks IH]; intros prev before f c anc ss R F; inversion F as [|? s ? ss' P F']; subst; constructor; cbn [runs] in R; apply andb_true_iff in R as [R1 R].
  - eapply leaf_rendered; eauto.
    + intros K. destruct (run_link _ _ _ _ _ _ R1 K) as (_ & _ & _ & _ & _ & _ & [=] & _).
    + intros t -> Q Rn. cbn [text_ok] in Q. split; auto. eapply text_rendered; eauto using quiet_is_busy.
    + intros f' y a gs -> -> E. eapply emphasised_text; eauto.
  - destruct (kind_of n) as [k|] eqn:K; [|discriminate]. apply andb_true_iff in R as [_ R]. eapply IH; eauto.
Qed.
Lemma quiet_sound t s : quiet_raw l t s -> text_sound t s.
Proof. intros B. apply (raw_sound l Hl Hp). now apply quiet_busy_raw. Qed.
Lemma leaf_sound n s : leaf_drawn n s -> sound n s.
Proof. apply drawn_sound; auto using quiet_sound; [apply only_sound, quiet_sound|contradiction]. Qed.
Lemma piece_sound n s : piece_drawn n s -> sound n s.
Proof. apply drawn_sound; auto; [apply raw_sound; auto|apply leaf_sound|apply leaf_sound]. Qed.
Lemma leaves_hug gs parts : link_content url cfg gs = true -> Forall2 leaf_drawn gs parts -> hugs (List.concat parts) /\ ~ In 10 (List.concat parts).
Proof.
  intros Q Fl. split.
  - eapply drawn_hugs; [exact Hdel|apply quiet_sound|apply only_sound, quiet_sound| | |exact Q|exact Fl]; [contradiction|]. intros t0 s0 B. apply (raw_edges l Hl Hp). now apply quiet_busy_raw.
  - apply (concat_sound leaf_drawn leaf_sound _ _ Fl).
Qed.
Lemma pieces_rendered ks : forall prev before f c anc ss, ctx_value inside_link_key c = false -> runs url cfg (Some (link_content url cfg)) prev before ks = true -> Forall2 (rendered x f c anc) ks ss -> Forall2 piece_drawn ks ss.
Proof.
  induction ks as [|n ks IH]; intros prev before f c anc ss Hc R F; inversion F as [|? s ? ss' P F']; subst; constructor; cbn [runs] in R; apply andb_true_iff in R as [R1 R].
  - clear IH F' F. assert (Ht : forall t, n = Text t -> text_ok (Some (link_content url cfg)) t = true -> rendered x f c anc n s -> busy_raw l t s).
    { intros t -> Q Rn. cbn [text_ok] in Q. split; auto. eapply text_rendered; eauto. }
    assert (He : forall f' y a gs, n = Elem y a gs -> f = S f' -> strong_element y || em_element y = true -> exists ss, s = delimiter cfg y ++ List.concat ss ++ delimiter cfg y /\ Forall2 leaf_drawn gs ss).
    { intros f' y a gs -> -> E. destruct (run_emphasis _ _ _ _ _ _ _ _ R1 E) as [Q _]. destruct (emphasis_rendered f' c anc y a gs s E P) as (parts & Ip & ->). exists parts.
      pose proof (leaves_rendered gs _ _ _ _ _ _ (filled_runs _ _ Q) Ip) as Fl. destruct (leaves_hug gs parts Q Fl) as [Hg N10]. split; auto. now apply emphasis_hugs. }
    destruct (kind_of n) as [[]|] eqn:K; try discriminate; try (eapply leaf_rendered; eauto; congruence).
    destruct (run_link _ _ _ _ _ _ R1 K) as (y & a & gs & q & -> & -> & [= <-] & _ & Q & Et & Tr & Pa). destruct f as [|f]; [discriminate|].
    destruct (address_parts _ Pa) as (Nd & _). apply beqb_eq in Tr.
    destruct (link_rendered f c anc a gs s) as (parts & Ip & E); auto. { destruct (attribute _ _); [reflexivity|discriminate]. }
    pose proof (leaves_rendered gs _ _ _ _ _ _ (filled_runs _ _ Q) Ip) as Fl. destruct (leaves_hug gs parts Q Fl) as [Hg N10]. rewrite E by auto. now apply dr_link.
  - destruct (kind_of n) as [k|] eqn:K; [|discriminate]. apply andb_true_iff in R as [_ R]. eapply IH; eauto.
Qed.
End rendering.
