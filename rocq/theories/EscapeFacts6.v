(** Proofs about escaping, continued: the statements in the form the theorems use. *)
From Coq Require Import List NArith Bool Lia Arith ZifyBool ZifyNat ZifyN String.
From Verif Require Import Bytes BytesFacts TextUtils Escape SpecEscape EscapeFacts EscapeFacts2 EscapeFacts3 EscapeFacts4 EscapeFacts5.
Import ListNotations.
Open Scope N_scope.
Open Scope list_scope.

(** The annotated output used for all statements. *)
Definition the_ann (ds : list detector) (s : bytes) : list kbyte := ann ds O false [] s.
Lemma the_ann_out ds s : map fst (the_ann ds s) = unescape_content ds s.
Proof. apply ann_fst. Qed.

Lemma explains_no7 s D : explains s D -> ~ In 7 (map fst D).
Proof.
  induction 1; cbn [map fst In]; try tauto; intros [?|?]; try congruence; try tauto.
Qed.
Lemma unescape_no_marker ds s : Forall well_behaved ds -> ~ In 7 (unescape_content ds s).
Proof. intros W. rewrite <- the_ann_out. apply explains_no7 with (s := s). now apply ann_explains. Qed.
(** For any detectors whatsoever. *)
Lemma unescape_from_no7 ds s : forall skip rb, ~ In 7 (unescape_from ds skip rb s).
Proof.
  induction s as [|c t IH]; intros skip rb; cbn [unescape_from]; [easy|].
  unfold marker_esc, cBSL. destruct (c =? 7) eqn:E.
  - destruct skip; [|apply IH]. destruct t as [|d t']; [easy|].
    destruct (first_skip ds _ d t'); [|apply IH]. intros [?|H]; [discriminate|now apply IH in H].
  - intros [?|H]; [lia|now apply IH in H].
Qed.
Lemma unescape_no7 ds s : ~ In 7 (unescape_content ds s).
Proof. apply unescape_from_no7. Qed.

Lemma text_no_nul ds esc t : ~ In 0 (unescape_content ds (escape_content esc t)).
Proof.
  assert (G : forall s skip rb, ~ In 0 s -> ~ In 0 (unescape_from ds skip rb s)).
  { induction s as [|c s IH]; intros skip rb H; cbn [unescape_from]; [easy|].
    assert (H' : ~ In 0 s) by (intros I; apply H; now right).
    unfold marker_esc, cBSL. destruct (c =? 7) eqn:E.
    - destruct skip; [|now apply IH]. destruct s as [|d t']; [easy|].
      destruct (first_skip ds _ d t'); [|now apply IH]. intros [?|I]; [discriminate|]. now apply (IH _ _ H') in I.
    - intros [?|I]; [apply H; now left|]. now apply (IH _ _ H') in I. }
  apply G. apply escape_no_nul.
Qed.

Definition ins_only_before_lit (D : list kbyte) : Prop :=
  forall A c B, D = A ++ (c, Ins) :: B -> c = 92 /\ exists d B', B = (d, Lit) :: B' /\ ascii_punct d = true.
Lemma ann_ins_ok ds s : Forall well_behaved ds -> ins_only_before_lit (the_ann ds s).
Proof.
  intros W A c B E. split.
  - apply (ann_ins_92 ds s O false [] (c, Ins)); [|easy]. unfold the_ann in E. rewrite E. apply in_app_iff. right. now left.
  - exact (ann_ins_next ds _ W _ _ _ _ _ _ E).
Qed.
Lemma ann_backslash ds s : bundled ds -> forall A B, the_ann ds s = A ++ (92, Lit) :: B -> escaped_here A.
Proof.
  intros Bd A B E. apply (backslash_lit ds s A B (bundled_wb _ Bd) (bundled_rg _ Bd)); [|exact E].
  apply (bundled_in ds is_backslash Bd). cbn; tauto.
Qed.

Lemma ctx_escape ds s : bundled ds -> exists D, explains s D /\ map fst D = unescape_content ds s
  /\ (forall A c B, D = A ++ (c, Ins) :: B -> c = 92 /\ exists d B', B = (d, Lit) :: B' /\ ascii_punct d = true)
  /\ (forall A B, D = A ++ (92, Lit) :: B -> escaped_here A).
Proof.
  intros Bd. pose proof (bundled_wb _ Bd) as W. exists (the_ann ds s). split; [now apply ann_explains|].
  split; [apply the_ann_out|]. split; [now apply ann_ins_ok|now apply ann_backslash].
Qed.

Lemma line_claim_intro ds s pos p : Forall well_behaved ds ->
  (forall A x B, the_ann ds s = A ++ x :: B -> pos A -> p (map fst (x :: B)) = true -> snd x <> Lit) ->
  exists D, explains s D /\ map fst D = unescape_content ds s
  /\ forall A x B, D = A ++ x :: B -> pos A -> p (map fst (x :: B)) = true -> snd x <> Lit.
Proof. intros W H. exists (the_ann ds s). split; [now apply ann_explains|]. split; [apply the_ann_out|exact H]. Qed.

Ltac lc lem det :=
  intros Bd; pose proof (bundled_wb _ Bd) as W; apply (line_claim_intro _ _ _ _ W); intros A x B E SL Q;
  refine (lem _ _ A x B W (bundled_in _ det Bd _) E SL Q); cbn; tauto.
Lemma ctx_atx ds s : bundled ds -> exists D, explains s D /\ map fst D = unescape_content ds s
  /\ forall A x B, D = A ++ x :: B -> starts_line A -> atx_heading (map fst (x :: B)) = true -> snd x <> Lit.
Proof. lc atx_line is_atx_header. Qed.
Lemma ctx_setext ds s : bundled ds -> exists D, explains s D /\ map fst D = unescape_content ds s
  /\ forall A x B, D = A ++ x :: B -> starts_line_after_text A -> setext_underline (map fst (x :: B)) = true -> snd x <> Lit.
Proof. lc setext_line is_setext_header. Qed.
Lemma ctx_break ds s : bundled ds -> exists D, explains s D /\ map fst D = unescape_content ds s
  /\ forall A x B, D = A ++ x :: B -> starts_line A -> thematic_break (map fst (x :: B)) = true -> snd x <> Lit.
Proof. lc break_line is_divider. Qed.
Lemma ctx_quote ds s : bundled ds -> exists D, explains s D /\ map fst D = unescape_content ds s
  /\ forall A x B, D = A ++ x :: B -> starts_line A -> block_quote (map fst (x :: B)) = true -> snd x <> Lit.
Proof. lc bq_line is_block_quote. Qed.
Lemma ctx_bullet ds s : bundled ds -> exists D, explains s D /\ map fst D = unescape_content ds s
  /\ forall A x B, D = A ++ x :: B -> starts_line A -> bullet_item (map fst (x :: B)) = true -> snd x <> Lit.
Proof. lc bullet_line is_unordered_list. Qed.
Lemma ctx_ordered ds s : bundled ds -> exists D, explains s D /\ map fst D = unescape_content ds s
  /\ forall A x B, D = A ++ x :: B -> after_line_digits A -> item_delimiter (map fst (x :: B)) = true -> snd x <> Lit.
Proof. lc ordered_line is_ordered_list. Qed.
Lemma ctx_fence ds s : bundled ds -> exists D, explains s D /\ map fst D = unescape_content ds s
  /\ forall A x B, D = A ++ x :: B -> starts_line A -> code_fence (map fst (x :: B)) = true -> snd x <> Lit.
Proof. lc fence_line is_fenced_code. Qed.

Lemma ctx_backtick ds s : bundled ds -> exists D, explains s D /\ map fst D = unescape_content ds s
  /\ forall A B, D = A ++ (96, Lit) :: B -> escaped_run A.
Proof.
  intros Bd. pose proof (bundled_wb _ Bd) as W. exists (the_ann ds s). split; [now apply ann_explains|].
  split; [apply the_ann_out|]. intros A B E.
  refine (backtick_lit ds s A B W (bundled_tk _ Bd) (bundled_in _ is_inline_code Bd _) E). cbn; tauto.
Qed.
Lemma ctx_emphasis ds s : bundled ds -> ~ In 0 s -> exists D, explains s D /\ map fst D = unescape_content ds s
  /\ forall A c B, (c = 42 \/ c = 95) -> D = A ++ (c, Lit) :: B -> escaped_here A \/ not_opening c (map fst B).
Proof.
  intros Bd N0. pose proof (bundled_wb _ Bd) as W. exists (the_ann ds s). split; [now apply ann_explains|].
  split; [apply the_ann_out|]. intros A c B Hc E.
  refine (emphasis_lit ds s A c B W (bundled_rg _ Bd) (bundled_in _ is_italic_or_bold Bd _) N0 E Hc). cbn; tauto.
Qed.
Lemma ctx_tilde ds s : only_bundled ds -> In is_strikethrough ds -> ~ In 0 s -> exists D, explains s D /\ map fst D = unescape_content ds s
  /\ forall A B, D = A ++ (126, Lit) :: B -> escaped_run A \/ space_follows (map fst B).
Proof.
  intros Bd I N0. pose proof (only_wb _ Bd) as W. exists (the_ann ds s).
  split; [now apply ann_explains|]. split; [apply the_ann_out|]. intros A B E.
  exact (tilde_lit _ s A B W (only_tk _ Bd) I N0 E).
Qed.
Lemma ctx_bracket ds s : bundled ds -> exists D, explains s D /\ map fst D = unescape_content ds s
  /\ forall A B, D = A ++ (91, Lit) :: B -> bracket_closes (map fst B) = true -> escaped_here A.
Proof.
  intros Bd. pose proof (bundled_wb _ Bd) as W. exists (the_ann ds s). split; [now apply ann_explains|].
  split; [apply the_ann_out|]. intros A B E Q.
  refine (bracket_lit ds s A B W (bundled_rg _ Bd) (bundled_in _ is_image_or_link Bd _) E Q). cbn; tauto.
Qed.

(** Text level: no emphasis character of a text can open emphasis. *)
Lemma text_emphasis ds esc t A c B : bundled ds -> protects esc -> (c = 42 \/ c = 95) ->
  unescape_content ds (escape_content esc t) = A ++ c :: B ->
  (exists A', A = A' ++ [92]) \/ not_opening c B.
Proof.
  intros Bd P Hc E. pose proof (bundled_wb _ Bd) as W. rewrite <- the_ann_out in E.
  apply map_fst_app in E as (A1 & Y & ED & EA & EY). destruct Y as [|[c1 k] B1]; [discriminate|].
  cbn [map fst] in EY. inversion EY; subst c1.
  assert (k = Lit).
  { apply (text_lit ds esc t A1 c k B1 W P) with (3 := ED); destruct Hc; subst; cbn; try tauto; discriminate. }
  subst k.
  destruct (emphasis_lit ds _ A1 c B1 W (bundled_rg _ Bd) (bundled_in _ is_italic_or_bold Bd ltac:(cbn; tauto))
              (escape_no_nul esc t) ED Hc) as [(A0 & ->)|H].
  - left. exists (map fst A0). rewrite <- EA, map_app. reflexivity.
  - right. exact H.
Qed.
Lemma text_bracket ds esc t A B : bundled ds -> protects esc ->
  unescape_content ds (escape_content esc t) = A ++ 91 :: B -> bracket_closes B = true -> exists A', A = A' ++ [92].
Proof.
  intros Bd P E Q. pose proof (bundled_wb _ Bd) as W. rewrite <- the_ann_out in E.
  apply map_fst_app in E as (A1 & Y & ED & EA & EY). destruct Y as [|[c1 k] B1]; [discriminate|].
  cbn [map fst] in EY. inversion EY; subst c1.
  assert (k = Lit).
  { apply (text_lit ds esc t A1 91 k B1 W P) with (3 := ED); cbn; try tauto; discriminate. }
  subst k.
  destruct (bracket_lit ds _ A1 B1 W (bundled_rg _ Bd) (bundled_in _ is_image_or_link Bd ltac:(cbn; tauto)) ED) as (A0 & ->).
  - congruence.
  - exists (map fst A0). rewrite <- EA, map_app. reflexivity.
Qed.

Lemma explains_inserts s D : explains s D -> inserts (gb D) (map fst D).
Proof. induction 1; cbn [map fst]; rewrite ?gb_cons; try constructor; auto. Qed.
Lemma text_inserts ds esc t : Forall well_behaved ds -> inserts (plain t) (unescape_content ds (escape_content esc t)).
Proof.
  intros W. rewrite <- the_ann_out, <- (escape_strip esc).
  pose proof (ann_explains ds (escape_content esc t) W O []) as E. rewrite (explains_strip _ _ E). now apply explains_inserts in E.
Qed.
Lemma content_inserts ds s : Forall well_behaved ds -> inserts (filter (fun c => negb (c =? 7)) s) (unescape_content ds s).
Proof.
  intros W. pose proof (ann_explains ds s W O []) as E. rewrite <- the_ann_out.
  change (filter _ s) with (strip s). rewrite (explains_strip _ _ E). now apply explains_inserts in E.
Qed.
Lemma first_skip_pos ds rb c af n : Forall well_behaved ds -> first_skip ds rb c af = Some n -> (1 <= n)%nat.
Proof. intros W H. now apply (first_skip_wb ds rb c af n W H). Qed.
Lemma bundled_go_eq ds s : bundled ds -> unescape_go ds s = unescape_content ds s.
Proof. intros Bd. apply unescape_go_eq. intros rb c af n H. exact (first_skip_pos ds rb c af n (bundled_wb _ Bd) H). Qed.

(** Witnesses *)
Lemma tick_witness : exists t, code_span_opens (unescape_content commonmark_detectors
  (escape_content (is_escaped_in commonmark_escaped) t)) = true.
Proof. exists (b "````" ++ [10] ++ b "```"). vm_compute. reflexivity. Qed.
Lemma emphasis_witness : exists t r, unescape_content commonmark_detectors
  (escape_content (is_escaped_in commonmark_escaped) t) = 42 :: r /\ may_open 42 r = true.
Proof.
  exists (b "*" ++ [226; 128; 168] ++ b "a*"), ([226; 128; 168] ++ b "a*"). vm_compute. split; reflexivity.
Qed.
Lemma bracket_witness : exists t, unescape_content commonmark_detectors
  (escape_content (is_escaped_in commonmark_escaped) t) = t /\ t = b "[a" ++ [10] ++ b "b](http://x)".
Proof. exists (b "[a" ++ [10] ++ b "b](http://x)"). split; [vm_compute; reflexivity|reflexivity]. Qed.
Lemma tab_break_witness : exists t, some_line thematic_break_tabs (unescape_content commonmark_detectors
  (escape_content (is_escaped_in commonmark_escaped) t)).
Proof.
  exists [95; 9; 95; 9; 95], [95; 9; 95; 9; 95]. vm_compute. split; [left|]; reflexivity.
Qed.
