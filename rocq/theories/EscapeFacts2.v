(** Proofs about escaping, continued: the remaining constructs and the bundled detectors. *)
From Coq Require Import List NArith Bool Lia Arith ZifyBool ZifyNat ZifyN.
From Verif Require Import Bytes TextUtils Escape SpecEscape EscapeFacts.
Import ListNotations.
Open Scope N_scope.
Open Scope list_scope.

(** An inserted backslash is always followed by the character it protects. *)
Lemma ann_ins_next ds s : Forall well_behaved ds -> forall skip lit rb A c B,
  ann ds skip lit rb s = A ++ (c, Ins) :: B -> exists d B', B = (d, Lit) :: B' /\ ascii_punct d = true.
Proof.
  intros W. induction s as [|x t IH]; intros skip lit rb A c B E; [destruct A; discriminate|].
  cbn [ann] in E. destruct (x =? marker_esc) eqn:E7.
  - destruct skip; [|eauto]. destruct t as [|d t']; [destruct A; discriminate|].
    destruct (first_skip ds (x :: rb) d t') as [n|] eqn:F; [|eauto].
    destruct A as [|a A].
    + inversion E as [[E1 E2]]. subst. apply first_skip_wb in F as (_ & P & _); [|easy].
      exists d. cbn [ann]. pose proof (ascii_punct_neq _ P) as (H7 & _).
      apply N.eqb_neq in H7. unfold marker_esc. rewrite H7. eauto.
    + cbn [app] in E. inversion E as [[E1 E2]]. exact (IH (pred n) true (x :: rb) _ _ _ E2).
  - destruct A as [|a A]; cbn [app] in E; inversion E as [[E1 E2]].
    + destruct lit; discriminate.
    + exact (IH _ _ _ _ _ _ E2).
Qed.

(** Setext underline *)
Lemma setext_back_strip s : forall nl, setext_back nl s = setext_back nl (strip s).
Proof.
  induction s as [|c t IH]; intros nl; [easy|]. unfold strip in *. cbn [setext_back filter].
  destruct (c =? 7) eqn:E7; cbn [negb].
  - unfold marker_esc. rewrite E7. cbn [orb]. apply IH.
  - cbn [setext_back]. unfold marker_esc. rewrite E7. cbn [orb].
    destruct (c =? cSP); [apply IH|]. destruct (c =? cNL); [apply IH|easy].
Qed.
Lemma setext_back_spaces S r nl : Forall (fun c => c = 32) S -> setext_back nl (S ++ r) = setext_back nl r.
Proof. induction 1; [easy|]. subst. simpl. exact IHForall. Qed.
Lemma setext_back_text L r : Forall (fun c => c <> 10) L -> Forall (fun c => c <> 7) L ->
  Exists (fun c => c <> 32) L -> setext_back 1 (L ++ r) = Some 1%nat.
Proof.
  induction L as [|c L IH]; intros F F7 X; [inversion X|].
  inversion F; inversion F7; subst. cbn [app setext_back].
  unfold marker_esc, cSP, cNL.
  apply N.eqb_neq in H1, H5. rewrite H1, H5. cbn [orb].
  destruct (c =? 32) eqn:E; [|easy]. apply IH; auto. inversion X; subst; auto. apply N.eqb_eq in E. congruence.
Qed.

Lemma strip_no7 s : Forall (fun c => c <> 7) (strip s).
Proof.
  apply Forall_forall. intros x I. unfold strip in I. apply filter_In in I as [_ I].
  apply negb_true_iff, N.eqb_neq in I. exact I.
Qed.

Lemma reach_gb_no7 ds s rb A skip lit t : reach ds s rb A skip lit t -> Forall (fun c => c <> 7) (gb A).
Proof. intros R. rewrite <- (reach_strip _ _ _ _ _ _ _ R). apply strip_no7. Qed.

Lemma Forall_gb (P : N -> Prop) A : Forall (fun x : kbyte => P (fst x)) A -> Forall P (gb A).
Proof.
  induction 1 as [|[c k] A H F IH]; [constructor|]. rewrite gb_cons. destruct k; auto.
Qed.

Lemma after_text_start A : starts_line_after_text A -> starts_line A.
Proof.
  intros (A0 & L & k & S & -> & FS & _). exists (A0 ++ L ++ [(10, k)]), S. split.
  - rewrite <- !app_assoc. reflexivity.
  - split; [easy|]. right. exists (A0 ++ L), k. now rewrite app_assoc.
Qed.

Lemma setext_line ds s A x B : Forall well_behaved ds -> In is_setext_header ds ->
  ann ds O false [] s = A ++ x :: B -> starts_line_after_text A ->
  setext_underline (map fst (x :: B)) = true -> snd x <> Lit.
Proof.
  intros W I E SL Q K. destruct x as [c k]; cbn [map fst snd] in *; subst k.
  cbn [setext_underline] in Q. apply andb_prop in Q as [Hc _].
  destruct (line_start_lit ds s A c B W E (after_text_start _ SL)) as (rb & t & OB & HT & HR & F).
  apply (first_skip_none _ _ _ _ _ F) in I. unfold is_setext_header in I.
  rewrite Hc in I. cbn [negb] in I.
  cut (setext_back 0 (7 :: rb) = Some 1%nat); [congruence|]. clear I.
  rewrite setext_back_strip. change (strip (7 :: rb)) with (strip rb).
  rewrite strip_rev in HR. apply (f_equal (@rev _)) in HR. rewrite rev_involutive in HR. rewrite HR.
  destruct SL as (A0 & L & k & S & EA & FS & FL & XL).
  assert (I92 : forall y, In y A -> snd y = Ins -> fst y = 92).
  { intros y Iy. apply (ann_ins_92 ds s O false [] y). rewrite E. apply in_app_iff. now left. }
  subst A. rewrite !gb_app, gb_cons, !rev_app_distr.
  destruct k.
  3:{ specialize (I92 (10, Ins)). cbn in I92. discriminate I92; [|easy].
      apply in_app_iff; right. apply in_app_iff; right. now left. }
  1,2: cbn [rev]; rewrite <- !app_assoc.
  1,2: rewrite (gb_spaces S FS);
       [|intros y Iy; apply I92; apply in_app_iff; right; apply in_app_iff; right; now right].
  1,2: rewrite setext_back_spaces by (apply Forall_rev; now apply Forall_map).
  1,2: cbn [rev app setext_back]; change ((10 =? marker_esc) || (10 =? cSP)) with false;
       change (10 =? cNL) with true; cbn iota.
  1,2: apply setext_back_text.
  1,4: apply Forall_rev; now apply Forall_gb.
  1,3: apply Forall_rev; assert (E7 : explains s (ann ds 0 false [] s)) by (now apply ann_explains);
       apply explains_strip in E7; rewrite E in E7; rewrite !gb_app in E7;
       pose proof (strip_no7 s) as F7; rewrite E7 in F7;
       apply Forall_app in F7 as [F7 _]; apply Forall_app in F7 as [_ F7]; apply Forall_app in F7 as [F7 _];
       exact F7.
  1,2: apply Exists_exists in XL as ([d kd] & ID & HD); cbn in HD;
       apply Exists_exists.
  1,2: destruct kd.
  1,2,4,5: exists d; split; [|easy]; rewrite <- in_rev; unfold gb; change d with (fst (d, Raw)) || change d with (fst (d, Lit));
      first [apply (in_map fst _ (d, Raw)); apply filter_In; now split
            |apply (in_map fst _ (d, Lit)); apply filter_In; now split].
  1,2: apply in_split in ID as (L1 & L2 & ->).
  1,2: repeat (rewrite <- app_assoc in E; cbn [app] in E).
  1,2: assert (E2 : exists P R, ann ds 0 false [] s = P ++ (d, Ins) :: L2 ++ R /\
                  (R = (10, Raw) :: S ++ (c, Lit) :: B \/ R = (10, Lit) :: S ++ (c, Lit) :: B))
       by (exists (A0 ++ L1); eexists; split; [rewrite E; rewrite <- !app_assoc; reflexivity|auto]).
  1,2: destruct E2 as (P & R & E2 & HRR);
       destruct (ann_ins_next ds s W _ _ _ _ _ _ E2) as (e & B' & EB & PE).
  1,2: destruct L2 as [|y L2];
       [destruct HRR as [->| ->]; cbn in EB; inversion EB; subst; discriminate|].
  1,2: cbn in EB; inversion EB; subst; exists e; split;
       [rewrite <- in_rev, gb_app, !gb_cons; apply in_app_iff; right; now left
       |apply ascii_punct_neq in PE; tauto].
Qed.

(** Thematic break *)
Lemma break_rest_gb c B : c <> 92 -> forall n, break_rest c n (map fst B) = true ->
  (forall x, In x B -> snd x = Ins -> fst x = 92) -> break_rest c n (gb B) = true.
Proof.
  intros Hc. induction B as [|[d k] B IH]; intros n H HI; [easy|].
  assert (HI' : forall x, In x B -> snd x = Ins -> fst x = 92) by (intros; apply HI; [now right|easy]).
  rewrite gb_cons. cbn [map fst break_rest] in H. destruct k.
  1,2: cbn [break_rest]; destruct (d =? c); [auto|]; destruct (d =? 32); auto.
  specialize (HI (d, Ins) (or_introl eq_refl) eq_refl). cbn in HI. subst d.
  destruct (92 =? c) eqn:E; [apply N.eqb_eq in E; congruence|discriminate].
Qed.
Lemma divider_scan_break c t : c <> 7 -> c <> 32 -> forall n d, break_rest c n (strip t) = true ->
  exists m, divider_scan c n d t = Some m.
Proof.
  intros H7 H32. induction t as [|x t IH]; intros n d H.
  - cbn in H |- *. rewrite H. eauto.
  - unfold strip in H. cbn [filter] in H. cbn [divider_scan].
    destruct (x =? 7) eqn:E7; cbn [negb] in H.
    + unfold marker_esc. rewrite E7. now apply IH.
    + unfold marker_esc. rewrite E7. cbn [break_rest] in H.
      destruct (x =? c) eqn:Ec.
      * apply N.eqb_eq in Ec; subst x. apply N.eqb_neq in H32. unfold cSP. rewrite H32. now apply IH.
      * unfold cSP, cNL. destruct (x =? 32); [now apply IH|].
        apply andb_prop in H as [-> ->]. eauto.
Qed.
Lemma break_line ds s A x B : Forall well_behaved ds -> In is_divider ds ->
  ann ds O false [] s = A ++ x :: B -> starts_line A ->
  thematic_break (map fst (x :: B)) = true -> snd x <> Lit.
Proof.
  intros W I E SL Q K. destruct x as [c k]; cbn [map fst snd] in *; subst k.
  cbn [thematic_break] in Q. apply andb_prop in Q as [Hc Q].
  cbn [break_rest] in Q. rewrite N.eqb_refl in Q.
  assert (Hd : c <> 92 /\ c <> 7 /\ c <> 32) by lia. destruct Hd as (H92 & H7 & H32).
  apply break_rest_gb in Q; [|easy|exact (ann_ins_92_r _ _ _ _ _ E)].
  destruct (line_start_lit ds s A c B W E SL) as (rb & t & OB & HT & _ & F).
  rewrite <- HT in Q.
  destruct (divider_scan_break c t H7 H32 1 1 Q) as [m G].
  apply (first_skip_none _ _ _ _ _ F) in I. unfold is_divider in I. rewrite Hc, OB in I. cbn [negb] in I. congruence.
Qed.

(** List items *)
Lemma skip_markers_strip t : match strip t with [] => skip_markers t = []
                             | c :: r => exists t', skip_markers t = c :: t' /\ strip t' = r /\ c <> 7 end.
Proof.
  induction t as [|c t IH]; [easy|]. unfold strip in *. cbn [filter skip_markers]. unfold marker_esc.
  destruct (c =? 7) eqn:E; cbn [negb].
  - destruct (filter _ t); [exact IH|exact IH].
  - exists t. apply N.eqb_neq in E. auto.
Qed.
Lemma blank_or_end_gb B : blank_or_end (map fst B) = true ->
  (forall x, In x B -> snd x = Ins -> fst x = 92) -> blank_or_end (gb B) = true.
Proof.
  destruct B as [|[d k] B]; intros H HI; [easy|]. rewrite gb_cons. cbn [map fst] in H. destruct k; try exact H.
  specialize (HI (d, Ins) (or_introl eq_refl) eq_refl). cbn in HI. subst d. discriminate.
Qed.
Lemma blank_or_end_next t : blank_or_end (strip t) = true ->
  is_space_byte (get_next t) || (get_next t =? 0) = true.
Proof.
  intros H. unfold get_next. pose proof (skip_markers_strip t) as G.
  destruct (strip t) as [|c r].
  - now rewrite G.
  - destruct G as (t' & -> & _ & _). cbn [blank_or_end] in H. unfold is_space_byte. lia.
Qed.
Lemma bullet_line ds s A x B : Forall well_behaved ds -> In is_unordered_list ds ->
  ann ds O false [] s = A ++ x :: B -> starts_line A ->
  bullet_item (map fst (x :: B)) = true -> snd x <> Lit.
Proof.
  intros W I E SL Q K. destruct x as [c k]; cbn [map fst snd] in *; subst k.
  cbn [bullet_item] in Q. apply andb_prop in Q as [Hc Q].
  apply blank_or_end_gb in Q; [|exact (ann_ins_92_r _ _ _ _ _ E)].
  destruct (line_start_lit ds s A c B W E SL) as (rb & t & OB & HT & _ & F).
  rewrite <- HT in Q. apply blank_or_end_next in Q.
  apply (first_skip_none _ _ _ _ _ F) in I. unfold is_unordered_list in I. rewrite OB in I. cbn [negb] in I.
  replace ((c =? 45) || (c =? 42) || (c =? 43)) with true in I by lia. cbn [negb] in I.
  rewrite Q in I. discriminate.
Qed.

Lemma only_digits_strip s : only_digits_before s = only_digits_before (strip s).
Proof.
  induction s as [|c t IH]; [easy|]. unfold strip in *. cbn [only_digits_before filter].
  destruct (c =? 7) eqn:E7; cbn [negb].
  - apply N.eqb_eq in E7; subst. exact IH.
  - cbn [only_digits_before]. rewrite IH. reflexivity.
Qed.
Lemma only_digits_app S r : Forall (fun c => c = 32 \/ is_digit c = true) S ->
  only_digits_before (S ++ r) = only_digits_before r.
Proof.
  induction 1 as [|c S H F IH]; [easy|]. cbn [app only_digits_before].
  destruct (c =? cNL) eqn:E.
  - apply N.eqb_eq in E. subst. destruct H; discriminate.
  - rewrite IH. destruct H as [->|H]; [reflexivity|]. rewrite H. now rewrite !orb_true_r.
Qed.
Lemma gb_no_ins S : (forall x : kbyte, In x S -> snd x = Ins -> fst x = 92) -> Forall (fun x : kbyte => fst x <> 92) S ->
  gb S = map fst S.
Proof.
  intros H F. induction F as [|[c k] S Hc F IH]; [easy|].
  rewrite gb_cons. destruct k; cbn [map fst].
  - f_equal. apply IH. intros y Hy. apply H. now right.
  - f_equal. apply IH. intros y Hy. apply H. now right.
  - specialize (H (c, Ins) (or_introl eq_refl) eq_refl). now elim Hc.
Qed.
Lemma digit_neq c : is_digit c = true -> c <> 92 /\ c <> 7 /\ c <> 10 /\ c <> 32 /\ c < 128.
Proof. unfold is_digit, in_range. lia. Qed.

Lemma ordered_line ds s A x B : Forall well_behaved ds -> In is_ordered_list ds ->
  ann ds O false [] s = A ++ x :: B -> after_line_digits A ->
  item_delimiter (map fst (x :: B)) = true -> snd x <> Lit.
Proof.
  intros W I E (A1 & G & -> & SL & NG & FG) Q K. destruct x as [c k]; cbn [map fst snd] in *; subst k.
  cbn [item_delimiter] in Q. apply andb_prop in Q as [Hc Q].
  apply blank_or_end_gb in Q; [|exact (ann_ins_92_r _ _ _ _ _ E)].
  destruct (ann_lit ds s W _ c B E) as (rb & A0 & skip & lit & t & R & H7 & HS & H).
  destruct SL as (A2 & S & -> & FS & HA).
  assert (FSG : Forall (fun x : kbyte => fst x <> 92) (S ++ G)).
  { apply Forall_app; split.
    - apply Forall_impl with (2 := FS). intros [d k]; cbn. intros ->. discriminate.
    - apply Forall_impl with (2 := FG). intros [d k]; cbn. intros X. now apply digit_neq in X. }
  rewrite <- app_assoc in *.
  destruct H as [(_ & HA0 & _)|[(-> & <- & F)|(HK & <-)]].
  - (* the byte before is a digit *)
    destruct G as [|g G _] using rev_ind; [easy|].
    rewrite !app_assoc in HA0. apply app_inj_tail in HA0 as [_ ->].
    apply Forall_app in FG as [_ FG]. inversion FG; subst. discriminate.
  - pose proof (reach_ins_92 _ _ _ _ _ _ _ R) as I92.
    pose proof (reach_strip _ _ _ _ _ _ _ R) as HR.
    rewrite strip_rev in HR. apply (f_equal (@rev _)) in HR. rewrite rev_involutive in HR.
    rewrite gb_app, rev_app_distr in HR.
    rewrite (gb_no_ins (S ++ G)) in HR; [|intros y Iy; apply I92; apply in_app_iff; now right|easy].
    rewrite <- HS in Q. apply blank_or_end_next in Q.
    apply (first_skip_none _ _ _ _ _ F) in I. unfold is_ordered_list in I.
    rewrite Hc in I. cbn [negb] in I.
    assert (P : is_digit_rune (get_prev_rune (7 :: rb)) = true).
    { destruct G as [|[g kg] G _] using rev_ind; [easy|].
      apply Forall_app in FG as [_ FG]. inversion FG; subst. cbn in H1.
      rewrite app_assoc, map_app, rev_app_distr in HR. cbn [map rev app fst] in HR.
      unfold get_prev_rune. pose proof (skip_markers_strip (7 :: rb)) as M.
      change (strip (7 :: rb)) with (strip rb) in M. rewrite HR in M.
      destruct M as (t' & -> & _ & _). unfold decode_last_rune_rev.
      destruct (g <? 128) eqn:E128; [exact H1|]. apply digit_neq in H1. lia. }
    rewrite P in I. cbn [negb] in I.
    assert (O : only_digits_before (7 :: rb) = true).
    { rewrite only_digits_strip. change (strip (7 :: rb)) with (strip rb). rewrite HR.
      rewrite only_digits_app.
      - destruct HA as [->|(A3 & k & ->)]; [easy|].
        rewrite gb_app, rev_app_distr. destruct k; try reflexivity.
        specialize (I92 (10, Ins)). discriminate I92; [|easy].
        apply in_app_iff; left. apply in_app_iff; right. now left.
      - apply Forall_rev, Forall_map, Forall_app. split.
        + apply Forall_impl with (2 := FS). auto.
        + apply Forall_impl with (2 := FG). auto. }
    rewrite O in I. cbn [negb] in I. rewrite Q in I. discriminate.
  - destruct (reach_skip_inv ds s W _ _ _ _ _ R HK) as [LI _].
    exact (line_ins_not_gen _ A2 (S ++ G) LI eq_refl FSG HA).
Qed.

(** Code fence *)
Lemma fence_scan_ge t : forall n d, (n <= fst (fence_scan n d t))%nat.
Proof.
  induction t as [|c t IH]; intros n d; cbn [fence_scan]; [cbn; lia|].
  destruct (c =? marker_esc); [apply IH|].
  destruct ((c =? 96) || (c =? 126)); [|cbn; lia].
  specialize (IH (S n) (S d)). lia.
Qed.
Lemma fence_scan_prefix p : Forall (fun c => c = 96 \/ c = 126) p -> forall t n d, has_prefix p (strip t) = true ->
  (n + List.length p <= fst (fence_scan n d t))%nat.
Proof.
  induction 1 as [|c p Hc F IH]; intros t n d H.
  - cbn [List.length]. pose proof (fence_scan_ge t n d). lia.
  - revert n d H. induction t as [|x t IHt]; intros n d H; [discriminate|].
    unfold strip in H. cbn [filter] in H. cbn [fence_scan]. unfold marker_esc.
    destruct (x =? 7) eqn:E7; cbn [negb] in H; [now apply IHt|].
    cbn [has_prefix] in H. apply andb_prop in H as [E H]. apply N.eqb_eq in E. subst x.
    replace ((c =? 96) || (c =? 126)) with true by lia.
    specialize (IH t (S n) (S d) H). cbn [List.length]. lia.
Qed.
Lemma has_prefix_gb p B : Forall (fun c => c <> 92) p -> has_prefix p (map fst B) = true ->
  (forall x, In x B -> snd x = Ins -> fst x = 92) -> has_prefix p (gb B) = true.
Proof.
  intros F. revert B. induction F as [|c p Hc F IH]; intros B H HI; [easy|].
  destruct B as [|[d k] B]; [easy|]. cbn [map fst has_prefix] in H. apply andb_prop in H as [E H].
  apply N.eqb_eq in E; subst d. rewrite gb_cons.
  assert (HI' : forall x, In x B -> snd x = Ins -> fst x = 92) by (intros; apply HI; [now right|easy]).
  destruct k; [cbn [has_prefix]; rewrite N.eqb_refl; now apply IH..|].
  specialize (HI (c, Ins) (or_introl eq_refl) eq_refl). now elim Hc.
Qed.
Lemma fence_line ds s A x B : Forall well_behaved ds -> In is_fenced_code ds ->
  ann ds O false [] s = A ++ x :: B -> starts_line A ->
  code_fence (map fst (x :: B)) = true -> snd x <> Lit.
Proof.
  intros W I E SL Q K. destruct x as [c k]; cbn [map fst snd] in *; subst k.
  destruct (line_start_lit ds s A c B W E SL) as (rb & t & OB & HT & _ & F).
  apply (first_skip_none _ _ _ _ _ F) in I. unfold is_fenced_code in I. rewrite OB in I. cbn [negb] in I.
  assert (G : exists p, (p = [96; 96] \/ p = [126; 126]) /\ has_prefix p (map fst B) = true /\ ((c =? 96) || (c =? 126)) = true).
  { unfold code_fence in Q. apply orb_prop in Q as [Q|Q]; cbn [has_prefix] in Q; apply andb_prop in Q as [Q1 Q2].
    - exists [96; 96]. split; [auto|]. split; [exact Q2|lia].
    - exists [126; 126]. split; [auto|]. split; [exact Q2|lia]. }
  destruct G as (p & HP & Q1 & Q2). rewrite Q2 in I. cbn [negb] in I.
  apply has_prefix_gb in Q1; [|destruct HP; subst; repeat constructor; discriminate|exact (ann_ins_92_r _ _ _ _ _ E)].
  rewrite <- HT in Q1.
  assert (FP : Forall (fun c => c = 96 \/ c = 126) p) by (destruct HP; subst; repeat constructor; auto).
  pose proof (fence_scan_prefix p FP t 1 1 Q1) as L.
  destruct (fence_scan 1 1 t) as [n d]. cbn [fst] in L.
  assert (List.length p = 2%nat) by (destruct HP; subst; reflexivity).
  destruct (Nat.ltb_spec n 3); [lia|discriminate].
Qed.
