(** Proofs about escaping, continued: jumped-over regions, emphasis, brackets, backslashes; the bundled detectors. *)
From Coq Require Import List NArith Bool Lia Arith ZifyBool ZifyNat ZifyN.
From Verif Require Import Bytes TextUtils Escape SpecEscape EscapeFacts EscapeFacts2.
Import ListNotations.
Open Scope N_scope.
Open Scope list_scope.

(** What a detector may jump over. *)
Definition break_region (n : nat) (u : bytes) : Prop :=
  exists c' reg rest, u = reg ++ rest /\ (n <= S (List.length reg))%nat /\ (List.length reg <= S n)%nat /\ (c' = 45 \/ c' = 95 \/ c' = 42)
    /\ Forall (fun x => x = 7 \/ x = 32 \/ x = c') reg /\ (rest = [] \/ exists r, rest = 10 :: r).
Definition fence_region (n : nat) (u : bytes) : Prop :=
  Forall (fun x => x = 7 \/ x = 35 \/ x = 96 \/ x = 126) (firstn n u).
Definition region_ok (d : detector) : Prop :=
  forall rb c af n, d rb c af = Some n -> (1 < n)%nat ->
    (exists c' reg rest, c :: af = reg ++ rest /\ List.length reg = n /\ (c' = 45 \/ c' = 95 \/ c' = 42)
      /\ Forall (fun x => x = 7 \/ x = 32 \/ x = c') reg /\ (rest = [] \/ exists r, rest = 10 :: r))
    \/ fence_region n (c :: af).

(** State while jumping: [skip] more positions are jumped over; at most one more belongs to the region. *)
Definition in_region (skip : nat) (t : bytes) : Prop :=
  (exists c' reg rest, t = reg ++ rest /\ List.length reg = S skip /\ (c' = 45 \/ c' = 95 \/ c' = 42)
      /\ Forall (fun x => x = 7 \/ x = 32 \/ x = c') reg /\ (rest = [] \/ exists r, rest = 10 :: r))
  \/ fence_region (S skip) t.

Lemma first_skip_region ds rb c af n : Forall region_ok ds -> first_skip ds rb c af = Some n -> (1 < n)%nat ->
  in_region (pred n) (c :: af).
Proof.
  intros W H L. apply first_skip_in in H as [d [I E]]. rewrite Forall_forall in W.
  destruct (W d I rb c af n E L) as [(c' & reg & rest & H)|H].
  - left. exists c', reg, rest. replace (S (pred n)) with n by lia. exact H.
  - right. now replace (S (pred n)) with n by lia.
Qed.
Lemma in_region_tail k x t : in_region (S k) (x :: t) -> in_region k t.
Proof.
  intros [(c' & reg & rest & E & L & Hc & F & R)|F].
  - destruct reg as [|y reg]; [discriminate|]. cbn in E. inversion E; subst. inversion F; subst.
    left. exists c', reg, rest. cbn in L. repeat split; auto.
  - right. unfold fence_region in *. cbn [firstn] in F. now inversion F; subst.
Qed.
Lemma reach_region ds s : Forall well_behaved ds -> Forall region_ok ds -> forall rb A skip lit t,
  reach ds s rb A skip lit t -> skip <> O -> in_region skip t.
Proof.
  intros W V. induction 1 as [|rb A skip lit c t Hc R IH|rb A k lit t R IH|rb A lit d t R IH F|rb A lit d t n R IH F]; intros HS.
  - easy.
  - destruct skip as [|[|k]]; try easy. apply in_region_tail with (x := c). apply IH. discriminate.
  - destruct k as [|k]; [easy|]. apply in_region_tail with (x := 7). apply IH. discriminate.
  - easy.
  - pose proof F as F'. apply first_skip_region in F; auto; [lia..].
Qed.

(** Output of a break region: no backslash is inserted in it. *)
Lemma region_out ds : Forall well_behaved ds -> forall reg c' rest skip lit rb,
  (List.length reg <= S skip)%nat -> (c' = 45 \/ c' = 95 \/ c' = 42) ->
  Forall (fun x => x = 7 \/ x = 32 \/ x = c') reg -> (rest = [] \/ exists r, rest = 10 :: r) ->
  exists B', map fst (ann ds skip lit rb (reg ++ rest)) = strip reg ++ B' /\ (B' = [] \/ exists r, B' = 10 :: r).
Proof.
  intros W. induction reg as [|x reg IH]; intros c' rest skip lit rb L Hc' F R.
  - cbn [app strip]. exists (map fst (ann ds skip lit rb rest)). split; [easy|].
    destruct R as [->|[r ->]]; [now left|]. right. cbn [ann]. change (10 =? marker_esc) with false. cbn. eauto.
  - inversion F as [|? ? Hx F']; subst. cbn [app List.length] in *.
    destruct (N.eq_dec x 7) as [->|H7].
    + destruct skip as [|k].
      * destruct reg as [|y reg]; [|cbn in L; lia].
        cbn [app]. change (strip [7]) with (@nil N). cbn [app].
        destruct R as [->|[r ->]].
        -- exists []. split; [easy|now left].
        -- cbn [ann]. change (7 =? marker_esc) with true. cbn iota.
           change (10 =? marker_esc) with false. cbn iota.
           destruct (first_skip ds (7 :: rb) 10 r) eqn:G.
           ++ apply first_skip_wb in G as (_ & P & _); [discriminate|easy].
           ++ cbn. eexists. split; [reflexivity|]. right. eauto.
      * change (ann ds (S k) lit rb (7 :: reg ++ rest)) with (ann ds k true (7 :: rb) (reg ++ rest)).
        change (strip (7 :: reg)) with (strip reg). eapply IH; eauto; lia.
    + cbn [ann]. apply N.eqb_neq in H7 as E7. unfold marker_esc. rewrite E7.
      unfold strip. cbn [filter]. rewrite E7. cbn [negb map fst app]. fold (strip reg).
      destruct (IH c' rest (pred skip) false (x :: rb)) as (B' & E & HB); auto; [lia|].
      exists B'. rewrite E. auto.
Qed.

(** White space directly behind a marker sequence survives as it is. *)
Lemma ann_space ds : Forall well_behaved ds -> forall t skip lit rb u0 u,
  skip_markers t = u0 :: u -> ascii_punct u0 = false ->
  exists skip' lit' rb' , map fst (ann ds skip lit rb t) = u0 :: map fst (ann ds skip' lit' rb' u).
Proof.
  intros W. induction t as [|x t IH]; intros skip lit rb u0 u E P; [discriminate|].
  cbn [skip_markers] in E. unfold marker_esc in E. destruct (x =? 7) eqn:E7.
  - apply N.eqb_eq in E7; subst x. destruct skip as [|k].
    + destruct t as [|d t']; [discriminate|].
      change (ann ds 0 lit rb (7 :: d :: t')) with
          (match first_skip ds (7 :: rb) d t' with
           | None => ann ds 0 true (7 :: rb) (d :: t')
           | Some n => (92, Ins) :: ann ds (pred n) true (7 :: rb) (d :: t') end).
      destruct (first_skip ds (7 :: rb) d t') eqn:F.
      * exfalso. apply first_skip_wb in F as (_ & Q & _); [|easy].
        cbn [skip_markers] in E. unfold marker_esc in E. destruct (d =? 7) eqn:D7.
        -- apply N.eqb_eq in D7; subst. discriminate.
        -- inversion E; subst. congruence.
      * now apply IH.
    + change (ann ds (S k) lit rb (7 :: t)) with (ann ds k true (7 :: rb) t). now apply IH.
  - inversion E; subst. cbn [ann]. unfold marker_esc. rewrite E7. cbn [map fst]. eauto.
Qed.

Lemma ann_nomark ds : forall p skip lit rb u, Forall (fun c => c <> 7) p ->
  exists skip' lit' rb', map fst (ann ds skip lit rb (p ++ u)) = p ++ map fst (ann ds skip' lit' rb' u).
Proof.
  induction p as [|c p IH]; intros skip lit rb u F; [cbn; eauto|].
  inversion F; subst. cbn [app ann]. apply N.eqb_neq in H1. unfold marker_esc. rewrite H1. cbn [map fst].
  destruct (IH (pred skip) false (c :: rb) u H2) as (a & b0 & c0 & E). rewrite E. eauto.
Qed.

(** A rune decoded from a prefix stays when the rest changes. *)
Lemma decode_space_prefix c u : is_space_rune (fst (decode_rune (c :: u))) = true ->
  exists p u', c :: u = (c :: p) ++ u' /\ Forall (fun x => x <> 7) p /\
     ascii_punct c = false /\ c <> 42 /\ c <> 95 /\
     forall v, fst (decode_rune ((c :: p) ++ v)) = fst (decode_rune (c :: u)).
Proof.
  intros H. unfold decode_rune in H.
  destruct (c <? 128) eqn:E1.
  { exists [], u. cbn [fst] in H. cbn [app]. split; [easy|]. split; [constructor|].
    split; [unfold is_space_rune, ascii_punct, in_range in *; lia|].
    split; [unfold is_space_rune, in_range in H; lia|]. split; [unfold is_space_rune, in_range in H; lia|].
    intros v. unfold decode_rune. now rewrite E1. }
  assert (P : ascii_punct c = false /\ c <> 42 /\ c <> 95).
  { unfold ascii_punct, in_range. lia. }
  destruct P as (P1 & P2 & P3).
  destruct (in_range 194 223 c) eqn:E2.
  { destruct u as [|b1 u]; [discriminate|]. destruct (is_cont b1) eqn:C1; [|discriminate].
    exists [b1], u. split; [easy|]. split; [repeat constructor; unfold is_cont, in_range in C1; lia|].
    repeat split; auto. intros v. unfold decode_rune. cbn [app]. rewrite E1, E2, C1. reflexivity. }
  destruct (in_range 224 239 c) eqn:E3.
  { destruct u as [|b1 [|b2 u]]; [discriminate..|].
    destruct (in_range (if c =? 224 then 160 else 128) (if c =? 237 then 159 else 191) b1 && is_cont b2) eqn:C1;
      [|discriminate].
    exists [b1; b2], u. split; [easy|].
    split. { apply andb_prop in C1 as [C1 C2]. repeat constructor.
             - destruct (c =? 224), (c =? 237); unfold in_range in C1; lia.
             - unfold is_cont, in_range in C2; lia. }
    repeat split; auto. intros v. unfold decode_rune. cbn [app]. rewrite E1, E2, E3, C1. reflexivity. }
  destruct (in_range 240 244 c) eqn:E4; [|discriminate].
  destruct u as [|b1 [|b2 [|b3 u]]]; [discriminate..|].
  destruct (in_range (if c =? 240 then 144 else 128) (if c =? 244 then 143 else 191) b1 && is_cont b2 && is_cont b3) eqn:C1;
      [|discriminate].
  exists [b1; b2; b3], u. split; [easy|].
  split. { apply andb_prop in C1 as [C1 C3]. apply andb_prop in C1 as [C1 C2]. repeat constructor.
             - destruct (c =? 240), (c =? 244); unfold in_range in C1; lia.
             - unfold is_cont, in_range in C2; lia.
             - unfold is_cont, in_range in C3; lia. }
  repeat split; auto. all: intros v; unfold decode_rune; cbn [app]; rewrite E1, E2, E3, E4, C1; reflexivity.
Qed.

Lemma space_classes r : is_space_rune r = true -> cm_whitespace r = true \/ go_only_whitespace r = true.
Proof. unfold is_space_rune, cm_whitespace, go_only_whitespace, in_range. lia. Qed.

Lemma skip_markers_head t : match skip_markers t with [] => True | c :: _ => c <> 7 end.
Proof.
  induction t as [|c t IH]; [easy|]. cbn [skip_markers]. unfold marker_esc. destruct (c =? 7) eqn:E; [easy|].
  now apply N.eqb_neq in E.
Qed.
Lemma skip_markers_incl t c u : skip_markers t = c :: u -> In c t.
Proof.
  induction t as [|x t IH]; [easy|]. cbn [skip_markers]. unfold marker_esc. destruct (x =? 7).
  - intros; right; auto.
  - intros E; inversion E; now left.
Qed.
Lemma explains_nil s D : explains s D -> strip s = [] -> D = [].
Proof.
  intros H. induction H; auto; unfold strip in *; cbn [filter].
  1,2,3: apply N.eqb_neq in H as E; try (change (7 =? 7) with true; cbn [negb]); rewrite E; discriminate.
Qed.
Lemma drop_run_nil c s : (forall x, In x s -> x = c) -> drop_run c s = [].
Proof.
  induction s as [|x s IH]; intros H; [easy|]. cbn [drop_run].
  rewrite (H x (or_introl eq_refl)), N.eqb_refl. apply IH. intros; apply H; now right.
Qed.
Lemma drop_run_region c s B : Forall (fun x => x = 32 \/ x = c) s -> (B = [] \/ exists r, B = 10 :: r) -> c <> 10 ->
  match drop_run c (s ++ B) with [] => True | u0 :: _ => u0 = 32 \/ u0 = 10 end.
Proof.
  intros F HB Hc. induction F as [|x s Hx F IH].
  - cbn [app]. destruct HB as [->|[r ->]]; [easy|]. cbn [drop_run].
    destruct (10 =? c) eqn:E; [apply N.eqb_eq in E; congruence|now right].
  - cbn [app drop_run]. destruct (x =? c) eqn:E; [exact IH|].
    apply N.eqb_neq in E. destruct Hx; [now left|congruence].
Qed.

(** What is shown first of a text whose first byte is 0 *)
Definition shows_zero (B : list kbyte) : Prop :=
  (exists k B', B = (0, k) :: B') \/ exists k B', B = (92, Ins) :: (0, k) :: B'.
Lemma explains_zero t B u : explains t B -> skip_markers t = 0 :: u -> shows_zero B.
Proof.
  unfold shows_zero. intros H. induction H; cbn [skip_markers]; unfold marker_esc; intros E; try discriminate.
  - replace (c =? 7) with false in E by lia. injection E as -> _. left. eauto.
  - change (7 =? 7) with true in E. replace (c =? 7) with false in E by lia. injection E as -> _. left. eauto.
  - change (7 =? 7) with true in E. replace (c =? 7) with false in E by lia. injection E as -> _. right. eauto.
  - change (7 =? 7) with true in E. apply IHexplains. cbn [skip_markers]. exact E.
Qed.
Lemma emphasis_lit_near ds s A c B : Forall well_behaved ds -> Forall region_ok ds -> In is_italic_or_bold ds ->
  ~ shows_zero B ->
  ann ds O false [] s = A ++ (c, Lit) :: B -> (c = 42 \/ c = 95) ->
  escaped_here A \/ not_opening c (map fst B).
Proof.
  intros W V I N0 E Hc.
  destruct (ann_lit_full ds s W A c B E) as (rb & A0 & skip & lit & t & skip' & R & H7 & HB & H).
  destruct H as [(_ & -> & _)|[(-> & -> & F)|(HK & -> & ->)]].
  - left. now exists A0.
  - right. apply (first_skip_none _ _ _ _ _ F) in I. unfold is_italic_or_bold in I.
    replace ((c =? 42) || (c =? 95)) with true in I by lia. cbn [negb] in I.
    unfold get_next_rune in I. destruct (skip_markers t) as [|u0 u] eqn:M.
    + assert (B = []).
      { apply (explains_nil t); [subst B; now apply ann_explains|].
        pose proof (skip_markers_strip t) as G. destruct (strip t); [easy|]. destruct G as (? & G & _). congruence. }
      subst. unfold not_opening. now rewrite H.
    + destruct (is_space_rune (fst (decode_rune (u0 :: u)))) eqn:SP.
      * destruct (decode_space_prefix u0 u SP) as (p & u' & Eu & Fp & Pu & H42 & H95 & Dec).
        cbn [app] in Eu. inversion Eu; subst u.
        destruct (ann_space ds W t skip' false (c :: 7 :: rb) u0 (p ++ u') M Pu) as (k1 & l1 & r1 & E1).
        destruct (ann_nomark ds p k1 l1 r1 u' Fp) as (k2 & l2 & r2 & E2).
        rewrite <- HB in E1. unfold not_opening. rewrite E1, E2.
        cbn [drop_run]. replace (u0 =? c) with false by lia.
        change (u0 :: p ++ map fst (ann ds k2 l2 r2 u')) with ((u0 :: p) ++ map fst (ann ds k2 l2 r2 u')).
        rewrite Dec. now apply space_classes.
      * cbn [orb] in I. destruct (fst (decode_rune (u0 :: u)) =? 0) eqn:Z; [|discriminate].
        exfalso. apply N.eqb_eq in Z. apply N0.
        cut (u0 = 0); [intros ->; apply (explains_zero t B u); [subst B; now apply ann_explains|exact M]|].
        unfold decode_rune in Z. destruct (u0 <? 128) eqn:L; [exact Z|]. unfold rune_error in Z.
        destruct (in_range 194 223 u0) eqn:E2.
        { destruct u as [|b1 u]; [discriminate|]. destruct (is_cont b1) eqn:C; [|discriminate].
          cbn [fst] in Z. unfold is_cont, in_range in *. lia. }
        destruct (in_range 224 239 u0) eqn:E3.
        { destruct u as [|b1 [|b2 u]]; [discriminate..|].
          match type of Z with context [if ?X then _ else _] => destruct X eqn:C end; [|discriminate].
          cbn [fst] in Z. apply andb_prop in C as [C _].
          destruct (u0 =? 224) eqn:E224; destruct (u0 =? 237) eqn:E237; unfold in_range in *; lia. }
        destruct (in_range 240 244 u0) eqn:E4; [|discriminate].
        destruct u as [|b1 [|b2 [|b3 u]]]; [discriminate..|].
        match type of Z with context [if ?X then _ else _] => destruct X eqn:C end; [|discriminate].
        cbn [fst] in Z. apply andb_prop in C as [C _]. apply andb_prop in C as [C _].
        destruct (u0 =? 240) eqn:E240; destruct (u0 =? 244) eqn:E244; unfold in_range in *; lia.
  - right. pose proof (reach_region ds s W V _ _ _ _ _ R HK) as RG.
    destruct skip as [|k]; [easy|].
    destruct RG as [(c' & reg & rest & Er & L & Hc' & Fr & Hr)|Fr].
    + destruct reg as [|y1 reg]; [discriminate|]. cbn [app] in Er. injection Er as X1 X2. subst y1.
      cbn [List.length] in L.
      destruct reg as [|y2 reg]; [cbn in L; lia|]. cbn [app] in X2. injection X2 as X2 X3. subst y2 t.
      inversion Fr as [|? ? _ Fr']. subst. inversion Fr' as [|? ? Hy H6]. subst.
      assert (c' = c) by (destruct Hy as [?|[?|?]]; lia). subst c'.
      destruct (region_out ds W reg c rest (pred (pred (S k))) false (c :: 7 :: rb)) as (B' & EB & HB'); auto.
      { cbn in L. lia. }
      unfold not_opening. rewrite EB.
      assert (FS : Forall (fun x => x = 32 \/ x = c) (strip reg)).
      { pose proof (strip_no7 reg) as F7. apply Forall_forall. intros x Ix.
        rewrite Forall_forall in F7. specialize (F7 x Ix).
        unfold strip in Ix. apply filter_In in Ix as [Ix _]. rewrite Forall_forall in H6.
        destruct (H6 x Ix) as [?|[?|?]]; auto. congruence. }
      pose proof (drop_run_region c (strip reg) B' FS HB' ltac:(lia)) as DR.
      destruct (drop_run c (strip reg ++ B')) as [|u0 u]; [easy|].
      left. destruct DR as [->| ->]; reflexivity.
    + exfalso. unfold fence_region in Fr. cbn [firstn] in Fr. inversion Fr as [|? ? _ Fr']; subst.
      inversion Fr'; subst. lia.
Qed.
Lemma emphasis_lit ds s A c B : Forall well_behaved ds -> Forall region_ok ds -> In is_italic_or_bold ds ->
  ~ In 0 s ->
  ann ds O false [] s = A ++ (c, Lit) :: B -> (c = 42 \/ c = 95) ->
  escaped_here A \/ not_opening c (map fst B).
Proof.
  intros W V I N0 E Hc. apply (emphasis_lit_near ds s A c B W V I); auto. intros Z. apply N0. clear - W E Z.
  pose proof (ann_explains ds s W O []) as X. rewrite E in X. set (D := A ++ (c, Lit) :: B) in X.
  assert (J : In 0 (map fst D)).
  { unfold D. rewrite map_app, in_app_iff. right. cbn [map fst]. right. destruct Z as [(k & B' & ->)|(k & B' & ->)]; cbn [map fst]; [now left|right; now left]. }
  clearbody D. clear - X J. induction X; cbn in J; try tauto; cbn [In].
  - destruct J as [<-|J]; auto.
  - destruct J as [<-|J]; auto.
  - destruct J as [J|[<-|J]]; auto. discriminate.
  - right. apply IHX. exact J.
Qed.

(** Brackets *)
Lemma bracket_closes_gb B : bracket_closes (map fst B) = true ->
  (forall x, In x B -> snd x = Ins -> fst x = 92) -> bracket_closes (gb B) = true.
Proof.
  induction B as [|[d k] B IH]; intros H HI; [easy|].
  assert (HI' : forall x, In x B -> snd x = Ins -> fst x = 92) by (intros; apply HI; [now right|easy]).
  rewrite gb_cons. cbn [map fst bracket_closes] in H. destruct k.
  1,2: cbn [bracket_closes]; destruct (d =? 10); [easy|]; apply orb_prop in H as [->|H]; [easy|]; rewrite IH; auto; apply orb_true_r.
  specialize (HI (d, Ins) (or_introl eq_refl) eq_refl). cbn in HI. subst d. cbn in H. auto.
Qed.
Lemma bracket_scan_closes t : bracket_closes (strip t) = true -> bracket_scan t = Some 1%nat.
Proof.
  induction t as [|x t IH]; intros H; [discriminate|]. unfold strip in H. cbn [filter] in H. cbn [bracket_scan].
  destruct (x =? 7) eqn:E7; cbn [negb] in H.
  - apply N.eqb_eq in E7; subst x. cbn. now apply IH.
  - cbn [bracket_closes] in H. unfold cNL. destruct (x =? 10); [discriminate|].
    destruct (x =? 93); [easy|]. now apply IH.
Qed.
(** Characters that are never jumped over. *)
Lemma never_skipped ds s A c B : Forall well_behaved ds -> Forall region_ok ds ->
  ann ds O false [] s = A ++ (c, Lit) :: B ->
  c <> 32 -> c <> 45 -> c <> 95 -> c <> 42 -> c <> 35 -> c <> 96 -> c <> 126 -> c <> 10 ->
  escaped_here A \/ exists rb t, strip t = gb B /\ first_skip ds (7 :: rb) c t = None.
Proof.
  intros W V E. intros.
  destruct (ann_lit ds s W A c B E) as (rb & A0 & skip & lit & t & R & H7' & HS & K).
  destruct K as [(_ & -> & _)|[(-> & -> & F)|(HK & ->)]].
  - left. now exists A0.
  - right. eauto.
  - exfalso. pose proof (reach_region ds s W V _ _ _ _ _ R HK) as RG.
    destruct skip as [|k]; [easy|].
    destruct RG as [(c' & reg & rest & Er & L & Hc' & Fr & Hr)|Fr].
    + destruct reg as [|y1 reg]; [discriminate|]. cbn [app] in Er. inversion Er as [[X1 X2]].
      destruct reg as [|y2 reg]; [cbn in L; lia|]. cbn [app] in X2. inversion X2; subst.
      inversion Fr as [|? ? _ Fr']; subst. inversion Fr' as [|? ? Hy _]; subst.
      destruct Hc' as [->|[->| ->]]; lia.
    + unfold fence_region in Fr. cbn [firstn] in Fr. inversion Fr as [|? ? _ Fr']; subst.
      inversion Fr'; subst. lia.
Qed.
Lemma bracket_lit ds s A B : Forall well_behaved ds -> Forall region_ok ds -> In is_image_or_link ds ->
  ann ds O false [] s = A ++ (91, Lit) :: B -> bracket_closes (map fst B) = true -> escaped_here A.
Proof.
  intros W V I E Q.
  destruct (never_skipped ds s A 91 B W V E) as [H|(rb & t & HS & F)]; try discriminate; [exact H|].
  apply bracket_closes_gb in Q; [|exact (ann_ins_92_r _ _ _ _ _ E)].
  rewrite <- HS in Q. apply (first_skip_none _ _ _ _ _ F) in I. unfold is_image_or_link in I.
  cbn iota in I. rewrite (bracket_scan_closes _ Q) in I. discriminate.
Qed.
Lemma backslash_lit ds s A B : Forall well_behaved ds -> Forall region_ok ds -> In is_backslash ds ->
  ann ds O false [] s = A ++ (92, Lit) :: B -> escaped_here A.
Proof.
  intros W V I E.
  destruct (never_skipped ds s A 92 B W V E) as [H|(rb & t & HS & F)]; try discriminate; [exact H|].
  apply (first_skip_none _ _ _ _ _ F) in I. discriminate.
Qed.

(** Reading the backslash escapes back *)
Lemma read_escapes_gb D :
  (forall A B, D = A ++ (92, Lit) :: B -> escaped_here A) ->
  (forall A B, D <> A ++ (92, Raw) :: B) ->
  (forall A c B, D = A ++ (c, Ins) :: B -> c = 92 /\ exists d B', B = (d, Lit) :: B' /\ ascii_punct d = true) ->
  read_escapes (map fst D) = gb D.
Proof.
  assert (G : forall n D, (List.length D <= n)%nat ->
    (forall A B, D = A ++ (92, Lit) :: B -> escaped_here A) ->
    (forall A B, D <> A ++ (92, Raw) :: B) ->
    (forall A c B, D = A ++ (c, Ins) :: B -> c = 92 /\ exists d B', B = (d, Lit) :: B' /\ ascii_punct d = true) ->
    read_escapes (map fst D) = gb D).
  { induction n as [|n IH]; intros E L H1 H2 H3.
    { destruct E; [easy|cbn in L; lia]. }
    destruct E as [|[c k] E]; [easy|]. rewrite gb_cons.
    assert (T2 : forall A B, E <> A ++ (92, Raw) :: B).
    { intros A B X. apply (H2 ((c, k) :: A) B). cbn. now f_equal. }
    assert (T3 : forall A c B, E = A ++ (c, Ins) :: B -> c = 92 /\ exists d B', B = (d, Lit) :: B' /\ ascii_punct d = true).
    { intros A c' B X. apply (H3 ((c, k) :: A) c' B). cbn. now f_equal. }
    destruct k.
    1,2: assert (T1 : forall A B, E = A ++ (92, Lit) :: B -> escaped_here A) by
      (intros A B X; match goal with |- escaped_here _ => idtac end;
       destruct (H1 (_ :: A) B ltac:(cbn; f_equal; exact X)) as [A0 EA];
       destruct A0 as [|a A0]; cbn in EA; inversion EA; subst; now exists A0).
    - assert (Hc : c <> 92) by (intros ->; now apply (H2 [] E)).
      cbn [map fst read_escapes]. destruct E as [|[d k'] E]; [reflexivity|].
      cbn [map fst]. apply N.eqb_neq in Hc. rewrite Hc. cbn [andb]. f_equal.
      apply (IH ((d, k') :: E)); auto. cbn in *; lia.
    - assert (Hc : c <> 92). { intros ->. destruct (H1 [] E eq_refl) as [A0 X]. destruct A0; discriminate. }
      cbn [map fst read_escapes]. destruct E as [|[d k'] E]; [reflexivity|].
      cbn [map fst]. apply N.eqb_neq in Hc. rewrite Hc. cbn [andb]. f_equal.
      apply (IH ((d, k') :: E)); auto. cbn in *; lia.
    - destruct (H3 [] c E eq_refl) as (-> & d & E' & -> & P).
      cbn [map fst read_escapes]. rewrite P. cbn [N.eqb Pos.eqb andb]. rewrite gb_cons. f_equal.
      apply IH.
      + cbn in *; lia.
      + intros A B X. destruct (H1 ((92, Ins) :: (d, Lit) :: A) B) as [A0 EA]; [cbn; now rewrite X|].
        destruct A0 as [|a [|a' A0]]; cbn in EA; inversion EA; subst; try (destruct A; discriminate).
        now exists A0.
      + intros A B X. apply (T2 ((d, Lit) :: A) B). cbn. now f_equal.
      + intros A c' B X. apply (T3 ((d, Lit) :: A) c' B). cbn. now f_equal. }
  intros. apply (G (List.length D)); auto.
Qed.
