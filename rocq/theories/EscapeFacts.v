(** Proofs about escaping and un-escaping. *)
From Coq Require Import List NArith Bool Lia Arith ZifyBool ZifyNat ZifyN.
From Verif Require Import Bytes TextUtils Escape SpecEscape.
Import ListNotations.
Open Scope N_scope.
Open Scope list_scope.

(** ** Detectors of a converter *)

(** What the proofs need of each registered detector. *)
Definition well_behaved (d : detector) : Prop :=
  forall rb c af n, d rb c af = Some n ->
    (1 <= n)%nat /\ ascii_punct c = true /\
    ((1 < n)%nat -> only_blank_before rb = true /\ ~ In 10 (firstn (pred n) af)).

Lemma first_skip_in ds rb c af n :
  first_skip ds rb c af = Some n -> exists d, In d ds /\ d rb c af = Some n.
Proof.
  induction ds as [|d ds IH]; simpl; intros H; [discriminate|].
  destruct (d rb c af) eqn:E; [inversion H; subst; eauto|].
  destruct (IH H) as [d' [? ?]]; eauto.
Qed.
Lemma first_skip_some ds d rb c af n :
  In d ds -> d rb c af = Some n -> exists m, first_skip ds rb c af = Some m.
Proof.
  induction ds as [|e ds IH]; simpl; intros H E; [easy|].
  destruct (e rb c af) eqn:F; [eauto|].
  destruct H as [->|H]; [congruence|eauto].
Qed.
Lemma first_skip_wb ds rb c af n :
  Forall well_behaved ds -> first_skip ds rb c af = Some n ->
    (1 <= n)%nat /\ ascii_punct c = true /\
    ((1 < n)%nat -> only_blank_before rb = true /\ ~ In 10 (firstn (pred n) af)).
Proof.
  intros W H. apply first_skip_in in H as [d [I E]].
  rewrite Forall_forall in W. exact (W d I _ _ _ _ E).
Qed.

(** ** The annotated un-escaping *)
Fixpoint ann (ds : list detector) (skip : nat) (lit : bool) (rb s : bytes) : list kbyte :=
  match s with
  | [] => []
  | c :: t =>
      if c =? marker_esc then
        match skip with
        | S k => ann ds k true (c :: rb) t
        | O =>
            match t with
            | [] => []
            | d :: t' =>
                match first_skip ds (c :: rb) d t' with
                | None => ann ds O true (c :: rb) t
                | Some n => (92, Ins) :: ann ds (pred n) true (c :: rb) t
                end
            end
        end
      else (c, if lit then Lit else Raw) :: ann ds (pred skip) false (c :: rb) t
  end.

Lemma ann_fst ds s : forall skip lit rb,
  map fst (ann ds skip lit rb s) = unescape_from ds skip rb s.
Proof.
  induction s as [|c t IH]; intros; cbn [ann unescape_from]; [easy|].
  destruct (c =? marker_esc).
  - destruct skip; [|apply IH].
    destruct t as [|d t']; [easy|].
    destruct (first_skip ds (c :: rb) d t'); cbn [map fst]; now rewrite IH.
  - cbn [map fst]. now rewrite IH.
Qed.

Lemma ascii_punct_neq c : ascii_punct c = true -> c <> 7 /\ c <> 32 /\ c <> 10 /\ c <> 9 /\ c <> 0 /\ c <> 13.
Proof. unfold ascii_punct, in_range. lia. Qed.

(** One unfolding step for a marker with its character, in any state. *)
Lemma ann_marker ds skip lit rb c t : Forall well_behaved ds -> c <> 7 ->
  exists skip' (ins : bool),
    ann ds skip lit rb (7 :: c :: t)
      = (if ins then [(92, Ins)] else []) ++ (c, Lit) :: ann ds skip' false (c :: 7 :: rb) t /\
    (if ins then (skip = O /\ exists n, first_skip ds (7 :: rb) c t = Some n /\ skip' = pred (pred n))
     else ((skip = O /\ first_skip ds (7 :: rb) c t = None /\ skip' = O) \/ (skip <> O /\ skip' = pred (pred skip)))).
Proof.
  intros W Hc. cbn [ann]. change (7 =? marker_esc) with true. cbn iota.
  assert (E : (c =? marker_esc) = false) by (apply N.eqb_neq; exact Hc).
  destruct skip as [|k].
  - destruct (first_skip ds (7 :: rb) c t) as [n|] eqn:F.
    + exists (pred (pred n)), true. rewrite E, ?F. split; [reflexivity|]. split; [reflexivity|]. eauto.
    + exists O, false. rewrite E, ?F. split; [reflexivity|]. left; auto.
  - exists (pred k), false. rewrite E. split; [reflexivity|]. right. auto.
Qed.

Lemma ann_lit_irrel ds skip l1 l2 rb t : ann ds skip l1 rb (7 :: t) = ann ds skip l2 rb (7 :: t).
Proof. reflexivity. Qed.

Lemma ann_seven ds skip lit rb t : Forall well_behaved ds ->
  exists skip', ann ds skip lit rb (7 :: 7 :: t) = ann ds skip' lit (7 :: rb) (7 :: t).
Proof.
  intros W. destruct skip as [|k].
  - exists O. change (ann ds 0 lit rb (7 :: 7 :: t)) with
      (match first_skip ds (7 :: rb) 7 t with
       | None => ann ds 0 true (7 :: rb) (7 :: t)
       | Some n => (92, Ins) :: ann ds (pred n) true (7 :: rb) (7 :: t) end).
    destruct (first_skip ds (7 :: rb) 7 t) eqn:F; [|easy].
    apply first_skip_wb in F as (_ & P & _); [discriminate P|easy].
  - exists k. reflexivity.
Qed.

(** Two-step induction over marked content. *)
Lemma marked_ind (P : bytes -> Prop) :
  P [] -> (forall c t, c <> 7 -> P t -> P (c :: t)) ->
  (forall c t, c <> 7 -> P t -> P (7 :: c :: t)) ->
  P [7] -> (forall t, P (7 :: t) -> P (7 :: 7 :: t)) ->
  forall s, P s.
Proof.
  intros H0 H1 H2 H3 H4.
  assert (A : forall n s, (List.length s <= n)%nat -> P s).
  { induction n as [|n IH]; intros s L.
    - destruct s; [easy|simpl in L; lia].
    - destruct s as [|c t]; [easy|].
      destruct (N.eq_dec c 7) as [->|Hc].
      + destruct t as [|d t']; [easy|].
        destruct (N.eq_dec d 7) as [->|Hd].
        * apply H4, IH. simpl in *; lia.
        * apply H2; [easy|]. apply IH. simpl in *; lia.
      + apply H1; [easy|]. apply IH. simpl in *; lia. }
  intros s. apply (A (List.length s)). lia.
Qed.

Lemma ann_explains ds s : Forall well_behaved ds -> forall skip rb,
  explains s (ann ds skip false rb s).
Proof.
  intros W. induction s as [|c t Hc IH|c t Hc IH| |t IH] using marked_ind; intros skip rb.
  - constructor.
  - cbn [ann]. apply N.eqb_neq in Hc as E. unfold marker_esc. rewrite E. now constructor.
  - destruct (ann_marker ds skip false rb c t W Hc) as (sk & ins & -> & _).
    destruct ins; now constructor.
  - destruct skip; constructor.
  - destruct (ann_seven ds skip false rb t W) as [sk ->]. constructor. apply IH.
Qed.

(** ** Marker-free views *)
Definition strip (s : bytes) : bytes := filter (fun c => negb (c =? 7)) s.
Definition is_ins (x : kbyte) : bool := match snd x with Ins => true | _ => false end.
Definition gb (D : list kbyte) : bytes := map fst (filter (fun x => negb (is_ins x)) D).

Lemma explains_strip s D : explains s D -> strip s = gb D.
Proof.
  induction 1; unfold strip, gb in *; cbn [filter map fst snd is_ins negb]; try reflexivity;
    try (apply N.eqb_neq in H as E); cbn [N.eqb Pos.eqb negb]; rewrite ?E; cbn [negb map fst];
    try congruence.
  exact IHexplains.
Qed.
Lemma gb_cons c k B : gb ((c, k) :: B) = match k with Ins => gb B | _ => c :: gb B end.
Proof. destruct k; reflexivity. Qed.
Lemma gb_app A B : gb (A ++ B) = gb A ++ gb B.
Proof. unfold gb. now rewrite filter_app, map_app. Qed.
Lemma strip_app A B : strip (A ++ B) = strip A ++ strip B.
Proof. unfold strip. now rewrite filter_app. Qed.
Lemma filter_rev {A} (f : A -> bool) l : filter f (rev l) = rev (filter f l).
Proof.
  induction l as [|x l IH]; [easy|]. simpl. rewrite filter_app, IH. simpl.
  destruct (f x); simpl; [easy|apply app_nil_r].
Qed.
Lemma strip_rev s : strip (rev s) = rev (strip s).
Proof. apply filter_rev. Qed.

(** ** States reached while un-escaping: consumed prefix (reversed), output so far, skip, lit, rest *)
Inductive reach (ds : list detector) (s : bytes) : bytes -> list kbyte -> nat -> bool -> bytes -> Prop :=
| reach_start : reach ds s [] [] O false s
| reach_char rb A skip lit c t : c <> 7 -> reach ds s rb A skip lit (c :: t) ->
    reach ds s (c :: rb) (A ++ [(c, if lit then Lit else Raw)]) (pred skip) false t
| reach_skip rb A k lit t : reach ds s rb A (S k) lit (7 :: t) ->
    reach ds s (7 :: rb) A k true t
| reach_none rb A lit d t : reach ds s rb A O lit (7 :: d :: t) -> first_skip ds (7 :: rb) d t = None ->
    reach ds s (7 :: rb) A O true (d :: t)
| reach_some rb A lit d t n : reach ds s rb A O lit (7 :: d :: t) -> first_skip ds (7 :: rb) d t = Some n ->
    reach ds s (7 :: rb) (A ++ [(92, Ins)]) (pred n) true (d :: t).

Lemma reach_out ds s rb A skip lit t :
  reach ds s rb A skip lit t -> ann ds O false [] s = A ++ ann ds skip lit rb t.
Proof.
  induction 1.
  - reflexivity.
  - rewrite IHreach, <- app_assoc. f_equal. cbn [ann]. apply N.eqb_neq in H as E.
    unfold marker_esc. now rewrite E.
  - rewrite IHreach. reflexivity.
  - rewrite IHreach. f_equal. change (ann ds 0 lit rb (7 :: d :: t)) with
      (match first_skip ds (7 :: rb) d t with
       | None => ann ds 0 true (7 :: rb) (d :: t)
       | Some n => (92, Ins) :: ann ds (pred n) true (7 :: rb) (d :: t) end). now rewrite H0.
  - rewrite IHreach, <- app_assoc. f_equal. change (ann ds 0 lit rb (7 :: d :: t)) with
      (match first_skip ds (7 :: rb) d t with
       | None => ann ds 0 true (7 :: rb) (d :: t)
       | Some n => (92, Ins) :: ann ds (pred n) true (7 :: rb) (d :: t) end). now rewrite H0.
Qed.
Lemma reach_in ds s rb A skip lit t : reach ds s rb A skip lit t -> s = rev rb ++ t.
Proof.
  induction 1; simpl; try (rewrite IHreach; simpl; rewrite <- ?app_assoc; reflexivity). reflexivity.
Qed.
Lemma reach_strip ds s rb A skip lit t : reach ds s rb A skip lit t -> strip (rev rb) = gb A.
Proof.
  induction 1; simpl; rewrite ?strip_app, ?gb_app, ?IHreach; cbn.
  - reflexivity.
  - apply N.eqb_neq in H as E. rewrite E. cbn. destruct lit; reflexivity.
  - now rewrite app_nil_r.
  - now rewrite app_nil_r.
  - now rewrite !app_nil_r.
Qed.

(** Every annotated position is reached. *)
Lemma ann_split ds s : Forall well_behaved ds -> forall A c k B,
  ann ds O false [] s = A ++ (c, k) :: B -> k <> Ins ->
  exists rb skip t, reach ds s rb A skip (match k with Lit => true | _ => false end) (c :: t)
                    /\ c <> 7 /\ B = ann ds (pred skip) false (c :: rb) t.
Proof.
  intros W.
  assert (G : forall t rb A0 skip lit, reach ds s rb A0 skip lit t ->
    forall A c k B, ann ds skip lit rb t = A ++ (c, k) :: B -> k <> Ins ->
    exists rb' skip' t', reach ds s rb' (A0 ++ A) skip' (match k with Lit => true | _ => false end) (c :: t')
                    /\ c <> 7 /\ B = ann ds (pred skip') false (c :: rb') t').
  { induction t as [|x t IH]; intros rb A0 skip lit R A c k B E NI.
    { destruct A; discriminate E. }
    destruct (N.eq_dec x 7) as [->|Hx].
    - destruct skip as [|k0].
      + destruct t as [|d t']; [destruct A; discriminate E|].
        change (ann ds 0 lit rb (7 :: d :: t')) with
          (match first_skip ds (7 :: rb) d t' with
           | None => ann ds 0 true (7 :: rb) (d :: t')
           | Some n => (92, Ins) :: ann ds (pred n) true (7 :: rb) (d :: t') end) in E.
        destruct (first_skip ds (7 :: rb) d t') as [n|] eqn:F.
        * destruct A as [|a A]; [inversion E; subst; now elim NI|].
          cbn [app] in E. inversion E as [[E1 E2]]. subst a.
          destruct (IH _ _ _ _ (reach_some _ _ _ _ _ _ _ _ R F) _ _ _ _ E2 NI) as (rb' & sk & t2 & R2 & Q).
          exists rb', sk, t2. rewrite <- app_assoc in R2. auto.
        * exact (IH _ _ _ _ (reach_none _ _ _ _ _ _ _ R F) _ _ _ _ E NI).
      + cbn [ann] in E. change (7 =? marker_esc) with true in E. cbn iota in E.
        exact (IH _ _ _ _ (reach_skip _ _ _ _ _ _ _ R) _ _ _ _ E NI).
    - cbn [ann] in E. apply N.eqb_neq in Hx as E7. unfold marker_esc in E. rewrite E7 in E.
      destruct A as [|a A].
      + inversion E; subst. exists rb, skip, t. rewrite app_nil_r.
        destruct lit; auto.
      + cbn [app] in E. inversion E as [[E1 E2]]. subst a.
        destruct (IH _ _ _ _ (reach_char _ _ _ _ _ _ _ _ Hx R) _ _ _ _ E2 NI) as (rb' & sk & t2 & R2 & Q).
        exists rb', sk, t2. rewrite <- app_assoc in R2. auto. }
  intros A c k B E NI. exact (G s [] [] O false (reach_start ds s) A c k B E NI).
Qed.

(** A protected character: the state at its marker. *)
Lemma ann_lit_full ds s : Forall well_behaved ds -> forall A c B,
  ann ds O false [] s = A ++ (c, Lit) :: B ->
  exists rb A0 skip lit t skip', reach ds s rb A0 skip lit (7 :: c :: t) /\ c <> 7 /\ B = ann ds skip' false (c :: 7 :: rb) t /\
    ((skip = O /\ A = A0 ++ [(92, Ins)] /\ exists n, first_skip ds (7 :: rb) c t = Some n)
     \/ (skip = O /\ A = A0 /\ first_skip ds (7 :: rb) c t = None)
     \/ (skip <> O /\ A = A0 /\ skip' = pred (pred skip))).
Proof.
  intros W A c B E.
  destruct (ann_split ds s W A c Lit B E ltac:(discriminate)) as (rb & skip & t & R & Hc & HB).
  remember (c :: t) as ct. remember true as tr.
  destruct R; try discriminate; subst.
  - exists rb, A, (S k), lit, t, (pred k). repeat split; auto.
  - inversion Heqct; subst. exists rb, A, O, lit, t, O. repeat split; auto.
  - inversion Heqct; subst. exists rb, A, O, lit, t, (pred (pred n)). repeat split; auto. left. eauto.
Qed.
Lemma ann_lit ds s : Forall well_behaved ds -> forall A c B,
  ann ds O false [] s = A ++ (c, Lit) :: B ->
  exists rb A0 skip lit t, reach ds s rb A0 skip lit (7 :: c :: t) /\ c <> 7 /\ strip t = gb B /\
    ((skip = O /\ A = A0 ++ [(92, Ins)] /\ exists n, first_skip ds (7 :: rb) c t = Some n)
     \/ (skip = O /\ A = A0 /\ first_skip ds (7 :: rb) c t = None)
     \/ (skip <> O /\ A = A0)).
Proof.
  intros W A c B E.
  destruct (ann_lit_full ds s W A c B E) as (rb & A0 & skip & lit & t & skip' & R & Hc & -> & H).
  exists rb, A0, skip, lit, t. repeat split; auto.
  - apply explains_strip, ann_explains, W.
  - tauto.
Qed.

(** ** Line structure *)
Lemma only_blank_strip s : only_blank_before s = only_blank_before (strip s).
Proof.
  induction s as [|c t IH]; [easy|]. unfold strip in *. cbn [only_blank_before filter].
  destruct (c =? 10) eqn:E10.
  - apply N.eqb_eq in E10; subst c. reflexivity.
  - destruct (c =? 7) eqn:E7; cbn [negb].
    + unfold cNL, marker_esc. rewrite E10, E7. cbn [orb]. exact IH.
    + cbn [only_blank_before]. unfold cNL, marker_esc, cSP. rewrite E10, E7. cbn [orb].
      destruct (c =? 32); [exact IH|reflexivity].
Qed.

Lemma only_blank_spaces S r : Forall (fun c => c = 32) S -> only_blank_before (S ++ r) = only_blank_before r.
Proof. induction 1; [easy|]. subst. simpl. exact IHForall. Qed.

Definition kNL (x : kbyte) : bool := fst x =? 10.
Definition kSP (x : kbyte) : bool := fst x =? 32.

Lemma gb_spaces S : Forall (fun x : kbyte => fst x = 32) S -> (forall x, In x S -> snd x = Ins -> fst x = 92) ->
  gb S = map fst S.
Proof.
  intros F H. induction F as [|[c k] S Hc F IH]; [easy|].
  rewrite gb_cons. destruct k; cbn [map fst].
  - f_equal. apply IH. intros y Hy. apply H. now right.
  - f_equal. apply IH. intros y Hy. apply H. now right.
  - cbn in Hc. specialize (H (c, Ins) (or_introl eq_refl) eq_refl). cbn in H. congruence.
Qed.

Lemma reach_ins_92 ds s rb A skip lit t : reach ds s rb A skip lit t -> forall x, In x A -> snd x = Ins -> fst x = 92.
Proof.
  induction 1; intros x I K; auto.
  - easy.
  - apply in_app_iff in I as [I|[<-|[]]]; auto. destruct lit; discriminate.
  - apply in_app_iff in I as [I|[<-|[]]]; auto.
Qed.

Lemma starts_line_blank ds s rb A skip lit t :
  reach ds s rb A skip lit t -> starts_line A -> only_blank_before rb = true.
Proof.
  intros R (A1 & S & -> & FS & HA).
  rewrite only_blank_strip. pose proof (reach_strip _ _ _ _ _ _ _ R) as E.
  rewrite strip_rev in E. apply (f_equal (@rev _)) in E. rewrite rev_involutive in E.
  rewrite E, gb_app, rev_app_distr.
  rewrite (gb_spaces S FS).
  2:{ intros x I. apply (reach_ins_92 _ _ _ _ _ _ _ R). apply in_app_iff; now right. }
  rewrite only_blank_spaces.
  2:{ apply Forall_rev. now apply Forall_map. }
  destruct HA as [->|(A2 & k & ->)]; [easy|].
  rewrite gb_app, rev_app_distr.
  destruct k; try reflexivity.
  assert (10 = 92) by (apply (reach_ins_92 _ _ _ _ _ _ _ R (10, Ins));
     [apply in_app_iff; left; apply in_app_iff; right; now left|easy]).
  discriminate.
Qed.

(** While positions are being jumped over, the current line already holds an inserted backslash. *)
Definition line_ins (A : list kbyte) : Prop :=
  exists A1 L, A = A1 ++ (92, Ins) :: L /\ Forall (fun x => fst x <> 10) L.

Lemma line_ins_not_gen A A1 S : line_ins A -> A = A1 ++ S -> Forall (fun x => fst x <> 92) S ->
  (A1 = [] \/ exists A2 k, A1 = A2 ++ [(10, k)]) -> False.
Proof.
  intros (B1 & L & -> & FL) E FS HB.
  assert (G : forall S' B', B1 ++ (92, Ins) :: L = B' ++ S' -> Forall (fun x : kbyte => fst x <> 92) S' ->
     exists L', B' = B1 ++ (92, Ins) :: L' /\ Forall (fun x => fst x <> 10) L').
  { clear - FL. induction L as [|x L IH] using rev_ind; intros S' B' E FS.
    - destruct S' as [|y S' _] using rev_ind.
      + rewrite app_nil_r in E. exists []. now subst.
      + rewrite app_assoc in E. apply app_inj_tail in E as [_ <-].
        apply Forall_app in FS as [_ F]. inversion F; subst. now elim H1.
    - destruct S' as [|y S' _] using rev_ind.
      + rewrite app_nil_r in E. exists (L ++ [x]). now subst.
      + rewrite app_assoc in E.
        replace (B1 ++ (92, Ins) :: L ++ [x]) with ((B1 ++ (92, Ins) :: L) ++ [x]) in E
          by (rewrite <- app_assoc; reflexivity).
        apply app_inj_tail in E as [E _].
        apply Forall_app in FS as [FS _]. apply Forall_app in FL as [FL _].
        exact (IH FL S' B' E FS). }
  destruct (G S A1 E FS) as (L' & -> & FL').
  destruct HB as [HB|(B2 & k & HB)]; [destruct B1; discriminate|].
  destruct L' as [|y L' _] using rev_ind.
  - apply app_inj_tail in HB as [_ HB]. discriminate.
  - replace (B1 ++ (92, Ins) :: L' ++ [y]) with ((B1 ++ (92, Ins) :: L') ++ [y]) in HB
      by (rewrite <- app_assoc; reflexivity).
    apply app_inj_tail in HB as [_ ->]. apply Forall_app in FL' as [_ F]. inversion F; subst. now elim H1.
Qed.
Lemma line_ins_not_start A : line_ins A -> starts_line A -> False.
Proof.
  intros L (A1 & S & E & FS & HA). apply (line_ins_not_gen A A1 S L E); [|easy].
  apply Forall_impl with (2 := FS). intros [c k] Hc; cbn in *; subst; easy.
Qed.

Lemma reach_skip_inv ds s : Forall well_behaved ds -> forall rb A skip lit t,
  reach ds s rb A skip lit t -> skip <> O -> line_ins A /\ ~ In 10 (firstn skip t).
Proof.
  intros W. induction 1 as [|rb A skip lit c t Hc R IH|rb A k lit t R IH|rb A lit d t R IH F|rb A lit d t n R IH F]; intros HS.
  - easy.
  - destruct skip as [|[|k]]; try easy.
    destruct (IH ltac:(discriminate)) as [(A1 & L & -> & FL) N].
    split.
    + exists A1, (L ++ [(c, if lit then Lit else Raw)]). split; [now rewrite <- app_assoc|].
      apply Forall_app; split; [easy|]. constructor; [|constructor]. cbn. intros ->. apply N. now left.
    + cbn in N |- *. tauto.
  - destruct k as [|k]; [easy|].
    destruct (IH ltac:(discriminate)) as [LI N]. split; [easy|].
    cbn in N |- *. tauto.
  - easy.
  - apply first_skip_wb in F as (Hn & Hp & Hs); [|easy].
    apply ascii_punct_neq in Hp as (_ & _ & Hp & _).
    split.
    + exists A, []. split; [easy|constructor].
    + destruct n as [|[|n]]; [lia|now elim HS|]. cbn [pred firstn In].
      intros [E|E]; [congruence|].
      destruct Hs as [_ Hs]; [lia|]. apply Hs. cbn [pred].
      destruct t as [|x t]; [now rewrite firstn_nil in E|]. cbn [firstn].
      destruct n as [|n]; [destruct E|]. cbn [firstn] in E. destruct E as [->|E]; [now left|right].
      clear - E. revert t E. induction n as [|n IHn]; intros t E; [destruct E|].
      destruct t as [|y t]; [destruct E|]. cbn in E |- *. destruct E as [E|E]; [now left|right]. now apply IHn.
Qed.

(** The shape of all line theorems: a protected character that is the first one of its line is either escaped or rejected by
    every detector. *)
Lemma line_start_lit ds s A c B : Forall well_behaved ds ->
  ann ds O false [] s = A ++ (c, Lit) :: B -> starts_line A ->
  exists rb t, only_blank_before (7 :: rb) = true /\ strip t = gb B /\ strip (rev rb) = gb A /\
    first_skip ds (7 :: rb) c t = None.
Proof.
  intros W E SL. destruct (ann_lit ds s W A c B E) as (rb & A0 & skip & lit & t & R & Hc & HS & H).
  destruct H as [(_ & HA & _)|[(-> & -> & F)|(HK & ->)]].
  - exfalso. subst A. apply (line_ins_not_start (A0 ++ [(92, Ins)])); [|easy].
    exists A0, []. split; [easy|constructor].
  - exists rb, t. cbn [only_blank_before]. rewrite (starts_line_blank _ _ _ _ _ _ _ R SL).
    repeat split; auto. exact (reach_strip _ _ _ _ _ _ _ R).
  - exfalso. destruct (reach_skip_inv ds s W _ _ _ _ _ R HK) as [LI _].
    exact (line_ins_not_start A0 LI SL).
Qed.

Lemma first_skip_none ds d rb c af : first_skip ds rb c af = None -> In d ds -> d rb c af = None.
Proof.
  intros F I. destruct (d rb c af) eqn:E; [|easy].
  destruct (first_skip_some ds d rb c af _ I E). congruence.
Qed.

(** Block quote *)
Lemma bq_line ds s A x B : Forall well_behaved ds -> In is_block_quote ds ->
  ann ds O false [] s = A ++ x :: B -> starts_line A ->
  block_quote (map fst (x :: B)) = true -> snd x <> Lit.
Proof.
  intros W I E SL Q K. destruct x as [c k]; cbn in *; subst k.
  apply N.eqb_eq in Q; subst c.
  destruct (line_start_lit ds s A 62 B W E SL) as (rb & t & OB & _ & _ & F).
  apply (first_skip_none _ _ _ _ _ F) in I. unfold is_block_quote in I. rewrite OB in I. discriminate.
Qed.

(** Headings *)
Lemma hashes_cons n c t : hashes n (c :: t) =
  if c =? 35 then match n with O => false | S k => hashes k t end else blank_or_end (c :: t).
Proof. destruct n; reflexivity. Qed.
Lemma hashes_gb B : forall n, hashes n (map fst B) = true -> (forall x, In x B -> snd x = Ins -> fst x = 92) ->
  hashes n (gb B) = true.
Proof.
  induction B as [|[c k] B IH]; intros n H HI; [easy|].
  assert (HI' : forall x, In x B -> snd x = Ins -> fst x = 92) by (intros; apply HI; [now right|easy]).
  rewrite gb_cons. cbn [map fst] in H.
  destruct k.
  1,2: rewrite hashes_cons in H |- *; destruct (c =? 35); [destruct n; [exact H|]; now apply IH|exact H].
  specialize (HI (c, Ins) (or_introl eq_refl) eq_refl). cbn in HI. subst c. rewrite hashes_cons in H. discriminate.
Qed.

Lemma atx_scan_hashes t : forall n d, (1 <= n <= 6)%nat -> hashes (6 - n) (strip t) = true ->
  exists m, atx_scan n d t = Some m.
Proof.
  induction t as [|c t IH]; intros n d Hn H; [cbn; eauto|].
  cbn [atx_scan]. unfold strip in H. cbn [filter] in H.
  destruct (N.eq_dec c 7) as [->|H7].
  - cbn in H |- *. apply IH; auto.
  - apply N.eqb_neq in H7 as E7. rewrite E7 in H. cbn [negb] in H. fold (strip t) in H.
    rewrite hashes_cons in H. destruct (c =? 35) eqn:E35.
    + destruct (6 - n)%nat as [|k] eqn:E; [discriminate|].
      destruct (Nat.ltb_spec 6 (S n)); [lia|].
      apply IH; [lia|]. now replace (6 - S n)%nat with k by lia.
    + unfold marker_esc. rewrite E7. cbn [blank_or_end] in H. rewrite H. eauto.
Qed.

Lemma ann_ins_92 ds s : forall skip lit rb x, In x (ann ds skip lit rb s) -> snd x = Ins -> fst x = 92.
Proof.
  induction s as [|c t IH]; intros skip lit rb x; [easy|]. cbn [ann].
  destruct (c =? marker_esc).
  - destruct skip; [|apply IH]. destruct t as [|d t']; [easy|].
    destruct (first_skip ds (c :: rb) d t'); [|apply IH].
    intros [<-|I]; [easy|]. eauto.
  - intros [<-|I] K; [destruct lit; discriminate|]. eauto.
Qed.
Lemma ann_ins_92_r ds s A x B : ann ds O false [] s = A ++ x :: B -> forall y, In y B -> snd y = Ins -> fst y = 92.
Proof.
  intros E y I K. apply (ann_ins_92 ds s O false [] y); [|easy].
  rewrite E. apply in_app_iff. right. now right.
Qed.

Lemma atx_line ds s A x B : Forall well_behaved ds -> In is_atx_header ds ->
  ann ds O false [] s = A ++ x :: B -> starts_line A ->
  atx_heading (map fst (x :: B)) = true -> snd x <> Lit.
Proof.
  intros W I E SL Q K. destruct x as [c k]; cbn [map fst snd] in *; subst k.
  cbn [atx_heading] in Q. apply andb_prop in Q as [Hc Q]. apply N.eqb_eq in Hc. subst c.
  apply hashes_gb in Q; [|exact (ann_ins_92_r _ _ _ _ _ E)].
  destruct (line_start_lit ds s A 35 B W E SL) as (rb & t & OB & HT & _ & F).
  apply (first_skip_none _ _ _ _ _ F) in I. unfold is_atx_header in I. rewrite OB in I.
  rewrite <- HT in Q.
  destruct (atx_scan_hashes t 1 1 ltac:(lia) Q) as [m G].
  change (negb (35 =? 35)) with false in I. cbn iota in I. congruence.
Qed.
