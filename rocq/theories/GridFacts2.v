(** The grid of a table with spans (C57): the rows built by the plugin are those of the HTML table model. *)
From Coq Require Import List NArith ZArith Bool String Arith Lia.
From Verif Require Import Bytes BytesFacts Dom Table SpecTable SpecGrid GridFacts.
Import ListNotations.
Open Scope list_scope.

Section grid.
Context {A : Type}.
Variables own merged : A -> bytes.
Notation cover := (list (option (nat * A))).
Notation show := (show own merged).
Notation weave := (weave merged).
Notation weave_rows := (weave_rows merged).

(** Covers that differ only in free columns at the end *)
Definition eqv (p q : cover) : Prop := forall i, nth i p None = nth i q None.
Lemma eqv_refl p : eqv p p. Proof. intros i. reflexivity. Qed.
Lemma eqv_sym p q : eqv p q -> eqv q p. Proof. intros H i. symmetry. apply H. Qed.
Lemma eqv_trans p q r : eqv p q -> eqv q r -> eqv p r. Proof. intros H K i. now rewrite H. Qed.
Lemma eqv_cons x p y q : eqv (x :: p) (y :: q) <-> x = y /\ eqv p q.
Proof.
  split.
  - intros H. split; [exact (H O)|]. intros i. exact (H (S i)).
  - intros [-> H] [|i]; [reflexivity|apply H].
Qed.
Lemma nth_nil i : nth i (@nil (option (nat * A))) None = None. Proof. now destruct i. Qed.
Lemma eqv_free p : eqv [] p <-> forallb is_free p = true.
Proof.
  split.
  - intros H. apply forallb_forall. intros x I. apply (In_nth _ _ None) in I as (i & _ & E). rewrite <- E, <- H, nth_nil. reflexivity.
  - intros H i. rewrite nth_nil. rewrite forallb_forall in H. destruct (le_lt_dec (List.length p) i) as [L|L]; [now rewrite nth_overflow|].
    specialize (H _ (nth_In _ None L)). now destruct (nth i p None).
Qed.
Lemma eqv_isfree p q : eqv p q -> forallb is_free p = forallb is_free q.
Proof.
  intros H. destruct (forallb is_free p) eqn:E, (forallb is_free q) eqn:F; auto.
  - apply eqv_free in E. assert (K : forallb is_free q = true) by (apply eqv_free; eapply eqv_trans; eauto). congruence.
  - apply eqv_free in F. assert (K : forallb is_free p = true) by (apply eqv_free; eapply eqv_trans; [exact F|now apply eqv_sym]). congruence.
Qed.
Lemma place_free q : forallb is_free q = true -> forall ps, exists n, place_row q ps = Some (map slot_of ps, n) /\ eqv n (map left_over ps).
Proof.
  induction q as [|[c|] q IH]; intros F ps; cbn in F; [|discriminate|].
  - exists (map left_over ps). split; [reflexivity|apply eqv_refl].
  - destruct ps as [|p ps]; cbn [place_row].
    + rewrite F. exists []. split; [reflexivity|apply eqv_refl].
    + destruct (IH F ps) as (n & -> & E). exists (left_over p :: n). split; [reflexivity|]. now apply eqv_cons.
Qed.
Definition same_place (x y : option (list (slot A) * cover)) : Prop :=
  match x, y with Some (r1, n1), Some (r2, n2) => r1 = r2 /\ eqv n1 n2 | None, None => True | _, _ => False end.
Lemma place_eqv p : forall q ps, eqv p q -> same_place (place_row p ps) (place_row q ps).
Proof.
  induction p as [|x p IH]; intros q ps H.
  - apply eqv_free in H. destruct (place_free q H ps) as (n & -> & E). cbn. split; auto. now apply eqv_sym.
  - destruct q as [|y q].
    + assert (F : forallb is_free (x :: p) = true) by (apply eqv_free; now apply eqv_sym). destruct (place_free _ F ps) as (n & -> & E). cbn. auto.
    + apply eqv_cons in H as [-> H]. destruct y as [c|]; cbn [place_row].
      * assert (K : forall s k, same_place (option_map (fun '(row, next) => (s :: row, k :: next)) (place_row p ps))
                                 (option_map (fun '(row, next) => (s :: row, k :: next)) (place_row q ps))).
        { intros s k. pose proof (IH q ps H) as E. destruct (place_row p ps) as [(r1 & n1)|], (place_row q ps) as [(r2 & n2)|]; cbn in *; auto.
          destruct E as [-> E]. split; auto. now apply eqv_cons. }
        destruct ps as [|((j & a) & r) ps]; [apply K|]. destruct j; [exact I|apply K].
      * destruct ps as [|z ps].
        -- rewrite (eqv_isfree p q H). destruct (forallb is_free q); [cbn; auto using eqv_refl|].
           pose proof (IH q [] H) as E. destruct (place_row p []) as [(r1 & n1)|], (place_row q []) as [(r2 & n2)|]; cbn in *; auto.
           destruct E as [-> E]. split; auto. now apply eqv_cons.
        -- pose proof (IH q ps H) as E. destruct (place_row p ps) as [(r1 & n1)|], (place_row q ps) as [(r2 & n2)|]; cbn in *; auto.
           destruct E as [-> E]. split; auto. now apply eqv_cons.
Qed.
Lemma html_eqv rows : forall p q, eqv p q -> html_grid p rows = html_grid q rows.
Proof.
  induction rows as [|r rs IH]; intros p q H; [reflexivity|]. cbn [html_grid]. pose proof (place_eqv p q (flat_map pieces r) H) as E.
  destruct (place_row p _) as [(r1 & n1)|], (place_row q _) as [(r2 & n2)|]; cbn in E; try tauto; auto.
  destruct E as [-> E]. now rewrite (IH _ _ E).
Qed.

(** [Q] with the covered columns of [P] inserted *)
Fixpoint merge (P Q : cover) : cover :=
  match P with
  | [] => Q
  | Some c :: p => Some c :: merge p Q
  | None :: p => match Q with q :: Q => q :: merge p Q | [] => None :: merge p [] end
  end.
Fixpoint merge_less (P Q : cover) : cover :=
  match P with
  | [] => Q
  | Some c :: p => one_less c :: merge_less p Q
  | None :: p => match Q with q :: Q => q :: merge_less p Q | [] => None :: merge_less p [] end
  end.
Lemma merge_nil P : merge P [] = P.
Proof. induction P as [|[c|] P IH]; cbn; congruence. Qed.
Lemma merge_isfree P : forall Q, forallb is_free (merge P Q) = forallb is_free P && forallb is_free Q.
Proof.
  induction P as [|[c|] P IH]; intros Q; cbn [merge forallb is_free andb]; auto. destruct Q as [|q Q]; cbn [forallb].
  - rewrite IH. reflexivity.
  - rewrite IH. destruct (is_free q), (forallb is_free P); reflexivity.
Qed.
Lemma merge_less_eqv P : forall Q Q', eqv Q Q' -> eqv (merge_less P Q) (merge_less P Q').
Proof.
  induction P as [|[c|] P IH]; intros Q Q' H; cbn [merge_less]; auto.
  - apply eqv_cons. auto.
  - destruct Q as [|q Q], Q' as [|q' Q'].
    + apply eqv_refl.
    + apply eqv_free in H. cbn in H. destruct q'; [discriminate|]. apply eqv_cons. split; auto. apply IH. now apply eqv_free.
    + apply eqv_sym, eqv_free in H. cbn in H. destruct q; [discriminate|]. apply eqv_cons. split; auto. apply IH. apply eqv_sym. now apply eqv_free.
    + apply eqv_cons in H as [-> H]. apply eqv_cons. auto.
Qed.
Lemma merge_less_free P : forallb is_free P = true -> eqv [] (merge_less P []).
Proof.
  intros F. apply eqv_free. induction P as [|[c|] P IH]; cbn in *; auto. discriminate.
Qed.
Lemma place_merge P : forall Q ps row n, place_row (merge P Q) ps = Some (row, n) ->
  exists row' Q', place_row Q ps = Some (row', Q') /\ map show row = weave P (map show row') /\ eqv n (merge_less P Q').
Proof.
  induction P as [|[c|] P IH]; intros Q ps row n H; cbn [merge] in H.
  - exists row, n. split; auto. split; [reflexivity|apply eqv_refl].
  - cbn [place_row] in H.
    assert (K : exists row2 n2, place_row (merge P Q) ps = Some (row2, n2) /\ row = Merged (snd c) :: row2 /\ n = one_less c :: n2).
    { destruct ps as [|((j & a) & r) ps].
      - destruct (place_row (merge P Q) []) as [(row2 & n2)|]; [|discriminate]. cbn in H. injection H as <- <-. eauto.
      - destruct j; [discriminate|]. destruct (place_row (merge P Q) _) as [(row2 & n2)|]; [|discriminate]. cbn in H. injection H as <- <-. eauto. }
    destruct K as (row2 & n2 & E & -> & ->). destruct (IH _ _ _ _ E) as (row' & Q' & E1 & E2 & E3). exists row', Q'. split; auto. cbn [map weave show merge_less].
    split; [now rewrite E2|]. now apply eqv_cons.
  - destruct Q as [|q Q].
    + cbn [place_row] in H. destruct ps as [|p ps].
      * rewrite merge_nil in H. destruct (forallb is_free P) eqn:F.
        -- injection H as <- <-. exists [], []. split; [reflexivity|]. cbn [map weave]. rewrite F. split; [reflexivity|]. cbn [merge_less].
           apply eqv_free. cbn [forallb is_free andb]. apply eqv_free. now apply merge_less_free.
        -- destruct (place_row P []) as [(row2 & n2)|] eqn:E; [|discriminate]. cbn in H. injection H as <- <-.
           rewrite <- (merge_nil P) in E. destruct (IH _ _ _ _ E) as (row' & Q' & E1 & E2 & E3). cbn in E1. injection E1 as <- <-.
           exists [], []. split; [reflexivity|]. cbn [map weave show]. rewrite F, E2. split; [reflexivity|]. cbn [merge_less]. now apply eqv_cons.
      * destruct (place_row (merge P []) ps) as [(row2 & n2)|] eqn:E; [|discriminate]. cbn in H. injection H as <- <-.
        destruct (IH _ _ _ _ E) as (row' & Q' & E1 & E2 & E3). cbn in E1. injection E1 as <- <-.
        eexists. eexists. split; [reflexivity|]. cbn [map weave]. rewrite E2. split; [reflexivity|]. cbn [merge_less]. now apply eqv_cons.
    + destruct q as [c|]; cbn [place_row] in H.
      * assert (K : exists row2 n2, place_row (merge P Q) ps = Some (row2, n2) /\ row = Merged (snd c) :: row2 /\ n = one_less c :: n2
                     /\ forall row' Q', place_row Q ps = Some (row', Q') -> place_row (Some c :: Q) ps = Some (Merged (snd c) :: row', one_less c :: Q')).
        { destruct ps as [|((j & a) & r) ps].
          - destruct (place_row (merge P Q) []) as [(row2 & n2)|]; [|discriminate]. cbn in H. injection H as <- <-. do 2 eexists. repeat split; auto.
            intros row' Q' E. cbn [place_row]. now rewrite E.
          - destruct j; [discriminate|]. destruct (place_row (merge P Q) _) as [(row2 & n2)|]; [|discriminate]. cbn in H. injection H as <- <-. do 2 eexists.
            repeat split; auto. intros row' Q' E. cbn [place_row]. now rewrite E. }
        destruct K as (row2 & n2 & E & -> & -> & K). destruct (IH _ _ _ _ E) as (row' & Q' & E1 & E2 & E3).
        eexists. eexists. split; [apply K; exact E1|]. cbn [map weave merge_less]. rewrite E2. split; [reflexivity|]. now apply eqv_cons.
      * destruct ps as [|p ps].
        -- rewrite merge_isfree in H. destruct (forallb is_free P) eqn:F; cbn [andb] in H.
           ++ destruct (forallb is_free Q) eqn:G.
              ** injection H as <- <-. exists [], []. split; [cbn [place_row]; now rewrite G|]. cbn [map weave]. rewrite F. split; [reflexivity|].
                 cbn [merge_less]. apply eqv_free. cbn [forallb is_free andb]. apply eqv_free. now apply merge_less_free.
              ** destruct (place_row (merge P Q) []) as [(row2 & n2)|] eqn:E; [|discriminate]. cbn in H. injection H as <- <-.
                 destruct (IH _ _ _ _ E) as (row' & Q' & E1 & E2 & E3). eexists. eexists. split; [cbn [place_row]; rewrite G, E1; reflexivity|].
                 cbn [map weave merge_less show]. rewrite E2. split; [reflexivity|]. now apply eqv_cons.
           ++ destruct (place_row (merge P Q) []) as [(row2 & n2)|] eqn:E; [|discriminate]. cbn in H. injection H as <- <-.
              destruct (IH _ _ _ _ E) as (row' & Q' & E1 & E2 & E3). destruct (forallb is_free Q) eqn:G.
              ** destruct (place_free Q G []) as (n' & E4 & E5). rewrite E4 in E1. injection E1 as <- <-.
                 exists [], []. split; [cbn [place_row]; now rewrite G|]. cbn [map weave show]. rewrite F, E2. split; [reflexivity|]. cbn [merge_less].
                 apply eqv_cons. split; auto. eapply eqv_trans; [exact E3|]. now apply merge_less_eqv.
              ** eexists. eexists. split; [cbn [place_row]; rewrite G, E1; reflexivity|]. cbn [map weave merge_less show]. rewrite E2. split; [reflexivity|]. now apply eqv_cons.
        -- destruct (place_row (merge P Q) ps) as [(row2 & n2)|] eqn:E; [|discriminate]. cbn in H. injection H as <- <-.
           destruct (IH _ _ _ _ E) as (row' & Q' & E1 & E2 & E3). eexists. eexists. split; [cbn [place_row]; rewrite E1; reflexivity|].
           cbn [map weave merge_less]. rewrite E2. split; [reflexivity|]. now apply eqv_cons.
Qed.
Lemma merge_less_eq P : (forall c, In (Some c) P -> one_less c <> None) -> forall Q, merge_less P Q = merge (map less P) Q.
Proof.
  induction P as [|[c|] P IH]; intros H Q; cbn [merge_less merge map less]; auto.
  - destruct (one_less c) eqn:E; [|elim (H c); auto; now left]. f_equal. apply IH. intros d I. apply H. now right.
  - assert (K : forall c, In (Some c) P -> one_less c <> None) by (intros d I; apply H; now right). destruct Q; now rewrite IH.
Qed.
Lemma merge_less_expired P : forall Q1 Q2, forallb is_free Q1 = true -> forallb is_free Q2 = true -> eqv (merge_less P Q1) (merge (map less P) Q2).
Proof.
  induction P as [|[c|] P IH]; intros Q1 Q2 F1 F2; cbn [merge_less merge map less].
  - eapply eqv_trans; [apply eqv_sym, eqv_free, F1|now apply eqv_free].
  - destruct (one_less c) eqn:E; [apply eqv_cons; auto|]. destruct Q2 as [|q Q2]; [apply eqv_cons; auto|]. cbn in F2. destruct q; [discriminate|]. apply eqv_cons; auto.
  - destruct Q1 as [|q1 Q1]; [|cbn in F1; destruct q1; [discriminate|]]; (destruct Q2 as [|q2 Q2]; [|cbn in F2; destruct q2; [discriminate|]]); apply eqv_cons; auto.
Qed.
(** Where the columns covered after a row come from *)
Lemma place_next (Q : cover) : forall (ps : list (bool * A * nat)) row n k a, place_row Q ps = Some (row, n) -> In (Some (k, a)) n ->
  In (Some (S k, a)) Q \/ exists j, In (j, a, S (S k)) ps.
Proof.
  assert (L : forall (ps : list (bool * A * nat)) k a, In (Some (k, a)) (map left_over ps) -> exists j, In (j, a, S (S k)) ps).
  { intros ps k a I. apply in_map_iff in I as (((j & a') & r) & E & I). destruct r as [|[|r]]; cbn in E; try discriminate. injection E as -> ->. eauto. }
  induction Q as [|[c|] Q IH]; intros ps row n k a H I; cbn [place_row] in H.
  - injection H as <- <-. right. auto.
  - assert (K : exists row2 n2, place_row Q ps = Some (row2, n2) /\ n = one_less c :: n2).
    { destruct ps as [|((j & a') & r) ps].
      - destruct (place_row Q []) as [(row2 & n2)|]; [|discriminate]. cbn in H. injection H as <- <-. eauto.
      - destruct j; [discriminate|]. destruct (place_row Q _) as [(row2 & n2)|]; [|discriminate]. cbn in H. injection H as <- <-. eauto. }
    destruct K as (row2 & n2 & E & ->). destruct I as [I|I].
    + left. left. destruct c as [[|m] a']; cbn in I; [discriminate|]. now injection I as -> ->.
    + destruct (IH _ _ _ _ _ E I); auto. left. now right.
  - destruct ps as [|p ps].
    + destruct (forallb is_free Q).
      * injection H as <- <-. destruct I.
      * destruct (place_row Q []) as [(row2 & n2)|] eqn:E; [|discriminate]. cbn in H. injection H as <- <-. destruct I as [I|I]; [discriminate|].
        destruct (IH _ _ _ _ _ E I); auto. left. now right.
    + destruct (place_row Q ps) as [(row2 & n2)|] eqn:E; [|discriminate]. cbn in H. injection H as <- <-. destruct I as [I|I].
      * right. destruct (L [p] k a) as (j & J); [left; exact I|]. destruct J as [->|[]]. exists j. now left.
      * destruct (IH _ _ _ _ _ E I) as [J|(j & J)]; [left; now right|right; exists j; now right].
Qed.
Lemma pieces_in j (a : A) r row : In (j, a, r) (flat_map pieces row) -> exists k, In (a, r, k) row.
Proof.
  intros I. apply in_flat_map in I as (((a' & r') & k) & I & J). cbn [pieces] in J. exists k. destruct J as [J|J]; [|apply repeat_spec in J]; injection J; intros; subst; exact I.
Qed.

(** Every covered column of [P] goes on at least as long as those of [Q] and the cells beside it. *)
Definition outside (P Q : cover) (rs : list (list (@gcell A))) : Prop :=
  forall k a, In (Some (k, a)) P ->
  (forall j a', In (Some (j, a')) Q -> (j <= k)%nat) /\
  (forall i row, nth_error rs i = Some row -> (i <= k)%nat -> forall a2 r2 k2, In (a2, r2, k2) row -> (i + r2 <= S k)%nat).
Lemma html_merge rs : forall P Q G, outside P Q rs -> html_grid (merge P Q) rs = Some G ->
  exists G', html_grid Q rs = Some G' /\ map (map show) G = weave_rows P (map (map show) G').
Proof.
  induction rs as [|r rs IH]; intros P Q G Out H; cbn [html_grid] in *.
  - injection H as <-. exists []. split; reflexivity.
  - destruct (place_row (merge P Q) _) as [(row & n)|] eqn:E; [|discriminate]. destruct (html_grid n rs) as [G2|] eqn:E2; [|discriminate]. cbn in H. injection H as <-.
    destruct (place_merge _ _ _ _ _ E) as (row' & Q' & E3 & E4 & E5). rewrite E3.
    assert (B : forall k a j a', In (Some (k, a)) P -> In (Some (j, a')) Q' -> (S j <= k)%nat).
    { intros k a j a' I J. destruct (Out k a I) as [O1 O2]. destruct (place_next _ _ _ _ _ _ E3 J) as [J1|(f & J1)]; [now apply O1 in J1|].
      apply pieces_in in J1 as (k2 & J1). specialize (O2 O r eq_refl (Nat.le_0_l k) _ _ _ J1). lia. }
    assert (V : eqv (merge_less P Q') (merge (map less P) Q')).
    { destruct (forallb is_free Q') eqn:F; [now apply merge_less_expired|]. rewrite merge_less_eq; [apply eqv_refl|].
      intros (k & a) I. assert (J : exists j a', In (Some (j, a')) Q').
      { clear -F. induction Q' as [|[(j & a')|] Q' IH]; cbn in F; [discriminate| |]; [exists j, a'; now left|]. destruct (IH F) as (j & a' & J). exists j, a'. now right. }
      destruct J as (j & a' & J). specialize (B _ _ _ _ I J). destruct k; [lia|discriminate]. }
    rewrite (html_eqv rs n (merge (map less P) Q')) in E2 by (eapply eqv_trans; eauto).
    destruct (IH (map less P) Q' G2) as (G' & E6 & E7).
    + intros k a I. apply in_map_iff in I as ([(k0 & a0)|] & E8 & I); [|discriminate]. cbn in E8. destruct k0 as [|k0]; [discriminate|]. cbn in E8. injection E8 as -> ->.
      split.
      * intros j a' J. specialize (B _ _ _ _ I J). lia.
      * intros i row2 E9 L a2 r2 k2 J. destruct (Out _ _ I) as [_ O2]. specialize (O2 (S i) row2 E9 ltac:(lia) _ _ _ J). lia.
    + exact E2.
    + rewrite E6. exists (row' :: G'). split; [reflexivity|]. cbn [map weave_rows]. now rewrite E4, E7.
Qed.
Lemma html_length (rs : list (list (@gcell A))) : forall Q G, html_grid Q rs = Some G -> List.length G = List.length rs.
Proof.
  induction rs as [|r rs IH]; intros Q G H; cbn [html_grid] in H; [now injection H as <-|].
  destruct (place_row Q _) as [(row & n)|]; [|discriminate]. destruct (html_grid n rs) as [G2|] eqn:E; [|discriminate]. cbn in H. injection H as <-. cbn. f_equal. eauto.
Qed.

Definition spans_positive (row : list (@gcell A)) : Prop := Forall (fun c : gcell => let '(_, r, k) := c in (1 <= r)%nat /\ (1 <= k)%nat) row.
Theorem built_grid (rows : list (list (@gcell A))) : Forall spans_positive rows -> Forall one_wide rows -> in_range rows -> nested rows ->
  forall G, html_grid [] rows = Some G -> built own merged rows = map (map show) G.
Proof.
  induction rows as [|r rs IH]; intros Sp W R N G H; cbn [html_grid] in H.
  - injection H as <-. reflexivity.
  - inversion Sp as [|? ? S1 S2]; subst. inversion W as [|? ? W1 W2]; subst. cbn [place_row] in H.
    destruct (html_grid (map left_over (flat_map pieces r)) rs) as [G1|] eqn:E; [|discriminate]. cbn in H. injection H as <-.
    rewrite <- (merge_nil (map left_over _)) in E. apply html_merge in E as (G' & E1 & E2).
    + assert (B : built own merged rs = map (map show) G').
      { apply IH; auto.
        - intros y row a r0 k E I. specialize (R (S y) row a r0 k E I). cbn in R. lia.
        - intros y1 y2 row1 row2 a1 r1 k1 a2 r2 k2 L F1 F2 I1 I2 C. specialize (N (S y1) (S y2) row1 row2 a1 r1 k1 a2 r2 k2). cbn in N. specialize (N ltac:(lia) F1 F2 I1 I2 ltac:(lia)). lia. }
      cbn [built]. rewrite B. rewrite row_step.
      * cbn [map]. rewrite E2. unfold covers, expanded. now rewrite map_map.
      * eapply Forall_impl; [|exact S1]. intros ((a & r0) & k) [_ K]. exact K.
      * exact W1.
      * apply Forall_forall. intros ((a & r0) & k) I. pose proof (proj1 (Forall_forall _ _) S1 _ I) as S3. cbn in S3. cbn.
        rewrite map_length, (html_length _ _ _ E1). specialize (R O r a r0 k eq_refl I). cbn in R. lia.
    + intros k a I. split; [intros j a' []|]. intros i row E3 L a2 r2 k2 J. apply in_map_iff in I as (((j & a') & r0) & E4 & I). cbn in E4.
      destruct r0 as [|[|r0]]; try discriminate. injection E4 as -> ->. apply pieces_in in I as (k1 & I).
      specialize (N O (S i) r row a _ k1 a2 r2 k2 ltac:(lia) eq_refl E3 I J ltac:(lia)). lia.
Qed.
End grid.
