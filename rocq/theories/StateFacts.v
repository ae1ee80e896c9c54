(** Proofs about State.v *)
From Coq Require Import List NArith ZArith Bool Arith Sorting.Permutation Sorting.Sorted Lia.
From Verif Require Import Bytes BytesFacts Dom Engine SpecEngine EngineFacts State.
Import ListNotations.
Open Scope N_scope.
Open Scope list_scope.

Lemma map_get_set : forall k v k' m, map_get k' (map_set k v m) = if beqb k k' then v else map_get k' m.
Proof.
  induction m as [|[k0 v0] m IH]; simpl. reflexivity.
  destruct (beqb k0 k) eqn:E; simpl.
  - apply beqb_eq in E. subst. destruct (beqb k k'); reflexivity.
  - rewrite IH. destruct (beqb k0 k') eqn:E2; auto. apply beqb_eq in E2. subst.
    destruct (beqb k k') eqn:E3; auto. apply beqb_eq in E3. subst. now rewrite beqb_refl in E.
Qed.
Lemma nth_update : forall A (d : A) f j i l, nth i (update_nth d j f l) d = if Nat.eqb j i then f (nth i l d) else nth i l d.
Proof.
  induction j as [|j IH]; intros [|i] [|x l]; simpl; auto.
  - destruct i; reflexivity.
  - rewrite IH. destruct (Nat.eqb j i); destruct i; reflexivity.
Qed.
Lemma state_isolated : forall id k ops,
  map_get k (nth id (run_ops ops []) []) = value_after k (rev (ops_of id ops)).
Proof.
  intros id k ops. induction ops as [|o ops IH] using rev_ind. { now destruct id. }
  assert (E : run_ops (ops ++ [o]) [] = update_nth [] (fst o) (state_step (snd o)) (run_ops ops [])).
  { unfold run_ops. now rewrite fold_left_app. }
  rewrite E, (nth_update gstate). clear E.
  unfold ops_of. rewrite filter_app, map_app, rev_app_distr. simpl.
  destruct (Nat.eqb (fst o) id) eqn:E; simpl; auto.
  fold (ops_of id ops).
  remember (nth id (run_ops ops []) []) as m. remember (rev (ops_of id ops)) as l. clear - IH.
  destruct (snd o) as [ty k' v | ty k' f]; simpl; rewrite map_get_set; destruct (beqb k' k) eqn:B; auto.
  apply beqb_eq in B. subst. now rewrite IH.
Qed.
Lemma get_state_isolated : forall id ty k ops,
  get_state ty k (nth id (run_ops ops []) [])
  = match value_after k (rev (ops_of id ops)) with Some (t, x) => if t =? ty then x else [] | None => [] end.
Proof. intros. unfold get_state, as_type. now rewrite state_isolated. Qed.

(** Insertion sort on a sorted list *)
Lemma insert_prio_last : forall A (x : Z * A) l, (forall y, In y l -> (fst y <= fst x)%Z) -> insert_prio x l = l ++ [x].
Proof.
  induction l as [|y l IH]; intros H; simpl; auto.
  destruct (fst x <? fst y)%Z eqn:E. apply Z.ltb_lt in E. specialize (H y (or_introl eq_refl)). lia.
  rewrite IH; auto. intros. apply H. now right.
Qed.
Lemma stable_sorted : forall A (l : list (Z * A)), by_priority l -> stable_sort A l = l.
Proof.
  intros A l S. unfold stable_sort. apply Sorted_StronglySorted in S. 2:{ intros x y z; lia. }
  assert (K : forall l acc, StronglySorted (fun x y : Z * A => (fst x <= fst y)%Z) (acc ++ l) ->
     fold_left (fun acc x => insert_prio x acc) l acc = acc ++ l).
  { clear. induction l as [|x l IH]; intros acc S; simpl. now rewrite app_nil_r.
    rewrite insert_prio_last. rewrite IH. now rewrite <- app_assoc. now rewrite <- app_assoc.
    intros y I. clear IH. induction acc as [|z acc IH]; simpl in *. destruct I.
    inversion S; subst. destruct I as [-> | I]; auto. rewrite Forall_forall in H2. apply H2. apply in_app_iff. right; now left. }
  rewrite (K l []); auto.
Qed.
Lemma stable_idem : forall A (l : list (Z * A)), stable_sort A (stable_sort A l) = stable_sort A l.
Proof. intros. apply stable_sorted. apply stable_sort_sorts. Qed.

Section lookups.
Variable sort : forall A : Type, list (Z * A) -> list (Z * A).
Lemma table_get_sort : forall n m t, table_get m (table_sort sort n t)
  = if beqb n m then match table_get m t with [] => table_get m (table_sort sort n t) | l => sort _ l end else table_get m t.
Proof.
  induction t as [|[k v] t IH]; simpl. now destruct (beqb n m).
  destruct (beqb k n) eqn:E; simpl.
  - apply beqb_eq in E. subst. destruct (beqb n m); auto. destruct v; auto.
  - destruct (beqb k m) eqn:E2; auto. apply beqb_eq in E2. subst.
    destruct (beqb n m) eqn:E3; auto. apply beqb_eq in E3. subst. now rewrite beqb_refl in E.
Qed.
Lemma table_get_lookup : forall n m t, table_get m (snd (lookup sort n t))
  = if beqb n m then match table_get m t with [] => [] | l => sort _ l end else table_get m t.
Proof.
  intros. unfold lookup. destruct (table_get n t) eqn:E.
  - simpl. destruct (beqb n m) eqn:B; auto. apply beqb_eq in B. subst. now rewrite E.
  - cbn [snd]. rewrite table_get_sort. destruct (beqb n m) eqn:B; auto. apply beqb_eq in B. subst. now rewrite E.
Qed.
Hypothesis Hsort : sorts sort.
Lemma lookup_keeps : forall n m t, Permutation (table_get m (snd (lookup sort n t))) (table_get m t).
Proof.
  intros. rewrite table_get_lookup. destruct (beqb n m); auto.
  destruct (table_get m t); auto. apply Hsort.
Qed.
Lemma lookups_keep : forall ns m t, Permutation (table_get m (lookups sort ns t)) (table_get m t).
Proof.
  unfold lookups. induction ns as [|n ns IH]; intros; simpl; auto. eapply perm_trans. apply IH. apply lookup_keeps.
Qed.
Lemma lookup_answer : forall n t c, (forall m, table_get m t = types_for m (cv_tags c)) -> fst (lookup sort n t) = get_tag_type sort c n.
Proof.
  intros n t c H. unfold lookup, get_tag_type, in_order. rewrite <- H.
  destruct (table_get n t) as [|x l] eqn:E.
  - destruct (Hsort _ (@nil (Z * tag_type))) as [P _]. apply Permutation_sym, Permutation_nil in P. rewrite P. reflexivity.
  - cbn [fst]. rewrite table_get_sort, beqb_refl, E.
    destruct (sort tag_type (x :: l)) eqn:Es; [|reflexivity].
    exfalso. destruct (Hsort _ (x :: l)) as [P _]. rewrite Es in P. apply Permutation_nil in P. discriminate.
Qed.
End lookups.

Lemma lookups_stable : forall ns m t, fst (lookup stable_sort m (lookups stable_sort ns t)) = fst (lookup stable_sort m t).
Proof.
  assert (A : forall n m t, fst (lookup stable_sort m (snd (lookup stable_sort n t))) = fst (lookup stable_sort m t)).
  { intros n m t.
    assert (G : forall t, fst (lookup stable_sort m t)
                = match stable_sort _ (table_get m t) with x :: _ => Some (snd x) | [] => if is_block_name m then Some TBlock else None end).
    { clear. intros t. unfold lookup. destruct (table_get m t) as [|x l] eqn:E. reflexivity.
      cbn [fst]. rewrite table_get_sort, beqb_refl, E.
      destruct (stable_sort tag_type (x :: l)) eqn:Es; auto.
      exfalso. destruct (stable_sort_sorts _ (x :: l)) as [P _]. rewrite Es in P. apply Permutation_nil in P. discriminate. }
    rewrite !G, table_get_lookup. destruct (beqb n m); auto. destruct (table_get m t) eqn:E; auto. now rewrite stable_idem. }
  unfold lookups. induction ns as [|n ns IH]; intros; simpl; auto. now rewrite IH, A.
Qed.

(** ---------- goroutines ---------- *)
(** one goroutine alone *)
Fixpoint alone (k : nat) (p : pc) (mem : list cell) : pc * list cell :=
  match k with O => (p, mem) | S k => let '(p', mem') := step p mem in alone k p' mem' end.
Lemma run_alone : forall k p mem, run_threads (repeat O k) [p] mem = ([fst (alone k p mem)], snd (alone k p mem)).
Proof.
  induction k as [|k IH]; intros; simpl; auto. destruct (step p mem) as [p' mem'] eqn:E. simpl. apply IH.
Qed.
Lemma alone_add : forall k l p mem, alone (k + l) p mem = let '(p', m') := alone k p mem in alone l p' m'.
Proof.
  induction k as [|k IH]; intros; simpl; auto. destruct (step p mem). apply IH.
Qed.
Lemma get_cell_app : forall a x r, get_cell (length a) (a ++ x :: r) = x.
Proof. induction a; simpl; auto. Qed.
Lemma set_cell_app : forall a y x r, set_cell (length a) y (a ++ x :: r) = a ++ y :: r.
Proof. induction a; intros; simpl; auto. now rewrite IHa. Qed.

Lemma get_cell_app2 : forall a y x r, get_cell (S (length a)) (a ++ y :: x :: r) = x.
Proof. induction a; simpl; auto. Qed.
Lemma set_cell_app2 : forall a v y x r, set_cell (S (length a)) v (a ++ y :: x :: r) = a ++ y :: v :: r.
Proof. induction a; intros; simpl; auto. f_equal. apply IHa. Qed.

Lemma insert_prio_mid : forall (x : cell) a c, (forall y, In y a -> (fst y <= fst x)%Z) ->
  (match c with [] => True | y :: _ => (fst x < fst y)%Z end) -> insert_prio x (a ++ c) = a ++ x :: c.
Proof.
  induction a as [|y a IH]; intros c H1 H2; simpl.
  - destruct c; simpl; auto. apply Z.ltb_lt in H2. now rewrite H2.
  - destruct (fst x <? fst y)%Z eqn:E. apply Z.ltb_lt in E. specialize (H1 y (or_introl eq_refl)). lia.
    rewrite IH; auto. intros. apply H1. now right.
Qed.
Lemma inner_loop : forall a c x rest i,
  StronglySorted (fun x y : cell => (fst x <= fst y)%Z) (a ++ c) -> (match c with [] => True | y :: _ => (fst x < fst y)%Z end) ->
  exists k, alone k (AtInner i (length a)) (a ++ x :: c ++ rest) = (AtOuter (S i), insert_prio x (a ++ c) ++ rest).
Proof.
  intros a. induction a as [|y a IH] using rev_ind; intros c x rest i S Hc.
  - exists 1%nat. simpl. f_equal. assert (E : insert_prio x c = x :: c).
    { apply (insert_prio_mid x [] c); auto. intros ? []. } now rewrite E.
  - rewrite app_length. simpl length. rewrite Nat.add_1_r.
    destruct (fst x <? fst y)%Z eqn:L.
    + apply Z.ltb_lt in L. rewrite <- app_assoc in S. simpl in S.
      destruct (IH (y :: c) x rest i S L) as [k Hk]. exists (4 + k)%nat.
      rewrite alone_add.
      assert (E : alone 4 (AtInner i (Datatypes.S (length a))) ((a ++ [y]) ++ x :: c ++ rest) = (AtInner i (length a), a ++ x :: (y :: c) ++ rest)).
      { rewrite <- app_assoc. change ([y] ++ x :: c ++ rest) with (y :: x :: c ++ rest). cbn [alone step].
        rewrite get_cell_app, get_cell_app2. apply Z.ltb_lt in L. rewrite L. cbn [alone step Nat.pred].
        rewrite get_cell_app, get_cell_app2, set_cell_app2, set_cell_app. reflexivity. }
      rewrite E. rewrite Hk. rewrite <- app_assoc. reflexivity.
    + apply Z.ltb_ge in L. exists 1%nat. simpl.
      assert (G0 : get_cell (length a) ((a ++ [y]) ++ x :: c ++ rest) = y).
      { rewrite <- app_assoc. apply get_cell_app. }
      assert (G1 : get_cell (Datatypes.S (length a)) ((a ++ [y]) ++ x :: c ++ rest) = x).
      { replace (Datatypes.S (length a)) with (length (a ++ [y])) by (rewrite app_length; simpl; lia). apply get_cell_app. }
      rewrite G0, G1. apply Z.ltb_ge in L. rewrite L. apply Z.ltb_ge in L. f_equal.
      rewrite insert_prio_mid; auto. { rewrite <- !app_assoc. reflexivity. }
      intros z Iz. apply in_app_iff in Iz as [Iz | [<- | []]]; auto.
      rewrite <- app_assoc in S. clear - S Iz L. induction a as [|w a IHa]; simpl in *. destruct Iz.
      inversion S; subst. destruct Iz as [-> | Iz]; auto. rewrite Forall_forall in H2.
      assert ((fst z <= fst y)%Z). apply H2. apply in_app_iff. right. now left. lia.
Qed.
Lemma insert_length : forall A (x : Z * A) l, length (insert_prio x l) = S (length l).
Proof. induction l; simpl; auto. destruct (_ <? _)%Z; simpl; auto. Qed.
Lemma outer_loop : forall rest p, by_priority p ->
  exists k, alone k (AtOuter (length p)) (p ++ rest) = (AtRead, fold_left (fun acc x => insert_prio x acc) rest p).
Proof.
  induction rest as [|x rest IH]; intros p S.
  - exists 1%nat. simpl. rewrite app_nil_r. rewrite Nat.ltb_irrefl. reflexivity.
  - destruct (inner_loop p [] x rest (length p)) as [k Hk].
    { rewrite app_nil_r. apply Sorted_StronglySorted; auto. intros ? ? ?; lia. } { exact I. }
    rewrite app_nil_r in Hk. simpl app in Hk.
    destruct (IH (insert_prio x p)) as [k2 Hk2]. now apply insert_sorted.
    exists (1 + (k + k2))%nat. rewrite alone_add.
    assert (E : alone 1 (AtOuter (length p)) (p ++ x :: rest) = (AtInner (length p) (length p), p ++ x :: rest)).
    { simpl. rewrite app_length. simpl. replace (Nat.ltb (length p) (length p + Datatypes.S (length rest))) with true; auto.
      symmetry. apply Nat.ltb_lt. lia. }
    rewrite E. cbv beta iota. rewrite (alone_add k k2). unfold cell in *. rewrite Hk. cbv beta iota.
    rewrite <- (insert_length _ x p). exact Hk2.
Qed.
(** The machine of one goroutine is the insertion sort of Engine.v. *)
Lemma one_goroutine : forall mem, mem <> [] ->
  exists k, run_threads (repeat O k) [thread_start] mem
            = ([Returned_type (match stable_sort _ mem with x :: _ => Some (snd x) | [] => None end)], stable_sort _ mem).
Proof.
  intros [|x rest] H. contradiction.
  destruct (outer_loop rest [x]) as [k Hk]. { repeat constructor. }
  exists (k + 1)%nat. rewrite run_alone.
  assert (E : alone (k + 1) thread_start (x :: rest)
    = (Returned_type (match stable_sort _ (x :: rest) with x :: _ => Some (snd x) | [] => None end), stable_sort _ (x :: rest))).
  { rewrite alone_add. unfold thread_start. simpl in Hk. unfold cell in *. rewrite Hk. reflexivity. }
  rewrite E. reflexivity.
Qed.

(** Sorted lists: no goroutine writes. *)
Definition calm (mem : list cell) (p : pc) : Prop :=
  match p with
  | AtCopy1 _ _ | AtCopy2 _ _ _ | AtCopy3 _ _ _ => False
  | AtInner i j => (j < length mem)%nat
  | AtOuter _ => True
  | AtRead => True
  | Returned_type t => t = match mem with x :: _ => Some (snd x) | [] => None end
  end.
Lemma sorted_nth : forall mem j, by_priority mem -> (S j < length mem)%nat -> (fst (get_cell j mem) <= fst (get_cell (S j) mem))%Z.
Proof.
  unfold get_cell. induction mem as [|x mem IH]; intros j S H; simpl in H. lia.
  inversion S; subst. destruct j; simpl.
  - destruct mem; simpl in *. lia. inversion H3; auto.
  - apply (IH j); auto. lia.
Qed.
Lemma step_calm : forall mem p, by_priority mem -> calm mem p -> snd (step p mem) = mem /\ calm mem (fst (step p mem)).
Proof.
  intros mem p S C. destruct p; simpl in *; try contradiction; auto.
  - split; auto. unfold cell in *. destruct (Nat.ltb i (length mem)) eqn:E; simpl; auto. now apply Nat.ltb_lt.
  - split; auto. destruct j; simpl; auto.
    pose proof (sorted_nth mem j S C). destruct (_ <? _)%Z eqn:E; simpl; auto. apply Z.ltb_lt in E. lia.
Qed.
Lemma in_update : forall A (d : A) k (y : A) l x, In x (update_nth d k (fun _ => y) l) -> (k < length l)%nat -> x = y \/ In x l.
Proof.
  induction k as [|k IH]; intros y [|z l] x H L; simpl in *; try lia.
  - destruct H; auto.
  - destruct H as [H | H]; auto. apply IH in H; [|lia]. destruct H; auto.
Qed.
Lemma many_calm : forall schedule ts mem, by_priority mem -> (forall p, In p ts -> calm mem p) ->
  snd (run_threads schedule ts mem) = mem /\ (forall p, In p (fst (run_threads schedule ts mem)) -> calm mem p).
Proof.
  induction schedule as [|k schedule IH]; intros ts mem S H; simpl; auto.
  destruct (nth_error ts k) as [p|] eqn:E; auto.
  destruct (step_calm mem p S) as [S1 S2]. apply H. now apply nth_error_In in E.
  destruct (step p mem) as [p' mem']. simpl in S1, S2. subst. apply IH; auto.
  intros q Iq. apply in_update in Iq as [-> | Iq]; auto. apply nth_error_Some. congruence.
Qed.
Lemma sorted_goroutines : forall n schedule mem, by_priority mem ->
  let '(ts, mem') := run_threads schedule (repeat thread_start n) mem in
  mem' = mem /\ all_got (match mem with x :: _ => Some (snd x) | [] => None end) ts.
Proof.
  intros. destruct (many_calm schedule (repeat thread_start n) mem H) as [M C].
  { intros p Ip. apply repeat_spec in Ip. subst. exact I. }
  destruct (run_threads _ _ _) as [ts mem']. simpl in *. split; auto.
  intros u Iu. apply (C _ Iu).
Qed.
