(** Lemmas about AddSpace (C73). *)
From Coq Require Import List NArith Bool String Lia.
From Verif Require Import Bytes Dom DomUtils SpecSpace SpecDom DomFacts4 BlockFacts RenderInv DomFacts6.
Import ListNotations.
Open Scope list_scope.

Lemma total_app {A} (f : A -> nat) l r : total f (l ++ r) = (total f l + total f r)%nat.
Proof. induction l as [|x l IH]; cbn [app total fold_right]; [reflexivity|]. fold (total f (l ++ r)) (total f l). lia. Qed.
Lemma total_cons {A} (f : A -> nat) x l : total f (x :: l) = (f x + total f l)%nat. Proof. reflexivity. Qed.
Lemma total_rev {A} (f : A -> nat) l : total f (rev l) = total f l.
Proof. induction l as [|x l IH]; [reflexivity|]. cbn [rev]. rewrite total_app, !total_cons. cbn. lia. Qed.

Section counted.
Variables (w : node -> nat).
Definition weigh : list (list node) -> nat := total (total w).
Definition stack_weights (st : list (list node)) : list nat := map (total w) st.
End counted.

(** ** How much is added *)
Lemma touch_weight fwd : forall n, let '(n', f) := touch fwd n in
  (text_bytes n <= text_bytes n' <= text_bytes n + (if f : bool then 1 else 0))%nat /\ forall l, count_named l n' = count_named l n.
Proof.
  intros n. induction n as [d|x a ks IH|d|ks IH|d] using node_induction; try (cbn; split; [lia|reflexivity]).
  - cbn [touch]. destruct fwd; cbn [text_bytes count_named List.length]; [|rewrite app_length; cbn [List.length]]; (split; [lia|reflexivity]).
  - cbn [touch]. destruct (is_span (Elem x a ks)); [|split; [cbn [text_bytes]; lia|reflexivity]].
    set (go := fix go (l : list node) : list node * bool :=
             match l with
             | [] => ([], false)
             | k :: r => if fwd then let '(k', f) := touch fwd k in
                                     if f : bool then (k' :: r, true) else let '(r', f2) := go r in (k' :: r', f2)
                         else let '(r', f) := go r in
                              if f : bool then (k :: r', true) else let '(k', f2) := touch fwd k in (k' :: r', f2)
             end).
    assert (G : let '(ks', f) := go ks in (total text_bytes ks <= total text_bytes ks' <= total text_bytes ks + (if f : bool then 1 else 0))%nat
                /\ forall l, total (count_named l) ks' = total (count_named l) ks).
    { induction IH as [|k r IH _ IHr]; [cbn; split; [lia|reflexivity]|]. cbn [go]. fold go. destruct (touch fwd k) as [k' f]. destruct (go r) as [r' f2].
      destruct IH as [I1 I2], IHr as [J1 J2]. destruct fwd.
      - destruct f; (split; [rewrite !total_cons; lia|intros l; rewrite !total_cons, I2; auto]).
      - destruct f2; (split; [rewrite !total_cons; lia|intros l; rewrite !total_cons, J2; auto]). }
    destruct (go ks) as [ks' f]. cbn [text_bytes count_named]. destruct G as [G1 G2]. split; [exact G1|]. intros l. now rewrite G2.
Qed.
Lemma touch_list_weight fwd l : let '(l', f) := touch_list fwd l in
  (total text_bytes l <= total text_bytes l' <= total text_bytes l + (if f : bool then 1 else 0))%nat /\ forall m, total (count_named m) l' = total (count_named m) l.
Proof.
  induction l as [|k r IH]; [cbn; split; [lia|reflexivity]|]. cbn [touch_list]. pose proof (touch_weight fwd k) as T. destruct (touch fwd k) as [k' f].
  destruct (touch_list fwd r) as [r' f2]. destruct T as [T1 T2], IH as [I1 I2].
  destruct f; (split; [rewrite !total_cons; lia|intros m; rewrite !total_cons, T2; auto]).
Qed.
Definition same_counts (st st' : list (list node)) : Prop := forall m, stack_weights (count_named m) st' = stack_weights (count_named m) st.
Lemma touch_stack_weight fwd st : (weigh text_bytes st <= weigh text_bytes (touch_stack fwd st) <= weigh text_bytes st + 1)%nat /\ same_counts st (touch_stack fwd st).
Proof.
  induction st as [|l up [I1 I2]]; [cbn; split; [lia|intros m; reflexivity]|]. cbn [touch_stack]. pose proof (touch_list_weight fwd l) as T. destruct (touch_list fwd l) as [l' f].
  destruct T as [T1 T2]. unfold weigh in *. destruct f; (split; [rewrite !total_cons; lia|]); intros m; unfold stack_weights; cbn [map]; rewrite T2; [reflexivity|].
  f_equal. apply I2.
Qed.
Lemma counts_refl st : same_counts st st. Proof. intros m. reflexivity. Qed.
Lemma counts_trans a b c : same_counts a b -> same_counts b c -> same_counts a c.
Proof. intros H G m. now rewrite G, H. Qed.
Lemma counts_cons l st st' : same_counts (l :: st) st' -> exists l' up, st' = l' :: up /\ (forall m, total (count_named m) l' = total (count_named m) l) /\ same_counts st up.
Proof.
  intros H. destruct st' as [|l' up]; [specialize (H []); discriminate|]. exists l', up. split; auto. split; intros m; specialize (H m); cbn in H; now injection H.
Qed.
Lemma bytes_kids n : text_bytes n = match n with Text d => List.length d | _ => total text_bytes (kids n) end.
Proof. destruct n; reflexivity. Qed.
Section few.
Variables (l : list bytes) (inner : node -> bool).
Lemma count_kids n : count_named l n = ((if named l n then 1 else 0) + total (count_named l) (kids n))%nat.
Proof. destruct n; reflexivity. Qed.
Lemma add_space_weight f :
  (forall n lt rt, let '(n', lt', rt') := add_space (named l) inner f n lt rt in
     (text_bytes n + weigh text_bytes lt + weigh text_bytes rt <= text_bytes n' + weigh text_bytes lt' + weigh text_bytes rt'
      <= text_bytes n + weigh text_bytes lt + weigh text_bytes rt + 2 * count_named l n)%nat /\ same_counts lt lt' /\ same_counts rt rt') /\
  (forall done todo lt rt, let '(ks, lt', rt') := add_space_list (named l) inner f done todo lt rt in
     (total text_bytes done + total text_bytes todo + weigh text_bytes lt + weigh text_bytes rt <= total text_bytes ks + weigh text_bytes lt' + weigh text_bytes rt'
      <= total text_bytes done + total text_bytes todo + weigh text_bytes lt + weigh text_bytes rt + 2 * total (count_named l) todo)%nat
     /\ same_counts lt lt' /\ same_counts rt rt').
Proof.
  induction f as [|f [IH1 IH2]].
  - split; intros; cbn [add_space add_space_list]; (split; [rewrite ?total_app, ?total_rev; lia|split; apply counts_refl]).
  - split.
    + intros n lt rt. cbn [add_space]. cbv zeta.
      match goal with |- context [add_space_list _ _ _ _ _ ?a _] => set (lt1 := a) end. match goal with |- context [add_space_list _ _ _ _ _ _ ?a] => set (rt1 := a) end.
      assert (L : (weigh text_bytes lt <= weigh text_bytes lt1 <= weigh text_bytes lt + (if named l n then 1 else 0))%nat /\ same_counts lt lt1).
      { unfold lt1. destruct (named l n); cbn [andb]; [|split; [lia|apply counts_refl]]. destruct (negb _ && _); [apply touch_stack_weight|split; [lia|apply counts_refl]]. }
      assert (R : (weigh text_bytes rt <= weigh text_bytes rt1 <= weigh text_bytes rt + (if named l n then 1 else 0))%nat /\ same_counts rt rt1).
      { unfold rt1. destruct (named l n); cbn [andb]; [|split; [lia|apply counts_refl]]. destruct (negb _ && _); [apply touch_stack_weight|split; [lia|apply counts_refl]]. }
      clearbody lt1 rt1. assert (E0 : kids n = [] -> total text_bytes (fst (fst (add_space_list (named l) inner f [] (kids n) lt1 rt1))) = O) by (intros ->; now destruct f).
      specialize (IH2 [] (kids n) lt1 rt1). destruct (add_space_list _ _ _ _ _ _ _) as [[ks lt2] rt2]. destruct IH2 as (W & C1 & C2), L as [L1 L2], R as [R1 R2].
      split; [|split; eapply counts_trans; eauto]. rewrite count_kids. cbn [total fold_right] in W. rewrite (bytes_kids n), (bytes_kids (with_kids n ks)).
      destruct n as [d|x a k|d|k|d]; cbn [with_kids kids named] in *; cbn [fst snd] in E0; try specialize (E0 eq_refl); cbn [total fold_right] in *; try lia.
    + intros done todo lt rt. cbn [add_space_list]. destruct todo as [|x r]; [split; [rewrite total_rev; cbn; lia|split; apply counts_refl]|].
      specialize (IH1 x (done :: lt) (r :: rt)). destruct (add_space _ _ _ _ _ _) as [[x' lt1] rt1]. destruct IH1 as (W & C1 & C2).
      apply counts_cons in C1 as (d1 & lt2 & -> & _ & C1). apply counts_cons in C2 as (r1 & rt2 & -> & Cr & C2). cbn [hd tl].
      specialize (IH2 (x' :: d1) r1 lt2 rt2). destruct (add_space_list _ _ _ _ _ _ _) as [[ks lt3] rt3]. destruct IH2 as (W2 & D1 & D2).
      split; [|split; eapply counts_trans; eauto]. unfold weigh in *. rewrite !total_cons in *. rewrite Cr in W2. lia.
Qed.
Lemma few_spaces n : (text_bytes n <= text_bytes (add_space_root (named l) inner n) <= text_bytes n + 2 * count_named l n)%nat.
Proof.
  unfold add_space_root. destruct (add_space_weight (merge_fuel n)) as [H _]. specialize (H n [] []). destruct (add_space _ _ _ _ _ _) as [[n' lt'] rt'].
  destruct H as (W & C1 & C2). specialize (C1 []). specialize (C2 []). destruct lt'; [|discriminate]. destruct rt'; [|discriminate]. cbn in *. lia.
Qed.
End few.

(** ** Nothing to do *)
Section unneeded.
Variables (l m : list bytes).
Lemma first_real_none fwd : forall n, count_named m n = O -> opt_is (named m) (first_real fwd n) = false.
Proof.
  intros n. induction n as [d|x a ks IH|d|ks IH|d] using node_induction; try reflexivity. intros C. cbn [first_real]. cbn [count_named] in C.
  destruct (is_span (Elem x a ks)); [|cbn [opt_is named]; destruct (name_in m x); [lia|reflexivity]].
  assert (C' : total (count_named m) ks = O) by lia. clear C.
  set (go := fix go (l : list node) : option node :=
           match l with
           | [] => None
           | k :: r => if fwd then match first_real fwd k with Some x => Some x | None => go r end
                       else match go r with Some x => Some x | None => first_real fwd k end
           end).
  induction IH as [|k r IH _ IHr]; [reflexivity|]. rewrite total_cons in C'. cbn [go]. fold go.
  assert (K : opt_is (named m) (first_real fwd k) = false) by (apply IH; lia). assert (G : opt_is (named m) (go r) = false) by (apply IHr; lia).
  destruct fwd; [destruct (first_real true k)|destruct (go r)]; auto.
Qed.
Lemma first_list_none fwd ks : total (count_named m) ks = O -> opt_is (named m) (first_real_list fwd ks) = false.
Proof.
  induction ks as [|k r IH]; [reflexivity|]. rewrite total_cons. intros C. cbn [first_real_list]. assert (K := first_real_none fwd k).
  destruct (first_real fwd k); [apply K|apply IH]; lia.
Qed.
Lemma first_stack_none fwd st : weigh (count_named m) st = O -> opt_is (named m) (first_real_stack fwd st) = false.
Proof.
  induction st as [|k r IH]; [reflexivity|]. unfold weigh in *. rewrite total_cons. intros C. cbn [first_real_stack]. assert (K := first_list_none fwd k).
  destruct (first_real_list fwd k); [apply K|apply IH]; lia.
Qed.
Lemma count_below n : count_named m n = O -> total (count_named m) (kids n) = O.
Proof. rewrite (count_kids m n). lia. Qed.
Lemma add_space_unneeded f :
  (forall n lt rt, count_named m n = O -> weigh (count_named m) lt = O -> weigh (count_named m) rt = O -> add_space (named l) (named m) f n lt rt = (n, lt, rt)) /\
  (forall done todo lt rt, total (count_named m) done = O -> total (count_named m) todo = O -> weigh (count_named m) lt = O -> weigh (count_named m) rt = O ->
     add_space_list (named l) (named m) f done todo lt rt = (rev done ++ todo, lt, rt)).
Proof.
  induction f as [|f [IH1 IH2]]; [split; reflexivity|]. split.
  - intros n lt rt Cn Cl Cr. cbn [add_space]. pose proof (count_below n Cn) as Ck.
    rewrite (first_stack_none true (kids n :: rt)), !andb_false_r by (unfold weigh in *; rewrite total_cons; lia).
    rewrite (first_stack_none false (rev (kids n) :: lt)), !andb_false_r by (unfold weigh in *; rewrite total_cons, total_rev; lia).
    rewrite IH2 by auto. cbn [rev app]. now rewrite with_kids_id.
  - intros done todo lt rt Cd Ct Cl Cr. cbn [add_space_list]. destruct todo as [|x r]; [now rewrite app_nil_r|]. rewrite total_cons in Ct.
    rewrite IH1 by (unfold weigh in *; rewrite ?total_cons; lia). cbn [hd tl]. rewrite IH2 by (rewrite ?total_cons; lia). cbn [rev]. now rewrite <- app_assoc.
Qed.
Lemma space_unneeded n : count_named m n = O -> add_space_root (named l) (named m) n = n.
Proof. intros C. unfold add_space_root. now rewrite (proj1 (add_space_unneeded _)). Qed.
End unneeded.

(** ** Both sides *)
Lemma none_count l n : count_named l n = O -> none_of l n = true.
Proof.
  unfold none_of. induction n as [d|x a ks IH|d|ks IH|d] using node_induction; try reflexivity; cbn [count_named all_names]; intros C.
  - destruct (name_in l x); [lia|]. cbn [negb andb]. apply forallb_forall. intros k I. assert (C' : total (count_named l) ks = O) by lia. clear C.
    induction IH as [|k' r IH _ IHr]; [destruct I|]. rewrite total_cons in C'. destruct I as [->|I]; [apply IH; lia|apply IHr; auto; lia].
  - apply forallb_forall. intros k I. induction IH as [|k' r IH _ IHr]; [destruct I|]. rewrite total_cons in C. destruct I as [->|I]; [apply IH; lia|apply IHr; auto; lia].
Qed.
Lemma none_counts l ks : total (count_named l) ks = O -> forallb (none_of l) ks = true.
Proof. induction ks as [|k r IH]; [reflexivity|]. rewrite total_cons. intros C. cbn [forallb]. rewrite none_count, IH by lia. reflexivity. Qed.
Section sides.
Variables (l m : list bytes).
Lemma walk pre : total (count_named l) pre = O -> forall g done todo lt rt,
  add_space_list (named l) (named m) (List.length pre + g) done (pre ++ todo) lt rt = add_space_list (named l) (named m) g (rev pre ++ done) todo lt rt.
Proof.
  induction pre as [|k r IH]; intros C g done todo lt rt; [reflexivity|]. rewrite total_cons in C. cbn [List.length plus app add_space_list].
  rewrite (proj1 (add_space_none l (named m) _)) by (apply none_count; lia). cbn [hd tl]. rewrite IH by lia. cbn [rev]. now rewrite <- app_assoc.
Qed.
Lemma real_named fwd n : named m n = true -> ~ In (b "span") m -> first_real fwd n = Some n.
Proof.
  intros H Ns. destruct n as [d|x a ks|d|ks|d]; try discriminate. cbn [first_real]. destruct (is_span (Elem x a ks)) eqn:E; [|reflexivity]. exfalso. apply Ns.
  cbn [named] in H. unfold is_span in E. cbn [named] in E. unfold name_in in *. cbn [existsb] in E. rewrite orb_false_r in E. apply BytesFacts.beqb_eq in E. subst x.
  apply existsb_exists in H as (y & I & H). apply BytesFacts.beqb_eq in H. now subst y.
Qed.
Lemma list_step f done x r lt rt : add_space_list (named l) (named m) (S f) done (x :: r) lt rt =
  let '(x', lt1, rt1) := add_space (named l) (named m) f x (done :: lt) (r :: rt) in add_space_list (named l) (named m) f (x' :: hd [] lt1) (hd [] rt1) (tl lt1) (tl rt1).
Proof. reflexivity. Qed.
Lemma both_sides pre u x a k1 r q k2 v post :
  name_in l x = true -> ~ In (b "span") m -> k1 :: r = q ++ [k2] -> named m k1 = true -> named m k2 = true ->
  total (count_named l) pre = O -> total (count_named l) (k1 :: r) = O -> total (count_named l) post = O ->
  add_space_root (named l) (named m) (Doc (pre ++ Text u :: Elem x a (k1 :: r) :: Text v :: post))
  = Doc (pre ++ Text (u ++ [32%N]) :: Elem x a (k1 :: r) :: Text (32%N :: v) :: post).
Proof.
  intros Hx Ns Eq K1 K2 Cp Ck Cq. set (n := Doc (pre ++ _)).
  rewrite (space_fuel_enough (named l) (named m) n (S (List.length pre + S (S (S (S (merge_fuel n))))))) by lia. unfold n at 2. cbn [add_space named andb kids].
  rewrite walk by auto. rewrite list_step.
  rewrite (proj1 (add_space_none l (named m) _)) by reflexivity. cbn [hd tl]. rewrite list_step.
  match goal with |- context [add_space _ _ (S ?g) (Elem x a (k1 :: r)) ?lt ?rt] =>
    assert (E : add_space (named l) (named m) (S g) (Elem x a (k1 :: r)) lt rt
      = (Elem x a (k1 :: r), [Text (u ++ [32%N]) :: rev pre ++ []], [Text (32%N :: v) :: post])) end.
  { cbn [add_space]. cbn [named kids is_empty negb andb]. rewrite Hx. cbn [first_real_stack first_real_list andb]. rewrite (real_named true k1 K1 Ns). cbn [opt_is]. rewrite K1.
    assert (F : first_real_list false (rev (k1 :: r)) = Some k2) by (rewrite Eq, rev_app_distr; cbn [rev app first_real_list]; now rewrite (real_named false k2 K2 Ns)).
    rewrite F. cbn [opt_is]. rewrite K2. cbn [touch_stack touch_list touch]. rewrite (proj2 (add_space_none l (named m) _)) by now apply none_counts. reflexivity. }
  rewrite E. cbn [hd tl]. 
  match goal with |- context [add_space_list _ _ ?g ?d ?t [] []] => rewrite (proj2 (add_space_none l (named m) g) t d [] []) end.
  - cbn [fst with_kids]. f_equal. cbn [rev]. rewrite app_nil_r, rev_involutive, <- !app_assoc. reflexivity.
  - cbn [forallb]. now rewrite (none_counts l post).
Qed.
End sides.
