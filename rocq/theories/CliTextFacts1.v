(** The distance of two texts as a recursive function, and that the program computes it. *)
From Coq Require Import List NArith Arith Bool String Lia ZifyBool ZifyNat ZifyN.
From Verif Require Import Bytes Cli SpecCli CliText SpecCliText.
Import ListNotations.
Open Scope N_scope.
Open Scope list_scope.

Fixpoint lev (x : list N) : list N -> nat :=
  fix go (y : list N) : nat :=
    match x, y with
    | [], _ => List.length y
    | _, [] => List.length x
    | c :: x', d :: y' => if c =? d then lev x' y' else S (Nat.min (Nat.min (lev x' y') (lev x' y)) (go y'))
    end.
Lemma lev_nil_l y : lev [] y = List.length y. Proof. destruct y; reflexivity. Qed.
Lemma lev_nil_r x : lev x [] = List.length x. Proof. destruct x; reflexivity. Qed.
Lemma lev_cons c x d y : lev (c :: x) (d :: y) =
  if c =? d then lev x y else S (Nat.min (Nat.min (lev x y) (lev x (d :: y))) (lev (c :: x) y)).
Proof. reflexivity. Qed.
Opaque lev.
Lemma lev_sym x : forall y, lev x y = lev y x.
Proof.
  induction x as [|c x IH]; intros y; [rewrite lev_nil_l, lev_nil_r; reflexivity|].
  induction y as [|d y IHy]; [rewrite lev_nil_l, lev_nil_r; reflexivity|].
  rewrite !lev_cons, (N.eqb_sym d c), !IH, IHy. destruct (c =? d); lia.
Qed.
Lemma lev_refl x : lev x x = 0%nat.
Proof. induction x; [reflexivity|]. rewrite lev_cons, N.eqb_refl. exact IHx. Qed.
Lemma lev_lip n : forall x c y, (List.length x + List.length y <= n)%nat ->
  (lev (c :: x) y <= S (lev x y))%nat /\ (lev x y <= S (lev (c :: x) y))%nat.
Proof.
  induction n as [|n IH]; intros x c y Hn.
  - destruct x, y; cbn [List.length] in Hn; try lia. rewrite !lev_nil_r. cbn [List.length]. lia.
  - destruct y as [|d y]; [rewrite !lev_nil_r; cbn [List.length]; lia|].
    rewrite lev_cons. cbn [List.length] in Hn.
    assert (R : (lev (d :: y) x <= S (lev y x))%nat /\ (lev y x <= S (lev (d :: y) x))%nat) by (apply IH; lia).
    rewrite !(lev_sym _ x) in R.
    assert (L : (lev (c :: x) y <= S (lev x y))%nat /\ (lev x y <= S (lev (c :: x) y))%nat) by (apply IH; lia).
    destruct (c =? d); lia.
Qed.
Lemma lev_put x c y : (lev (c :: x) y <= S (lev x y))%nat. Proof. apply (lev_lip _ x c y (le_n _)). Qed.
Lemma lev_take x c y : (lev x y <= S (lev (c :: x) y))%nat. Proof. apply (lev_lip _ x c y (le_n _)). Qed.

Lemma lev_common x c d : forall y y', (forall z, (lev z y' <= S (lev z y))%nat) ->
  c = d -> (lev x (c :: y') <= S (lev x (d :: y)))%nat.
Proof.
  intros y y' H <-. induction x as [|z x IH]; [rewrite !lev_nil_l; generalize (H []); rewrite !lev_nil_l; cbn [List.length]; lia|].
  rewrite !lev_cons. generalize (H x) (H (z :: x)). destruct (z =? c); lia.
Qed.
Lemma lev_change z : forall c d s, (lev z (d :: s) <= S (lev z (c :: s)))%nat.
Proof.
  induction z as [|x z IH]; intros c d s; [rewrite !lev_nil_l; cbn [List.length]; lia|].
  rewrite !lev_cons. generalize (IH c d s) (lev_take z x s) (lev_take s c z). rewrite !(lev_sym _ z).
  destruct (x =? d) eqn:E1; destruct (x =? c) eqn:E2; lia.
Qed.
Lemma lev_one y y' : one_edit y y' -> forall z, (lev z y' <= S (lev z y))%nat.
Proof.
  intros [p c s|p c s|p c d s]; induction p as [|e p IH]; intros z; cbn [app]; try (apply lev_common; [exact IH|reflexivity]).
  - rewrite !(lev_sym z). apply lev_put.
  - rewrite !(lev_sym z). apply lev_take.
  - apply lev_change.
Qed.
Lemma lev_least n x y : edits n x y -> forall z, (lev z y <= lev z x + n)%nat.
Proof. induction 1 as [x|n x y z E D IH]; intros u; [lia|]. generalize (lev_one _ _ E u) (IH u). lia. Qed.

Lemma one_cons c x y : one_edit x y -> one_edit (c :: x) (c :: y).
Proof.
  intros [p d s|p d s|p d e s].
  - exact (put_in (c :: p) d s). - exact (take_out (c :: p) d s). - exact (change (c :: p) d e s).
Qed.
Lemma edits_cons c n x y : edits n x y -> edits n (c :: x) (c :: y).
Proof. induction 1; [constructor|]. econstructor; [apply one_cons; eassumption|assumption]. Qed.
Lemma edits_lev x : forall y, edits (lev x y) x y.
Proof.
  induction x as [|c x IH]; intros y.
  - rewrite lev_nil_l. induction y as [|d y IHy]; [constructor|]. cbn [List.length].
    assert (H : forall u v n, edits n u v -> edits (S n) u (d :: v)).
    { intros u v n H. apply (edits_more n u (d :: u)); [exact (put_in [] d u)|apply edits_cons, H]. }
    apply H, IHy.
  - induction y as [|d y IHy].
    + specialize (IH []). rewrite lev_nil_r in *. cbn [List.length].
      eapply edits_more; [exact (take_out [] c x)|exact IH].
    + rewrite lev_cons. destruct (c =? d) eqn:E.
      * apply N.eqb_eq in E. subst d. apply edits_cons, IH.
      * assert (H : lev x y = Nat.min (Nat.min (lev x y) (lev x (d :: y))) (lev (c :: x) y) \/
          lev x (d :: y) = Nat.min (Nat.min (lev x y) (lev x (d :: y))) (lev (c :: x) y) \/
          lev (c :: x) y = Nat.min (Nat.min (lev x y) (lev x (d :: y))) (lev (c :: x) y)) by lia.
        destruct H as [H|[H|H]]; rewrite <- H.
        -- eapply edits_more; [exact (change [] c d x)|apply edits_cons, IH].
        -- eapply edits_more; [exact (take_out [] c x)|apply IH].
        -- eapply edits_more; [exact (put_in [] d (c :: x))|cbn [app]; apply edits_cons, IHy].
Qed.
Lemma lev_distance x y : distance x y (lev x y).
Proof.
  split; [apply edits_lev|]. intros n H. generalize (lev_least n x y H x). rewrite lev_refl. lia.
Qed.
Lemma distance_lev x y d : distance x y d -> d = lev x y.
Proof. intros [E M]. generalize (M _ (edits_lev x y)) (proj2 (lev_distance x y) _ E). lia. Qed.

(** ** Reversal and common ends *)
Lemma one_rev x y : one_edit x y -> one_edit (rev x) (rev y).
Proof.
  intros [p c s|p c s|p c d s]; rewrite !rev_app_distr; cbn [rev]; rewrite <- !app_assoc; cbn [app]; constructor.
Qed.
Lemma edits_rev n x y : edits n x y -> edits n (rev x) (rev y).
Proof. induction 1; [constructor|]. econstructor; [apply one_rev; eassumption|assumption]. Qed.
Lemma lev_rev x y : lev (rev x) (rev y) = lev x y.
Proof.
  apply Nat.le_antisymm.
  - apply (proj2 (lev_distance (rev x) (rev y))), edits_rev, edits_lev.
  - apply (proj2 (lev_distance x y)). rewrite <- (rev_involutive x), <- (rev_involutive y) at 2. apply edits_rev, edits_lev.
Qed.
Lemma lev_trim x : forall y, lev (fst (trim_common x y)) (snd (trim_common x y)) = lev x y.
Proof.
  induction x as [|c x IH]; intros [|d y]; cbn [trim_common fst snd]; try reflexivity.
  rewrite lev_cons. destruct (c =? d) eqn:E; [apply IH|]. cbn [fst snd]. rewrite lev_cons, E. reflexivity.
Qed.
Lemma trim_len x : forall y, (List.length (fst (trim_common x y)) <= List.length x /\ List.length (snd (trim_common x y)) <= List.length y)%nat.
Proof.
  induction x as [|c x IH]; intros [|d y]; cbn [trim_common fst snd List.length]; try lia.
  destruct (c =? d); cbn [fst snd List.length]; [|lia]. generalize (IH y). lia.
Qed.
Lemma lev_trim_suffix x y : lev (fst (trim_common_suffix x y)) (snd (trim_common_suffix x y)) = lev x y.
Proof.
  unfold trim_common_suffix. destruct (trim_common (rev x) (rev y)) as [u v] eqn:E. cbn [fst snd].
  generalize (lev_trim (rev x) (rev y)). rewrite E. cbn [fst snd]. rewrite !lev_rev. auto.
Qed.
Lemma trim_suffix_len x y : (List.length (fst (trim_common_suffix x y)) <= List.length x /\ List.length (snd (trim_common_suffix x y)) <= List.length y)%nat.
Proof.
  unfold trim_common_suffix. destruct (trim_common (rev x) (rev y)) as [u v] eqn:E. cbn [fst snd].
  generalize (trim_len (rev x) (rev y)). rewrite E. cbn [fst snd]. rewrite !rev_length. auto.
Qed.

(** ** The rows *)
Lemma lev_max x : forall y, (lev x y <= Nat.max (List.length x) (List.length y))%nat.
Proof.
  induction x as [|c x IH]; intros y; [rewrite lev_nil_l; lia|].
  destruct y as [|d y]; [rewrite lev_nil_r; lia|]. rewrite lev_cons. generalize (IH y). cbn [List.length]. destruct (c =? d); lia.
Qed.
(** Reversed beginnings: of the shorter text [p], what is left of it [s]; of the other one [q] *)
Fixpoint row_of (p s q : list N) : list N :=
  N.of_nat (lev p q) :: match s with [] => [] | r :: t => row_of (r :: p) t q end.
Lemma w16_small n : n < 65536 -> w16 n = n. Proof. apply N.mod_small. Qed.
Lemma dist_row_is c q s : forall p, N.of_nat (List.length p + List.length s) < 65535 -> N.of_nat (S (List.length q)) < 65535 ->
  dist_row c s (N.of_nat (lev p (c :: q))) (row_of p s q) = row_of p s (c :: q).
Proof.
  induction s as [|r s IH]; intros p Hp Hq; [reflexivity|].
  assert (E : row_of p (r :: s) q = N.of_nat (lev p q) :: row_of (r :: p) s q) by reflexivity.
  assert (E2 : exists z, row_of (r :: p) s q = N.of_nat (lev (r :: p) q) :: z) by (destruct s; eexists; reflexivity).
  destruct E2 as [z E2]. rewrite E, E2. cbn [dist_row]. rewrite <- E2.
  assert (V : (if c =? r then N.of_nat (lev p q)
    else N.min (N.min (w16 (N.of_nat (lev p q) + 1)) (w16 (N.of_nat (lev p (c :: q)) + 1))) (w16 (N.of_nat (lev (r :: p) q) + 1))) =
    N.of_nat (lev (r :: p) (c :: q))).
  { rewrite lev_cons, (N.eqb_sym r c). destruct (c =? r); [reflexivity|].
    generalize (lev_max p q) (lev_max p (c :: q)) (lev_max (r :: p) q). cbn [List.length] in *. intros M1 M2 M3.
    rewrite !w16_small by lia. lia. }
  cbn zeta. rewrite V. rewrite IH; [reflexivity|cbn [List.length] in *; lia|exact Hq].
Qed.
Lemma dist_rows_is s t : forall q i, i = N.of_nat (S (List.length q)) -> N.of_nat (List.length s) < 65535 ->
  N.of_nat (List.length q + List.length t) < 65535 ->
  dist_rows i s t (row_of [] s q) = row_of [] s (rev t ++ q).
Proof.
  induction t as [|c t IH]; intros q i -> Hs Ht; [reflexivity|]. cbn [dist_rows List.length] in *.
  rewrite w16_small by lia.
  replace (N.of_nat (S (List.length q))) with (N.of_nat (lev [] (c :: q))) by (rewrite lev_nil_l; reflexivity).
  rewrite dist_row_is by (cbn [List.length]; lia). cbn [rev]. rewrite <- app_assoc. cbn [app].
  apply IH; [rewrite lev_nil_l; cbn [List.length]; lia|exact Hs|cbn [List.length]; lia].
Qed.
Lemma first_row_is s : forall p, N.of_nat (List.length p + List.length s) < 65536 ->
  first_row (N.of_nat (List.length p)) s = row_of p s [].
Proof.
  induction s as [|r s IH]; intros p Hp; cbn [first_row row_of List.length] in *; rewrite lev_nil_r, w16_small by lia; [reflexivity|].
  replace (N.of_nat (List.length p) + 1) with (N.of_nat (List.length (r :: p))) by (cbn [List.length]; lia).
  rewrite IH by (cbn [List.length]; lia). reflexivity.
Qed.
Lemma row_last s : forall p q d, last (row_of p s q) d = N.of_nat (lev (rev s ++ p) q).
Proof.
  induction s as [|r s IH]; intros p q d; [reflexivity|].
  assert (E : row_of p (r :: s) q = N.of_nat (lev p q) :: row_of (r :: p) s q) by reflexivity.
  rewrite E. cbn [rev]. rewrite <- app_assoc. cbn [app]. rewrite <- (IH (r :: p) q d).
  destruct s; reflexivity.
Qed.
Lemma rows_lev s t : N.of_nat (List.length s) < 65535 -> N.of_nat (List.length t) < 65535 ->
  last (dist_rows 1 s t (first_row 0 s)) 0 = N.of_nat (lev s t).
Proof.
  intros Hs Ht. change 0 with (N.of_nat (@List.length N [])) at 1. rewrite first_row_is by (cbn [List.length]; lia).
  rewrite dist_rows_is; [|reflexivity|exact Hs|cbn [List.length]; lia]. rewrite row_last, !app_nil_r, lev_rev. reflexivity.
Qed.
Lemma beqb_eq x : forall y, beqb x y = true -> x = y.
Proof.
  induction x as [|c x IH]; intros [|d y] H; cbn in H; try discriminate; [reflexivity|].
  apply andb_prop in H. destruct H as [H1 H2]. apply N.eqb_eq in H1. rewrite H1, (IH y H2). reflexivity.
Qed.
Lemma compute_lev x y : N.of_nat (rune_count x) < 65535 -> N.of_nat (rune_count y) < 65535 ->
  compute_distance x y = N.of_nat (lev (runes x) (runes y)).
Proof.
  intros Hx Hy. unfold compute_distance, rune_count in *.
  destruct x as [|c x]; [cbn [is_empty]; change (runes []) with (@nil N); rewrite lev_nil_l; reflexivity|].
  destruct y as [|d y]; [cbn [is_empty]; change (runes []) with (@nil N); rewrite lev_nil_r; reflexivity|].
  cbn [is_empty]. destruct (beqb (c :: x) (d :: y)) eqn:E; [apply beqb_eq in E; rewrite E, lev_refl; reflexivity|].
  assert (K : forall s t, N.of_nat (List.length s) < 65535 -> N.of_nat (List.length t) < 65535 ->
    (let '(s1, s2) := trim_common_suffix s t in let '(s1, s2) := trim_common s1 s2 in
     last (dist_rows 1 s1 s2 (first_row 0 s1)) 0) = N.of_nat (lev s t)).
  { intros s t Hs Ht. generalize (lev_trim_suffix s t) (trim_suffix_len s t). destruct (trim_common_suffix s t) as [s1 t1].
    cbn [fst snd]. intros E1 L1. generalize (lev_trim s1 t1) (trim_len s1 t1). destruct (trim_common s1 t1) as [s2 t2].
    cbn [fst snd]. intros E2 L2. rewrite rows_lev by lia. rewrite E2, E1. reflexivity. }
  destruct (Nat.ltb _ _); rewrite K by assumption; [rewrite lev_sym|]; reflexivity.
Qed.
