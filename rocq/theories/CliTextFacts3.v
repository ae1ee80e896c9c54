(** A very long unknown flag: the distances overflow. *)
From Coq Require Import List NArith Arith Bool String Lia ZifyBool ZifyNat ZifyN.
From Verif Require Import Bytes Cli SpecCli CliText SpecCliText CliTextFacts1 CliTextFacts2.
Import ListNotations.
Open Scope N_scope.
Open Scope list_scope.
Opaque lev.

Lemma lev_min x : forall y, (List.length x <= lev x y + List.length y /\ List.length y <= lev x y + List.length x)%nat.
Proof.
  induction x as [|c x IH]; intros y; [rewrite lev_nil_l; cbn [List.length]; lia|].
  induction y as [|d y IHy]; [rewrite lev_nil_r; cbn [List.length]; lia|].
  rewrite lev_cons. generalize (IH y) (IH (d :: y)) IHy. cbn [List.length]. destruct (c =? d); lia.
Qed.
Lemma lev_other p (c : N) : ~ In c p -> forall k, lev p (repeat c k) = Nat.max (List.length p) k.
Proof.
  induction p as [|e p IH]; intros H k; [rewrite lev_nil_l, repeat_length; reflexivity|].
  induction k as [|k IHk]; [cbn [repeat]; rewrite lev_nil_r; cbn [List.length]; lia|].
  cbn [repeat]. rewrite lev_cons. assert (E : (e =? c) = false) by (apply N.eqb_neq; intros ->; apply H; left; reflexivity).
  rewrite E. assert (Hp : ~ In c p) by (intros G; apply H; right; exact G).
  change (c :: repeat c k) with (repeat c (S k)). rewrite !IH by exact Hp. rewrite IHk. cbn [List.length]. lia.
Qed.
Lemma row_flat c k s : forall p, ~ In c p -> ~ In c s -> (List.length p + List.length s <= k)%nat ->
  row_of p s (repeat c k) = repeat (N.of_nat k) (S (List.length s)).
Proof.
  induction s as [|r s IH]; intros p Hp Hs L; cbn [row_of List.length repeat] in *;
    rewrite lev_other, Nat.max_r by (auto; lia); [reflexivity|].
  f_equal. rewrite IH; [reflexivity| | |cbn [List.length]; lia].
  - intros [->|G]; [apply Hs; left; reflexivity|exact (Hp G)].
  - intros G. apply Hs. right. exact G.
Qed.
Lemma dist_rows_snoc s t c : forall i x,
  dist_rows i s (t ++ [c]) x = dist_row c s (w16 (i + N.of_nat (List.length t))) (dist_rows i s t x).
Proof.
  induction t as [|d t IH]; intros i x; cbn [app dist_rows List.length]; [rewrite N.add_0_r; reflexivity|].
  rewrite IH. do 2 f_equal. lia.
Qed.
Lemma runes_repeat n : runes (repeat 65 n) = repeat 65 n.
Proof. induction n as [|n IH]; [reflexivity|]. cbn [repeat]. unfold runes in *. cbn. f_equal. exact IH. Qed.
Lemma trim_differs x y : (forall c : N, In c x -> ~ In c y) -> trim_common x y = (x, y).
Proof.
  intros H. destruct x as [|c x]; [reflexivity|]. destruct y as [|d y]; [reflexivity|]. cbn [trim_common].
  destruct (c =? d) eqn:E; [|reflexivity]. apply N.eqb_eq in E. subst d. exfalso. apply (H c); left; reflexivity.
Qed.
Lemma in_repeat_eq (c d : N) n : In c (repeat d n) -> c = d. Proof. apply repeat_spec. Qed.

(** What the program takes for the distance to the flag *)
Definition overflown (f : bytes) : N := last (dist_row 65 (runes f) 65535 (repeat 65534 (S (rune_count f)))) 0.
Lemma compute_overflown f m : N.of_nat m = 65534 -> f <> [] -> ~ In 65 (runes f) -> (rune_count f < 100)%nat ->
  compute_distance f (repeat 65 (S m)) = overflown f.
Proof.
  intros Hm Hf H L. unfold compute_distance. destruct f as [|c f]; [congruence|]. cbn [is_empty repeat].
  destruct (beqb (c :: f) (65 :: repeat 65 m)) eqn:E.
  { exfalso. apply beqb_eq in E. rewrite E in H. change (65 :: repeat 65 m) with (repeat 65 (S m)) in H. rewrite runes_repeat in H.
    apply H. left. reflexivity. }
  change (65 :: repeat 65 m) with (repeat 65 (S m)). rewrite runes_repeat, repeat_length. unfold rune_count in *.
  set (s := runes (c :: f)) in *.
  assert (E1 : Nat.ltb (S m) (List.length s) = false) by (apply Nat.ltb_ge; lia). rewrite E1.
  unfold trim_common_suffix. rewrite trim_differs.
  2:{ intros d D G. apply in_rev in G. apply in_repeat_eq in G. subst d. apply H, in_rev, D. }
  rewrite !rev_involutive. rewrite trim_differs.
  2:{ intros d D G. apply in_repeat_eq in G. subst d. exact (H D). }
  replace (repeat 65 (S m)) with (repeat 65 m ++ [65]).
  2:{ clear. induction m; [reflexivity|]. cbn [repeat app] in *. rewrite IHm. reflexivity. }
  rewrite dist_rows_snoc, repeat_length. change 0 with (N.of_nat (@List.length N [])) at 1.
  rewrite first_row_is by (cbn [List.length]; lia).
  rewrite dist_rows_is; [|reflexivity|lia|rewrite repeat_length; cbn [List.length]; lia].
  rewrite app_nil_r. assert (R : rev (repeat 65 m) = repeat 65 m).
  { clear. induction m; [reflexivity|]. cbn [repeat rev]. rewrite IHm. clear. induction m; [reflexivity|]. cbn [repeat app]. rewrite IHm. reflexivity. }
  rewrite R, row_flat; [|intros []|exact H|cbn [List.length]; lia].
  unfold overflown. rewrite Hm. replace (w16 (1 + 65534)) with 65535 by reflexivity. reflexivity.
Qed.
Transparent visit_all.
Lemma flags_plain f : In f flag_names -> f <> [] /\ ~ In 65 (runes f) /\ (rune_count f < 100)%nat.
Proof.
  assert (A : forallb (fun f => negb (is_empty f) && negb (existsb (N.eqb 65) (runes f)) && Nat.ltb (rune_count f) 100) flag_names = true)
    by (vm_compute; reflexivity).
  intros H. rewrite forallb_forall in A. specialize (A f H). apply andb_prop in A. destruct A as [A A3]. apply andb_prop in A.
  destruct A as [A1 A2]. apply Nat.ltb_lt in A3. repeat split; [intros ->; discriminate| |exact A3].
  intros G. apply Bool.negb_true_iff in A2. rewrite <- Bool.not_true_iff_false in A2. apply A2, existsb_exists.
  exists 65. split; [exact G|reflexivity].
Qed.
Lemma overflown_choice :
  fold_left (fun best (f : bytes * bytes) => if overflown (fst f) <? fst best then (overflown (fst f), fst f) else best)
    visit_all (10000, []) = (0, b "v").
Proof. vm_compute. reflexivity. Qed.
Opaque visit_all.
Lemma fold_same {A B} (f g : A -> B -> A) l : (forall a x, In x l -> f a x = g a x) -> forall a, fold_left f l a = fold_left g l a.
Proof.
  induction l as [|x l IH]; intros H a; [reflexivity|]. cbn [fold_left]. rewrite H by (left; reflexivity).
  apply IH. intros. apply H. right. assumption.
Qed.
Lemma long_name m : N.of_nat m = 65534 -> alternative_flag (repeat 65 (S m)) = b "v".
Proof.
  intros Hm. unfold alternative_flag.
  rewrite (fold_same _ (fun best (f : bytes * bytes) => if overflown (fst f) <? fst best then (overflown (fst f), fst f) else best)).
  - rewrite overflown_choice. unfold rune_count. rewrite runes_repeat, repeat_length.
    assert (E : (N.of_nat (S m) <=? 0) = false) by (apply N.leb_gt; lia). rewrite E. reflexivity.
  - intros a f F. unfold closer. destruct (flags_plain (fst f)) as (F1 & F2 & F3); [apply in_map, F|].
    rewrite (compute_overflown (fst f) m Hm F1 F2 F3). reflexivity.
Qed.
Lemma long_suggestion : exists name, alternative_flag name <> [] /\
  forall w g d, accepted_flag w g -> distance (runes g) (runes name) d -> (1000 < d)%nat.
Proof.
  remember (N.to_nat 65534) as m eqn:M. assert (Hm : N.of_nat m = 65534) by (subst m; apply N2Nat.id). clear M.
  exists (repeat 65 (S m)). split; [rewrite (long_name m Hm); discriminate|].
  intros w g d G D. apply known_iff in G. apply flags_plain in G. apply distance_lev in D. subst d.
  generalize (lev_min (runes g) (runes (repeat 65 (S m)))). rewrite runes_repeat, repeat_length.
  unfold rune_count in G. lia.
Qed.
