(** The flag suggested for an unknown one. *)
From Coq Require Import List NArith Arith Bool String Lia ZifyBool ZifyNat ZifyN.
From Verif Require Import Bytes Cli SpecCli CliText SpecCliText CliTextFacts1.
Import ListNotations.
Open Scope N_scope.
Open Scope list_scope.

Lemma blt_before x : forall y, blt x y = true -> before x y.
Proof.
  induction x as [|c x IH]; intros [|d y] H; cbn [blt] in H; try discriminate.
  - left. exists d, y. reflexivity.
  - apply orb_prop in H. destruct H as [H|H].
    + right. exists [], c, d, x, y. repeat split. apply N.ltb_lt, H.
    + apply andb_prop in H. destruct H as [H1 H2]. apply N.eqb_eq in H1. subst d.
      destruct (IH y H2) as [(e & t & ->)|(p & e & f & s & t & -> & -> & L)].
      * left. exists e, t. reflexivity.
      * right. exists (c :: p), e, f, s, t. repeat split. exact L.
Qed.
(** ** The flags of the list are those of the parser. *)
Definition flag_names : list bytes := map fst visit_all.
Lemma known_iff w f : accepted_flag w f <-> In f flag_names.
Proof.
  unfold accepted_flag. split.
  - intros H. unfold find_flag in H.
    assert (G : forall x y, beqb x y = true -> x = y) by (intros; apply beqb_eq; assumption).
    repeat match type of H with
    | (if ?c then _ else _) <> None => destruct c eqn:?
    end; try (exfalso; apply H; reflexivity);
    repeat match goal with
    | E : _ || _ = true |- _ => apply orb_prop in E; destruct E as [E|E]
    | E : beqb f _ = true |- _ => apply G in E; rewrite E; clear; vm_compute; tauto
    end.
  - intros H. assert (A : forall g, In g flag_names -> find_flag (w_selector w) (w_parse w) g <> None).
    { apply Forall_forall. unfold flag_names. vm_compute map. repeat constructor; discriminate. }
    apply A, H.
Qed.
Lemma names_sorted : forall i j, (i < j < 17)%nat -> blt (nth i flag_names []) (nth j flag_names []) = true.
Proof.
  assert (A : forallb (fun i => forallb (fun j => implb (Nat.ltb i j) (blt (nth i flag_names []) (nth j flag_names []))) (seq 0 17)) (seq 0 17) = true)
    by (vm_compute; reflexivity).
  intros i j [H1 H2]. rewrite forallb_forall in A. specialize (A i). rewrite forallb_forall in A.
  assert (Hi : In i (seq 0 17)) by (apply in_seq; lia). assert (Hj : In j (seq 0 17)) by (apply in_seq; lia).
  specialize (A Hi j Hj). destruct (Nat.ltb i j) eqn:E; [exact A|apply Nat.ltb_ge in E; lia].
Qed.
Lemma names_short f : In f flag_names -> f <> [] /\ (rune_count f < 100)%nat.
Proof.
  apply (Forall_forall (fun f => f <> [] /\ (rune_count f < 100)%nat)). unfold flag_names. vm_compute map.
  repeat constructor; try discriminate; apply Nat.ltb_lt; vm_compute; reflexivity.
Qed.

Lemma names_seventeen : List.length flag_names = 17%nat. Proof. vm_compute. reflexivity. Qed.
Opaque visit_all.

(** ** The first of the nearest *)
Lemma nearest unknown l : forall best,
  let r := fold_left (closer unknown) l best in
  (r = best /\ forall g, In g l -> fst best <= compute_distance (fst g) unknown) \/
  exists l1 f l2, l = l1 ++ f :: l2 /\ r = (compute_distance (fst f) unknown, fst f) /\ fst r < fst best /\
    (forall g, In g l1 -> fst r < compute_distance (fst g) unknown) /\
    (forall g, In g l2 -> fst r <= compute_distance (fst g) unknown).
Proof.
  induction l as [|h l IH]; intros best; cbn [fold_left]; [left; split; [reflexivity|intros g []]|].
  cbn zeta in *. unfold closer at 2 4 6 8 10. destruct (compute_distance (fst h) unknown <? fst best) eqn:E.
  - apply N.ltb_lt in E.
    destruct (IH (compute_distance (fst h) unknown, fst h)) as [[R M]|(l1 & f & l2 & -> & R & L & M1 & M2)].
    + right. exists [], h, l. rewrite R. cbn [fst] in *. repeat split; auto. intros g [].
    + right. exists (h :: l1), f, l2. cbn [fst] in L. repeat split; auto; [lia|].
      intros g [<-|G]; [exact L|auto].
  - apply N.ltb_ge in E. destruct (IH best) as [[R M]|(l1 & f & l2 & -> & R & L & M1 & M2)].
    + left. split; [exact R|]. intros g [<-|G]; auto.
    + right. exists (h :: l1), f, l2. repeat split; auto. intros g [<-|G]; [lia|auto].
Qed.
Lemma nth_mid {A} (l1 : list A) f l2 d : nth (List.length l1) (l1 ++ f :: l2) d = f.
Proof. rewrite app_nth2, Nat.sub_diag by lia. reflexivity. Qed.
Lemma split_order l1 f l2 g : map fst visit_all = l1 ++ f :: l2 -> In g l2 -> before f g.
Proof.
  intros E G. apply in_split in G. destruct G as (m1 & m2 & ->). apply blt_before.
  assert (Len := names_seventeen).
  unfold flag_names in *.
  generalize (names_sorted (List.length l1) (List.length (l1 ++ f :: m1))). unfold flag_names. rewrite E.
  replace (l1 ++ f :: m1 ++ g :: m2) with ((l1 ++ f :: m1) ++ g :: m2) at 2 by (rewrite <- app_assoc; reflexivity).
  rewrite !nth_mid. intros H. apply H. rewrite E in Len. rewrite app_length in *. cbn [List.length] in *. rewrite app_length in *.
  cbn [List.length] in *. lia.
Qed.
Lemma suggestion w name f : N.of_nat (rune_count name) < 65535 -> alternative_flag name = f -> f <> [] ->
  accepted_flag w f /\
  exists d, distance (runes f) (runes name) d /\ (d <= 4)%nat /\ (d < rune_count name)%nat /\
    forall g e, accepted_flag w g -> distance (runes g) (runes name) e -> (d <= e)%nat /\ (e = d -> g = f \/ before f g).
Proof.
  intros Hn A Hf. unfold alternative_flag in A.
  assert (C : forall g, In g flag_names -> compute_distance g name = N.of_nat (lev (runes g) (runes name))).
  { intros g G. apply compute_lev; [|exact Hn]. generalize (names_short g G). lia. }
  generalize (nearest name visit_all (10000, [])). destruct (fold_left (closer name) visit_all (10000, [])) as [d f'] eqn:E.
  destruct (N.of_nat (rune_count name) <=? d) eqn:E1; [congruence|]. destruct (4 <? d) eqn:E2; [congruence|]. subst f'.
  cbn zeta. intros [[R _]|(l1 & h & l2 & V & R & _ & M1 & M2)]; [congruence|].
  cbn [fst] in M1, M2. injection R as Rd Rf.
  assert (F : flag_names = map fst l1 ++ f :: map fst l2) by (unfold flag_names; rewrite V, map_app; cbn [map]; rewrite <- Rf; reflexivity).
  assert (In f flag_names) as If by (rewrite F; apply in_or_app; right; left; reflexivity).
  rewrite <- Rf in Rd. rewrite C in Rd by exact If.
  split; [apply known_iff, If|]. exists (lev (runes f) (runes name)). split; [apply lev_distance|]. split; [lia|]. split; [lia|]. intros g e H H0. split.
  - apply known_iff in H. apply distance_lev in H0. rewrite F in H. apply in_app_or in H. destruct H as [H|[H|H]].
    + apply in_map_iff in H. destruct H as (k & <- & H). specialize (M1 k H). rewrite C in M1; [lia|].
      rewrite F. apply in_or_app. left. apply in_map, H.
    + subst g. lia.
    + apply in_map_iff in H. destruct H as (k & <- & H). specialize (M2 k H). rewrite C in M2; [lia|].
      rewrite F. apply in_or_app. right. right. apply in_map, H.
  - intros ->. apply known_iff in H. apply distance_lev in H0. rewrite F in H. apply in_app_or in H. destruct H as [H|[H|H]].
    + apply in_map_iff in H. destruct H as (k & <- & H). specialize (M1 k H). rewrite C in M1; [lia|].
      rewrite F. apply in_or_app. left. apply in_map, H.
    + left. auto.
    + right. apply (split_order (map fst l1) f (map fst l2)); [exact F|exact H].
Qed.
Lemma no_suggestion w name : N.of_nat (rune_count name) < 65535 -> alternative_flag name = [] ->
  forall g d, accepted_flag w g -> distance (runes g) (runes name) d -> (4 < d)%nat \/ (rune_count name <= d)%nat.
Proof.
  intros Hn A g d G D. apply known_iff in G. apply distance_lev in D. unfold alternative_flag in A.
  assert (C : forall g, In g flag_names -> compute_distance g name = N.of_nat (lev (runes g) (runes name))).
  { intros k K. apply compute_lev; [|exact Hn]. generalize (names_short k K). lia. }
  generalize (nearest name visit_all (10000, [])). destruct (fold_left (closer name) visit_all (10000, [])) as [d' f'] eqn:E.
  assert (G' := G). unfold flag_names in G'. apply in_map_iff in G'. destruct G' as (k & <- & K).
  cbn zeta. intros [[R M]|(l1 & h & l2 & V & R & _ & M1 & M2)].
  - specialize (M k K). cbn [fst] in M. rewrite C in M by exact G. lia.
  - cbn [fst] in *. injection R as Rd Rf.
    assert (L : d' <= compute_distance (fst k) name).
    { rewrite V in K. apply in_app_or in K. destruct K as [K|[<-|K]]; [specialize (M1 k K); lia|lia|apply M2, K]. }
    rewrite C in L by exact G.
    destruct (N.of_nat (rune_count name) <=? d') eqn:E1; [lia|]. destruct (4 <? d') eqn:E2; [lia|].
    exfalso. assert (If : In f' flag_names).
    { unfold flag_names. rewrite V, map_app, Rf. apply in_or_app. right. left. reflexivity. }
    exact (proj1 (names_short f' If) A).
Qed.
