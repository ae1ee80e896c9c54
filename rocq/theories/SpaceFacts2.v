(** The exact result of AddSpace (C73). *)
From Coq Require Import List NArith Bool String Lia.
From Verif Require Import Bytes Dom DomUtils DomFacts4 BlockFacts RenderInv DomFacts6 SpaceFacts SpecSpace.
Import ListNotations.
Open Scope list_scope.

Section exact.
Variables (l m : list bytes).
Fixpoint spaced_list (before : bool) (ks : list node) : list node :=
  match ks with
  | [] => []
  | k :: r => (match k with Text d => Text (blank before ++ d ++ blank (code_next l m r)) | _ => spaced l m k end)
              :: spaced_list (named l k && ends_with m k) r
  end.
Fixpoint apart_list (prev : option node) (ks : list node) : bool :=
  match ks with
  | [] => true
  | k :: r => (negb (named l k) ||
               edges k && (negb (starts_with m k) || before_ok prev) && (negb (ends_with m k) || before_ok (hd_error r)))
              && spans_apart l m k && apart_list (Some k) r
  end.
Lemma spaced_eq n : spaced l m n = with_kids n (spaced_list false (kids n)).
Proof. destruct n; reflexivity. Qed.
Lemma apart_eq n : spans_apart l m n = apart_list None (kids n).
Proof. destruct n; reflexivity. Qed.

Fixpoint need (n : node) : nat := match n with Elem _ _ ks | Doc ks => 2 + total (fun k => S (need k)) ks | _ => 2 end.
Definition needs (ks : list node) : nat := S (total (fun k => S (need k)) ks).
Lemma need_eq n : need n = S (needs (kids n)).
Proof. destruct n; reflexivity. Qed.

(** A space for the node next to emphasis *)
Definition put (fwd : bool) (n : node) : node := match n with Text d => Text (if fwd then 32%N :: d else d ++ [32%N]) | _ => n end.
Definition put_hd (fwd c : bool) (ks : list node) : list node := if c then match ks with k :: r => put fwd k :: r | [] => [] end else ks.
Lemma put_need fwd n : need (put fwd n) = need n. Proof. destruct n; reflexivity. Qed.
Lemma put_needs fwd c ks : needs (put_hd fwd c ks) = needs ks.
Proof. unfold put_hd, needs. destruct c, ks as [|k r]; try reflexivity. cbn [total fold_right]. now rewrite put_need. Qed.
Lemma put_named fwd s n : named s (put fwd n) = named s n. Proof. destruct n; reflexivity. Qed.
Lemma put_kids fwd n : kids (put fwd n) = kids n. Proof. destruct n; reflexivity. Qed.
Lemma touch_put fwd n : not_span n = true -> touch fwd n = (put fwd n, true).
Proof.
  unfold not_span. intros H. destruct n as [d|x a ks|d|ks|d]; try reflexivity. cbn [touch]. unfold is_span.
  destruct (named [b "span"] (Elem x a ks)); [discriminate|reflexivity].
Qed.
Lemma stack_put fwd c ks up : (c = true -> before_ok (hd_error ks) = true) ->
  (if c then touch_stack fwd (ks :: up) else ks :: up) = put_hd fwd c ks :: up.
Proof.
  intros H. destruct c; [|reflexivity]. specialize (H eq_refl). destruct ks as [|k r]; [discriminate|]. cbn [hd_error before_ok] in H.
  cbn [touch_stack touch_list put_hd]. now rewrite (touch_put fwd k H).
Qed.
Lemma real_not_span fwd n : not_span n = true -> first_real fwd n = Some n.
Proof.
  unfold not_span. intros H. destruct n as [d|x a ks|d|ks|d]; try reflexivity. cbn [first_real]. unfold is_span.
  destruct (named [b "span"] (Elem x a ks)); [discriminate|reflexivity].
Qed.
Lemma starts_first e rt : edges e = true -> negb (is_empty (kids e)) && opt_is (named m) (first_real_stack true (kids e :: rt)) = starts_with m e.
Proof.
  unfold edges, starts_with. intros H. destruct (kids e) as [|k r] eqn:E; [reflexivity|]. cbn [is_empty negb andb first_real_stack first_real_list].
  destruct (rev (k :: r)) as [|k2 q] eqn:E2; [apply (f_equal (@rev node)) in E2; rewrite rev_involutive in E2; discriminate|].
  apply andb_true_iff in H as [H1 H2]. now rewrite (real_not_span true k H1).
Qed.
Lemma ends_first e lt : edges e = true -> negb (is_empty (kids e)) && opt_is (named m) (first_real_stack false (rev (kids e) :: lt)) = ends_with m e.
Proof.
  unfold edges, ends_with. intros H. destruct (kids e) as [|k r] eqn:E; [reflexivity|]. cbn [is_empty negb andb].
  destruct (rev (k :: r)) as [|k2 q] eqn:E2; [apply (f_equal (@rev node)) in E2; rewrite rev_involutive in E2; discriminate|].
  apply andb_true_iff in H as [H1 H2]. cbn [first_real_stack first_real_list]. now rewrite (real_not_span false k2 H2).
Qed.

Lemma code_next_put fwd c r : code_next l m (put_hd fwd c r) = code_next l m r.
Proof. unfold put_hd. destruct c, r as [|k r]; try reflexivity. cbn [code_next]. unfold starts_with. now rewrite put_named, put_kids. Qed.
Lemma apart_prev p p' ks : before_ok p = before_ok p' -> apart_list p ks = apart_list p' ks.
Proof. intros H. destruct ks as [|k r]; [reflexivity|]. cbn [apart_list]. now rewrite H. Qed.
Lemma spans_apart_put fwd k : spans_apart l m (put fwd k) = spans_apart l m k. Proof. destruct k; reflexivity. Qed.
Lemma not_span_put fwd k : not_span (put fwd k) = not_span k. Proof. unfold not_span. now rewrite put_named. Qed.
Lemma apart_put fwd c p ks : apart_list p (put_hd fwd c ks) = apart_list p ks.
Proof.
  unfold put_hd. destruct c, ks as [|k r]; try reflexivity. cbn [apart_list]. unfold edges, starts_with, ends_with. rewrite put_named, !put_kids, spans_apart_put.
  f_equal. apply apart_prev. cbn [before_ok]. apply not_span_put.
Qed.
Lemma not_span_spaced k : not_span (spaced l m k) = not_span k. Proof. unfold not_span. rewrite spaced_eq. destruct k; reflexivity. Qed.
Lemma spaced_put c ks : spaced_list false (put_hd true c ks) = spaced_list c ks.
Proof. unfold put_hd. destruct c, ks as [|[d|x a q|d|q|d] r]; reflexivity. Qed.

Definition exact_list (f : nat) : Prop := forall done todo lt rt, (needs todo <= f)%nat -> apart_list (hd_error done) todo = true ->
  add_space_list (named l) (named m) f done todo lt rt = (rev (put_hd false (code_next l m todo) done) ++ spaced_list false todo, lt, rt).
Lemma exact_node f : exact_list f -> forall n lt rt, (need n <= S f)%nat -> spans_apart l m n = true ->
  (named l n = true -> edges n = true) ->
  add_space (named l) (named m) (S f) n lt rt =
    let lt1 := if named l n && starts_with m n then touch_stack false lt else lt in
    let rt1 := if named l n && ends_with m n then touch_stack true rt else rt in
    (spaced l m n, lt1, rt1).
Proof.
  intros IH n lt rt Hn Ha He. cbn [add_space]. rewrite need_eq in Hn. rewrite apart_eq in Ha. rewrite spaced_eq.
  assert (L : forall lt rt, add_space_list (named l) (named m) f [] (kids n) lt rt = (spaced_list false (kids n), lt, rt)).
  { intros lt' rt'. rewrite IH; [|lia|exact Ha]. unfold put_hd. destruct (code_next l m (kids n)); reflexivity. }
  destruct (named l n); cbn [andb].
  - rewrite (starts_first n rt (He eq_refl)), (ends_first n _ (He eq_refl)), L. reflexivity.
  - rewrite L. reflexivity.
Qed.
Lemma exact_lists f : exact_list f.
Proof.
  assert (G : forall f, exact_list f /\ exact_list (S f)).
  2:{ apply G. }
  clear f. induction f as [|f [IH1 IH]].
  - split; intros done todo lt rt H; unfold needs in H; [lia|]. destruct todo as [|k r]; [|rewrite total_cons in H; lia]. intros _. cbn [add_space_list code_next put_hd spaced_list]. now rewrite app_nil_r.
  - split; [exact IH|]. intros done todo lt rt H Ha. destruct todo as [|x r]; [cbn [add_space_list code_next put_hd spaced_list]; now rewrite app_nil_r|].
    unfold needs in H. rewrite total_cons in H. cbn [apart_list] in Ha. apply andb_true_iff in Ha as [Ha Hr]. apply andb_true_iff in Ha as [Hx Ha].
    assert (He : named l x = true -> edges x = true /\ (starts_with m x = true -> before_ok (hd_error done) = true) /\ (ends_with m x = true -> before_ok (hd_error r) = true)).
    { intros E. rewrite E in Hx. cbn [negb orb] in Hx. apply andb_true_iff in Hx as [Hx H3]. apply andb_true_iff in Hx as [H1 H2]. split; [exact H1|].
      split; intros E'; rewrite E' in *; cbn in H2, H3; assumption. }
    remember (S f) as g eqn:Eg. cbn [add_space_list]. subst g. rewrite (exact_node f IH1); [|lia|exact Ha|intros E; apply He, E]. cbv zeta.
    rewrite !stack_put by (intros E; apply andb_true_iff in E as [E1 E2]; destruct (He E1) as (_ & A & B); auto). cbn [hd tl].
    rewrite IH.
    + rewrite code_next_put, spaced_put. cbn [code_next]. f_equal. f_equal.
      assert (Q : rev (put_hd false (code_next l m r) (spaced l m x :: put_hd false (named l x && starts_with m x) done)) =
        rev (put_hd false (named l x && starts_with m x) done) ++ [match x with Text d => Text (blank false ++ d ++ blank (code_next l m r)) | _ => spaced l m x end]).
      { unfold put_hd at 1. destruct (code_next l m r); cbn [rev]; f_equal; f_equal; destruct x; cbn [spaced put blank app]; rewrite ?app_nil_r; reflexivity. }
      rewrite Q, <- app_assoc. reflexivity.
    + rewrite put_needs. unfold needs. lia.
    + rewrite apart_put, <- Hr. apply apart_prev. cbn [hd_error before_ok]. apply not_span_spaced.
Qed.
Lemma exact_spaces ks : spans_apart l m (Doc ks) = true -> add_space_root (named l) (named m) (Doc ks) = spaced l m (Doc ks).
Proof.
  intros H. rewrite (space_fuel_enough _ _ _ (S (merge_fuel (Doc ks) + need (Doc ks)))) by lia.
  rewrite (exact_node _ (exact_lists _)); [reflexivity|lia|exact H|discriminate].
Qed.
End exact.
