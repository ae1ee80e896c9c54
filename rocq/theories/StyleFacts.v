(** No character loses its formatting while the tree is prepared (C63). *)
From Coq Require Import List NArith ZArith Bool String Lia.
From Verif Require Import Bytes BytesFacts TextUtils TextFacts2 Dom DomUtils Collapse SpecDom RenderInv DomFacts SpecStyle.
Import ListNotations.
Open Scope N_scope.
Open Scope list_scope.

Section style.
Variable keep : N -> bool.
Variable p : bytes -> bool.          (* the class *)
Variable ok : bytes -> bool.         (* the names that occur *)
Variable gain : bool.                (* may a character come into the class? *)

Definition up (i j : bool) : Prop := i = j \/ (gain = true /\ j = true).
Lemma up_refl i : up i i. Proof. now left. Qed.
Lemma up_trans i j k : up i j -> up j k -> up i k.
Proof. intros [-> | [G E]] [<- | [G' E']]; unfold up; auto. Qed.
Lemma up_or i j k l : up i j -> up k l -> up (i || k) (j || l).
Proof. intros [-> | [G ->]] [-> | [G' ->]]; unfold up; auto. right. now rewrite orb_true_r. Qed.
Definition more : list (N * bool) -> list (N * bool) -> Prop := Forall2 (fun u v => fst u = fst v /\ up (snd u) (snd v)).
Lemma more_refl l : more l l.
Proof. induction l; constructor; auto. split; auto using up_refl. Qed.
Lemma more_eq l m : l = m -> more l m.
Proof. intros ->. apply more_refl. Qed.
Lemma more_trans a c d : more a c -> more c d -> more a d.
Proof.
  intros H. revert d. induction H as [|u v a c [H1 H2] H IH]; intros d K; inversion K as [|? w ? ? [K1 K2] K']; subst; constructor; [|apply IH; exact K'].
  split; [congruence | eauto using up_trans].
Qed.
Lemma more_app a a' c c' : more a a' -> more c c' -> more (a ++ c) (a' ++ c').
Proof. apply Forall2_app. Qed.

Fixpoint sx (i : bool) (n : node) : list (N * bool) :=
  match n with
  | Text d => map (fun c => (c, i)) (filter keep d)
  | Elem x _ ks => flat_map (sx (i || p x)) ks
  | Doc ks => flat_map (sx i) ks
  | _ => []
  end.
Definition sxs (i : bool) (ks : list node) : list (N * bool) := flat_map (sx i) ks.
Lemma sx_elem i x a ks : sx i (Elem x a ks) = sxs (i || p x) ks. Proof. reflexivity. Qed.
Lemma sx_doc i ks : sx i (Doc ks) = sxs i ks. Proof. reflexivity. Qed.
Lemma sxs_app i a c : sxs i (a ++ c) = sxs i a ++ sxs i c. Proof. apply flat_map_app. Qed.
Lemma sxs_cons i k ks : sxs i (k :: ks) = sx i k ++ sxs i ks. Proof. reflexivity. Qed.
Lemma sxs_one i k : sxs i [k] = sx i k. Proof. apply app_nil_r. Qed.
Lemma sx_up i j n : up i j -> more (sx i n) (sx j n).
Proof.
  revert i j. induction n using node_induction; intros i j U; cbn [sx]; try apply more_refl.
  - induction (filter keep d); simpl; constructor; auto. 
  - assert (V : up (i || p x) (j || p x)) by auto using up_or, up_refl.
    induction H; simpl. constructor. apply more_app; auto.
  - induction H; simpl. constructor. apply more_app; auto.
Qed.
Lemma sxs_up i j ks : up i j -> more (sxs i ks) (sxs j ks).
Proof. intros U. induction ks; simpl. constructor. apply more_app; auto using sx_up. Qed.

(** good nodes: children of a tidy tree with allowed names *)
Fixpoint gt (n : node) : bool :=
  match n with
  | Elem x _ ks => ok x && (negb (name_in childless x) || is_empty ks) && forallb gt ks
  | Doc _ => false
  | _ => true
  end.
Definition gts (ks : list node) : bool := forallb gt ks.
Definition gr (n : node) : bool := match n with Doc ks => gts ks | _ => gt n end.
Lemma gt_elem x a ks : gt (Elem x a ks) = true <-> ok x = true /\ (name_in childless x = true -> ks = []) /\ gts ks = true.
Proof.
  cbn [gt]. rewrite !andb_true_iff. split.
  - intros [[A B] C]. repeat split; auto. intros E. rewrite E in B. destruct ks; auto. discriminate.
  - intros (A & B & C). repeat split; auto. destruct (name_in childless x); auto. now rewrite B.
Qed.
Lemma gts_app a c : gts (a ++ c) = gts a && gts c. Proof. apply forallb_app. Qed.
Lemma gts_cons k ks : gts (k :: ks) = gt k && gts ks. Proof. reflexivity. Qed.
Lemma gts_rev l : gts l = true -> gts (rev l) = true.
Proof. intros H. apply forallb_forall. intros x I. apply in_rev in I. unfold gts in H. rewrite forallb_forall in H. auto. Qed.

Definition fine (k : node) (ns : list node) : Prop := gt k = true -> (forall i, more (sx i k) (sxs i ns)) /\ gts ns = true.
Definition finel (ks ns : list node) : Prop := gts ks = true -> (forall i, more (sxs i ks) (sxs i ns)) /\ gts ns = true.
Definition finer (n m : node) : Prop := gr n = true -> (forall i, more (sx i n) (sx i m)) /\ gr m = true.
Lemma finer_refl n : finer n n. Proof. intros T. auto using more_refl. Qed.
Lemma finer_trans a c d : finer a c -> finer c d -> finer a d.
Proof. intros H K T. destruct (H T) as [A B], (K B) as [C D]. split; eauto using more_trans. Qed.
Lemma finel_refl l : finel l l. Proof. intros T. auto using more_refl. Qed.
Lemma finel_trans a c d : finel a c -> finel c d -> finel a d.
Proof. intros H K T. destruct (H T) as [A B], (K B) as [C D]. split; eauto using more_trans. Qed.
Lemma fine_refl k : fine k [k].
Proof. intros T. split. intros i. rewrite sxs_one. apply more_refl. cbn. now rewrite T. Qed.
Lemma finel_cons k ks ns ms : fine k ns -> finel ks ms -> finel (k :: ks) (ns ++ ms).
Proof.
  intros H K T. rewrite gts_cons in T. apply andb_true_iff in T as [T1 T2]. destruct (H T1) as [A B], (K T2) as [C D].
  split. intros i. rewrite sxs_app, sxs_cons. now apply more_app. now rewrite gts_app, B, D.
Qed.
Lemma finel_flat_map f ks : Forall (fun k => fine k (f k)) ks -> finel ks (flat_map f ks).
Proof. intros F. induction F; simpl. apply finel_refl. now apply finel_cons. Qed.
Lemma finel_map f ks : Forall (fun k => fine k [f k]) ks -> finel ks (map f ks).
Proof. intros F. induction F; simpl. apply finel_refl. now apply (finel_cons x l [f x] (map f l)). Qed.
Lemma fine_elem x a ks y c ms : (ok x = true -> ok y = true /\ up (p x) (p y)) -> (name_in childless y = true -> name_in childless x = true) ->
  (ks = [] -> ms = []) -> finel ks ms -> fine (Elem x a ks) [Elem y c ms].
Proof.
  intros O V E F T. apply gt_elem in T as (T1 & T2 & T3). destruct (F T3) as [A B]. destruct (O T1) as [O1 O2]. split.
  - intros i. rewrite sxs_one, !sx_elem. eapply more_trans; [apply A | apply sxs_up]. auto using up_or, up_refl.
  - rewrite gts_cons. apply andb_true_iff. split; auto. apply gt_elem. repeat split; auto.
Qed.
Lemma fine_kids x a ks ms : (ks = [] -> ms = []) -> finel ks ms -> fine (Elem x a ks) [Elem x a ms].
Proof. intros. apply fine_elem; auto using up_refl. Qed.
Lemma fine_root n m : is_doc n = false -> fine n [m] -> finer n m.
Proof.
  intros D F T. assert (G : gt n = true) by (destruct n; auto; discriminate). destruct (F G) as [A B]. split.
  - intros i. rewrite <- (sxs_one i m). apply A.
  - cbn in B. rewrite andb_true_r in B. destruct m; auto. discriminate.
Qed.
Lemma finel_root ks ms : finel ks ms -> finer (Doc ks) (Doc ms).
Proof. intros F T. destruct (F T). split; auto. Qed.
Lemma doc_fine ks ns : fine (Doc ks) ns. Proof. intros T. discriminate. Qed.
Lemma node_step f : (forall n, fine n [f n]) -> (forall ks, finer (Doc ks) (f (Doc ks))) -> forall n, finer n (f n).
Proof. intros H K n. destruct n; try (apply fine_root; auto; reflexivity). apply K. Qed.

(** merge_text *)
Lemma push_text_fine k done : gt k = true -> gts done = true ->
  (forall i, sxs i (rev (push_text k done)) = sxs i (rev done) ++ sx i k) /\ gts (push_text k done) = true.
Proof.
  intros Tk Td. assert (D : (forall i, sxs i (rev (k :: done)) = sxs i (rev done) ++ sx i k) /\ gts (k :: done) = true).
  { split. intros i. cbn [rev]. now rewrite sxs_app, sxs_one. cbn. now rewrite Tk. }
  destruct k; auto. simpl. destruct done as [|[]]; auto. split; auto.
  intros i. simpl. rewrite !sxs_app, !sxs_one. cbn [sx]. now rewrite filter_app, map_app, <- app_assoc.
Qed.
Lemma merge_list_fine (f : node -> node) ks : Forall (fun k => fine k [f k]) ks ->
  finel ks (rev (fold_left (fun acc k => push_text (f k) acc) ks [])).
Proof.
  intros F T.
  assert (G : forall acc, gts acc = true -> (forall i, more (sxs i (rev acc) ++ sxs i ks) (sxs i (rev (fold_left (fun acc k => push_text (f k) acc) ks acc)))) /\
                            gts (fold_left (fun acc k => push_text (f k) acc) ks acc) = true).
  { revert T. induction F as [|k ks Hk F IH]; intros T acc Ta; cbn [fold_left]. split; auto. intros. rewrite app_nil_r. apply more_refl.
    rewrite gts_cons in T. apply andb_true_iff in T as [T1 T2]. destruct (Hk T1) as [X1 X2].
    rewrite gts_cons in X2. apply andb_true_iff in X2 as [X2 _].
    destruct (push_text_fine (f k) acc X2 Ta) as [P1 P2]. destruct (IH T2 _ P2) as [I1 I2]. split; auto. intros i.
    eapply more_trans; [|apply I1]. rewrite P1, sxs_cons, <- app_assoc. apply more_app; auto using more_refl. apply more_app; auto using more_refl.
    rewrite <- (sxs_one i (f k)). apply X1. }
  destruct (G [] eq_refl). split; auto. now apply gts_rev.
Qed.
Lemma merge_text_fine n : fine n [merge_text n].
Proof.
  induction n using node_induction; cbn [merge_text]; try apply fine_refl; try apply doc_fine.
  apply fine_kids; auto using fold_nil_rev, merge_list_fine.
Qed.
Lemma merge_text_root n : finer n (merge_text n).
Proof.
  revert n. apply node_step. apply merge_text_fine. intros. cbn [merge_text]. apply finel_root, merge_list_fine.
  apply Forall_forall. intros; apply merge_text_fine.
Qed.

(** rename_fake_spans *)
Lemma rename_fine : ok (b "div") = true -> up (p (b "span")) (p (b "div")) -> forall n, fine n [rename_fake_spans n].
Proof.
  intros Od Ud. induction n using node_induction; cbn [rename_fake_spans]; try apply fine_refl; try apply doc_fine.
  destruct (beqb x (b "span") && _) eqn:E.
  - apply andb_true_iff in E as [E _]. apply beqb_eq in E. subst x. apply fine_elem; auto using finel_map; intros; now subst.
  - apply fine_kids; auto using finel_map. intros; now subst.
Qed.
Lemma rename_root : ok (b "div") = true -> up (p (b "span")) (p (b "div")) -> forall n, finer n (rename_fake_spans n).
Proof.
  intros Od Ud. apply node_step. now apply rename_fine. intros. cbn [rename_fake_spans]. apply finel_root, finel_map.
  apply Forall_forall. intros; now apply rename_fine.
Qed.

(** remove_redundant *)
Section redundant.
Variable cls : bytes -> option N.
Hypothesis Hcls : forall x y c, cls x = Some c -> cls y = Some c -> p x = p y.
Definition above (anc : list N) (i : bool) : Prop := forall c x, In c anc -> cls x = Some c -> p x = true -> i = true.
Definition fine_at (anc : list N) (k : node) (ns : list node) : Prop :=
  gt k = true -> (forall i, above anc i -> more (sx i k) (sxs i ns)) /\ gts ns = true.
Lemma flat_at anc ks : Forall (fun k => forall anc, fine_at anc k (redundant cls anc k)) ks -> gts ks = true ->
  (forall i, above anc i -> more (sxs i ks) (sxs i (flat_map (redundant cls anc) ks))) /\ gts (flat_map (redundant cls anc) ks) = true.
Proof.
  intros F. induction F as [|k ks Hk F IH]; intros T. simpl. auto using more_refl.
  rewrite gts_cons in T. apply andb_true_iff in T as [T1 T2]. destruct (IH T2) as [A B], (Hk anc T1) as [C D]. cbn [flat_map]. split.
  - intros i H. rewrite sxs_app, sxs_cons. auto using more_app.
  - now rewrite gts_app, D, B.
Qed.
Lemma redundant_fine n : forall anc, fine_at anc n (redundant cls anc n).
Proof.
  induction n using node_induction; intros anc; cbn [redundant]; try (intros T; split; [intros; rewrite sxs_one; apply more_refl | reflexivity]).
  all: try (intros T; discriminate T).
  intros T. apply gt_elem in T as (T1 & T2 & T3). destruct (cls x) as [c|] eqn:Ec.
  - destruct (existsb (N.eqb c) anc) eqn:Ea.
    + destruct (flat_at anc ks H T3) as [A B]. split; auto. intros i Hi. rewrite sx_elem.
      apply existsb_exists in Ea as (c' & Ia & Ea). apply N.eqb_eq in Ea. subst c'.
      assert (E : i || p x = i). { destruct (p x) eqn:Ep. rewrite (Hi _ _ Ia Ec Ep). reflexivity. apply orb_false_r. }
      rewrite E. auto.
    + destruct (flat_at (c :: anc) ks H T3) as [A B]. split.
      * intros i Hi. rewrite sxs_one, !sx_elem. apply A. intros c' y [<- | Iy] Ey Py.
        { rewrite (Hcls _ _ _ Ec Ey), Py. apply orb_true_r. } { now rewrite (Hi _ _ Iy Ey Py). }
      * rewrite gts_cons. apply andb_true_iff. split; auto. apply gt_elem. repeat split; auto. intros E. now rewrite (T2 E).
  - destruct (flat_at anc ks H T3) as [A B]. split.
    * intros i Hi. rewrite sxs_one, !sx_elem. apply A. intros c' y Iy Ey Py. now rewrite (Hi _ _ Iy Ey Py).
    * rewrite gts_cons. apply andb_true_iff. split; auto. apply gt_elem. repeat split; auto. intros E. now rewrite (T2 E).
Qed.
Lemma above_nil i : above [] i. Proof. intros c x []. Qed.
Lemma redundant_root n : finer n (remove_redundant cls n).
Proof.
  destruct n; try (apply fine_root; [reflexivity|]; rewrite <- redundant_one; intros T; destruct (redundant_fine _ [] T); split; auto using above_nil).
  unfold remove_redundant. cbn [redundant hd]. apply finel_root. intros T.
  destruct (flat_at [] kids (proj2 (Forall_forall _ _) (fun k _ => redundant_fine k)) T). split; auto using above_nil.
Qed.
End redundant.

(** remove_empty_code *)
Lemma no_text_sx n : has_text n = false -> forall i, sx i n = [].
Proof.
  induction n using node_induction; simpl; auto; try (intros E i; destruct d; auto; discriminate);
    intros E i; [generalize (i || p x) | generalize i]; clear i; intros i; induction H as [|k ks Hk H IH]; simpl in *; auto;
    apply orb_false_iff in E as [E1 E2]; now rewrite Hk, IH.
Qed.
Lemma empty_code_list ks : Forall (fun n => fine n [remove_empty_code n]) ks ->
  finel ks (flat_map (fun k => if is_empty_code k then [] else [remove_empty_code k]) ks).
Proof.
  intros H. apply finel_flat_map. eapply Forall_impl; [|exact H]. intros k Hk. cbv beta. destruct (is_empty_code k) eqn:E; auto.
  intros _. split; auto. intros i. unfold is_empty_code in E. apply andb_true_iff in E as [_ E]. apply negb_true_iff in E.
  rewrite no_text_sx; auto. constructor.
Qed.
Lemma empty_code_fine n : fine n [remove_empty_code n].
Proof.
  induction n using node_induction; cbn [remove_empty_code]; try apply fine_refl; try apply doc_fine.
  destruct (is_empty_code _). apply fine_refl. apply fine_kids; auto using empty_code_list. intros; now subst.
Qed.
Lemma empty_code_root n : finer n (remove_empty_code n).
Proof.
  revert n. apply node_step. apply empty_code_fine. intros. cbn [remove_empty_code]. apply finel_root, empty_code_list, Forall_forall.
  intros; apply empty_code_fine.
Qed.

(** swap_tags *)
Section swap.
Hypothesis Hblank : forall d, is_empty (trim_space d) = true -> filter keep d = [].
Variables outer inner : node -> bool.
Hypothesis Ho : swappable outer.
Hypothesis Hi : swappable inner.
Lemma blank_sx i k : is_blank_text k = true -> sx i k = [].
Proof. destruct k; try discriminate. intros E. cbn [sx]. now rewrite Hblank. Qed.
Lemma one_kid_sx : forall ks y c gs, filter (fun k => negb (is_blank_text k)) ks = [Elem y c gs] -> gts ks = true ->
  gt (Elem y c gs) = true /\ forall i, sxs i ks = sx i (Elem y c gs).
Proof.
  induction ks as [|k ks IH]; intros y c gs E T; simpl in E. discriminate.
  rewrite gts_cons in T. apply andb_true_iff in T as [T1 T2]. destruct (is_blank_text k) eqn:Eb; simpl in E.
  - destruct (IH _ _ _ E T2) as [A B]. split; auto. intros i. now rewrite sxs_cons, blank_sx, B.
  - injection E as -> E. split; auto. intros i. rewrite sxs_cons.
    assert (Z : sxs i ks = []).
    { clear - E Hblank. induction ks as [|k ks IH]; auto. simpl in E. destruct (is_blank_text k) eqn:Eb; try discriminate.
      rewrite sxs_cons, blank_sx, IH; auto. }
    now rewrite Z, app_nil_r.
Qed.
Lemma swap_kids : forall ks x a y c gs, filter (fun k => negb (is_blank_text k)) ks = [Elem y c gs] ->
  (forall i, sxs i (map (fun k => if is_blank_text k then k else retag x a k) ks) = sx i (Elem x a gs)) /\
  (gts ks = true -> gt (Elem x a gs) = true -> gts (map (fun k => if is_blank_text k then k else retag x a k) ks) = true).
Proof.
  induction ks as [|k ks IH]; intros x a y c gs E; simpl in E. discriminate. cbn [map]. destruct (is_blank_text k) eqn:Eb; simpl in E.
  - destruct (IH x a _ _ _ E) as [A B]. split. intros i. now rewrite sxs_cons, blank_sx, A.
    rewrite !gts_cons, !andb_true_iff. intros [T1 T2] T. auto.
  - injection E as -> E. cbn [retag].
    assert (Z : (forall i, sxs i (map (fun k => if is_blank_text k then k else retag x a k) ks) = []) /\
      (gts ks = true -> gts (map (fun k => if is_blank_text k then k else retag x a k) ks) = true)).
    { clear - E Hblank. induction ks as [|k ks IH]; auto. simpl in E. destruct (is_blank_text k) eqn:Eb; try discriminate. cbn [map]. rewrite Eb.
      destruct (IH E) as [A B]. split. intros i. rewrite sxs_cons, blank_sx, A; auto. rewrite !gts_cons, !andb_true_iff. intros [T1 T2]; auto. }
    destruct Z as [Z1 Z2]. split. intros i. now rewrite sxs_cons, Z1, app_nil_r.
    rewrite !gts_cons, !andb_true_iff. intros [T1 T2] T. auto.
Qed.
Lemma swap_fine n : fine n [swap_tags outer inner n].
Proof.
  induction n using node_induction; cbn [swap_tags]; try apply fine_refl; try apply doc_fine.
  assert (D : fine (Elem x a ks) [Elem x a (map (swap_tags outer inner) ks)]).
  { apply fine_kids; auto using finel_map. intros; now subst. }
  destruct (outer (Elem x a ks)) eqn:Eo; auto.
  destruct (filter (fun k => negb (is_blank_text k)) ks) as [|[] []] eqn:Ef; auto.
  destruct (inner _) eqn:Ei; auto. rename name into y, at_ into c, kids into gs.
  pose proof (Ho _ _ _ Eo) as Vo. pose proof (Hi _ _ _ Ei) as Vi. clear D H. intros T. apply gt_elem in T as (T1 & T2 & T3).
  destruct (one_kid_sx _ _ _ _ Ef T3) as [A B]. apply gt_elem in A as (A1 & A2 & A3).
  destruct (swap_kids ks x a _ _ _ Ef) as [C D]. split.
  - intros i. rewrite sxs_one, !sx_elem, C, B, !sx_elem, <- !orb_assoc, (orb_comm (p x)). apply more_refl.
  - rewrite gts_cons. apply andb_true_iff. split; auto. apply gt_elem. repeat split; auto. rewrite Vi. discriminate.
    apply D; auto. apply gt_elem. repeat split; auto. rewrite Vo. discriminate.
Qed.
Lemma swap_root n : finer n (swap_tags outer inner n).
Proof.
  revert n. apply node_step. apply swap_fine. intros. cbn [swap_tags]. apply finel_root, finel_map, Forall_forall.
  intros. apply swap_fine.
Qed.
End swap.

(** merge_adjacent *)
Section merge.
Variable mn : list bytes.
Let mt := named mn.
Hypothesis Hsolid : forall x, name_in mn x = true -> name_in childless x = false.
Hypothesis Hspan : p (b "span") = false.
Hypothesis Hclass : (forall x, name_in mn x = true -> ok x = true -> p x = true) \/
                    (gain = true /\ forall x, name_in mn x = true -> p x = false).
Lemma collect_elem x a ks : collect_node mt (Elem x a ks) =
  if is_span (Elem x a ks) then let '(c, ks', go) := collect_list mt ks in (c, [Elem x a ks'], go)
  else if mt (Elem x a ks) then (ks, [], true) else ([], [Elem x a ks], false).
Proof.
  cbn [collect_node]. destruct (is_span _); auto.
  match goal with |- (let '(_, _) := ?t in _) = _ => replace t with (collect_list mt ks); auto end.
  induction ks as [|k ks IH]; auto. cbn [collect_list]. rewrite IH. reflexivity.
Qed.
(** the characters of a matching element at level j may move to the level i *)
Definition dest (j i : bool) : Prop := forall x, name_in mn x = true -> ok x = true -> up (j || p x) i.
Definition collected (n : node) (r : list node * list node * bool) : Prop :=
  let '(c, l, go) := r in gt n = true ->
    (forall j i, dest j i -> more (sx j n) (sxs i c ++ sxs j l)) /\ (go = true -> forall j, sxs j l = []) /\ gts c = true /\ gts l = true.
Definition collectedl (ks : list node) (r : list node * list node * bool) : Prop :=
  let '(c, l, go) := r in gts ks = true ->
    (forall j i, dest j i -> more (sxs j ks) (sxs i c ++ sxs j l)) /\ (go = true -> forall j, sxs j l = []) /\ gts c = true /\ gts l = true.
Lemma collect_list_ok ks : Forall (fun k => collected k (collect_node mt k)) ks -> collectedl ks (collect_list mt ks).
Proof.
  intros F. induction F as [|k ks Hk F IH]; cbn [collect_list]. { intros _. repeat split; auto. intros; constructor. }
  destruct (collect_node mt k) as [[c k'] go]. unfold collected in Hk. destruct go.
  - destruct (collect_list mt ks) as [[c2 r'] go2]. intros T. rewrite gts_cons in T. apply andb_true_iff in T as [T1 T2].
    destruct (Hk T1) as (A1 & A2 & A3 & A4). destruct (IH T2) as (B1 & B2 & B3 & B4). rewrite !gts_app, A3, A4, B3, B4.
    repeat split; auto.
    + intros j i D. specialize (A1 j i D). rewrite A2, app_nil_r in A1 by auto. rewrite sxs_cons, !sxs_app, A2 by auto. cbn [app].
      rewrite <- app_assoc. apply more_app; auto.
    + intros G j. rewrite sxs_app, A2, B2; auto.
  - intros T. rewrite gts_cons in T. apply andb_true_iff in T as [T1 T2].
    destruct (Hk T1) as (A1 & A2 & A3 & A4). rewrite gts_app, A3, A4, T2. repeat split; auto; try discriminate.
    intros j i D. rewrite sxs_cons, sxs_app, app_assoc. apply more_app; auto using more_refl.
Qed.
Lemma collect_node_ok n : collected n (collect_node mt n).
Proof.
  induction n using node_induction;
    try (unfold collected; cbn [collect_node]; intros T; repeat split; auto; try discriminate; intros; cbn [app sxs flat_map]; rewrite ?app_nil_r; apply more_refl).
  rewrite collect_elem. destruct (is_span _) eqn:Es.
  - pose proof (collect_list_ok ks H) as C. destruct (collect_list mt ks) as [[c ks'] go]. intros T.
    apply gt_elem in T as (T1 & T2 & T3). destruct (C T3) as (A1 & A2 & A3 & A4).
    assert (E : x = b "span"). { unfold is_span in Es. simpl in Es. rewrite orb_false_r in Es. now apply beqb_eq in Es. } subst x.
    repeat split; auto.
    + intros j i D. rewrite sxs_one, !sx_elem, Hspan, orb_false_r. auto.
    + intros G j. rewrite sxs_one, sx_elem. auto.
    + rewrite gts_cons. apply andb_true_iff. split; auto. apply gt_elem. repeat split; auto. discriminate.
  - destruct (mt _) eqn:Em.
    + intros T. apply gt_elem in T as (T1 & T2 & T3). repeat split; auto. intros j i D. rewrite app_nil_r, sx_elem. apply sxs_up.
      apply D; auto.
    + intros T. repeat split; auto; try discriminate. intros. rewrite sxs_one. apply more_refl. rewrite gts_cons, T. reflexivity.
Qed.
Fixpoint sst (fs : list bool) (st : list (list node)) : list (N * bool) :=
  match fs, st with f :: fs, l :: st => sxs f l ++ sst fs st | _, _ => [] end.
Definition gst (st : list (list node)) : bool := forallb gts st.
Lemma gst_cons l st : gst (l :: st) = gts l && gst st. Proof. reflexivity. Qed.
Lemma collect_stack_ok st : forall c st' fs i, collect_stack mt st = (c, st') -> gst st = true -> List.length fs = List.length st ->
  Forall (fun j => dest j i) fs ->
  more (sst fs st) (sxs i c ++ sst fs st') /\ gts c = true /\ gst st' = true /\ List.length st' = List.length st.
Proof.
  induction st as [|l up0 IH]; intros c st' fs i E T L D; cbn [collect_stack] in E. { injection E as <- <-. repeat split; auto. apply more_refl. }
  destruct fs as [|j fs]; try discriminate. injection L as L. inversion D as [|? ? D1 D2]; subst.
  rewrite gst_cons in T. apply andb_true_iff in T as [T1 T2].
  pose proof (collect_list_ok l (proj2 (Forall_forall _ _) (fun k _ => collect_node_ok k))) as C.
  destruct (collect_list mt l) as [[c1 l'] go]. destruct (C T1) as (A1 & A2 & A3 & A4). destruct go.
  - destruct (collect_stack mt up0) as [c2 up'] eqn:Eu. injection E as <- <-. destruct (IH _ _ fs i eq_refl T2 L D2) as (B1 & B2 & B3 & B4).
    specialize (A1 j i D1). rewrite A2, app_nil_r in A1 by auto. cbn [sst]. rewrite gst_cons, gts_app, A2, A3, A4, B2, B3 by auto. cbn [List.length app].
    repeat split; auto. rewrite sxs_app, <- app_assoc. apply more_app; auto.
  - injection E as <- <-. cbn [sst]. rewrite gst_cons, A4, A3, T2. cbn [List.length]. repeat split; auto. rewrite app_assoc.
    apply more_app; auto using more_refl.
Qed.
Lemma collect_adjacent_ok st c st' fs i : collect_adjacent mt st = (c, st') -> gst st = true -> List.length fs = List.length st ->
  Forall (fun j => dest j i) fs ->
  more (sst fs st) (sxs i c ++ sst fs st') /\ gts c = true /\ gst st' = true /\ List.length st' = List.length st.
Proof.
  intros E T L D. unfold collect_adjacent in E. destruct st as [|[|k l] up0]; try (injection E as <- <-; repeat split; auto; apply more_refl).
  eapply collect_stack_ok; eauto.
Qed.
(** the levels above: nothing is inside there that is not inside here *)
Definition below (i : bool) (fs : list bool) : Prop := Forall (fun f => f = true -> i = true) fs.
Lemma below_dest i fs x : name_in mn x = true -> ok x = true -> below i fs -> Forall (fun j => dest j (i || p x)) fs.
Proof.
  intros M O B. eapply Forall_impl; [|exact B]. cbv beta. intros f H y My Oy. destruct Hclass as [C | [G C]].
  - rewrite (C y), (C x), !orb_true_r; auto. apply up_refl.
  - rewrite (C y), (C x), !orb_false_r; auto. destruct f. rewrite H; auto. apply up_refl. destruct i; [right | left]; auto.
Qed.
Lemma below_or i fs q : below i fs -> below (i || q) fs.
Proof. intros B. eapply Forall_impl; [|exact B]. cbv beta. intros f H E. now rewrite H. Qed.
Lemma merge_adj_ok : forall f n st,
  (forall n' st' i fs, merge_adj mt f n st = (n', st') -> gr n = true -> gst st = true -> List.length fs = List.length st -> below i fs ->
     more (sx i n ++ sst fs st) (sx i n' ++ sst fs st') /\ gr n' = true /\ is_doc n' = is_doc n /\ gst st' = true /\ List.length st' = List.length st) /\
  (forall l l' st' i fs, merge_adj_list mt f l st = (l', st') -> gts l = true -> gst st = true -> List.length fs = List.length st -> below i fs ->
     more (sxs i l ++ sst fs st) (sxs i l' ++ sst fs st') /\ gts l' = true /\ gst st' = true /\ List.length st' = List.length st).
Proof.
  induction f as [|f IH]; intros n st; split.
  - intros n' st' i fs E. injection E as <- <-. intros. repeat split; auto using more_refl.
  - intros l l' st' i fs E. injection E as <- <-. intros. repeat split; auto using more_refl.
  - intros n' st' i fs E T Ts L B. cbn [merge_adj] in E.
    destruct (if mt n then collect_adjacent mt st else ([], st)) as [c st1] eqn:Ec.
    destruct (merge_adj_list mt f (kids n ++ c) st1) as [ks st2] eqn:Ek. injection E as <- <-.
    destruct (IH n st1) as [_ IHl].
    destruct (mt n) eqn:Em.
    + destruct n as [d|x a l|d|l|l]; try discriminate. cbn [with_kids kids gr] in *. apply gt_elem in T as (T1 & T2 & T3).
      assert (V : name_in childless x = false) by now apply Hsolid.
      destruct (collect_adjacent_ok _ _ _ fs (i || p x) Ec Ts L (below_dest _ _ _ Em T1 B)) as (C1 & C2 & C3 & C4).
      destruct (IHl _ _ _ (i || p x) fs Ek) as (D1 & D2 & D3 & D4); auto using below_or; try congruence. { now rewrite gts_app, T3, C2. }
      rewrite !sx_elem. repeat split; auto; try congruence.
      * eapply more_trans; [|exact D1]. rewrite sxs_app, <- app_assoc. apply more_app; auto using more_refl.
      * apply gt_elem. repeat split; auto. rewrite V. discriminate.
    + injection Ec as <- <-. rewrite app_nil_r in *.
      assert (K : kids n = [] -> ks = []). { intros E0. rewrite E0, merge_list_nil in Ek. now injection Ek. }
      destruct n as [d|x a l|d|l|l]; cbn [with_kids Dom.kids gr] in *;
        try (rewrite K in Ek by auto; destruct (IHl _ _ _ i fs Ek) as (D1 & D2 & D3 & D4); auto; repeat split; auto; fail).
      * rewrite K in Ek by auto. destruct (IHl _ _ _ i fs Ek) as (D1 & D2 & D3 & D4); auto. repeat split; auto. apply more_app; auto using more_refl.
      * apply gt_elem in T as (T1 & T2 & T3). destruct (IHl _ _ _ (i || p x) fs Ek) as (D1 & D2 & D3 & D4); auto using below_or.
        repeat split; auto. apply gt_elem. repeat split; auto.
      * destruct (IHl _ _ _ i fs Ek) as (D1 & D2 & D3 & D4); auto.
  - intros l l' st' i fs E T Ts L B. cbn [merge_adj_list] in E. destruct l as [|x r].
    { injection E as <- <-. repeat split; auto using more_refl. }
    destruct (merge_adj mt f x (r :: st)) as [x' st1] eqn:Ex.
    destruct (merge_adj_list mt f (hd [] st1) (tl st1)) as [r' st2] eqn:Er. injection E as <- <-.
    rewrite gts_cons in T. apply andb_true_iff in T as [T1 T2].
    assert (X : gr x = true). { destruct x; auto. discriminate. }
    destruct (IH x (r :: st)) as [IHn _]. destruct (IHn _ _ i (i :: fs) Ex) as (A1 & A2 & A3 & A4 & A5); auto.
    { simpl. now rewrite T2, Ts. } { simpl. now rewrite L. } { constructor; auto. }
    destruct st1 as [|r1 st1]; try discriminate. cbn [hd tl] in *. rewrite gst_cons in A4. apply andb_true_iff in A4 as [A4 A6]. injection A5 as A5.
    destruct (IH x st1) as [_ IHl]. destruct (IHl _ _ _ i fs Er) as (B1 & B2 & B3 & B4); auto; try congruence.
    cbn [sst] in A1. rewrite !sxs_cons, <- !app_assoc. repeat split; auto; try congruence.
    + eapply more_trans; [exact A1|]. apply more_app; auto using more_refl.
    + rewrite gts_cons, B2, andb_true_r. destruct x'; auto. destruct x; discriminate.
Qed.
Lemma merge_adjacent_root n : finer n (merge_adjacent mt n).
Proof.
  intros T. unfold merge_adjacent. destruct (merge_adj mt (merge_fuel n) n []) as [n' st'] eqn:E.
  assert (H : forall i, more (sx i n) (sx i n') /\ gr n' = true).
  { intros i. destruct (merge_adj_ok (merge_fuel n) n []) as [H _]. destruct (H _ _ i [] E T eq_refl eq_refl (Forall_nil _)) as (H1 & H2 & _ & _ & _).
    cbn [sst] in H1. rewrite !app_nil_r in H1. auto. }
  split. intros i. apply H. apply (H false).
Qed.
End merge.

(** add_space *)
Section space.
Hypothesis Hsp : keep 32 = false.
Definition one (k k' : node) : Prop := fine k [k'].
Lemma one_refl k : one k k. Proof. apply fine_refl. Qed.
Lemma one_trans a c d : one a c -> one c d -> one a d.
Proof.
  intros H K T. destruct (H T) as [A B]. rewrite gts_cons in B. apply andb_true_iff in B as [B _]. destruct (K B) as [C D].
  split; auto. intros i. eapply more_trans; [apply A|]. rewrite sxs_one. apply C.
Qed.
Lemma ones_refl l : Forall2 one l l. Proof. induction l; constructor; auto using one_refl. Qed.
Lemma ones_trans a c d : Forall2 one a c -> Forall2 one c d -> Forall2 one a d.
Proof. intros H. revert d. induction H; intros d K; inversion K; subst; constructor; eauto using one_trans. Qed.
Lemma ones_finel a c : Forall2 one a c -> finel a c.
Proof. intros H. induction H as [|k k' a c K H IH]. apply finel_refl. now apply (finel_cons k a [k'] c). Qed.
Lemma ones_rev a c : Forall2 one a c -> Forall2 one (rev a) (rev c).
Proof. intros H. induction H; simpl; auto. apply Forall2_app; auto. Qed.
Lemma ones_nil a c : Forall2 one a c -> a = [] -> c = [].
Proof. intros H E. subst. now inversion H. Qed.
Definition stacks := Forall2 (Forall2 one).
Lemma stacks_refl l : stacks l l. Proof. induction l; constructor; auto using ones_refl. Qed.
Lemma stacks_trans a c d : stacks a c -> stacks c d -> stacks a d.
Proof. unfold stacks. intros H. revert d. induction H; intros d K; inversion K; subst; constructor; eauto using ones_trans. Qed.
Lemma elem_one x a ks ks' : Forall2 one ks ks' -> one (Elem x a ks) (Elem x a ks').
Proof. intros. apply fine_kids; auto using ones_finel. eauto using ones_nil. Qed.
Lemma touch_one fwd n : one n (fst (touch fwd n)).
Proof.
  induction n using node_induction; try apply one_refl.
  - intros T. split; auto. intros i. rewrite sxs_one. cbn [touch fst sx]. apply more_eq. unfold cSP. destruct fwd; simpl; [now rewrite Hsp |].
    rewrite filter_app. simpl. now rewrite Hsp, app_nil_r.
  - rewrite touch_elem. destruct (is_span _); [|apply one_refl].
    assert (K : Forall2 one ks (fst (touch_kids fwd ks))).
    { induction H as [|k ks Hk H IH]; simpl. constructor. destruct fwd.
      - destruct (touch true k) as [k' f]. simpl in Hk. destruct f; simpl. constructor; auto using ones_refl.
        destruct (touch_kids true ks) as [r' f2]. simpl in *. constructor; auto.
      - destruct (touch_kids false ks) as [r' f]. simpl in IH. destruct f; simpl. constructor; auto using one_refl.
        destruct (touch false k) as [k' f2]. simpl in *. constructor; auto. }
    destruct (touch_kids fwd ks) as [ks' f]. simpl in *. now apply elem_one.
Qed.
Lemma touch_list_one fwd l : Forall2 one l (fst (touch_list fwd l)).
Proof.
  induction l as [|k r IH]; simpl. constructor. pose proof (touch_one fwd k). destruct (touch fwd k) as [k' f]. simpl in *.
  destruct f; simpl. constructor; auto using ones_refl. destruct (touch_list fwd r). simpl in *. constructor; auto.
Qed.
Lemma touch_stack_one fwd st : stacks st (touch_stack fwd st).
Proof.
  induction st as [|l up0 IH]; simpl. constructor. pose proof (touch_list_one fwd l). destruct (touch_list fwd l) as [l' f]. simpl in *.
  destruct f; (constructor; [auto | first [exact IH | apply stacks_refl]]).
Qed.
Lemma stacks_hd a st st' : stacks (a :: st) st' -> Forall2 one a (hd [] st') /\ stacks st (tl st').
Proof. intros. inversion H; subst. auto. Qed.
Lemma add_space_ok : forall outer inner f n lt rt,
  (forall n' lt' rt', add_space outer inner f n lt rt = (n', lt', rt') ->
     (if is_doc n then forall ks, n = Doc ks -> exists ks', n' = Doc ks' /\ Forall2 one ks ks' else one n n') /\ stacks lt lt' /\ stacks rt rt') /\
  (forall done todo l lt' rt', add_space_list outer inner f done todo lt rt = (l, lt', rt') ->
     Forall2 one (rev done ++ todo) l /\ stacks lt lt' /\ stacks rt rt').
Proof.
  intros outer inner. induction f as [|f IH]; intros n lt rt; split.
  - intros n' lt' rt' E. injection E as <- <- <-. split; auto using stacks_refl. destruct (is_doc n). intros ks ->. eauto using ones_refl. apply one_refl.
  - intros done todo l lt' rt' E. injection E as <- <- <-. auto using ones_refl, stacks_refl.
  - intros n' lt' rt' E. cbn [add_space] in E.
    match type of E with (let '(_, _) := add_space_list _ _ _ _ _ ?l _ in _) = _ => set (lt1 := l) in E end.
    match type of E with (let '(_, _) := add_space_list _ _ _ _ _ _ ?r in _) = _ => set (rt1 := r) in E end.
    assert (R : stacks rt rt1).
    { unfold rt1. match goal with |- stacks _ (if ?c then _ else _) => destruct c end; auto using stacks_refl, touch_stack_one. }
    assert (L : stacks lt lt1).
    { unfold lt1. match goal with |- stacks _ (if ?c then _ else _) => destruct c end; auto using stacks_refl, touch_stack_one. }
    clearbody lt1 rt1.
    destruct (add_space_list outer inner f [] (kids n) lt1 rt1) as [[ks lt2] rt2] eqn:Ek. injection E as <- <- <-.
    destruct (IH n lt1 rt1) as [_ IHl]. destruct (IHl _ _ _ _ _ Ek) as (A & B & C). simpl in A.
    split; [|eauto using stacks_trans].
    destruct n; simpl in *; auto using one_refl. now apply elem_one.
    intros ks0 [= <-]. eauto.
  - intros done todo l lt' rt' E. cbn [add_space_list] in E. destruct todo as [|x r].
    { injection E as <- <- <-. rewrite app_nil_r. auto using ones_refl, stacks_refl. }
    destruct (add_space outer inner f x (done :: lt) (r :: rt)) as [[x' lt1] rt1] eqn:Ex.
    destruct (IH x (done :: lt) (r :: rt)) as [IHn _]. destruct (IHn _ _ _ Ex) as (A & B & C).
    apply stacks_hd in B as [B1 B2]. apply stacks_hd in C as [C1 C2].
    destruct (IH x (tl lt1) (tl rt1)) as [_ IHl]. destruct (IHl _ _ _ _ _ E) as (D1 & D2 & D3).
    split; [|eauto using stacks_trans]. eapply ones_trans; [|exact D1]. simpl. rewrite <- app_assoc.
    apply Forall2_app. now apply ones_rev. constructor; auto.
    destruct (is_doc x) eqn:Ed; auto. destruct x; try discriminate; try apply doc_fine.
Qed.
Lemma add_space_finer outer inner n : finer n (add_space_root outer inner n).
Proof.
  unfold add_space_root. destruct (add_space outer inner (merge_fuel n) n [] []) as [[n' lt'] rt'] eqn:E.
  destruct (add_space_ok outer inner (merge_fuel n) n [] []) as [H _]. destruct (H _ _ _ E) as (H1 & _ & _). simpl.
  destruct (is_doc n) eqn:Ed.
  - destruct n; try discriminate. destruct (H1 _ eq_refl) as (ks' & -> & F). apply finel_root. now apply ones_finel.
  - apply fine_root; auto.
Qed.
End space.

(** leaf_alternatives *)
Section alternatives.
Hypothesis Hsp : keep 32 = false.
Hypothesis Hquote : keep 34 = false.
Hypothesis Hbox : forall x, is_container x = true -> p x = false.
Hypothesis Hspan : p (b "span") = false /\ ok (b "span") = true /\ ok (b "br") = true.
Hypothesis Hhead : forall x, is_heading_name x = true -> ok x = true -> ok (b "strong") = true /\ up (p x) (p (b "strong")).
Hypothesis Hpre : ok (b "pre") = true -> ok (b "code") = true /\ up (p (b "pre")) (p (b "code")).
Lemma gts_two k l : gts (k :: l) = true <-> gt k = true /\ gts l = true.
Proof. rewrite gts_cons. apply andb_true_iff. Qed.
Lemma gt_solid x a ks : name_in childless x = false -> ok x = true -> gts ks = true -> gt (Elem x a ks) = true.
Proof. intros. apply gt_elem. repeat split; auto. congruence. Qed.
Lemma leaf_cases x : is_leaf_block x = true -> x = b "hr" \/ x = b "pre" \/ is_heading_name x = true.
Proof.
  unfold is_leaf_block, is_heading_name. cbn [map name_in existsb]. rewrite !orb_true_iff, !beqb_eq. intuition.
Qed.
Lemma alternative_fine x a ks ms : is_container x || is_leaf_block x = true -> finel ks ms -> fine (Elem x a ks) (alternative x a ms).
Proof.
  intros V F T. apply gt_elem in T as (T1 & T2 & T3). destruct (F T3) as [H1 H2]. destruct Hspan as (S1 & S2 & S3).
  unfold alternative.
  destruct (is_heading_name x) eqn:Eh.
  { destruct (Hhead x Eh T1) as [A1 A2]. split.
    - intros i. cbn [sxs flat_map]. rewrite app_nil_r, !sx_elem. cbn [sxs flat_map app]. rewrite ?app_nil_r.
      eapply more_trans; [apply H1 | apply sxs_up]. auto using up_or, up_refl.
    - rewrite !gts_two. split; [apply gt_solid; auto|]. split; [|reflexivity]. apply gt_elem. auto. }
  assert (Box : x <> b "pre" -> x <> b "hr" -> p x = false).
  { intros N1 N2. apply orb_true_iff in V as [V | V]; auto. apply leaf_cases in V as [V | [V | V]]; congruence. }
  destruct (beqb x (b "blockquote")) eqn:Eb.
  { apply beqb_eq in Eb. subst x. split.
    - intros i. cbn [sxs flat_map]. rewrite app_nil_r, !sx_elem, S1, Box by discriminate. cbn [sx]. simpl filter. rewrite Hsp, Hquote. cbn [map app]. rewrite ?app_nil_r. apply H1.
    - rewrite !gts_two. split; [reflexivity|]. split; [now apply gt_solid|]. now split. }
  destruct (beqb x (b "pre")) eqn:Ep.
  { apply beqb_eq in Ep. subst x. destruct (Hpre T1) as [A1 A2]. split.
    - intros i. rewrite sxs_one, !sx_elem. eapply more_trans; [apply H1 | apply sxs_up]. auto using up_or, up_refl.
    - rewrite gts_two. split; auto. apply gt_solid; auto. }
  destruct (beqb x (b "hr")) eqn:Er.
  { apply beqb_eq in Er. subst x. rewrite T2 by reflexivity. split; auto. intros. apply more_refl. }
  split.
  - intros i. rewrite sxs_one, !sx_elem, S1, Box. apply H1. intros ->. discriminate. intros ->. discriminate.
  - rewrite gts_two. split; auto. apply gt_solid; auto.
Qed.
Lemma leaf_fine n : forall leaf inl, fine n (leaf_alternatives leaf inl n).
Proof.
  induction n using node_induction; intros leaf inl; cbn [leaf_alternatives]; try apply fine_refl; try apply doc_fine.
  assert (F : forall l i, finel ks (flat_map (leaf_alternatives l i) ks)).
  { intros. apply finel_flat_map. eapply Forall_impl; [|exact H]. auto. }
  destruct ((is_container x || is_leaf_block x) && (leaf || inl)) eqn:E.
  - apply andb_true_iff in E as [E _]. now apply alternative_fine.
  - apply fine_kids; auto. intros; now subst.
Qed.
Lemma leaf_root n : finer n (leaf_block_alternatives n).
Proof.
  destruct n; try (apply fine_root; [reflexivity|]; rewrite <- leaf_one; apply leaf_fine).
  unfold leaf_block_alternatives. cbn [leaf_alternatives hd]. apply finel_root, finel_flat_map, Forall_forall. intros; apply leaf_fine.
Qed.
End alternatives.

(** move_list_items *)
Section items.
Hypothesis Hblank : forall d, is_empty (trim_space d) = true -> filter keep d = [].
Hypothesis Hli : p (b "li") = false /\ ok (b "li") = true.
Lemma add_kid_ok li k : named [b "li"] li = true -> gt li = true -> gt k = true ->
  (forall i, sx i (add_kid li k) = sx i li ++ sx i k) /\ gt (add_kid li k) = true.
Proof.
  intros N T K. destruct li; try discriminate. unfold add_kid. cbn [with_kids Dom.kids].
  cbn [named name_in existsb] in N. rewrite orb_false_r in N. apply beqb_eq in N. subst name. apply gt_elem in T as (T1 & T2 & T3). split.
  - intros i. rewrite !sx_elem, (proj1 Hli), orb_false_r, sxs_app, sxs_one. reflexivity.
  - apply gt_elem. repeat split; auto. discriminate. rewrite gts_app, T3, gts_cons, K. reflexivity.
Qed.
Definition li_or_blank (x : node) : Prop := named [b "li"] x = true \/ is_blank_text x = true.
Lemma add_to_li_ok k done : forall done', add_to_li k done = Some done' -> gts done = true -> gt k = true -> Forall li_or_blank done ->
  (forall i, sxs i (rev done') = sxs i (rev done) ++ sx i k) /\ gts done' = true /\ Forall li_or_blank done'.
Proof.
  induction done as [|x r IH]; intros done' E T K F; cbn [add_to_li] in E. discriminate.
  rewrite gts_cons in T. apply andb_true_iff in T as [T1 T2]. inversion F; subst.
  destruct (named [b "li"] x) eqn:El.
  - injection E as <-. destruct (add_kid_ok x k El T1 K) as [A1 A2]. simpl rev. rewrite gts_cons, A2.
    split. intros i. rewrite !sxs_app, !sxs_one, A1, <- app_assoc. reflexivity.
    split; auto. constructor; auto. left. destruct x; try discriminate. exact El.
  - destruct (add_to_li k r) as [r'|] eqn:Er; try discriminate. injection E as <-. destruct (IH r' eq_refl T2 K H2) as (A1 & A2 & A3).
    destruct H1 as [H1 | H1]; try congruence. simpl rev. rewrite gts_cons, T1. repeat split; auto.
    + intros i. rewrite !sxs_app, !sxs_one, A1, (blank_sx Hblank i x H1), !app_nil_r. reflexivity.
    + constructor; auto. now right.
Qed.
Lemma regroup_ok ks : gts ks = true -> (forall i, sxs i (regroup ks) = sxs i ks) /\ gts (regroup ks) = true.
Proof.
  intros T. unfold regroup.
  assert (G : forall ks done, gts ks = true -> gts done = true -> Forall li_or_blank done ->
    (forall i, sxs i (rev (fold_left regroup_step ks done)) = sxs i (rev done) ++ sxs i ks) /\ gts (fold_left regroup_step ks done) = true).
  { clear ks T. induction ks as [|k ks IH]; intros done T Td F; cbn [fold_left]. { split; auto. intros. now rewrite app_nil_r. }
    rewrite gts_cons in T. apply andb_true_iff in T as [T1 T2].
    assert (S : (forall i, sxs i (rev (regroup_step done k)) = sxs i (rev done) ++ sx i k) /\ gts (regroup_step done k) = true /\
                Forall li_or_blank (regroup_step done k)).
    { unfold regroup_step. destruct (named [b "li"] k || is_blank_text k) eqn:E.
      - simpl rev. rewrite gts_cons, T1, Td. repeat split; auto. intros i. now rewrite sxs_app, sxs_one. constructor; auto. now apply orb_true_iff.
      - destruct (add_to_li k done) eqn:Ea. now apply add_to_li_ok.
        cbn [rev]. repeat split; auto.
        + intros i. rewrite sxs_app, sxs_one, sx_elem, sxs_one, (proj1 Hli), orb_false_r. reflexivity.
        + rewrite gts_cons, Td, andb_true_r. apply gt_elem. repeat split; auto. apply Hli. discriminate. rewrite gts_cons, T1. reflexivity.
        + constructor; auto. now left. }
    destruct S as (S1 & S2 & S3). destruct (IH _ T2 S2 S3) as (A1 & A2). split; auto. intros i. rewrite A1, S1, sxs_cons, <- app_assoc. reflexivity. }
  destruct (G ks [] T eq_refl (Forall_nil _)) as (A1 & A2). split; auto using gts_rev.
Qed.
Lemma items_fine n : fine n [move_list_items n].
Proof.
  induction n using node_induction; cbn [move_list_items]; try apply fine_refl; try apply doc_fine.
  apply fine_kids. { intros ->. now destruct (is_list_name x). }
  apply (finel_trans ks (map move_list_items ks)). now apply finel_map.
  destruct (is_list_name x). 2: apply finel_refl. intros T. destruct (regroup_ok _ T) as (A & B). split; auto. intros i. rewrite A. apply more_refl.
Qed.
Lemma items_root n : finer n (move_list_items n).
Proof.
  revert n. apply node_step. apply items_fine. intros. cbn [move_list_items]. apply finel_root, finel_map, Forall_forall. intros; apply items_fine.
Qed.
End items.

(** list_end_comments *)
Lemma comments_fine n : forall st, fine n (list_end_comments st n).
Proof.
  induction n using node_induction; intros st; try apply fine_refl; try apply doc_fine.
  rewrite comments_elem. cbv zeta. match goal with |- fine _ (Elem _ _ (comments_kids ?s _) :: _) => set (st' := s) end.
  assert (F : finel ks (comments_kids st' ks)).
  { clearbody st'. induction H as [|k ks Hk H IH]; simpl. apply finel_refl. now apply finel_cons. }
  assert (E : fine (Elem x a ks) [Elem x a (comments_kids st' ks)]). { apply fine_kids; auto. intros; now subst. }
  intros T. destruct (E T) as [E1 E2]. destruct (is_list_name x && next_list_stack st); auto.
Qed.
Lemma comments_root n : finer n (add_list_end_comments n).
Proof.
  destruct n; try (apply fine_root; [reflexivity|]; rewrite <- comments_one; apply comments_fine).
  unfold add_list_end_comments. rewrite comments_doc. cbn [hd]. apply finel_root.
  induction kids as [|k ks IH]; simpl. apply finel_refl. apply finel_cons; auto. apply comments_fine.
Qed.

(** collapse *)
Section collapse.
Variable is_block : bytes -> bool.
Hypothesis Hws : forall c, is_ws c = true -> keep c = false.
Lemma text_more i d t : filter keep t = filter keep d -> more (sx i (Text d)) (sx i (Text t)).
Proof. intros E. cbn [sx]. rewrite E. apply more_refl. Qed.
Lemma lead_list_fine ks : Forall (fun n => forall s, fine n (snd (lead is_block s n))) ks ->
  forall s, finel ks (snd (lead_list is_block s ks)) /\ (ks = [] -> snd (lead_list is_block s ks) = []).
Proof.
  intros H. induction H as [|k ks Hk H IH]; intros s; simpl. split; auto. apply finel_refl.
  specialize (Hk s). destruct (lead is_block s k) as [s1 k']. destruct (IH s1) as [A _]. destruct (lead_list is_block s1 ks) as [s2 r'].
  simpl in *. split; [now apply finel_cons | discriminate].
Qed.
Lemma lead_fine n : forall s, fine n (snd (lead is_block s n)).
Proof.
  induction n using node_induction; intros s; try apply fine_refl; try apply doc_fine; try (intros T; split; [intros; apply more_refl | reflexivity]).
  - simpl. pose proof (lead_text_keep keep Hws s d) as E. destruct (lead_text s d); simpl in *; intros T; split; auto; intros i.
    + rewrite sxs_one. now apply text_more.
    + cbn [sx]. rewrite <- E. constructor.
  - rewrite lead_elem. cbv zeta. destruct (is_preformatted x). apply fine_refl.
    rewrite lead_kids_eq. destruct (lead_list_fine ks H (visit (effect_of is_block x) s)) as [A B].
    destruct (lead_list is_block (visit (effect_of is_block x) s) ks) as [s2 ks']. apply fine_kids; auto.
Qed.
Lemma trail_list_fine ks : Forall (fun n => forall tr, fine n [snd (trail is_block tr n)]) ks ->
  forall tr, finel ks (snd (trail_list is_block tr ks)) /\ (ks = [] -> snd (trail_list is_block tr ks) = []).
Proof.
  intros H. induction H as [|k ks Hk H IH]; intros tr; simpl. split; auto. apply finel_refl.
  destruct (IH tr) as [A _]. destruct (trail_list is_block tr ks) as [t1 r']. specialize (Hk t1).
  destruct (trail is_block t1 k) as [t2 k']. simpl in *. split; [|discriminate]. now apply (finel_cons k ks [k'] r').
Qed.
Lemma trail_fine n : forall tr, fine n [snd (trail is_block tr n)].
Proof.
  induction n using node_induction; intros tr; try apply fine_refl; try apply doc_fine.
  - simpl. intros T. split; auto. intros i. rewrite sxs_one. apply text_more. destruct tr; auto. now apply trim_suffix_keep.
  - rewrite trail_elem. cbv zeta. destruct (is_preformatted x). apply fine_refl.
    rewrite trail_kids_eq. destruct (trail_list_fine ks H (visit_back (effect_of is_block x) tr)) as [A B].
    destruct (trail_list _ _ ks) as [tr2 ks']. apply fine_kids; auto.
Qed.
Lemma drop_list_fine ks : Forall (fun n => fine n (snd (drop_last is_block n))) ks ->
  finel ks (snd (drop_last_list is_block ks)) /\ (ks = [] -> snd (drop_last_list is_block ks) = []).
Proof.
  intros H. induction H as [|k ks Hk H IH]; simpl. split; auto. apply finel_refl.
  destruct IH as [A _]. destruct (drop_last_list is_block ks) as [f r']. destruct f; simpl in *.
  - split; [|discriminate]. apply (finel_cons k ks [k] r'); auto. apply fine_refl.
  - destruct (drop_last is_block k) as [f2 k']. simpl in *. split; [|discriminate]. now apply finel_cons.
Qed.
Lemma drop_fine n : fine n (snd (drop_last is_block n)).
Proof.
  induction n using node_induction; try apply fine_refl; try apply doc_fine.
  - simpl. destruct d. simpl. intros T; split; auto. intros; constructor. apply fine_refl.
  - rewrite drop_elem. destruct (effect_of is_block x); try apply fine_refl. rewrite drop_kids_eq.
    destruct (drop_list_fine ks H) as [A B]. destruct (drop_last_list is_block ks) as [f ks']. apply fine_kids; auto.
Qed.
Lemma collapse_kids_fine ks : finel ks (collapse_kids is_block ks) /\ (ks = [] -> collapse_kids is_block ks = []).
Proof.
  unfold collapse_kids.
  destruct (lead_list_fine ks (proj2 (Forall_forall _ _) (fun k _ => lead_fine k)) (None, false)) as [A1 A2].
  set (k1 := snd (lead_list is_block (None, false) ks)) in *.
  destruct (trail_list_fine k1 (proj2 (Forall_forall _ _) (fun k _ => trail_fine k)) true) as [B1 B2].
  set (k2 := snd (trail_list is_block true k1)) in *.
  destruct (drop_list_fine k2 (proj2 (Forall_forall _ _) (fun k _ => drop_fine k))) as [C1 C2].
  split; auto. eapply finel_trans; [exact A1|]. eapply finel_trans; eauto.
Qed.
Lemma collapse_root n : finer n (collapse is_block n).
Proof.
  unfold collapse. destruct (kids n) as [|k ks] eqn:E; auto using finer_refl.
  destruct (is_preformatted _); auto using finer_refl. destruct (collapse_kids_fine (kids n)) as [A B]. rewrite E in *.
  destruct n; try discriminate; cbn [with_kids Dom.kids] in *; subst.
  - apply fine_root; auto. apply fine_kids; auto.
  - now apply finel_root.
Qed.
End collapse.
End style.
