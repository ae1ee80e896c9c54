(** Tags and texts determine the document (C73). *)
From Coq Require Import List NArith Bool String.
From Verif Require Import Bytes Dom RenderInv DomFacts4 BlockFacts SpecSpace SpecSpace2 SpaceFacts3.
Import ListNotations.
Open Scope list_scope.

Definition same_start (n : node) : Prop := forall n' R R', tokens n ++ R = tokens n' ++ R' -> n = n' /\ R = R'.
Lemma starts n : exists t r, tokens n = t :: r /\ (forall e k, t <> Cl e k).
Proof. destruct n; cbn; eexists; eexists; (split; [reflexivity|discriminate]). Qed.
Lemma same_lists ks : Forall same_start ks -> forall ks' e k e' k' R R',
  flat_map tokens ks ++ Cl e k :: R = flat_map tokens ks' ++ Cl e' k' :: R' -> ks = ks' /\ R = R'.
Proof.
  induction 1 as [|n ks Hn _ IH]; intros [|n' ks'] e k e' k' R R' H; cbn [flat_map app] in H.
  - injection H as _ _ H. auto.
  - exfalso. destruct (starts n') as (t & r & E & Q). rewrite E in H. cbn [app] in H. injection H as H _. symmetry in H. exact (Q _ _ H).
  - exfalso. destruct (starts n) as (t & r & E & Q). rewrite E in H. cbn [app] in H. injection H as H _. exact (Q _ _ H).
  - rewrite <- !app_assoc in H. apply Hn in H as [-> H]. apply IH in H as [-> ->]. auto.
Qed.
Lemma tokens_start n : same_start n.
Proof.
  induction n as [d|x a ks IH|d|ks IH|d] using node_induction; intros n' R R' H.
  - destruct n'; cbn [tokens app] in H; try discriminate H. injection H as -> ->. auto.
  - destruct n' as [d'|x' a' ks'|d'|ks'|d']; cbn [tokens app] in H; try discriminate H. rewrite <- !app_assoc in H. cbn [app] in H.
    injection H as -> -> _ H. apply same_lists in H as [-> ->]; auto.
  - destruct n'; cbn [tokens app] in H; try discriminate H; injection H; intros; subst; auto; discriminate.
  - destruct n' as [d'|x' a' ks'|d'|ks'|d']; cbn [tokens app] in H; try discriminate H. rewrite <- !app_assoc in H. cbn [app] in H.
    injection H as _ H. apply same_lists in H as [-> ->]; auto.
  - destruct n'; cbn [tokens app] in H; try discriminate H; injection H; intros; subst; auto; discriminate.
Qed.
Lemma tokens_same n n' : tokens n = tokens n' -> n = n'.
Proof. intros H. apply (tokens_start n n' [] []). now rewrite H. Qed.
