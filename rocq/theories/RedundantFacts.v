(** The exact result of RemoveRedundant (C43). *)
From Coq Require Import List NArith Bool String.
From Verif Require Import Bytes Dom DomUtils RenderInv DomFacts4 BlockFacts SpecSpace2 SpecRedundant.
Import ListNotations.
Open Scope list_scope.

Lemma tags_list ks : map unmark (flat_map tokens ks) = flat_map tags ks.
Proof. induction ks as [|k r IH]; [reflexivity|]. cbn [flat_map]. now rewrite map_app, IH. Qed.
Lemma tags_elem x a ks : tags (Elem x a ks) = Op (Elem x a []) false :: flat_map tags ks ++ [Cl (Elem x a []) false].
Proof. unfold tags at 1. cbn [tokens map unmark]. now rewrite map_app, tags_list. Qed.
Lemma tags_doc ks : tags (Doc ks) = Op (Doc []) false :: flat_map tags ks ++ [Cl (Doc []) false].
Proof. unfold tags at 1. cbn [tokens map unmark]. now rewrite map_app, tags_list. Qed.

(** ** Tags and texts determine the document *)
Definition same_tags (n : node) : Prop := forall n' R R', tags n ++ R = tags n' ++ R' -> n = n' /\ R = R'.
Lemma tag_starts n : exists t r, tags n = t :: r /\ (forall e k, t <> Cl e k).
Proof. destruct n; cbn; eexists; eexists; (split; [reflexivity|discriminate]). Qed.
Lemma same_tag_lists ks : Forall same_tags ks -> forall ks' e k e' k' R R',
  flat_map tags ks ++ Cl e k :: R = flat_map tags ks' ++ Cl e' k' :: R' -> ks = ks' /\ R = R'.
Proof.
  induction 1 as [|n ks Hn _ IH]; intros [|n' ks'] e k e' k' R R' H; cbn [flat_map app] in H.
  - injection H as _ _ H. auto.
  - exfalso. destruct (tag_starts n') as (t & r & E & Q). rewrite E in H. cbn [app] in H. injection H as H _. symmetry in H. exact (Q _ _ H).
  - exfalso. destruct (tag_starts n) as (t & r & E & Q). rewrite E in H. cbn [app] in H. injection H as H _. exact (Q _ _ H).
  - rewrite <- !app_assoc in H. apply Hn in H as [-> H]. apply IH in H as [-> ->]. auto.
Qed.
Lemma tags_start n : same_tags n.
Proof.
  induction n as [d|x a ks IH|d|ks IH|d] using node_induction; intros n' R R' H.
  - destruct n'; rewrite ?tags_elem, ?tags_doc in H; cbn [tags tokens map unmark app] in H; try discriminate H. injection H as -> ->. auto.
  - destruct n' as [d'|x' a' ks'|d'|ks'|d']; rewrite ?tags_elem, ?tags_doc in H; cbn [tags tokens map unmark app] in H; try discriminate H. rewrite <- !app_assoc in H. cbn [app] in H.
    injection H as -> -> H. apply same_tag_lists in H as [-> ->]; auto.
  - destruct n'; rewrite ?tags_elem, ?tags_doc in H; cbn [tags tokens map unmark app] in H; try discriminate H; injection H; intros; subst; auto; discriminate.
  - destruct n' as [d'|x' a' ks'|d'|ks'|d']; rewrite ?tags_elem, ?tags_doc in H; cbn [tags tokens map unmark app] in H; try discriminate H. rewrite <- !app_assoc in H. cbn [app] in H.
    injection H as H. apply same_tag_lists in H as [-> ->]; auto.
  - destruct n'; rewrite ?tags_elem, ?tags_doc in H; cbn [tags tokens map unmark app] in H; try discriminate H; injection H; intros; subst; auto; discriminate.
Qed.
Lemma tags_same n n' : tags n = tags n' -> n = n'.
Proof. intros H. apply (tags_start n n' [] []). now rewrite H. Qed.

(** ** RemoveRedundant *)
Section redundant.
Variable cls : bytes -> option N.
Definition fits (anc : list N) (open : list node) : Prop := forall c, existsb (N.eqb c) anc = existsb (fun f => match kind_of cls f with Some d => N.eqb c d | None => false end) open.
Lemma fits_none anc open e : kind_of cls e = None -> fits anc open -> fits anc (e :: open).
Proof. intros E H c. cbn [existsb]. now rewrite E, H. Qed.
Lemma fits_some anc open e c : kind_of cls e = Some c -> fits anc open -> fits (c :: anc) (e :: open).
Proof. intros E H d. cbn [existsb]. now rewrite E, H. Qed.
Lemma fits_again anc open e c : kind_of cls e = Some c -> existsb (N.eqb c) anc = true -> fits anc open -> fits anc (e :: open).
Proof.
  intros E A H d. cbn [existsb]. rewrite E, <- H. destruct (N.eqb d c) eqn:Q; [|reflexivity]. apply N.eqb_eq in Q. subst d. exact A.
Qed.
Lemma same_none open e : kind_of cls e = None -> existsb (same_kind cls e) open = false.
Proof. intros E. induction open as [|f r IH]; [reflexivity|]. cbn [existsb]. rewrite IH. unfold same_kind. now rewrite E. Qed.
Lemma same_some anc open e c : kind_of cls e = Some c -> fits anc open -> existsb (same_kind cls e) open = existsb (N.eqb c) anc.
Proof. intros E H. rewrite H. clear H. induction open as [|f r IH]; [reflexivity|]. cbn [existsb]. rewrite IH. unfold same_kind. now rewrite E. Qed.

Definition exact_at (n : node) : Prop := forall anc open R, fits anc open ->
  not_redundant cls open (tokens n ++ R) = flat_map tags (redundant cls anc n) ++ not_redundant cls open R.
Lemma exact_kids ks : Forall exact_at ks -> forall anc open R, fits anc open ->
  not_redundant cls open (flat_map tokens ks ++ R) = flat_map tags (flat_map (redundant cls anc) ks) ++ not_redundant cls open R.
Proof.
  induction 1 as [|k r Hk _ IH]; intros anc open R H; [reflexivity|]. cbn [flat_map]. rewrite <- app_assoc, (Hk anc open _ H), flat_map_app, <- app_assoc. f_equal. now apply IH.
Qed.
Lemma exact_redundant n : exact_at n.
Proof.
  induction n as [d|x a ks IH|d|ks IH|d] using node_induction; intros anc open R H; try reflexivity.
  - cbn [tokens app not_redundant redundant]. rewrite <- app_assoc. assert (E : kind_of cls (Elem x a []) = cls x) by reflexivity. destruct (cls x) as [c|] eqn:Ec.
    + rewrite (same_some anc open _ c E H). destruct (existsb (N.eqb c) anc) eqn:Q.
      * rewrite (exact_kids ks IH anc _ _ (fits_again _ _ _ _ E Q H)). cbn [app not_redundant tl]. rewrite (same_some anc open _ c E H), Q. reflexivity.
      * rewrite (exact_kids ks IH (c :: anc) _ _ (fits_some _ _ _ _ E H)). cbn [app not_redundant tl]. rewrite (same_some anc open _ c E H), Q.
        cbn [flat_map]. rewrite tags_elem, app_nil_r. cbn [app]. now rewrite <- app_assoc.
    + rewrite (same_none open _ E), (exact_kids ks IH anc _ _ (fits_none _ _ _ E H)). cbn [app not_redundant tl]. rewrite (same_none open _ E).
      cbn [flat_map]. rewrite tags_elem, app_nil_r. cbn [app]. now rewrite <- app_assoc.
  - cbn [tokens app not_redundant redundant]. rewrite <- app_assoc. assert (E : kind_of cls (Doc []) = None) by reflexivity.
    rewrite (same_none open _ E), (exact_kids ks IH anc _ _ (fits_none _ _ _ E H)). cbn [app not_redundant tl]. rewrite (same_none open _ E).
    cbn [flat_map]. rewrite tags_doc, app_nil_r. cbn [app]. now rewrite <- app_assoc.
Qed.
Lemma redundant_one n : redundant cls [] n = [remove_redundant cls n].
Proof. unfold remove_redundant. destruct n as [d|x a ks|d|ks|d]; try reflexivity. cbn [redundant existsb]. destruct (cls x); reflexivity. Qed.
Lemma redundant_exact n : tags (remove_redundant cls n) = not_redundant cls [] (tokens n).
Proof.
  assert (F : fits [] []) by (intros c; reflexivity). pose proof (exact_redundant n [] [] [] F) as Q. rewrite app_nil_r, redundant_one in Q. cbn [flat_map not_redundant] in Q.
  now rewrite !app_nil_r in Q.
Qed.
End redundant.
