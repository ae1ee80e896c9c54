(** Collapsing leaves exactly one blank where there were some (C17). *)
From Coq Require Import List NArith Bool String Lia ZifyBool ZifyNat ZifyN.
From Verif Require Import Bytes TextUtils Dom Collapse SpecText SpecDom DomFacts DomFacts5 BytesFacts.
Import ListNotations.
Open Scope N_scope.
Open Scope list_scope.

Notation marks := (flat_map marks_of).
Definition mk (c : N) : mark := if (c =? 32) || (c =? 9) || (c =? 10) || (c =? 13) then MkBlank else MkInk c.
Lemma mk_ws : forall c, mk c = if is_ws c then MkBlank else MkInk c.
Proof.
  intros c. unfold mk, is_ws, cSP, cCR, cNL, cTAB.
  destruct (c =? 32), (c =? 9), (c =? 10), (c =? 13); reflexivity.
Qed.
(** the two halves on marks *)
Fixpoint mlead (st : bool) (l : list mark) : list mark :=
  match l with
  | [] => []
  | MkBlank :: r => if st then mlead true r else MkBlank :: mlead true r
  | MkEdge :: r => MkEdge :: mlead true r
  | x :: r => x :: mlead false r
  end.
Fixpoint mtrail (l : list mark) : bool * list mark :=
  match l with
  | [] => (true, [])
  | x :: r => let '(t, r') := mtrail r in
              match x with
              | MkEdge => (true, x :: r')
              | MkBlank => if t then (true, r') else (false, x :: r')
              | _ => (false, x :: r')
              end
  end.
Lemma halves : forall l first waiting,
  respaced first waiting l =
  let '(t, r) := mtrail (mlead (first || waiting) l) in (if waiting && negb first && negb t then [MkBlank] else []) ++ r.
Proof.
  induction l as [|x l IH]; intros first waiting; [now destruct first, waiting|]. destruct x; cbn [respaced mlead mtrail].
  - rewrite IH. cbn [orb]. destruct (mtrail (mlead false l)) as [t r]. destruct first, waiting; reflexivity.
  - rewrite IH. rewrite orb_true_r. destruct first, waiting; cbn [orb mtrail]; destruct (mtrail (mlead true l)) as [[] r]; reflexivity.
  - rewrite IH. cbn [orb]. destruct (mtrail (mlead false l)) as [t r]. destruct first, waiting; reflexivity.
  - rewrite IH. cbn [orb]. destruct (mtrail (mlead true l)) as [t r]. rewrite !andb_false_r. destruct first, waiting; reflexivity.
Qed.
(** first half *)
Fixpoint ends (st : bool) (l : list mark) : bool :=
  match l with [] => st | MkBlank :: r => ends true r | MkEdge :: r => ends true r | _ :: r => ends false r end.
Lemma mlead_app : forall a c st, mlead st (a ++ c) = mlead st a ++ mlead (ends st a) c.
Proof. induction a as [|[q| | |] a IH]; intros e st; cbn [app mlead ends]; rewrite ?IH; auto. destruct st; auto. Qed.
Lemma ends_app : forall a c st, ends st (a ++ c) = ends (ends st a) c.
Proof. induction a as [|[q| | |] a IH]; intros e st; cbn [app ends]; auto. Qed.
Lemma collapse_marks : forall d p, map mk (collapse_ws_from p d) = mlead p (map mk d) /\ (collapse_ws_from p d = [] -> ends p (map mk d) = p)
  /\ (collapse_ws_from p d <> [] -> ends p (map mk d) = ends_blank (collapse_ws_from p d)).
Proof.
  induction d as [|c d IH]; intros p; [repeat split; auto; contradiction|]. cbn [collapse_ws_from map]. rewrite mk_ws. destruct (is_ws c) eqn:E.
  - destruct (IH true) as (A & B & C). destruct p; cbn [mlead ends]; [rewrite A; auto|]. cbn [map]. rewrite A. split; [reflexivity|]. split; [discriminate|]. intros _.
    destruct (collapse_ws_from true d) as [|c2 r] eqn:Er; [now rewrite B|]. rewrite C by discriminate.
    unfold ends_blank. cbn [rev]. destruct (rev r); reflexivity.
  - destruct (IH false) as (A & B & C). cbn [mlead ends map]. rewrite A. rewrite mk_ws, E. split; [reflexivity|]. split; [discriminate|]. intros _.
    destruct (collapse_ws_from false d) as [|c2 r] eqn:Er.
    + rewrite B by auto. unfold ends_blank. cbn [rev app starts_blank]. unfold is_ws, cSP, cCR, cNL, cTAB in E. lia.
    + rewrite C by discriminate. unfold ends_blank. cbn [rev]. destruct (rev r); reflexivity.
Qed.
Definition st_of (s : cstate) : bool := match s with (None, k) => negb k | (Some e, _) => e end.
Lemma lead_text_marks : forall s d l p, agree s p (TkText d :: l) ->
  map mk (match lead_text s d with Some t => t | None => [] end) = mlead (st_of s) (map mk d)
  /\ match lead_text s d with Some t => ends (st_of s) (map mk d) = has_suffix [cSP] t | None => ends (st_of s) (map mk d) = st_of s end.
Proof.
  intros s d l p A. unfold lead_text, collapse_ws. destruct (collapse_marks d false) as (M & B & C). destruct (collapse_marks d true) as (M1 & B1 & C1).
  assert (K : st_of s = (match fst s with None => true | Some e => e end) && negb (snd s)).
  { destruct s as [[e|] []]; cbn [agree] in A; cbn; rewrite ?andb_true_r; auto. destruct A as [_ A]. discriminate. }
  assert (R : collapse_ws_from true d = match collapse_ws_from false d with c :: r => if c =? cSP then r else c :: r | [] => [] end).
  { clear. destruct d as [|c d]; auto. cbn [collapse_ws_from]. destruct (is_ws c) eqn:E. reflexivity.
    replace (c =? cSP) with false; auto. unfold is_ws, cSP, cCR, cNL, cTAB in *. lia. }
  cbv zeta. rewrite <- K. destruct (st_of s); cbn [andb].
  - replace (match collapse_ws_from false d with [] => collapse_ws_from false d | c :: r => if c =? cSP then r else collapse_ws_from false d end)
      with (collapse_ws_from true d) by (rewrite R; destruct (collapse_ws_from false d); reflexivity).
    destruct (collapse_ws_from true d) as [|c r]; cbn [is_empty]; [split; [exact M1|auto]|]. split; [exact M1|]. rewrite ends_blank_suffix. apply C1. discriminate.
  - destruct (collapse_ws_from false d) as [|c r]; cbn [is_empty]; [split; [exact M|auto]|]. split; [exact M|]. rewrite ends_blank_suffix. apply C. discriminate.
Qed.
Lemma lead_toks_marks : forall l s p, no_text_run l = true -> agree s p l -> marks (snd (lead_toks s l)) = mlead (st_of s) (marks l).
Proof.
  induction l as [|e l IH]; intros s p N A; auto. apply no_run_cons in N as [N1 N2]. destruct e; cbn [lead_toks flat_map].
  - destruct (lead_text_marks s d l p A) as [M E]. change (marks_of (TkText d)) with (map mk d). rewrite mlead_app.
    pose proof (lead_text_ok s p d l) as _. destruct (lead_text s d) as [t|] eqn:El.
    + specialize (IH (Some (has_suffix [cSP] t), snd s) (Some (has_suffix [cSP] t)) N1). destruct (lead_toks (Some (has_suffix [cSP] t), snd s) l) as [s2 r'].
      cbn [snd flat_map] in *. change (marks_of (TkText t)) with (map mk t). rewrite M, E. rewrite IH; auto. destruct s as [f []]; cbn [snd agree]; auto.
    + rewrite <- M, E. cbn [map app]. eapply IH; eauto. eapply agree_text; eauto.
  - cbn [tok_effect visit marks_of app mlead]. specialize (IH (None, false) None N1 eq_refl). destruct (lead_toks (None, false) l). cbn [snd flat_map marks_of app] in *.
    now rewrite IH.
  - cbn [tok_effect visit marks_of app mlead]. specialize (IH (None, true) (Some false) N1 eq_refl). destruct (lead_toks (None, true) l). cbn [snd flat_map marks_of app] in *.
    now rewrite IH.
  - cbn [tok_effect marks_of app]. specialize (IH (visit EInline s) p N1). destruct (lead_toks (visit EInline s) l). cbn [snd flat_map marks_of app] in *. rewrite IH.
    + destruct s as [[e|] []]; reflexivity.
    + destruct s as [[e|] []]; cbn [visit fst agree] in *; auto. now destruct A.
Qed.
(** second half *)
Lemma mtrail_plain : forall a c, single_spaced a = true -> ends_blank a = false -> a <> [] ->
  mtrail (map mk a ++ c) = (starts_blank [] , map mk a ++ snd (mtrail c)).
Proof.
  induction a as [|x a IH]; intros c S E Na; [contradiction|]. destruct a as [|y a].
  - cbn [map app mtrail]. destruct (mtrail c) as [t r]. unfold mk. unfold ends_blank in E. cbn [rev app starts_blank] in E. rewrite E.
    cbn [single_spaced] in S. rewrite E in S. cbn [andb negb] in S. destruct ((x =? 9) || (x =? 10) || (x =? 13)) eqn:F; [discriminate|].
    destruct (x =? 9), (x =? 10), (x =? 13); try discriminate F. reflexivity.
  - assert (E' : ends_blank (y :: a) = false). { unfold ends_blank in *. cbn [rev] in *. destruct (rev a); auto. }
    specialize (IH c (single_tail _ _ S) E' ltac:(discriminate)). change (map mk (x :: y :: a) ++ c) with (mk x :: (map mk (y :: a) ++ c)). cbn [mtrail].
    rewrite IH. cbn [starts_blank snd]. cbn [map app]. rewrite (mk_ws x). destruct (is_ws x); reflexivity.
Qed.
Lemma single_blank : forall d, single_spaced d = true -> ends_blank d = true -> exists r, d = r ++ [32] /\ single_spaced r = true /\ ends_blank r = false.
Proof.
  intros d S E. rewrite <- ends_blank_suffix in E. pose proof (trim_suffix_single d S) as (A & B & _). unfold trim_suffix_space in A, B. rewrite E in A, B.
  apply has_suffix_iff in E as [r ->]. rewrite removelast_last in A, B. exists r. auto.
Qed.
Lemma trail_toks_marks : forall l p, led_spaced p l = true ->
  marks (snd (trail_toks true l)) = snd (mtrail (marks l)) /\ (fst (trail_toks true l) = fst (mtrail (marks l)) \/ p = Some true /\ starts_text l = true /\ False
    \/ fst (trail_toks true l) = false /\ fst (mtrail (marks l)) = true /\ p = Some false).
Proof.
  induction l as [|e l IH]; intros p H; cbn [trail_toks flat_map]; [split; auto|]. destruct e; cbn [led_spaced tok_effect] in *.
  - apply andb_true_iff in H as [H1 H2]. apply andb_true_iff in H1 as [H1 H3]. apply andb_true_iff in H1 as [H0 H1].
    destruct (IH _ H2) as [A B]. destruct (trail_toks true l) as [t l']. cbn [fst snd flat_map] in *. change (marks_of (TkText d)) with (map mk d).
    change (marks_of (TkText (if t then trim_suffix_space d else d))) with (map mk (if t then trim_suffix_space d else d)). rewrite A. clear A.
    unfold trim_suffix_space. rewrite ends_blank_suffix. destruct (ends_blank d) eqn:E.
    + destruct (single_blank d H3 E) as (r & -> & Sr & Er). destruct B as [B|[(_ & _ & [])|(_ & _ & B)]]; [|discriminate B].
      rewrite removelast_last. rewrite map_app, <- app_assoc. cbn [map app].
      assert (T : mtrail (MkBlank :: marks l) = if t then (true, snd (mtrail (marks l))) else (false, MkBlank :: snd (mtrail (marks l)))).
      { cbn [mtrail]. destruct (mtrail (marks l)) as [t' r']. cbn [fst snd] in *. subst t'. now destruct t. }
      change (mk 32) with MkBlank. destruct r as [|x r].
      * cbn [map app]. rewrite T. destruct t; cbn [fst snd app map]; split; auto. right. right. repeat split. cbn in H1.
        destruct p as [[]|]; auto; discriminate.
      * rewrite (mtrail_plain (x :: r)) by (auto; discriminate). cbn [starts_blank fst snd]. rewrite T. destruct t; cbn [fst snd].
        -- split; auto.
        -- rewrite map_app, <- app_assoc. split; auto.
    + replace (if t then d else d) with d by (now destruct t). destruct d as [|x d]; [discriminate|]. rewrite mtrail_plain by (auto; discriminate).
      cbn [fst snd starts_blank]. split; auto.
  - destruct (IH _ H) as [A B]. destruct (trail_toks true l) as [t l']. cbn [fst snd flat_map marks_of app mtrail visit_back] in *. rewrite A.
    destruct (mtrail (marks l)) as [t' r']. cbn [fst snd]. auto.
  - destruct (IH _ H) as [A B]. destruct (trail_toks true l) as [t l']. cbn [fst snd flat_map marks_of app mtrail visit_back] in *. rewrite A.
    destruct (mtrail (marks l)) as [t' r']. cbn [fst snd]. auto.
  - destruct (IH _ H) as [A B]. destruct (trail_toks true l) as [t l']. cbn [fst snd flat_map marks_of app mtrail visit_back] in *. rewrite A.
    split; auto. destruct B as [B|[(_ & _ & [])|B]]; auto.
Qed.
Lemma marks_solid : forall l, marks (filter solid l) = marks l.
Proof. induction l as [|[[|c d]| | |] l IH]; cbn [filter solid flat_map marks_of map app]; rewrite ?IH; auto. Qed.
Lemma collapse_respaced : forall is_block ks, no_text_run (flat_map (flow is_block) ks) = true ->
  marks (flat_map (flow is_block) (collapse_kids is_block ks)) = respaced true false (marks (flat_map (flow is_block) ks)).
Proof.
  intros is_block ks H. unfold collapse_kids.
  set (k1 := snd (lead_list is_block (None, false) ks)). set (k2 := snd (trail_list is_block true k1)).
  rewrite <- marks_solid, drop_list_flow, marks_solid by (apply Forall_forall; intros; apply drop_flow).
  pose proof (trail_list_flow is_block k1 (proj2 (Forall_forall _ _) (fun k _ => trail_flow is_block k)) true) as T.
  pose proof (lead_list_flow is_block ks (proj2 (Forall_forall _ _) (fun k _ => lead_flow is_block k)) (None, false)) as L.
  assert (E2 : flat_map (flow is_block) k2 = snd (trail_toks true (flat_map (flow is_block) k1))) by (now rewrite T).
  assert (E1 : flat_map (flow is_block) k1 = snd (lead_toks (None, false) (flat_map (flow is_block) ks))) by (now rewrite L).
  assert (S : led_spaced None (flat_map (flow is_block) k1) = true) by (rewrite E1; apply lead_toks_spaced; [exact H|reflexivity]).
  rewrite E2. destruct (trail_toks_marks _ None S) as [-> _]. rewrite E1. rewrite (lead_toks_marks _ (None, false) None H eq_refl).
  rewrite halves. cbn [orb andb st_of negb app]. now destruct (mtrail (mlead true (marks (flat_map (flow is_block) ks)))).
Qed.
