(** Texts with one space between their words and the collapsing of white space (C64). *)
From Coq Require Import List NArith ZArith Bool String Lia ZifyBool ZifyNat ZifyN.
From Verif Require Import Bytes BytesFacts TextUtils Dom Collapse SpecBlocks.
Import ListNotations.
Open Scope N_scope.
Open Scope list_scope.

Definition solid (w : bytes) : Prop := Forall (fun c => separates c = false) w.
Lemma is_ws_sep c : is_ws c = separates c.
Proof. unfold is_ws, separates, cSP, cCR, cNL, cTAB. lia. Qed.
Lemma words_solid w : solid w -> words w = [w].
Proof. induction 1 as [|c w H _ IH]; auto. cbn [words]. now rewrite H, IH. Qed.
Lemma words_sep w c s : solid w -> separates c = true -> words (w ++ c :: s) = w :: words s.
Proof. intros F C. induction F as [|d w H _ IH]; cbn [app words]. now rewrite C. now rewrite H, IH. Qed.
Lemma words_ind (P : bytes -> Prop) : (forall w, solid w -> P w) -> (forall w c s, solid w -> separates c = true -> P s -> P (w ++ c :: s)) -> forall s, P s.
Proof.
  intros H1 H2. assert (G : forall s w, solid w -> P (w ++ s)).
  { induction s as [|c s IH]; intros w F. rewrite app_nil_r. auto.
    destruct (separates c) eqn:E. apply H2; auto. apply (IH []). constructor.
    change (c :: s) with ([c] ++ s). rewrite app_assoc. apply IH. apply Forall_app. split; auto. }
  intros s. apply (G s []). constructor.
Qed.
Definition nonempty : list bytes -> list bytes := filter (fun w => negb (is_empty w)).
Lemma one_spaced_eq s : one_spaced s = join [32] (nonempty (words s)).
Proof. reflexivity. Qed.
Lemma cw_solid w : solid w -> forall p, collapse_ws_from p w = w.
Proof. induction 1 as [|c w H _ IH]; intros p; auto. cbn [collapse_ws_from]. now rewrite is_ws_sep, H, IH. Qed.
Lemma cw_sep w c s p : solid w -> w <> [] \/ p = false -> separates c = true -> collapse_ws_from p (w ++ c :: s) = w ++ 32 :: collapse_ws_from true s.
Proof.
  intros F. revert p. induction F as [|d w H _ IH]; intros p Np C; cbn [app collapse_ws_from]; rewrite is_ws_sep.
  - destruct Np as [Np| ->]; [easy|]. now rewrite C.
  - rewrite H, IH; auto.
Qed.
Lemma words_all s : Forall solid (words s) /\ words s <> [].
Proof.
  induction s as [w F|w c s F C [IH1 IH2]] using words_ind. rewrite words_solid by auto. split; [constructor; auto|easy].
  rewrite words_sep by auto. split; [constructor; auto|easy].
Qed.
Definition is_word (w : bytes) : Prop := solid w /\ w <> [].
Lemma nonempty_words l : Forall solid l -> Forall is_word (nonempty l).
Proof. induction 1 as [|w l H _ IH]; cbn; auto. destruct w as [|c w]; cbn; auto. constructor; auto. split; auto. easy. Qed.
Lemma nonempty_id l : Forall is_word l -> nonempty l = l.
Proof. induction 1 as [|w l [_ H] _ IH]; cbn; auto. destruct w; [easy|]. cbn. f_equal. exact IH. Qed.
Lemma join_cons2 (x y : bytes) l : join [32] (x :: y :: l) = x ++ 32 :: join [32] (y :: l).
Proof. reflexivity. Qed.
Lemma words_join l : Forall is_word l -> l <> [] -> words (join [32] l) = l.
Proof.
  induction 1 as [|w l [H Hn] F IH]; [easy|]. intros _. destruct l as [|y l]. cbn [join]. now apply words_solid.
  rewrite join_cons2, words_sep, IH; auto; easy.
Qed.
Lemma words_app_sep s : words (s ++ [32]) = words s ++ [[]].
Proof.
  induction s as [w F|w c s F C IH] using words_ind. rewrite words_sep, (words_solid w) by (auto; easy). reflexivity.
  rewrite <- app_assoc. cbn [app]. rewrite (words_sep w c s), (words_sep w c (s ++ [32])), IH by auto. reflexivity.
Qed.
Lemma cw_shape s : exists e, (e = [] \/ e = [32]) /\ collapse_ws_from true s = one_spaced s ++ e /\ (one_spaced s = [] -> e = []).
Proof.
  rewrite one_spaced_eq. induction s as [w F|w c s F C (e & E1 & E2 & E3)] using words_ind.
  - exists []. rewrite words_solid, cw_solid by auto. split; auto. rewrite app_nil_r. split; auto. now destruct w.
  - rewrite words_sep by auto. destruct w as [|d w].
    + cbn [app collapse_ws_from]. rewrite is_ws_sep, C. exists e. split; auto.
    + rewrite cw_sep by (auto; left; easy). rewrite E2. cbn [nonempty filter is_empty negb]. fold (nonempty (words s)).
      assert (FW := nonempty_words _ (proj1 (words_all s))).
      destruct (nonempty (words s)) as [|y l] eqn:El.
      * exists [32]. split; auto. rewrite E3 by reflexivity. split; [reflexivity|easy].
      * exists e. split; auto. rewrite join_cons2, <- app_assoc. split; [reflexivity|easy].
Qed.
Lemma join_last l : Forall is_word l -> l <> [] -> exists s c, join [32] l = s ++ [c] /\ separates c = false.
Proof.
  induction 1 as [|w l [H Hn] F IH]; [easy|]. intros _. destruct l as [|y l].
  - cbn [join]. destruct w as [|c w]; [easy|]. destruct (exists_last Hn) as (u & v & E). rewrite E in *. exists u, v. split; auto.
    apply Forall_app in H as [_ H]. now inversion H.
  - rewrite join_cons2. destruct IH as (s & c & -> & C). easy. exists (w ++ 32 :: s), c. split; auto. now rewrite <- app_assoc.
Qed.
Lemma one_spaced_nil_or s : one_spaced s = [] \/ exists u c, one_spaced s = u ++ [c] /\ separates c = false.
Proof.
  rewrite one_spaced_eq. assert (FW := nonempty_words _ (proj1 (words_all s))). destruct (nonempty (words s)) as [|y l] eqn:El; auto. right.
  apply join_last; auto. easy.
Qed.
Lemma suffix_snoc s c : has_suffix [32] (s ++ [c]) = (c =? 32).
Proof. unfold has_suffix. rewrite rev_app_distr. cbn [rev app has_prefix]. rewrite andb_true_r. apply N.eqb_sym. Qed.
Lemma removelast_snoc (s : bytes) c : removelast (s ++ [c]) = s.
Proof. now rewrite removelast_app, app_nil_r by easy. Qed.
Lemma trim_suffix_one s : trim_suffix_space (one_spaced s) = one_spaced s.
Proof.
  destruct (one_spaced_nil_or s) as [-> |(u & c & -> & C)]; auto. unfold trim_suffix_space. change [cSP] with [32]. rewrite suffix_snoc.
  destruct (c =? 32) eqn:E; auto. unfold separates in C. lia.
Qed.
Lemma trim_cw s : trim_suffix_space (collapse_ws_from true s) = one_spaced s.
Proof.
  destruct (cw_shape s) as (e & [-> | ->] & -> & E3). rewrite app_nil_r. apply trim_suffix_one.
  unfold trim_suffix_space. change [cSP] with [32]. now rewrite suffix_snoc, removelast_snoc.
Qed.
Lemma one_spaced_idem s : one_spaced (one_spaced s) = one_spaced s.
Proof.
  rewrite !one_spaced_eq. assert (FW := nonempty_words _ (proj1 (words_all s))). destruct (nonempty (words s)) as [|y l] eqn:El; auto.
  rewrite words_join by (auto; easy). now rewrite nonempty_id.
Qed.
Lemma one_spaced_sep s : one_spaced (s ++ [32]) = one_spaced s.
Proof. rewrite !one_spaced_eq, words_app_sep. unfold nonempty. rewrite filter_app. cbn. now rewrite app_nil_r. Qed.
Lemma one_spaced_cw s : one_spaced (collapse_ws_from true s) = one_spaced s.
Proof.
  destruct (cw_shape s) as (e & [-> | ->] & -> & _). rewrite app_nil_r. apply one_spaced_idem. rewrite one_spaced_sep. apply one_spaced_idem.
Qed.
Lemma cw_empty s : collapse_ws_from true s = [] <-> one_spaced s = [].
Proof.
  destruct (cw_shape s) as (e & E1 & -> & E3). split; intros H. now apply app_eq_nil in H. rewrite E3, H by auto. reflexivity.
Qed.
(** The text at the beginning of a block *)
Lemma lead_text_eq t : lead_text (None, false) t = if is_empty (collapse_ws_from true t) then None else Some (collapse_ws_from true t).
Proof.
  unfold lead_text. cbn [fst snd negb andb]. unfold collapse_ws.
  assert (E : match collapse_ws_from false t with c :: r => if c =? cSP then r else collapse_ws_from false t | [] => collapse_ws_from false t end = collapse_ws_from true t).
  { destruct t as [|c t]; auto. cbn [collapse_ws_from]. rewrite is_ws_sep. destruct (separates c) eqn:C. reflexivity.
    destruct (c =? cSP) eqn:D; auto. unfold separates, cSP in *. lia. }
  now rewrite E.
Qed.
Lemma blank_one d : forallb separates d = true -> one_spaced d = [].
Proof.
  intros H. apply cw_empty. induction d as [|c d IH]; auto. cbn [forallb] in H. apply andb_true_iff in H as [H1 H2]. cbn [collapse_ws_from].
  rewrite is_ws_sep, H1. auto.
Qed.
(** Such a text has no other white space bytes and does not start or end with a space. *)
Lemma one_spaced_ws s : Forall (fun c => separates c = true -> c = 32) (one_spaced s).
Proof.
  rewrite one_spaced_eq. assert (FW := nonempty_words _ (proj1 (words_all s))). induction FW as [|w l [H Hn] F IH]; [constructor|].
  assert (Fw : Forall (fun c => separates c = true -> c = 32) w) by (eapply Forall_impl; [|exact H]; intros; cbn in *; congruence).
  destruct l as [|y l]; auto. rewrite join_cons2. apply Forall_app. split; auto.
Qed.
Lemma one_spaced_first s : one_spaced s = [] \/ exists c u, one_spaced s = c :: u /\ separates c = false.
Proof.
  rewrite one_spaced_eq. assert (FW := nonempty_words _ (proj1 (words_all s))). destruct FW as [|w l [H Hn] F]; auto. right.
  destruct H as [|c w Hc H]; [easy|]. destruct l; [exists c, w|eexists c, _]; split; auto; reflexivity.
Qed.
