(** Facts for C65: resolving addresses against the domain. *)
From Coq Require Import List NArith ZArith Bool String Lia ZifyBool ZifyNat ZifyN.
From Verif Require Import Bytes BytesFacts NetUrl Url SpecDomain UrlFacts UrlFacts2.
Import ListNotations.
Open Scope N_scope.
Open Scope list_scope.

(** ** Paths *)
Notation slash := 47.
Lemma cut_last_snoc sep x y : ~ In sep y -> cut_last sep (x ++ sep :: y) = Some (x, y).
Proof.
  intros N. unfold cut_last. rewrite rev_app_distr. cbn [rev]. rewrite <- app_assoc.
  assert (E : forall u v, ~ In sep u -> cut_at sep (u ++ [sep] ++ v) = Some (u, v)).
  { induction u as [|c u IH]; intros v M; cbn [app cut_at]; [now rewrite N.eqb_refl|].
    destruct (c =? sep) eqn:Q; [elim M; left; lia|]. cbn [app] in IH. rewrite IH; auto. intros J. apply M. now right. }
  rewrite E, !rev_involutive; auto. intros J. apply N. now apply in_rev.
Qed.
Lemma cut_last_none sep y : ~ In sep y -> cut_last sep y = None.
Proof.
  intros N. unfold cut_last. destruct (cut_at sep (rev y)) as [[u v]|] eqn:E; auto. apply cut_at_eq in E as [E _]. elim N. apply in_rev. rewrite E.
  apply in_app_iff. right. now left.
Qed.
Lemma join_snoc (l : list bytes) e : l <> [] -> join [slash] (l ++ [e]) = join [slash] l ++ slash :: e.
Proof.
  induction l as [|x l IH]; [easy|]. intros _. destruct l as [|y l]; [reflexivity|].
  change (join [slash] ((x :: y :: l) ++ [e])) with (x ++ [slash] ++ join [slash] ((y :: l) ++ [e])). rewrite IH by easy.
  change (join [slash] (x :: y :: l)) with (x ++ [slash] ++ join [slash] (y :: l)). now rewrite <- !app_assoc.
Qed.
Definition rep (st : bytes * bool) (up : list bytes) : Prop :=
  up = [] /\ fst st = [] \/ up <> [] /\ snd st = false /\ (fst st = join [slash] (rev up) \/ fst st = slash :: join [slash] (rev up)).
Definition seg_ok (s : bytes) : Prop := s <> [] /\ ~ In slash s.
Definition finish (st : bytes * bool) (dot : bool) : bytes :=
  let r := [slash] ++ fst st ++ (if dot then [slash] else []) in if has_prefix [slash; slash] r then tl r else r.
Lemma rev_ne (up : list bytes) : up <> [] -> rev up <> [].
Proof. destruct up; [easy|]. intros _ E. cbn in E. now apply app_eq_nil in E as [_ ?]. Qed.
Lemma join_start up : up <> [] -> Forall seg_ok up -> exists c t, join [slash] (rev up) = c :: t /\ c <> slash.
Proof.
  intros N F. apply rev_ne in N. apply Forall_rev in F. destruct (rev up) as [|s r]; [easy|]. inversion F as [|? ? [A1 A2] _]; subst.
  destruct s as [|c s]; [easy|]. assert (C : c <> slash) by (intros ->; apply A2; now left). destruct r; cbn; eauto.
Qed.
Lemma pop_rep st up : rep st up -> Forall seg_ok up -> rep (resolve_step st (b "..")) (tl up).
Proof.
  intros R F. destruct st as [str first]. unfold resolve_step. change (beqb (b "..") [46]) with false. change (beqb (b "..") [46; 46]) with true. cbv iota.
  destruct R as [(-> & E)|(N & E1 & E2)]; cbn [fst snd] in *.
  - subst str. cbn. now left.
  - destruct up as [|s up]; [easy|]. inversion F as [|? ? [S1 S2] F2]; subst. cbn [tl]. cbn [rev] in E2.
    destruct up as [|s2 up].
    + cbn [rev app join] in E2. left. split; auto. destruct E2 as [-> | ->].
      * rewrite cut_last_none by auto. reflexivity.
      * change (slash :: s) with ([] ++ slash :: s). now rewrite cut_last_snoc.
    + rewrite join_snoc in E2 by now apply rev_ne. right. split; [easy|].
      destruct E2 as [-> | ->]; [|rewrite app_comm_cons]; rewrite cut_last_snoc by auto; cbn [fst snd]; auto.
Qed.
Lemma push_rep st up e : rep st up -> beqb e (b "..") = false -> beqb e (b ".") = false -> rep (resolve_step st e) (e :: up).
Proof.
  intros R N1 N2. destruct st as [str first]. unfold resolve_step. change [46; 46] with (b ".."). change [46] with (b "."). rewrite N1, N2.
  right. split; [easy|]. split; auto. cbn [fst]. cbn [rev].
  destruct R as [(-> & E)|(N & E1 & E2)]; cbn [fst snd] in *.
  - subst str. cbn. destruct first; cbn; auto.
  - subst first. rewrite join_snoc by now apply rev_ne. destruct E2 as [-> | ->]; rewrite <- app_assoc; cbn [app]; auto.
Qed.
Lemma finish_rep st up : rep st up -> up <> [] -> (Forall seg_ok up \/ exists up', up = [] :: up' /\ Forall seg_ok up') -> finish st false = slash :: join [slash] (rev up).
Proof.
  intros R N F. destruct R as [(-> & _)|(_ & _ & E)]; [easy|]. unfold finish. rewrite app_nil_r.
  assert (J : (exists c t, join [slash] (rev up) = c :: t /\ c <> slash) \/ up = [[]]).
  { destruct F as [F|(up' & -> & F)]; [left; now apply join_start|]. destruct up' as [|s r]; [now right|]. left.
    destruct (join_start (s :: r)) as (c & t & E1 & C); auto; [easy|]. change (rev ([] :: s :: r)) with (rev (s :: r) ++ [[]]). rewrite join_snoc by (apply (rev_ne (s :: r)); easy). rewrite E1. cbn. eauto. }
  destruct E as [-> | ->].
  - destruct J as [(c & t & -> & C)| ->]; [|reflexivity]. cbn [app has_prefix]. replace (slash =? c) with false by lia. reflexivity.
  - cbn. reflexivity.
Qed.
Lemma finish_dot st up : rep st up -> Forall seg_ok up -> finish st true = slash :: join [slash] (rev ([] :: up)).
Proof.
  intros R F. unfold finish. destruct R as [(-> & ->)|(N & _ & E)]; [reflexivity|]. cbn [rev]. rewrite join_snoc by now apply rev_ne.
  destruct (join_start up N F) as (c & t & E1 & C). destruct E as [-> | ->].
  - rewrite E1. cbn [app has_prefix]. replace (slash =? c) with false by lia. reflexivity.
  - reflexivity.
Qed.
Definition dotty (s : bytes) : bool := beqb s [46] || beqb s [46; 46].
Lemma fold_walk todo : forall up st, todo <> [] -> Forall seg_ok (removelast todo) -> ~ In slash (last todo []) -> Forall seg_ok up -> rep st up ->
  finish (fold_left resolve_step todo st) (dotty (last todo [])) = slash :: join [slash] (walk up todo).
Proof.
  induction todo as [|e todo IH]; [easy|]. intros up st _ S L F R. cbn [fold_left walk].
  destruct todo as [|e2 todo].
  - cbn [last] in *. cbn [fold_left]. unfold dotty. change [46; 46] with (b ".."). change [46] with (b "."). destruct (beqb e (b "..")) eqn:D2.
    + apply beqb_eq in D2. subst e. change (beqb (b "..") (b ".")) with false. cbn [orb]. apply finish_dot; [now apply pop_rep|]. destruct F; cbn; auto.
    + destruct (beqb e (b ".")) eqn:D1.
      * apply beqb_eq in D1. subst e. cbn [orb]. destruct st as [str first]. apply finish_dot; auto. destruct R as [(-> & E)|(N & E1 & E2)]; cbn [fst snd] in *.
        -- now left.
        -- right. auto.
      * cbn [orb walk]. rewrite (finish_rep _ (e :: up)); [reflexivity|now apply push_rep|easy|]. destruct e as [|c e]; [right; eauto|left; constructor; auto; split; [easy|exact L]].
  - change (removelast (e :: e2 :: todo)) with (e :: removelast (e2 :: todo)) in S. inversion S as [|? ? S1 S2]; subst.
    change (last (e :: e2 :: todo) []) with (last (e2 :: todo) []) in *.
    destruct (beqb e (b "..")) eqn:D2.
    + apply beqb_eq in D2. subst e. apply IH; auto; [easy|destruct F; cbn; auto|now apply pop_rep].
    + destruct (beqb e (b ".")) eqn:D1.
      * apply beqb_eq in D1. subst e. apply IH; auto; [easy|]. destruct st as [str first]. destruct R as [(-> & E)|(N & E1 & E2)]; cbn [fst snd] in *; [now left|right; auto].
      * apply IH; auto; [easy|now apply push_rep].
Qed.
(** segments *)
Lemma split_no_slash p s : In s (split_on slash p) -> ~ In slash s.
Proof.
  revert s. induction p as [|c p IH]; cbn [split_on]; intros s I.
  - destruct I as [<-|[]]. intros [].
  - destruct (c =? slash) eqn:E.
    + destruct I as [<-|I]; [intros []|now apply IH].
    + destruct (split_on slash p) as [|x r] eqn:Q; [destruct I as [<-|[]]; intros [J|[]]; lia|].
      destruct I as [<-|I]; [|apply IH; now right]. intros [J|J]; [lia|]. apply (IH x); auto. now left.
Qed.
Lemma split_cons_ne p : exists x r, split_on slash p = x :: r.
Proof. destruct (split_on slash p) eqn:E; eauto. now apply split_on_ne in E. Qed.
Lemma segs_tl p : no_double_slash p = true -> Forall seg_ok (removelast (tl (split_on slash p))).
Proof.
  induction p as [|c p IH]; intros H; [constructor|]. cbn [no_double_slash] in H. apply andb_true_iff in H as [H1 H2]. specialize (IH H2).
  cbn [split_on]. destruct (c =? slash) eqn:E.
  - cbn [tl]. destruct p as [|d p]; [constructor|]. destruct (d =? slash) eqn:D; [discriminate|]. cbn [split_on] in IH |- *. rewrite D in IH |- *.
    destruct (split_cons_ne p) as (x & r & Q). rewrite Q in *. cbn [tl] in IH. destruct r as [|y r]; [constructor|]. change (removelast ((d :: x) :: y :: r)) with ((d :: x) :: removelast (y :: r)).
    constructor; auto. split; [easy|]. intros [J|J]; [lia|]. apply (split_no_slash p x); auto. rewrite Q. now left.
  - destruct (split_cons_ne p) as (x & r & Q). rewrite Q in *. exact IH.
Qed.
Lemma last_in (l : list bytes) : l <> [] -> In (last l []) l.
Proof. induction l as [|x l IH]; [easy|]. intros _. destruct l as [|y l]; [now left|]. right. apply IH. easy. Qed.
Lemma resolve_rooted full : from_root full = true -> full <> [] -> no_double_slash full = true ->
  finish (fold_left resolve_step (split_on slash full) ([], true)) (dotty (last (split_on slash full) [])) = without_dots full.
Proof.
  destruct full as [|c t]; [easy|]. intros R _ D. cbn in R. assert (c = slash) by lia. subst c. unfold without_dots. pose proof (segs_tl _ D) as G. cbn [split_on] in *. rewrite N.eqb_refl in *. cbn [tl] in G.
  destruct (split_cons_ne t) as (x & r & Q). rewrite Q in *. change (last ([] :: x :: r) []) with (last (x :: r) []). change (fold_left resolve_step ([] :: x :: r) ([], true)) with (fold_left resolve_step (x :: r) ([], false)). apply fold_walk; auto; [easy| |now left].
  apply (split_no_slash t). rewrite Q. apply last_in. easy.
Qed.
Lemma no_double_app x y : no_double_slash (x ++ [slash]) = true -> no_double_slash y = true -> (exists c t, y = c :: t /\ c <> slash) -> no_double_slash (x ++ slash :: y) = true.
Proof.
  intros A B (c & t & -> & C). induction x as [|d x IH].
  - cbn [app]. change (no_double_slash (slash :: c :: t)) with (negb ((slash =? slash) && (c =? slash)) && no_double_slash (c :: t)). rewrite B. replace (c =? slash) with false by lia. reflexivity.
  - cbn [app no_double_slash] in *. apply andb_true_iff in A as [A1 A2]. rewrite IH by auto. rewrite andb_true_r. destruct x as [|e x]; cbn [app] in *; exact A1.
Qed.
Lemma no_double_prefix x y : no_double_slash (x ++ y) = true -> no_double_slash x = true.
Proof.
  induction x as [|c x IH]; auto. cbn [app no_double_slash]. intros H. apply andb_true_iff in H as [H1 H2]. rewrite IH by auto. rewrite andb_true_r.
  destruct x as [|d x]; cbn [app] in *; auto. now rewrite andb_false_r.
Qed.
Lemma directory_cut p : p <> [] -> from_root p = true -> exists x y, p = x ++ slash :: y /\ ~ In slash y /\ directory p = x ++ [slash] /\ cut_last slash p = Some (x, y).
Proof.
  intros N R. assert (I : In slash p) by (destruct p as [|c p]; [easy|cbn in R; left; lia]).
  assert (G : exists x y, p = x ++ slash :: y /\ ~ In slash y).
  { clear - I. induction p as [|c p IH] using rev_ind; [destruct I|]. destruct (c =? slash) eqn:E.
    - exists p, []. split; [now replace c with slash by lia|intros []].
    - apply in_app_iff in I as [I|[I|[]]]; [|lia]. destruct (IH I) as (x & y & -> & Ny). exists x, (y ++ [c]). split; [now rewrite <- app_assoc|].
      rewrite in_app_iff. intros [J|[J|[]]]; auto. lia. }
  destruct G as (x & y & -> & Ny). exists x, y. split; auto. split; auto. split; [|now apply cut_last_snoc].
  unfold directory. destruct (x ++ slash :: y) eqn:E; [now destruct x|]. rewrite <- E, rev_app_distr. cbn [rev]. rewrite <- app_assoc. clear - Ny.
  assert (M : ~ In slash (rev y)) by (rewrite <- in_rev; auto). induction (rev y) as [|c r IH].
  - cbn. rewrite rev_involutive. reflexivity.
  - cbn [app]. destruct (c =? slash) eqn:E; [elim M; left; lia|]. apply IH. intros J. apply M. now right.
Qed.
Lemma resolve_path_ok bp rp : from_root bp = true -> no_double_slash bp = true -> no_double_slash rp = true -> resolve_path bp rp = resolved bp rp.
Proof.
  intros R D1 D2. unfold resolve_path, resolved. destruct rp as [|c t].
  - cbn [is_empty]. destruct bp as [|d p]; [reflexivity|]. cbn [is_empty]. apply resolve_rooted; auto. easy.
  - cbn [is_empty]. cbn [has_prefix]. change (slash =? c) with (slash =? c). destruct (c =? slash) eqn:E.
    + assert (c = slash) by lia. subst c. cbn [N.eqb Pos.eqb andb negb is_empty]. apply resolve_rooted; auto. easy.
    + replace (slash =? c) with false by lia. cbn [andb negb].
      destruct bp as [|d p].
      * cbn [cut_last cut_at rev app is_empty directory]. unfold without_dots. 
        assert (D3 : no_double_slash (slash :: c :: t) = true) by (change (slash :: c :: t) with ([] ++ slash :: c :: t); apply no_double_app; auto; exists c, t; split; auto; lia).
        pose proof (segs_tl _ D3) as G. change (split_on slash (slash :: c :: t)) with ([] :: split_on slash (c :: t)) in G. cbn [tl] in G.
        assert (Ne : split_on slash (c :: t) <> []) by apply split_on_ne.
        apply fold_walk; auto; [|now left]. apply (split_no_slash (c :: t)). now apply last_in.
      * destruct (directory_cut (d :: p)) as (x & y & Ep & Ny & Ed & Ec); [easy|exact R|]. rewrite Ec, Ed. rewrite <- app_assoc. cbn [app].
        assert (D3 : no_double_slash (x ++ slash :: c :: t) = true).
        { apply no_double_app; auto; [|exists c, t; split; auto; lia]. apply (no_double_prefix _ y). rewrite <- app_assoc. cbn [app]. now rewrite <- Ep. }
        destruct (is_empty (x ++ slash :: c :: t)) eqn:Em; [destruct x; discriminate|]. apply resolve_rooted; auto; [|destruct x; easy].
        destruct x as [|e x]; [reflexivity|]. cbn [app] in Ep |- *. injection Ep as -> _. exact R.
Qed.
