(** The preparation of the tree keeps the texts and the shape (C17, C42). *)
From Coq Require Import List NArith ZArith Bool String Lia.
From Verif Require Import Bytes BytesFacts TextUtils TextFacts2 Dom DomUtils Collapse SpecDom RenderInv.
Import ListNotations.
Open Scope N_scope.
Open Scope list_scope.

Definition tk (k : node) : bool := negb (is_doc k) && tidy k.
Definition tks (ks : list node) : bool := forallb tk ks.
Lemma tks_app : forall a b, tks (a ++ b) = tks a && tks b.
Proof. intros. apply forallb_app. Qed.
Lemma tks_cons : forall k ks, tks (k :: ks) = tk k && tks ks.
Proof. reflexivity. Qed.
Lemma tks_rev : forall l, tks l = true -> tks (rev l) = true.
Proof. intros. apply forallb_forall. intros x I. apply in_rev in I. unfold tks in H. rewrite forallb_forall in H. auto. Qed.
Lemma tk_elem : forall x a ks, tk (Elem x a ks) = (negb (name_in childless x) || is_empty ks) && tks ks.
Proof. intros. unfold tk. simpl. now destruct ks. Qed.
Lemma tidy_doc : forall ks, tidy (Doc ks) = tks ks.
Proof. reflexivity. Qed.
Lemma tk_tidy : forall k, tk k = true -> tidy k = true.
Proof. unfold tk. intros. apply andb_true_iff in H. tauto. Qed.
Lemma tidy_kids : forall n, tidy n = true -> tks (kids n) = true.
Proof. destruct n; simpl; auto. intros. apply andb_true_iff in H. tauto. Qed.

Section keep.
Variable keep : N -> bool.
Definition tx (n : node) : bytes := chars keep n.
Definition txs (ks : list node) : bytes := flat_map tx ks.
Lemma txs_flat : forall ks, filter keep (flat_map text_of ks) = txs ks.
Proof. induction ks; simpl; auto. now rewrite filter_app, IHks. Qed.
Lemma tx_elem : forall x a ks, tx (Elem x a ks) = txs ks.
Proof. intros. apply txs_flat. Qed.
Lemma tx_doc : forall ks, tx (Doc ks) = txs ks.
Proof. intros. apply txs_flat. Qed.
Lemma txs_app : forall a b, txs (a ++ b) = txs a ++ txs b.
Proof. intros. apply flat_map_app. Qed.
Lemma txs_cons : forall a b, txs (a :: b) = tx a ++ txs b.
Proof. reflexivity. Qed.
Lemma txs_one : forall a, txs [a] = tx a.
Proof. intros. apply app_nil_r. Qed.

(** what a step must do with a child, with the children and with the root *)
Definition fine (k : node) (ns : list node) : Prop := tk k = true -> txs ns = tx k /\ tks ns = true.
Definition finel (ks ns : list node) : Prop := tks ks = true -> txs ns = txs ks /\ tks ns = true.
Definition finer (n m : node) : Prop := tidy n = true -> tx m = tx n /\ tidy m = true.

Lemma finer_trans : forall a b c, finer a b -> finer b c -> finer a c.
Proof. intros a b c H K T. destruct (H T). destruct (K H1). split; congruence. Qed.
Lemma finel_refl : forall l, finel l l.
Proof. intros l H. auto. Qed.
Lemma finel_trans : forall a b c, finel a b -> finel b c -> finel a c.
Proof. intros a b c H K T. destruct (H T). destruct (K H1). split; congruence. Qed.
Lemma fine_refl : forall k, fine k [k].
Proof. intros k H. rewrite txs_one. split; auto. simpl. now rewrite H. Qed.
Lemma finel_cons : forall k ks ns ms, fine k ns -> finel ks ms -> finel (k :: ks) (ns ++ ms).
Proof.
  intros k ks ns ms H K T. rewrite tks_cons in T. apply andb_true_iff in T as [T1 T2].
  destruct (H T1), (K T2). rewrite txs_app, txs_cons, tks_app. split; [congruence | now rewrite H1, H3].
Qed.
Lemma finel_app : forall a a' c c', finel a a' -> finel c c' -> finel (a ++ c) (a' ++ c').
Proof.
  intros a a' c c' H K T. rewrite tks_app in T. apply andb_true_iff in T as [T1 T2].
  destruct (H T1), (K T2). rewrite !txs_app, tks_app. split; [congruence | now rewrite H1, H3].
Qed.
Lemma finel_flat_map : forall f ks, Forall (fun k => fine k (f k)) ks -> finel ks (flat_map f ks).
Proof. intros f ks F. induction F; simpl. apply finel_refl. now apply finel_cons. Qed.
Lemma finel_map : forall f ks, Forall (fun k => fine k [f k]) ks -> finel ks (map f ks).
Proof. intros f ks F. induction F; simpl. apply finel_refl. now apply (finel_cons x l [f x] (map f l)). Qed.
Lemma fine_elem : forall x a ks y c ms, (name_in childless y = true -> name_in childless x = true) ->
  (ks = [] -> ms = []) -> finel ks ms -> fine (Elem x a ks) [Elem y c ms].
Proof.
  intros x a ks y c ms V E F T. rewrite tk_elem in T. apply andb_true_iff in T as [T1 T2]. destruct (F T2) as [H1 H2].
  rewrite txs_one, !tx_elem. split; auto. rewrite tks_cons, tk_elem, H2. cbn [tks forallb].
  destruct (name_in childless y); simpl; auto. rewrite V in T1 by auto. simpl in T1.
  destruct ks; try discriminate. now rewrite E.
Qed.
Lemma fine_root : forall n m, is_doc n = false -> fine n [m] -> finer n m.
Proof.
  intros n m D F T. assert (K : tk n = true) by (unfold tk; now rewrite D, T). destruct (F K) as [H1 H2].
  rewrite txs_one in H1. split; auto. simpl in H2. apply andb_true_iff in H2 as [H2 _]. now apply tk_tidy.
Qed.
Lemma finel_root : forall ks ms, finel ks ms -> finer (Doc ks) (Doc ms).
Proof. intros ks ms F T. destruct (F T). rewrite !tx_doc. auto. Qed.
Lemma doc_fine : forall ks ns, fine (Doc ks) ns.
Proof. intros ks ns T. discriminate. Qed.
(** a step on nodes: enough to know it on children *)
Lemma node_step : forall f, (forall n, fine n [f n]) -> (forall ks, finer (Doc ks) (f (Doc ks))) -> forall n, finer n (f n).
Proof. intros f H K n. destruct n; try (apply fine_root; auto; reflexivity). apply K. Qed.

(** merge_text *)
Lemma push_text_fine : forall k done, tk k = true -> tks done = true ->
  txs (rev (push_text k done)) = txs (rev done) ++ tx k /\ tks (push_text k done) = true.
Proof.
  intros k done Tk Td. assert (D : txs (rev (k :: done)) = txs (rev done) ++ tx k /\ tks (k :: done) = true).
  { simpl. rewrite txs_app, txs_one, Tk. auto. }
  destruct k; auto. simpl. destruct done as [|[]]; auto.
  simpl. rewrite !txs_app, !txs_one. unfold tx, chars. simpl. rewrite filter_app, <- app_assoc. split; auto.
Qed.
Lemma merge_list_fine : forall (f : node -> node) ks, Forall (fun k => fine k [f k]) ks ->
  finel ks (rev (fold_left (fun acc k => push_text (f k) acc) ks [])).
Proof.
  intros f ks F T.
  assert (G : forall acc, tks acc = true -> txs (rev (fold_left (fun acc k => push_text (f k) acc) ks acc)) = txs (rev acc) ++ txs ks /\
                            tks (fold_left (fun acc k => push_text (f k) acc) ks acc) = true).
  { revert T. induction F as [|k ks Hk F IH]; intros T acc Ta; cbn [fold_left]. rewrite app_nil_r. auto.
    rewrite tks_cons in T. apply andb_true_iff in T as [T1 T2]. destruct (Hk T1) as [X1 X2]. rewrite txs_one in X1.
    rewrite tks_cons in X2. apply andb_true_iff in X2 as [X2 _].
    destruct (push_text_fine (f k) acc X2 Ta) as [P1 P2]. destruct (IH T2 _ P2) as [I1 I2]. split; auto.
    rewrite I1, P1, X1, <- app_assoc. reflexivity. }
  destruct (G [] eq_refl). split; auto. now apply tks_rev.
Qed.
Lemma fold_nil_rev : forall A B (f : list B -> A -> list B) (ks : list A), ks = [] -> rev (fold_left f ks []) = [].
Proof. intros. now subst. Qed.
Lemma merge_text_fine : forall n, fine n [merge_text n].
Proof.
  induction n using node_induction; cbn [merge_text]; try apply fine_refl; try apply doc_fine.
  apply fine_elem; auto using fold_nil_rev, merge_list_fine.
Qed.
Lemma merge_text_root : forall n, finer n (merge_text n).
Proof.
  apply node_step. apply merge_text_fine. intros. cbn [merge_text]. apply finel_root, merge_list_fine.
  apply Forall_forall. intros; apply merge_text_fine.
Qed.

(** rename_fake_spans *)
Lemma childless_div : name_in childless (b "div") = false. Proof. reflexivity. Qed.
Lemma rename_fine : forall n, fine n [rename_fake_spans n].
Proof.
  induction n using node_induction; cbn [rename_fake_spans]; try apply fine_refl; try apply doc_fine.
  apply fine_elem; auto using finel_map. destruct (_ && _); auto. now rewrite childless_div. intros. now subst.
Qed.
Lemma rename_root : forall n, finer n (rename_fake_spans n).
Proof.
  apply node_step. apply rename_fine. intros. cbn [rename_fake_spans]. apply finel_root, finel_map.
  apply Forall_forall. intros; apply rename_fine.
Qed.

(** remove_redundant *)
Lemma redundant_fine : forall cls n anc, fine n (redundant cls anc n).
Proof.
  intros cls n. induction n using node_induction; intros anc; cbn [redundant]; try apply fine_refl; try apply doc_fine.
  assert (F : forall anc, finel ks (flat_map (redundant cls anc) ks)).
  { intros. apply finel_flat_map. eapply Forall_impl; [|exact H]. auto. }
  assert (E : forall anc, ks = [] -> flat_map (redundant cls anc) ks = []) by (intros; now subst).
  destruct (cls x).
  - destruct (existsb _ _). 2: apply fine_elem; auto.
    intros T. rewrite tk_elem in T. apply andb_true_iff in T as [_ T]. destruct (F anc T). rewrite tx_elem. auto.
  - apply fine_elem; auto.
Qed.
Lemma redundant_one : forall cls n, redundant cls [] n = [remove_redundant cls n].
Proof. intros. unfold remove_redundant. destruct n; cbn [redundant]; auto. destruct (cls name); reflexivity. Qed.
Lemma redundant_root : forall cls n, finer n (remove_redundant cls n).
Proof.
  intros cls n. destruct n; try (apply fine_root; [reflexivity|]; rewrite <- redundant_one; apply redundant_fine).
  unfold remove_redundant. cbn [redundant hd]. apply finel_root, finel_flat_map, Forall_forall. intros; apply redundant_fine.
Qed.

(** remove_empty_code *)
Lemma has_text_none : forall n, has_text n = false -> text_of n = [].
Proof.
  induction n using node_induction; simpl; auto.
  - destruct d; auto; discriminate.
  - intros E. induction H as [|k ks Hk H IH]; simpl in *; auto. apply orb_false_iff in E as [E1 E2]. now rewrite Hk, IH.
  - intros E. induction H as [|k ks Hk H IH]; simpl in *; auto. apply orb_false_iff in E as [E1 E2]. now rewrite Hk, IH.
Qed.
Lemma empty_code_text : forall n, is_empty_code n = true -> tx n = [].
Proof.
  unfold is_empty_code, tx, chars. intros n H. apply andb_true_iff in H as [_ H]. apply negb_true_iff in H.
  now rewrite has_text_none.
Qed.
Lemma empty_code_list : forall ks, Forall (fun n => fine n [remove_empty_code n]) ks ->
  finel ks (flat_map (fun k => if is_empty_code k then [] else [remove_empty_code k]) ks).
Proof.
  intros ks H. apply finel_flat_map. eapply Forall_impl; [|exact H]. intros k Hk. cbv beta. destruct (is_empty_code k) eqn:E; auto.
  intros _. rewrite empty_code_text; auto.
Qed.
Lemma empty_code_fine : forall n, fine n [remove_empty_code n].
Proof.
  induction n using node_induction; cbn [remove_empty_code]; try apply fine_refl; try apply doc_fine.
  destruct (is_empty_code _). apply fine_refl. apply fine_elem; auto using empty_code_list. intros; now subst.
Qed.
Lemma empty_code_root : forall n, finer n (remove_empty_code n).
Proof.
  apply node_step. apply empty_code_fine. intros. cbn [remove_empty_code]. apply finel_root, empty_code_list, Forall_forall.
  intros; apply empty_code_fine.
Qed.

(** swap_tags: both tags may have children *)
Definition swappable (p : node -> bool) : Prop := forall x a ks, p (Elem x a ks) = true -> name_in childless x = false.
Lemma swap_fine : forall outer inner, swappable outer -> swappable inner -> forall n, fine n [swap_tags outer inner n].
Proof.
  intros outer inner Ho Hi. induction n using node_induction; cbn [swap_tags]; try apply fine_refl; try apply doc_fine.
  assert (D : fine (Elem x a ks) [Elem x a (map (swap_tags outer inner) ks)]).
  { apply fine_elem; auto using finel_map. intros; now subst. }
  destruct (outer (Elem x a ks)) eqn:Eo; auto.
  destruct (filter (fun k => negb (is_blank_text k)) ks) as [|[] []] eqn:Ef; auto.
  destruct (inner _) eqn:Ei; auto.
  pose proof (Ho _ _ _ Eo) as Vo. pose proof (Hi _ _ _ Ei) as Vi.
  apply fine_elem; auto. rewrite Vi. discriminate. intros; now subst. apply finel_map, Forall_forall.
  intros k Ik. destruct (is_blank_text k) eqn:Eb. apply fine_refl.
  assert (I : In k [Elem name at_ kids]).
  { rewrite <- Ef. apply filter_In. now rewrite Eb. }
  destruct I as [<- | []]. cbn [retag]. apply fine_elem; auto. rewrite Vo. discriminate. apply finel_refl.
Qed.
Lemma swap_root : forall outer inner, swappable outer -> swappable inner -> forall n, finer n (swap_tags outer inner n).
Proof.
  intros outer inner Ho Hi. apply node_step. now apply swap_fine. intros. cbn [swap_tags]. apply finel_root, finel_map, Forall_forall.
  intros. now apply swap_fine.
Qed.

(** merge_adjacent *)
Section merge.
Variable mt : node -> bool.
Hypothesis Hmt : forall n, mt n = true -> exists x a ks, n = Elem x a ks /\ name_in childless x = false.
Lemma collect_elem : forall x a ks, collect_node mt (Elem x a ks) =
  if is_span (Elem x a ks) then let '(c, ks', go) := collect_list mt ks in (c, [Elem x a ks'], go)
  else if mt (Elem x a ks) then (ks, [], true) else ([], [Elem x a ks], false).
Proof.
  intros. cbn [collect_node]. destruct (is_span _); auto.
  match goal with |- (let '(_, _) := ?t in _) = _ => replace t with (collect_list mt ks); auto end.
  induction ks as [|k ks IH]; auto. cbn [collect_list]. rewrite IH. reflexivity.
Qed.
Definition collected (n : node) (r : list node * list node * bool) : Prop :=
  let '(c, l, go) := r in tk n = true -> txs c ++ txs l = tx n /\ (go = true -> txs l = []) /\ tks c = true /\ tks l = true.
Definition collectedl (ks : list node) (r : list node * list node * bool) : Prop :=
  let '(c, l, go) := r in tks ks = true -> txs c ++ txs l = txs ks /\ (go = true -> txs l = []) /\ tks c = true /\ tks l = true.
Lemma collect_list_ok : forall ks, Forall (fun k => collected k (collect_node mt k)) ks -> collectedl ks (collect_list mt ks).
Proof.
  intros ks F. induction F as [|k ks Hk F IH]; cbn [collect_list]. simpl; auto.
  destruct (collect_node mt k) as [[c k'] go]. unfold collected in Hk. destruct go.
  - destruct (collect_list mt ks) as [[c2 r'] go2]. intros T. rewrite tks_cons in T. apply andb_true_iff in T as [T1 T2].
    destruct (Hk T1) as (A1 & A2 & A3 & A4). destruct (IH T2) as (B1 & B2 & B3 & B4). rewrite A2 in * by auto.
    rewrite app_nil_r in A1. rewrite !txs_app, txs_cons, !tks_app, A2, A3, A4, B3, B4 by auto. simpl.
    rewrite <- app_assoc, B1, A1. auto.
  - intros T. rewrite tks_cons in T. apply andb_true_iff in T as [T1 T2].
    destruct (Hk T1) as (A1 & A2 & A3 & A4). rewrite txs_app, txs_cons, tks_app, A4, T2, app_assoc, A1. repeat split; auto; discriminate.
Qed.
Lemma collect_node_ok : forall n, collected n (collect_node mt n).
Proof.
  induction n using node_induction;
    try (unfold collected; cbn [collect_node]; intros T; rewrite txs_one; cbn [tks forallb]; rewrite T; repeat split; auto; discriminate).
  - rewrite collect_elem. destruct (is_span _) eqn:Es.
    + pose proof (collect_list_ok ks H) as C. destruct (collect_list mt ks) as [[c ks'] go]. intros T.
      rewrite tk_elem in T. apply andb_true_iff in T as [T1 T2]. destruct (C T2) as (A1 & A2 & A3 & A4).
      rewrite txs_one, !tx_elem. repeat split; auto. rewrite tks_cons, tk_elem, A4.
      assert (V : name_in childless x = false).
      { unfold is_span in Es. simpl in Es. rewrite orb_false_r in Es. apply beqb_eq in Es. now subst. }
      now rewrite V.
    + destruct (mt _) eqn:Em.
      * intros T. rewrite tk_elem in T. apply andb_true_iff in T as [T1 T2]. rewrite tx_elem, app_nil_r. auto.
      * intros T. rewrite txs_one. simpl tks. rewrite T. repeat split; auto. discriminate.
Qed.
Definition txst (st : list (list node)) : bytes := flat_map txs st.
Definition tkst (st : list (list node)) : bool := forallb tks st.
Lemma txst_cons : forall l st, txst (l :: st) = txs l ++ txst st.
Proof. reflexivity. Qed.
Lemma tkst_cons : forall l st, tkst (l :: st) = tks l && tkst st.
Proof. reflexivity. Qed.
Lemma collect_stack_ok : forall st c st', collect_stack mt st = (c, st') -> tkst st = true ->
  txs c ++ txst st' = txst st /\ tks c = true /\ tkst st' = true /\ List.length st' = List.length st.
Proof.
  induction st as [|l up IH]; intros c st' E T; cbn [collect_stack] in E. injection E as <- <-. auto.
  apply andb_true_iff in T as [T1 T2].
  pose proof (collect_list_ok l (proj2 (Forall_forall _ _) (fun k _ => collect_node_ok k))) as C.
  destruct (collect_list mt l) as [[c1 l'] go]. destruct (C T1) as (A1 & A2 & A3 & A4). destruct go.
  - destruct (collect_stack mt up) as [c2 up'] eqn:Eu. injection E as <- <-. destruct (IH _ _ eq_refl T2) as (B1 & B2 & B3 & B4).
    rewrite !txst_cons, tkst_cons, A2 in * by auto. rewrite app_nil_r in A1. rewrite txs_app, tks_app, <- app_assoc.
    cbn [app List.length]. rewrite B1, A1, A3, B2, A4, B3, B4. auto.
  - injection E as <- <-. rewrite !txst_cons, tkst_cons, app_assoc, A1, A4. cbn [List.length]. auto.
Qed.
Lemma collect_adjacent_ok : forall st c st', collect_adjacent mt st = (c, st') -> tkst st = true ->
  txs c ++ txst st' = txst st /\ tks c = true /\ tkst st' = true /\ List.length st' = List.length st.
Proof.
  intros st c st' E T. unfold collect_adjacent in E. destruct st as [|[|k l] up]; try (injection E as <- <-; auto).
  eapply collect_stack_ok; eauto.
Qed.
Lemma merge_list_nil : forall f st, merge_adj_list mt f [] st = ([], st).
Proof. destruct f; auto. Qed.
Lemma with_kids_doc : forall n ks, is_doc (with_kids n ks) = is_doc n.
Proof. destruct n; auto. Qed.
Lemma with_kids_tidy : forall n ks, tidy n = true -> tks ks = true -> (kids n = [] -> name_in childless (node_name n) = true -> ks = []) ->
  tidy (with_kids n ks) = true.
Proof.
  intros n ks T K V. destruct n; auto; cbn [with_kids].
  change (tk (Elem name at_ kids) = true) in T. change (tk (Elem name at_ ks) = true). rewrite tk_elem in *.
  apply andb_true_iff in T as [T1 T2]. rewrite K, andb_true_r.
  cbn [Dom.kids node_name] in V. destruct (name_in childless name); auto. destruct kids; try discriminate. rewrite V; auto.
Qed.
Lemma merge_adj_ok : forall f n st,
  (forall n' st', merge_adj mt f n st = (n', st') -> tidy n = true -> tkst st = true ->
     tx n' ++ txst st' = tx n ++ txst st /\ tidy n' = true /\ is_doc n' = is_doc n /\ tkst st' = true /\ List.length st' = List.length st) /\
  (forall l l' st', merge_adj_list mt f l st = (l', st') -> tks l = true -> tkst st = true ->
     txs l' ++ txst st' = txs l ++ txst st /\ tks l' = true /\ tkst st' = true /\ List.length st' = List.length st).
Proof.
  induction f as [|f IH]; intros n st; split.
  - intros n' st' E. injection E as <- <-. auto.
  - intros l l' st' E. injection E as <- <-. auto.
  - intros n' st' E T Ts. cbn [merge_adj] in E.
    destruct (if mt n then collect_adjacent mt st else ([], st)) as [c st1] eqn:Ec.
    assert (C : txs c ++ txst st1 = txst st /\ tks c = true /\ tkst st1 = true /\ List.length st1 = List.length st).
    { destruct (mt n). now apply collect_adjacent_ok. injection Ec as <- <-. auto. }
    destruct C as (C1 & C2 & C3 & C4).
    destruct (merge_adj_list mt f (kids n ++ c) st1) as [ks st2] eqn:Ek. injection E as <- <-.
    destruct (IH n st1) as [_ IHl]. destruct (IHl _ _ _ Ek) as (D1 & D2 & D3 & D4); auto.
    { rewrite tks_app, C2. now rewrite tidy_kids. }
    destruct (mt n) eqn:Em.
    + destruct (Hmt n Em) as (x & a & l & -> & V). cbn [with_kids kids] in *. rewrite tx_elem, tx_elem.
      rewrite D1, txs_app, <- app_assoc, C1. repeat split; auto; try congruence.
      change (tk (Elem x a ks) = true). rewrite tk_elem, V, D2. reflexivity.
    + injection Ec as <- <-. rewrite app_nil_r in *.
      assert (K : kids n = [] -> ks = []). { intros E0. rewrite E0, merge_list_nil in Ek. now injection Ek. }
      rewrite with_kids_doc. repeat split; auto; try congruence.
      * destruct n; cbn [with_kids Dom.kids] in *; rewrite ?tx_elem, ?tx_doc; auto; rewrite K in D1 by auto;
          cbn [txs flat_map app] in D1; now rewrite D1.
      * apply with_kids_tidy; auto.
  - intros l l' st' E T Ts. cbn [merge_adj_list] in E. destruct l as [|x r].
    { injection E as <- <-. auto. }
    destruct (merge_adj mt f x (r :: st)) as [x' st1] eqn:Ex.
    destruct (merge_adj_list mt f (hd [] st1) (tl st1)) as [r' st2] eqn:Er. injection E as <- <-.
    rewrite tks_cons in T. apply andb_true_iff in T as [T1 T2].
    destruct (IH x (r :: st)) as [IHn _]. destruct (IHn _ _ Ex) as (A1 & A2 & A3 & A4 & A5); auto using tk_tidy.
    { simpl. now rewrite T2, Ts. }
    destruct st1 as [|r1 st1]; try discriminate. cbn [hd tl] in *. rewrite !txst_cons, ?tkst_cons in *. apply andb_true_iff in A4 as [A4 A6].
    destruct (IH x st1) as [_ IHl]. destruct (IHl _ _ _ Er) as (B1 & B2 & B3 & B4); auto.
    rewrite !txs_cons, <- !app_assoc, B1, A1. repeat split; auto.
    + rewrite tks_cons. unfold tk in *. rewrite A3, A2, B2. apply andb_true_iff in T1 as [T1 _]. now rewrite T1.
    + injection A5 as A5. congruence.
Qed.
Lemma merge_adjacent_root : forall n, finer n (merge_adjacent mt n).
Proof.
  intros n T. unfold merge_adjacent. destruct (merge_adj mt (merge_fuel n) n []) as [n' st'] eqn:E.
  destruct (merge_adj_ok (merge_fuel n) n []) as [H _]. destruct (H _ _ E T eq_refl) as (H1 & H2 & _ & _ & H5).
  destruct st'; try discriminate. simpl in *. rewrite !app_nil_r in H1. auto.
Qed.
End merge.

(** add_space: only blanks are added *)
Section space.
Hypothesis Hsp : keep 32 = false.
Definition one (k k' : node) : Prop := fine k [k'] /\ is_doc k' = is_doc k.
Lemma one_refl : forall k, one k k.
Proof. split; auto. apply fine_refl. Qed.
Lemma one_trans : forall a c d, one a c -> one c d -> one a d.
Proof.
  intros a c d [H1 H2] [K1 K2]. split; [|congruence]. intros T. destruct (H1 T) as [A B]. rewrite tks_cons in B. apply andb_true_iff in B as [B _].
  destruct (K1 B) as [C D]. rewrite txs_one in *. split; congruence.
Qed.
Lemma ones_refl : forall l, Forall2 one l l.
Proof. induction l; constructor; auto using one_refl. Qed.
Lemma ones_trans : forall a c d, Forall2 one a c -> Forall2 one c d -> Forall2 one a d.
Proof. intros a c d H. revert d. induction H; intros d K; inversion K; subst; constructor; eauto using one_trans. Qed.
Lemma ones_finel : forall a c, Forall2 one a c -> finel a c.
Proof. intros a c H. induction H as [|k k' a c [K _] H IH]. apply finel_refl. now apply (finel_cons k a [k'] c). Qed.
Lemma ones_rev : forall a c, Forall2 one a c -> Forall2 one (rev a) (rev c).
Proof. intros a c H. induction H; simpl; auto. apply Forall2_app; auto. Qed.
Lemma ones_nil : forall a c, Forall2 one a c -> a = [] -> c = [].
Proof. intros a c H E. subst. now inversion H. Qed.
Lemma ones_tks : forall a c, Forall2 one a c -> tks a = true -> tks c = true.
Proof. intros a c H T. now apply (ones_finel a c H). Qed.
Definition stacks := Forall2 (Forall2 one).
Lemma stacks_refl : forall l, stacks l l.
Proof. induction l; constructor; auto using ones_refl. Qed.
Lemma stacks_trans : forall a c d, stacks a c -> stacks c d -> stacks a d.
Proof. unfold stacks. intros a c d H. revert d. induction H; intros d K; inversion K; subst; constructor; eauto using ones_trans. Qed.

Definition touch_kids (fwd : bool) := fix go (l : list node) : list node * bool :=
             match l with
             | [] => ([], false)
             | k :: r => if fwd then let '(k', f) := touch fwd k in
                                     if f : bool then (k' :: r, true) else let '(r', f2) := go r in (k' :: r', f2)
                         else let '(r', f) := go r in
                              if f : bool then (k :: r', true) else let '(k', f2) := touch fwd k in (k' :: r', f2)
             end.
Lemma touch_elem : forall fwd x a ks, touch fwd (Elem x a ks) =
  if is_span (Elem x a ks) then let '(ks', f) := touch_kids fwd ks in (Elem x a ks', f) else (Elem x a ks, true).
Proof. reflexivity. Qed.
Lemma elem_one : forall x a ks ks', Forall2 one ks ks' -> one (Elem x a ks) (Elem x a ks').
Proof. intros. split; auto. apply fine_elem; auto using ones_finel. eauto using ones_nil. Qed.
Lemma touch_one : forall fwd n, one n (fst (touch fwd n)).
Proof.
  intros fwd n. induction n using node_induction; try apply one_refl.
  - split; auto. intros T. rewrite txs_one. split; auto. unfold tx, chars. simpl. unfold cSP. destruct fwd; simpl; [now rewrite Hsp |].
    rewrite filter_app. simpl. now rewrite Hsp, app_nil_r.
  - rewrite touch_elem. destruct (is_span _); [|apply one_refl].
    assert (K : Forall2 one ks (fst (touch_kids fwd ks))).
    { induction H as [|k ks Hk H IH]; simpl. constructor. destruct fwd.
      - destruct (touch true k) as [k' f]. simpl in Hk. destruct f; simpl. constructor; auto using ones_refl.
        destruct (touch_kids true ks) as [r' f2]. simpl in *. constructor; auto.
      - destruct (touch_kids false ks) as [r' f]. simpl in IH. destruct f; simpl. constructor; auto using one_refl.
        destruct (touch false k) as [k' f2]. simpl in *. constructor; auto. }
    destruct (touch_kids fwd ks) as [ks' f]. simpl in *. now apply elem_one.
Qed.
Lemma touch_list_one : forall fwd l, Forall2 one l (fst (touch_list fwd l)).
Proof.
  induction l as [|k r IH]; simpl. constructor. pose proof (touch_one fwd k). destruct (touch fwd k) as [k' f]. simpl in *.
  destruct f; simpl. constructor; auto using ones_refl. destruct (touch_list fwd r). simpl in *. constructor; auto.
Qed.
Lemma touch_stack_one : forall fwd st, stacks st (touch_stack fwd st).
Proof.
  induction st as [|l up IH]; simpl. constructor. pose proof (touch_list_one fwd l). destruct (touch_list fwd l) as [l' f]. simpl in *.
  destruct f; (constructor; [auto | first [exact IH | apply stacks_refl]]).
Qed.
Lemma stacks_hd : forall a st st', stacks (a :: st) st' -> Forall2 one a (hd [] st') /\ stacks st (tl st').
Proof. intros. inversion H; subst. auto. Qed.
Lemma add_space_ok : forall outer inner f n lt rt,
  (forall n' lt' rt', add_space outer inner f n lt rt = (n', lt', rt') ->
     (if is_doc n then forall ks, n = Doc ks -> exists ks', n' = Doc ks' /\ Forall2 one ks ks' else one n n') /\ stacks lt lt' /\ stacks rt rt') /\
  (forall done todo l lt' rt', add_space_list outer inner f done todo lt rt = (l, lt', rt') ->
     Forall2 one (rev done ++ todo) l /\ stacks lt lt' /\ stacks rt rt').
Proof.
  intros outer inner. induction f as [|f IH]; intros n lt rt; split.
  - intros n' lt' rt' E. injection E as <- <- <-. split; auto using stacks_refl. destruct n; simpl; auto using one_refl.
    intros ks0 [= <-]. eauto using ones_refl.
  - intros done todo l lt' rt' E. injection E as <- <- <-. auto using ones_refl, stacks_refl.
  - intros n' lt' rt' E. cbn [add_space] in E.
    match type of E with (let '(_, _) := add_space_list _ _ _ _ _ ?l _ in _) = _ => set (lt1 := l) in E end.
    match type of E with (let '(_, _) := add_space_list _ _ _ _ _ _ ?r in _) = _ => set (rt1 := r) in E end.
    assert (R : stacks rt rt1).
    { unfold rt1. match goal with |- stacks _ (if ?c then _ else _) => destruct c end; auto using stacks_refl, touch_stack_one. }
    assert (L : stacks lt lt1).
    { unfold lt1. match goal with |- stacks _ (if ?c then _ else _) => destruct c end; auto using stacks_refl, touch_stack_one. }
    clearbody lt1 rt1.
    destruct (add_space_list outer inner f [] (kids n) lt1 rt1) as [[ks lt2] rt2] eqn:Ek. injection E as <- <- <-.
    destruct (IH n lt1 rt1) as [_ IHl]. destruct (IHl _ _ _ _ _ Ek) as (A & B & C). simpl in A.
    split; [|eauto using stacks_trans].
    destruct n; simpl in *; auto using one_refl. now apply elem_one.
    intros ks0 [= <-]. eauto.
  - intros done todo l lt' rt' E. cbn [add_space_list] in E. destruct todo as [|x r].
    { injection E as <- <- <-. rewrite app_nil_r. auto using ones_refl, stacks_refl. }
    destruct (add_space outer inner f x (done :: lt) (r :: rt)) as [[x' lt1] rt1] eqn:Ex.
    destruct (IH x (done :: lt) (r :: rt)) as [IHn _]. destruct (IHn _ _ _ Ex) as (A & B & C).
    apply stacks_hd in B as [B1 B2]. apply stacks_hd in C as [C1 C2].
    destruct (IH x (tl lt1) (tl rt1)) as [_ IHl]. destruct (IHl _ _ _ _ _ E) as (D1 & D2 & D3).
    split; [|eauto using stacks_trans]. eapply ones_trans; [|exact D1]. simpl. rewrite <- app_assoc.
    apply Forall2_app. now apply ones_rev. constructor; auto.
    destruct (is_doc x) eqn:Ed; auto. destruct x; try discriminate. destruct (A _ eq_refl) as (ks' & -> & _).
    split; auto. apply doc_fine.
Qed.
Lemma add_space_finer : forall outer inner n, finer n (add_space_root outer inner n).
Proof.
  intros outer inner n. unfold add_space_root. destruct (add_space outer inner (merge_fuel n) n [] []) as [[n' lt'] rt'] eqn:E.
  destruct (add_space_ok outer inner (merge_fuel n) n [] []) as [H _]. destruct (H _ _ _ E) as (H1 & _ & _). simpl.
  destruct (is_doc n) eqn:Ed.
  - destruct n; try discriminate. destruct (H1 _ eq_refl) as (ks' & -> & F). apply finel_root. now apply ones_finel.
  - apply fine_root; auto. apply H1.
Qed.
End space.

(** leaf_alternatives: only blanks and quotes are added *)
Section alternatives.
Hypothesis Hsp : keep 32 = false.
Hypothesis Hquote : keep 34 = false.
Lemma quote_tx : tx (Text [32; 34]) = [] /\ tx (Text [34; 32]) = [].
Proof. unfold tx, chars. simpl. now rewrite Hsp, Hquote. Qed.
Lemma alternative_fine : forall x a ks ms, name_in childless x = false \/ x = b "hr" -> finel ks ms -> fine (Elem x a ks) (alternative x a ms).
Proof.
  intros x a ks ms V F T. rewrite tk_elem in T. apply andb_true_iff in T as [T1 T2]. destruct (F T2) as [H1 H2]. rewrite tx_elem, <- H1.
  unfold alternative. destruct quote_tx as [Q1 Q2].
  destruct (is_heading_name x). { rewrite !txs_cons, !tx_elem, !tks_cons, !tk_elem, H2. simpl. now rewrite app_nil_r. }
  destruct (beqb x (b "blockquote")).
  { rewrite !txs_cons, !tx_elem, !tks_cons, !tk_elem, H2, Q1, Q2. simpl. now rewrite app_nil_r. }
  destruct (beqb x (b "pre")). { rewrite !txs_cons, !tx_elem, !tks_cons, !tk_elem, H2. simpl. now rewrite app_nil_r. }
  destruct (beqb x (b "hr")) eqn:Eh.
  { apply beqb_eq in Eh. subst x. simpl in T1. destruct ks; try discriminate. simpl in H1. rewrite H1. auto. }
  rewrite !txs_cons, !tx_elem, !tks_cons, !tk_elem, H2. simpl. now rewrite app_nil_r.
Qed.
Lemma childless_cases : forall x, name_in childless x = true -> x = b "hr" \/ x = b "br" \/ x = b "img".
Proof.
  intros x H. unfold name_in in H. apply existsb_exists in H as (y & I & E). apply beqb_eq in E. subst.
  destruct I as [<- | [<- | [<- | []]]]; auto.
Qed.
Lemma block_not_void : forall x, is_container x || is_leaf_block x = true -> name_in childless x = false \/ x = b "hr".
Proof.
  intros x H. destruct (name_in childless x) eqn:E; auto. right. destruct (childless_cases x E) as [-> | [-> | ->]]; auto; discriminate.
Qed.
Lemma leaf_fine : forall n leaf inl, fine n (leaf_alternatives leaf inl n).
Proof.
  induction n using node_induction; intros leaf inl; cbn [leaf_alternatives]; try apply fine_refl; try apply doc_fine.
  assert (F : forall l i, finel ks (flat_map (leaf_alternatives l i) ks)).
  { intros. apply finel_flat_map. eapply Forall_impl; [|exact H]. auto. }
  destruct ((is_container x || is_leaf_block x) && (leaf || inl)) eqn:E.
  - apply andb_true_iff in E as [E _]. apply alternative_fine; auto using block_not_void.
  - apply fine_elem; auto. intros; now subst.
Qed.
Lemma leaf_one : forall n, leaf_alternatives false false n = [leaf_block_alternatives n].
Proof. intros. unfold leaf_block_alternatives. destruct n; cbn [leaf_alternatives]; auto. simpl (_ || false). rewrite andb_false_r. reflexivity. Qed.
Lemma leaf_root : forall n, finer n (leaf_block_alternatives n).
Proof.
  intros n. destruct n; try (apply fine_root; [reflexivity|]; rewrite <- leaf_one; apply leaf_fine).
  unfold leaf_block_alternatives. cbn [leaf_alternatives hd]. apply finel_root, finel_flat_map, Forall_forall. intros; apply leaf_fine.
Qed.
End alternatives.

(** move_list_items: blank texts may move *)
Section items.
Hypothesis Hblank : forall d, is_empty (trim_space d) = true -> filter keep d = [].
Lemma add_kid_ok : forall li k, named [b "li"] li = true -> tk li = true -> tk k = true ->
  tx (add_kid li k) = tx li ++ tx k /\ tk (add_kid li k) = true.
Proof.
  intros li k N T K. destruct li; try discriminate. unfold add_kid. cbn [with_kids Dom.kids]. rewrite !tx_elem, txs_app, txs_one.
  simpl in N. rewrite orb_false_r in N. apply beqb_eq in N. subst name. rewrite tk_elem in *. apply andb_true_iff in T as [_ T].
  rewrite tks_app, T. simpl. now rewrite K.
Qed.
(** reversed lists: only blank texts before (that is, behind) the first li *)
Lemma add_to_li_ok : forall k done done', add_to_li k done = Some done' -> tks done = true -> tk k = true ->
  Forall (fun x => named [b "li"] x = true \/ is_blank_text x = true) done ->
  txs (rev done') = txs (rev done) ++ tx k /\ tks done' = true /\
  Forall (fun x => named [b "li"] x = true \/ is_blank_text x = true) done'.
Proof.
  induction done as [|x r IH]; intros done' E T K F; cbn [add_to_li] in E. discriminate.
  rewrite tks_cons in T. apply andb_true_iff in T as [T1 T2]. inversion F; subst.
  destruct (named [b "li"] x) eqn:El.
  - injection E as <-. destruct (add_kid_ok x k El T1 K) as [A1 A2]. simpl rev. rewrite !txs_app, !txs_one, A1, <- app_assoc, tks_cons, A2.
    split; auto. split; auto. constructor; auto. left. destruct x; try discriminate. exact El.
  - destruct (add_to_li k r) as [r'|] eqn:Er; try discriminate. injection E as <-. destruct (IH r' eq_refl T2 K H2) as (A1 & A2 & A3).
    destruct H1 as [H1 | H1]; try congruence. simpl rev. rewrite !txs_app, !txs_one, A1, tks_cons, T1.
    assert (B : tx x = []). { destruct x; try discriminate. apply Hblank. exact H1. }
    rewrite B, !app_nil_r. repeat split; auto.
Qed.
Lemma add_to_li_none : forall k done, add_to_li k done = None -> Forall (fun x => named [b "li"] x = false) done.
Proof.
  induction done as [|x r IH]; intros E; cbn [add_to_li] in E. constructor.
  destruct (named [b "li"] x) eqn:El; try discriminate. destruct (add_to_li k r); try discriminate. constructor; auto.
Qed.
Lemma regroup_ok : forall ks, tks ks = true ->
  txs (regroup ks) = txs ks /\ tks (regroup ks) = true /\
  Forall (fun x => named [b "li"] x = true \/ is_blank_text x = true) (regroup ks).
Proof.
  intros ks T. unfold regroup.
  assert (G : forall ks done, tks ks = true -> tks done = true -> Forall (fun x => named [b "li"] x = true \/ is_blank_text x = true) done ->
    txs (rev (fold_left regroup_step ks done)) = txs (rev done) ++ txs ks /\ tks (fold_left regroup_step ks done) = true /\
    Forall (fun x => named [b "li"] x = true \/ is_blank_text x = true) (fold_left regroup_step ks done)).
  { clear ks T. induction ks as [|k ks IH]; intros done T Td F; cbn [fold_left]. rewrite app_nil_r; auto.
    rewrite tks_cons in T. apply andb_true_iff in T as [T1 T2].
    assert (S : txs (rev (regroup_step done k)) = txs (rev done) ++ tx k /\ tks (regroup_step done k) = true /\
                Forall (fun x => named [b "li"] x = true \/ is_blank_text x = true) (regroup_step done k)).
    { unfold regroup_step. destruct (named [b "li"] k || is_blank_text k) eqn:E.
      - simpl rev. rewrite txs_app, txs_one, tks_cons, T1, Td. repeat split; auto. constructor; auto. now apply orb_true_iff.
      - destruct (add_to_li k done) eqn:Ea. now apply add_to_li_ok.
        simpl rev. rewrite txs_app, txs_one, tx_elem, txs_one, tks_cons, tk_elem, Td. simpl tks. rewrite T1. repeat split; auto. }
    destruct S as (S1 & S2 & S3). destruct (IH _ T2 S2 S3) as (A1 & A2 & A3). rewrite A1, S1, txs_cons, <- app_assoc. auto. }
  destruct (G ks [] T eq_refl (Forall_nil _)) as (A1 & A2 & A3). repeat split; auto using tks_rev. now apply Forall_rev.
Qed.
Lemma regroup_nil : regroup [] = []. Proof. reflexivity. Qed.
Lemma items_fine : forall n, fine n [move_list_items n].
Proof.
  induction n using node_induction; cbn [move_list_items]; try apply fine_refl; try apply doc_fine.
  apply fine_elem; auto. { intros ->. now destruct (is_list_name x). }
  apply (finel_trans ks (map move_list_items ks)). now apply finel_map.
  destruct (is_list_name x). 2: apply finel_refl. intros T. destruct (regroup_ok _ T) as (A & B & _). auto.
Qed.
Lemma items_root : forall n, finer n (move_list_items n).
Proof.
  apply node_step. apply items_fine. intros. cbn [move_list_items]. apply finel_root, finel_map, Forall_forall. intros; apply items_fine.
Qed.
End items.

(** list_end_comments *)
Definition comments_kids (st : list (list node)) := fix go (l : list node) : list node :=
  match l with [] => [] | k :: r => list_end_comments (r :: st) k ++ go r end.
Lemma comments_elem : forall st x a ks, list_end_comments st (Elem x a ks) =
  let mark := is_list_name x && next_list_stack st in
  let st' := if mark then match st with l :: up => (Comment end_comment_data :: l) :: up | [] => [] end else st in
  Elem x a (comments_kids st' ks) :: (if mark then [Comment end_comment_data] else []).
Proof. reflexivity. Qed.
Lemma comments_doc : forall st ks, list_end_comments st (Doc ks) = [Doc (comments_kids st ks)].
Proof. reflexivity. Qed.
Lemma comments_fine : forall n st, fine n (list_end_comments st n).
Proof.
  induction n using node_induction; intros st; try apply fine_refl; try apply doc_fine.
  rewrite comments_elem. cbv zeta. match goal with |- fine _ (Elem _ _ (comments_kids ?s _) :: _) => set (st' := s) end.
  assert (F : finel ks (comments_kids st' ks)).
  { clearbody st'. induction H as [|k ks Hk H IH]; simpl. apply finel_refl. now apply finel_cons. }
  assert (E : fine (Elem x a ks) [Elem x a (comments_kids st' ks)]). { apply fine_elem; auto. intros; now subst. }
  intros T. destruct (E T) as [E1 E2]. destruct (is_list_name x && next_list_stack st); auto.
Qed.
Lemma comments_one : forall n, list_end_comments [] n = [add_list_end_comments n].
Proof. intros. unfold add_list_end_comments. destruct n; auto. rewrite comments_elem. simpl next_list_stack. rewrite andb_false_r. reflexivity. Qed.
Lemma comments_root : forall n, finer n (add_list_end_comments n).
Proof.
  intros n. destruct n; try (apply fine_root; [reflexivity|]; rewrite <- comments_one; apply comments_fine).
  unfold add_list_end_comments. rewrite comments_doc. cbn [hd]. apply finel_root.
  induction kids as [|k ks IH]; simpl. apply finel_refl. apply finel_cons; auto. apply comments_fine.
Qed.

(** collapse *)
Section collapse.
Variable is_block : bytes -> bool.
Hypothesis Hws : forall c, is_ws c = true -> keep c = false.
Lemma collapse_ws_keep : forall s prev, filter keep (collapse_ws_from prev s) = filter keep s.
Proof.
  induction s as [|c s IH]; intros prev; simpl; auto. destruct (is_ws c) eqn:E.
  - rewrite (Hws c E). destruct prev; simpl; auto. rewrite (Hws cSP) by reflexivity. auto.
  - simpl. now rewrite IH.
Qed.
Lemma keep_sp : keep 32 = false.
Proof. now apply Hws. Qed.
Lemma lead_text_keep : forall s d, filter keep (match lead_text s d with Some t => t | None => [] end) = filter keep d.
Proof.
  intros s d. unfold lead_text. rewrite <- (collapse_ws_keep d false). change (collapse_ws_from false d) with (collapse_ws d).
  set (t := match collapse_ws d with [] => _ | _ => _ end).
  assert (E : filter keep t = filter keep (collapse_ws d)).
  { unfold t. destruct (collapse_ws d) as [|c r]; auto. destruct (_ && (c =? cSP)) eqn:E; auto.
    apply andb_true_iff in E as [_ E]. apply N.eqb_eq in E. subst. unfold cSP. simpl. now rewrite keep_sp. }
  destruct t; auto.
Qed.
Definition lead_kids := fix go (s : cstate) (l : list node) : cstate * list node :=
             match l with
             | [] => (s, [])
             | k :: r => let '(s1, k') := lead is_block s k in let '(s2, r') := go s1 r in (s2, k' ++ r')
             end.
Lemma lead_elem : forall s x a ks, lead is_block s (Elem x a ks) =
  let s1 := visit (effect_of is_block x) s in
  if is_preformatted x then (s1, [Elem x a ks])
  else let '(s2, ks') := lead_kids s1 ks in (visit (effect_of is_block x) s2, [Elem x a ks']).
Proof. reflexivity. Qed.
Lemma lead_kids_eq : forall ks s, lead_kids s ks = lead_list is_block s ks.
Proof. reflexivity. Qed.
Lemma lead_list_fine : forall ks, Forall (fun n => forall s, fine n (snd (lead is_block s n))) ks ->
  forall s, finel ks (snd (lead_list is_block s ks)) /\ (ks = [] -> snd (lead_list is_block s ks) = []).
Proof.
  intros ks H. induction H as [|k ks Hk H IH]; intros s; simpl. split; auto. apply finel_refl.
  specialize (Hk s). destruct (lead is_block s k) as [s1 k']. destruct (IH s1) as [A _]. destruct (lead_list is_block s1 ks) as [s2 r'].
  simpl in *. split; [now apply finel_cons | discriminate].
Qed.
Lemma lead_fine : forall n s, fine n (snd (lead is_block s n)).
Proof.
  induction n using node_induction; intros s; try apply fine_refl; try apply doc_fine.
  - simpl. pose proof (lead_text_keep s d). destruct (lead_text s d); simpl in *; intros T.
    + rewrite txs_one. split; auto.
    + split; auto.
  - rewrite lead_elem. cbv zeta. destruct (is_preformatted x). apply fine_refl.
    rewrite lead_kids_eq. destruct (lead_list_fine ks H (visit (effect_of is_block x) s)) as [A B].
    destruct (lead_list is_block (visit (effect_of is_block x) s) ks) as [s2 ks']. apply fine_elem; auto.
Qed.
Lemma trim_suffix_keep : forall d, filter keep (trim_suffix_space d) = filter keep d.
Proof.
  intros d. unfold trim_suffix_space. destruct (has_suffix [cSP] d) eqn:E; auto.
  apply has_suffix_iff in E as [r ->]. rewrite removelast_last, filter_app. unfold cSP. simpl. now rewrite keep_sp, app_nil_r.
Qed.
Definition trail_kids (tr1 : bool) := fix go (l : list node) : bool * list node :=
             match l with
             | [] => (tr1, [])
             | k :: r => let '(t1, r') := go r in let '(t2, k') := trail is_block t1 k in (t2, k' :: r')
             end.
Lemma trail_elem : forall tr x a ks, trail is_block tr (Elem x a ks) =
  let tr1 := visit_back (effect_of is_block x) tr in
  if is_preformatted x then (tr1, Elem x a ks)
  else let '(tr2, ks') := trail_kids tr1 ks in (visit_back (effect_of is_block x) tr2, Elem x a ks').
Proof. reflexivity. Qed.
Lemma trail_kids_eq : forall ks tr, trail_kids tr ks = trail_list is_block tr ks.
Proof. induction ks; intros; simpl; auto. now rewrite IHks. Qed.
Lemma trail_list_fine : forall ks, Forall (fun n => forall tr, fine n [snd (trail is_block tr n)]) ks ->
  forall tr, finel ks (snd (trail_list is_block tr ks)) /\ (ks = [] -> snd (trail_list is_block tr ks) = []).
Proof.
  intros ks H. induction H as [|k ks Hk H IH]; intros tr; simpl. split; auto. apply finel_refl.
  destruct (IH tr) as [A _]. destruct (trail_list is_block tr ks) as [t1 r']. specialize (Hk t1).
  destruct (trail is_block t1 k) as [t2 k']. simpl in *. split; [|discriminate]. now apply (finel_cons k ks [k'] r').
Qed.
Lemma trail_fine : forall n tr, fine n [snd (trail is_block tr n)].
Proof.
  induction n using node_induction; intros tr; try apply fine_refl; try apply doc_fine.
  - simpl. intros T. rewrite txs_one. split; auto. unfold tx, chars. simpl. destruct tr; auto. apply trim_suffix_keep.
  - rewrite trail_elem. cbv zeta. destruct (is_preformatted x). apply fine_refl.
    rewrite trail_kids_eq. destruct (trail_list_fine ks H (visit_back (effect_of is_block x) tr)) as [A B].
    destruct (trail_list _ _ ks) as [tr2 ks']. apply fine_elem; auto.
Qed.
Definition drop_kids := fix go (l : list node) : bool * list node :=
               match l with
               | [] => (false, [])
               | k :: r => let '(f, r') := go r in
                           if f : bool then (true, k :: r') else let '(f2, k') := drop_last is_block k in (f2, k' ++ r')
               end.
Lemma drop_elem : forall x a ks, drop_last is_block (Elem x a ks) =
  match effect_of is_block x with
  | EInline => let '(f, ks') := drop_kids ks in (f, [Elem x a ks'])
  | _ => (true, [Elem x a ks])
  end.
Proof. reflexivity. Qed.
Lemma drop_kids_eq : forall ks, drop_kids ks = drop_last_list is_block ks.
Proof. reflexivity. Qed.
Lemma drop_list_fine : forall ks, Forall (fun n => fine n (snd (drop_last is_block n))) ks ->
  finel ks (snd (drop_last_list is_block ks)) /\ (ks = [] -> snd (drop_last_list is_block ks) = []).
Proof.
  intros ks H. induction H as [|k ks Hk H IH]; simpl. split; auto. apply finel_refl.
  destruct IH as [A _]. destruct (drop_last_list is_block ks) as [f r']. destruct f; simpl in *.
  - split; [|discriminate]. apply (finel_cons k ks [k] r'); auto. apply fine_refl.
  - destruct (drop_last is_block k) as [f2 k']. simpl in *. split; [|discriminate]. now apply finel_cons.
Qed.
Lemma drop_fine : forall n, fine n (snd (drop_last is_block n)).
Proof.
  induction n using node_induction; try apply fine_refl; try apply doc_fine.
  - simpl. destruct d. simpl. intros T; auto. apply fine_refl.
  - rewrite drop_elem. destruct (effect_of is_block x); try apply fine_refl. rewrite drop_kids_eq.
    destruct (drop_list_fine ks H) as [A B]. destruct (drop_last_list is_block ks) as [f ks']. apply fine_elem; auto.
Qed.
Lemma collapse_kids_fine : forall ks, finel ks (collapse_kids is_block ks) /\ (ks = [] -> collapse_kids is_block ks = []).
Proof.
  intros ks. unfold collapse_kids.
  destruct (lead_list_fine ks (proj2 (Forall_forall _ _) (fun k _ => lead_fine k)) (None, false)) as [A1 A2].
  set (k1 := snd (lead_list is_block (None, false) ks)) in *.
  destruct (trail_list_fine k1 (proj2 (Forall_forall _ _) (fun k _ => trail_fine k)) true) as [B1 B2].
  set (k2 := snd (trail_list is_block true k1)) in *.
  destruct (drop_list_fine k2 (proj2 (Forall_forall _ _) (fun k _ => drop_fine k))) as [C1 C2].
  split; auto. eapply finel_trans; [exact A1|]. eapply finel_trans; eauto.
Qed.
Lemma collapse_root : forall n, finer n (collapse is_block n).
Proof.
  intros n. assert (R : finer n n) by (intros T; auto). unfold collapse. destruct (kids n) as [|k ks] eqn:E; auto.
  destruct (is_preformatted _); auto. destruct (collapse_kids_fine (kids n)) as [A B]. rewrite E in *. clear R.
  destruct n; try discriminate; cbn [with_kids Dom.kids] in *; subst.
  - apply fine_root; auto. apply fine_elem; auto.
  - now apply finel_root.
Qed.
End collapse.
End keep.
