(** Where blocks are in the prepared tree when the strikethrough plugin is used (for C44 and C62): in a heading they are inside struck
    text only. *)
From Coq Require Import List NArith ZArith Bool String Lia Permutation.
From Verif Require Import Bytes BytesFacts TextUtils Dom DomUtils Collapse SpecDom RenderText Engine CommonMark Table SpecEngine EngineFacts RenderInv
  SpecPipeline PipelineFacts DomFacts DomFacts2 DomFacts3 DomFacts4.
Import ListNotations.
Open Scope N_scope.
Open Scope list_scope.

Section sealed.
Variable st : bool.
Definition shield (x : bytes) : bool := st && name_in strike_names x.
Fixpoint sealed (n : node) : bool :=
  match n with
  | Elem x _ ks => shield x || negb (name_in block_like x) && forallb sealed ks
  | Doc ks => forallb sealed ks
  | _ => true
  end.
Definition sealeds (l : list node) : bool := forallb sealed l.
Definition head_sealed (m : node) : bool := match m with Elem x _ ks => negb (name_in heading_names x) || sealeds ks | _ => true end.
Definition headed (n : node) : bool := everywhere head_sealed n.
Definition headeds (l : list node) : bool := forallb headed l.
Lemma sealed_elem x a ks : sealed (Elem x a ks) = shield x || negb (name_in block_like x) && sealeds ks.
Proof. reflexivity. Qed.
Lemma headed_elem x a ks : headed (Elem x a ks) = (negb (name_in heading_names x) || sealeds ks) && headeds ks.
Proof. reflexivity. Qed.
Lemma free_sealed n : free_of block_like n = true -> sealed n = true.
Proof.
  assert (K : forall ks, Forall (fun n => free_of block_like n = true -> sealed n = true) ks -> forallb (free_of block_like) ks = true -> sealeds ks = true).
  { intros ks H. induction H as [|k ks Hk H IH]; auto. unfold sealeds in *. cbn [forallb]. intros E. apply andb_true_iff in E as [E1 E2]. now rewrite Hk, IH. }
  induction n as [d|x a ks IH|d|ks IH|d] using node_induction; auto; cbn [free_of]; intros E.
  - apply andb_true_iff in E as [E1 E2]. rewrite sealed_elem, E1, K by auto. apply orb_true_r.
  - now apply K.
Qed.
Lemma placed_headed n : no_misplaced_block n = true -> headed n = true.
Proof.
  assert (S : forall x, name_in heading_names x = true -> name_in (leaf_names ++ inline_names) x = true).
  { intros x N. assert (S : forallb (fun y => name_in (leaf_names ++ inline_names) y) heading_names = true) by reflexivity. rewrite forallb_forall in S.
    unfold name_in at 1 in N. apply existsb_exists in N as (y & Iy & Ey). apply beqb_eq in Ey. subst y. auto. }
  assert (K : forall ks, Forall (fun n => no_misplaced_block n = true -> headed n = true) ks -> forallb no_misplaced_block ks = true -> headeds ks = true).
  { intros ks H. induction H as [|k ks Hk H IH]; auto. unfold headeds in *. cbn [forallb]. intros E. apply andb_true_iff in E as [E1 E2]. now rewrite Hk, IH. }
  induction n as [d|x a ks IH|d|ks IH|d] using node_induction; auto; intros E.
  - unfold no_misplaced_block in E. cbn [everywhere kids_free_of] in E. apply andb_true_iff in E as [E1 E2]. rewrite headed_elem, K by auto. rewrite andb_true_r.
    destruct (name_in heading_names x) eqn:N; auto. rewrite (S x N) in E1. cbn [negb orb] in *. apply forallb_forall. intros k I. rewrite forallb_forall in E1. now apply free_sealed, E1.
  - now apply K.
Qed.
(** Steps that change no elements *)
Definition holds (n : node) (ns : list node) : Prop := (sealed n = true -> sealeds ns = true) /\ (headed n = true -> headeds ns = true).
Definition holdsl (ks ns : list node) : Prop := (sealeds ks = true -> sealeds ns = true) /\ (headeds ks = true -> headeds ns = true).
Lemma holdsl_refl l : holdsl l l.
Proof. split; auto. Qed.
Lemma holdsl_trans a c d : holdsl a c -> holdsl c d -> holdsl a d.
Proof. intros [A B] [C D]. split; auto. Qed.
Lemma holds_refl n : holds n [n].
Proof. split; intros H; unfold sealeds, headeds; cbn [forallb]; now rewrite H. Qed.
Lemma holdsl_cons k ks ns ms : holds k ns -> holdsl ks ms -> holdsl (k :: ks) (ns ++ ms).
Proof.
  intros [A B] [C D]. split; intros H; unfold sealeds, headeds in *; cbn [forallb] in H; apply andb_true_iff in H as [H1 H2]; rewrite forallb_app; rewrite ?A, ?B, ?C, ?D; auto.
Qed.
Lemma holds_elem x a ks ms : holdsl ks ms -> holds (Elem x a ks) [Elem x a ms].
Proof.
  intros [A B]. split; intros H; unfold sealeds, headeds; cbn [forallb]; rewrite andb_true_r.
  - rewrite sealed_elem in *. apply orb_true_iff in H as [H|H]; [now rewrite H|]. apply andb_true_iff in H as [H1 H2]. rewrite H1, A by auto. apply orb_true_r.
  - rewrite headed_elem in *. apply andb_true_iff in H as [H1 H2]. rewrite B by auto. rewrite andb_true_r. destruct (name_in heading_names x); auto.
Qed.
Lemma holds_doc ks ms : holdsl ks ms -> holds (Doc ks) [Doc ms].
Proof. intros [A B]. split; intros H; unfold sealeds, headeds; cbn [forallb]; rewrite andb_true_r. apply (A H). apply (B H). Qed.
Lemma holds_one n m : holds n [m] -> headed n = true -> headed m = true.
Proof. intros [_ B] H. specialize (B H). unfold headeds in B. cbn [forallb] in B. now rewrite andb_true_r in B. Qed.
Lemma comments_holds : forall n s, holds n (list_end_comments s n).
Proof.
  assert (K : forall ks, Forall (fun n => forall s, holds n (list_end_comments s n)) ks -> forall s, holdsl ks (comments_kids s ks)).
  { intros ks F. induction F as [|k ks Hk F IH]; intros s; simpl. apply holdsl_refl. now apply holdsl_cons. }
  induction n using node_induction; intros s; try apply holds_refl.
  - rewrite comments_elem. cbv zeta. match goal with |- holds _ (Elem _ _ (comments_kids ?s _) :: _) => set (st' := s) end.
    pose proof (holds_elem x a ks _ (K ks H st')) as [A B]. split; intros T; [specialize (A T) | specialize (B T)];
      unfold sealeds, headeds in *; cbn [forallb] in *; rewrite andb_true_r in *; rewrite ?A, ?B; destruct (_ && _); reflexivity.
  - rewrite comments_doc. apply holds_doc. now apply K.
Qed.
Lemma comments_headed n : headed n = true -> headed (add_list_end_comments n) = true.
Proof. apply holds_one. rewrite <- comments_one. apply comments_holds. Qed.
Section collapse.
Variable is_block : bytes -> bool.
Lemma lead_list_holds : forall ks, Forall (fun n => forall s, holds n (snd (lead is_block s n))) ks -> forall s, holdsl ks (snd (lead_list is_block s ks)).
Proof.
  intros ks H. induction H as [|k ks Hk H IH]; intros s; simpl. apply holdsl_refl.
  specialize (Hk s). destruct (lead is_block s k) as [s1 k']. specialize (IH s1). destruct (lead_list is_block s1 ks) as [s2 r'].
  simpl in *. now apply holdsl_cons.
Qed.
Lemma lead_holds : forall n s, holds n (snd (lead is_block s n)).
Proof.
  induction n using node_induction; intros s.
  - simpl. destruct (lead_text s d); simpl; split; auto.
  - rewrite lead_elem. cbv zeta. destruct (is_preformatted x). apply holds_refl.
    rewrite lead_kids_eq. pose proof (lead_list_holds ks H (visit (effect_of is_block x) s)) as A.
    destruct (lead_list is_block (visit (effect_of is_block x) s) ks) as [s2 ks']. now apply holds_elem.
  - apply holds_refl.
  - split; auto.
  - split; auto.
Qed.
Lemma trail_list_holds : forall ks, Forall (fun n => forall tr, holds n [snd (trail is_block tr n)]) ks -> forall tr, holdsl ks (snd (trail_list is_block tr ks)).
Proof.
  intros ks H. induction H as [|k ks Hk H IH]; intros tr; simpl. apply holdsl_refl.
  specialize (IH tr). destruct (trail_list is_block tr ks) as [t1 r']. specialize (Hk t1).
  destruct (trail is_block t1 k) as [t2 k']. simpl in *. now apply (holdsl_cons k ks [k'] r').
Qed.
Lemma trail_holds : forall n tr, holds n [snd (trail is_block tr n)].
Proof.
  induction n using node_induction; intros tr; try apply holds_refl. split; auto.
  rewrite trail_elem. cbv zeta. destruct (is_preformatted x). apply holds_refl.
  rewrite trail_kids_eq. pose proof (trail_list_holds ks H (visit_back (effect_of is_block x) tr)) as A.
  destruct (trail_list _ _ ks) as [tr2 ks']. now apply holds_elem.
Qed.
Lemma drop_list_holds : forall ks, Forall (fun n => holds n (snd (drop_last is_block n))) ks -> holdsl ks (snd (drop_last_list is_block ks)).
Proof.
  intros ks H. induction H as [|k ks Hk H IH]; simpl. apply holdsl_refl.
  destruct (drop_last_list is_block ks) as [f r']. destruct f; simpl in *.
  - apply (holdsl_cons k ks [k] r'); auto. apply holds_refl.
  - destruct (drop_last is_block k) as [f2 k']. simpl in *. now apply holdsl_cons.
Qed.
Lemma drop_holds : forall n, holds n (snd (drop_last is_block n)).
Proof.
  induction n using node_induction; try apply holds_refl.
  - simpl. destruct d; split; auto.
  - rewrite drop_elem. destruct (effect_of is_block x); try apply holds_refl. rewrite drop_kids_eq.
    pose proof (drop_list_holds ks H) as A. destruct (drop_last_list is_block ks) as [f ks']. now apply holds_elem.
Qed.
Lemma collapse_kids_holds : forall ks, holdsl ks (collapse_kids is_block ks).
Proof.
  intros ks. unfold collapse_kids. eapply holdsl_trans; [|eapply holdsl_trans].
  - apply (lead_list_holds ks (proj2 (Forall_forall _ _) (fun k _ => lead_holds k)) (None, false)).
  - apply (trail_list_holds _ (proj2 (Forall_forall _ _) (fun k _ => trail_holds k)) true).
  - apply (drop_list_holds _ (proj2 (Forall_forall _ _) (fun k _ => drop_holds k))).
Qed.
Lemma collapse_headed : forall n, headed n = true -> headed (collapse is_block n) = true.
Proof.
  intros n H. unfold collapse. destruct (kids n) as [|k ks] eqn:E; auto. destruct (is_preformatted _); auto.
  rewrite <- E. pose proof (collapse_kids_holds (kids n)) as K. revert H. destruct n; try discriminate; cbn [with_kids Dom.kids] in *.
  - apply holds_one. now apply holds_elem.
  - apply holds_one. now apply holds_doc.
Qed.
End collapse.
End sealed.

(** ** Merging struck texts *)
Notation flat := (everywhere (kids_free_of strike_names strike_names)).
Notation unstruck := (free_of strike_names).
Definition neat (n : node) : bool := headed true n && flat n.
Definition neats (l : list node) : bool := forallb neat l.
Lemma neat_elem x a ks : neat (Elem x a ks) = (negb (name_in heading_names x) || sealeds true ks) && (negb (name_in strike_names x) || forallb unstruck ks) && neats ks.
Proof.
  unfold neat. rewrite headed_elem. cbn [everywhere kids_free_of]. assert (E : neats ks = headeds true ks && forallb flat ks). { unfold neats, headeds. induction ks as [|k ks IH]; auto. cbn [forallb]. rewrite IH. unfold neat. destruct (headed true k), (flat k), (forallb (headed true) ks); auto. }
  rewrite E. destruct (negb (name_in heading_names x) || sealeds true ks), (headeds true ks); auto; cbn [andb]; now rewrite ?andb_false_r.
Qed.
Lemma neat_doc ks : neat (Doc ks) = neats ks.
Proof. unfold neat, headed. cbn [everywhere head_sealed kids_free_of andb]. unfold neats. induction ks as [|k ks IH]; auto. cbn [forallb]. rewrite <- IH. unfold neat, headed. destruct (everywhere (head_sealed true) k), (flat k), (forallb (everywhere (head_sealed true)) ks); auto. Qed.
Lemma neats_app k l : neats (k ++ l) = neats k && neats l.
Proof. apply forallb_app. Qed.
Definition left_over (ks ns : list node) : Prop := neats ns = true /\ (sealeds true ks = true -> sealeds true ns = true) /\ (forallb unstruck ks = true -> forallb unstruck ns = true).
Lemma left_same ks : neats ks = true -> left_over ks ks.
Proof. repeat split; auto. Qed.
Lemma left_app k l k' l' : left_over k k' -> left_over l l' -> left_over (k ++ l) (k' ++ l').
Proof.
  intros (A1 & A2 & A3) (B1 & B2 & B3). unfold left_over, sealeds in *. rewrite neats_app, A1, B1, !forallb_app. repeat split; auto; intros E; apply andb_true_iff in E as [E1 E2].
  - now rewrite A2, B2. - now rewrite A3, B3.
Qed.
Lemma collect_node_neat n : forall c l go, collect_node is_strike n = (c, l, go) -> neat n = true -> (neats c = true /\ forallb unstruck c = true) /\ left_over [n] l.
Proof.
  assert (D : forall m, neat m = true -> (neats [] = true /\ forallb unstruck [] = true) /\ left_over [m] [m]). { intros m T. split; auto. apply left_same. unfold neats. cbn [forallb]. now rewrite T. }
  induction n using node_induction; intros c l go E T; try (cbn [collect_node] in E; injection E as <- <- <-; now apply D).
  rewrite collect_elem in E. destruct (is_span _) eqn:Sp.
  - assert (K : forall c ks' go, collect_list is_strike ks = (c, ks', go) -> (neats c = true /\ forallb unstruck c = true) /\ left_over ks ks').
    { rewrite neat_elem in T. apply andb_true_iff in T as [_ T]. clear E Sp. induction H as [|k ks Hk H IH]; intros c' ks' go' E; cbn [collect_list] in E.
      - injection E as <- <- <-. split; auto. now apply left_same.
      - unfold neats in T. cbn [forallb] in T. apply andb_true_iff in T as [T1 T2]. destruct (collect_node is_strike k) as [[c1 k1] go1] eqn:E1.
        destruct (Hk _ _ _ eq_refl T1) as [[A1 A2] A3]. destruct go1.
        + destruct (collect_list is_strike ks) as [[c2 r2] go2] eqn:E2. injection E as <- <- <-. destruct (IH T2 _ _ _ eq_refl) as [[B1 B2] B3].
          rewrite neats_app, forallb_app, A1, A2, B1, B2. split; auto. now apply (left_app [k] ks).
        + injection E as <- <- <-. split; auto. apply (left_app [k] ks); auto. now apply left_same. }
    destruct (collect_list is_strike ks) as [[c1 ks1] go1]. destruct (K _ _ _ eq_refl) as [A (A1 & A2 & A3)]. injection E as <- <- <-. split; auto.
    rewrite neat_elem in T. apply andb_true_iff in T as [T T3]. apply andb_true_iff in T as [T1 T2].
    unfold left_over, sealeds in *. unfold neats at 1. cbn [forallb]. rewrite !andb_true_r, neat_elem, A1, andb_true_r, !sealed_elem. cbn [free_of]. unfold sealeds in *. repeat split.
    + destruct (name_in heading_names x), (name_in strike_names x); cbn [negb orb andb] in *; rewrite ?A2, ?A3; auto.
    + intros Q. apply orb_true_iff in Q as [->|Q]; auto. apply andb_true_iff in Q as [Q1 Q2]. rewrite Q1, A2 by auto. apply orb_true_r.
    + intros Q. apply andb_true_iff in Q as [Q1 Q2]. now rewrite Q1, A3.
  - unfold is_strike in E. cbn [named] in E. destruct (name_in strike_names x) eqn:S; injection E as <- <- <-; [|now apply D].
    rewrite neat_elem, S in T. cbn [negb orb] in T. apply andb_true_iff in T as [T T3]. apply andb_true_iff in T as [T1 T2]. split; auto. repeat split.
Qed.
Lemma collect_list_neat ks : forall c l go, collect_list is_strike ks = (c, l, go) -> neats ks = true -> (neats c = true /\ forallb unstruck c = true) /\ left_over ks l.
Proof.
  induction ks as [|k ks IH]; intros c l go E T; cbn [collect_list] in E.
  - injection E as <- <- <-. split; auto. now apply left_same.
  - unfold neats in T. cbn [forallb] in T. apply andb_true_iff in T as [T1 T2]. destruct (collect_node is_strike k) as [[c1 k1] go1] eqn:E1.
    destruct (collect_node_neat _ _ _ _ E1 T1) as [[A1 A2] A3]. destruct go1.
    + destruct (collect_list is_strike ks) as [[c2 r2] go2] eqn:E2. injection E as <- <- <-. destruct (IH _ _ _ eq_refl T2) as [[B1 B2] B3].
      rewrite neats_app, forallb_app, A1, A2, B1, B2. split; auto. now apply (left_app [k] ks).
    + injection E as <- <- <-. split; auto. apply (left_app [k] ks); auto. now apply left_same.
Qed.
Notation neatst := (forallb neats).
Lemma lefts_same s : neatst s = true -> Forall2 left_over s s.
Proof. induction s as [|l s IH]; intros T; constructor; cbn [forallb] in T; apply andb_true_iff in T as [T1 T2]; auto. now apply left_same. Qed.
Lemma collect_stack_neat s : forall c s', collect_stack is_strike s = (c, s') -> neatst s = true -> (neats c = true /\ forallb unstruck c = true) /\ Forall2 left_over s s'.
Proof.
  pose proof lefts_same as R.
  induction s as [|l up IH]; intros c s' E T; cbn [collect_stack] in E.
  - injection E as <- <-. auto.
  - cbn [forallb] in T. apply andb_true_iff in T as [T1 T2]. destruct (collect_list is_strike l) as [[c1 l1] go1] eqn:E1.
    destruct (collect_list_neat _ _ _ _ E1 T1) as [[A1 A2] A3]. destruct go1.
    + destruct (collect_stack is_strike up) as [c2 up2] eqn:E2. injection E as <- <-. destruct (IH _ _ eq_refl T2) as [[B1 B2] B3].
      rewrite neats_app, forallb_app, A1, A2, B1, B2. auto.
    + injection E as <- <-. auto.
Qed.
Lemma left_trans a c d : left_over a c -> left_over c d -> left_over a d.
Proof. intros (A1 & A2 & A3) (B1 & B2 & B3). repeat split; auto. Qed.
Lemma lefts_trans a : forall c d, Forall2 left_over a c -> Forall2 left_over c d -> Forall2 left_over a d.
Proof. induction a as [|l a IH]; intros c d A B; inversion A; subst; inversion B; subst; constructor; eauto using left_trans. Qed.
Lemma lefts_neat s s' : Forall2 left_over s s' -> neatst s' = true.
Proof. induction 1 as [|l l' s s' H _ IH]; auto. cbn [forallb]. now rewrite (proj1 H), IH. Qed.
Lemma strike_plain x : name_in strike_names x = true -> name_in heading_names x = false.
Proof. unfold name_in at 1. cbn [strike_names existsb]. rewrite !orb_true_iff. intros H. decompose [or] H; try discriminate; match goal with Q : beqb _ _ = true |- _ => apply beqb_eq in Q; subst x end; reflexivity. Qed.
Lemma merge_adj_neat f : (forall n s n' s', merge_adj is_strike f n s = (n', s') -> neat n = true -> neatst s = true -> left_over [n] [n'] /\ Forall2 left_over s s') /\
  (forall l s l' s', merge_adj_list is_strike f l s = (l', s') -> neats l = true -> neatst s = true -> left_over l l' /\ Forall2 left_over s s').
Proof.
  induction f as [|f [IHn IHl]]; split; intros n s n' s' E T Ts.
  - injection E as <- <-. split; [|now apply lefts_same]. apply left_same. unfold neats. cbn [forallb]. now rewrite T.
  - injection E as <- <-. split; [now apply left_same|now apply lefts_same].
  - cbn [merge_adj] in E. destruct (if is_strike n then collect_adjacent is_strike s else ([], s)) as [c st1] eqn:Ec.
    assert (C : ((neats c = true /\ forallb unstruck c = true) /\ (is_strike n = false -> c = [])) /\ Forall2 left_over s st1).
    { destruct (is_strike n); [|injection Ec as <- <-; repeat split; auto; now apply lefts_same]. unfold collect_adjacent in Ec.
      destruct s as [|[|k l] up]; try (injection Ec as <- <-; repeat split; auto; now apply lefts_same). destruct (collect_stack_neat _ _ _ Ec Ts). repeat split; try apply H; auto. discriminate. }
    destruct C as [[[C1 C2] C3] C4]. destruct (merge_adj_list is_strike f (kids n ++ c) st1) as [ks st2] eqn:Ek. injection E as <- <-.
    assert (K : neats (kids n) = true) by (destruct n; auto; [rewrite neat_elem in T; now apply andb_true_iff in T|now rewrite neat_doc in T]).
    destruct (IHl _ _ _ _ Ek) as [(A1 & A2 & A3) B]; [now rewrite neats_app, K, C1|now apply lefts_neat in C4|]. split; [|eapply lefts_trans; eauto].
    destruct n as [d|x a js|d|js|d]; cbn [with_kids]; try (apply left_same; unfold neats; cbn [forallb]; now rewrite T).
    + cbn [with_kids kids] in *. unfold left_over, sealeds in *. unfold neats at 1. cbn [forallb]. rewrite !andb_true_r, neat_elem, !sealed_elem. rewrite neat_elem in T. cbn [free_of]. unfold is_strike in C3. cbn [named] in C3. unfold shield. cbn [andb].
      destruct (name_in strike_names x) eqn:Sx; cbn [negb orb andb] in *.
      * rewrite (strike_plain x Sx) in *. cbn [negb orb andb] in *. apply andb_true_iff in T as [T1 T2]. rewrite A1, A3 by now rewrite forallb_app, T1, C2. auto.
      * rewrite (C3 eq_refl), app_nil_r in *. rewrite andb_true_r in *. apply andb_true_iff in T as [T1 T2]. rewrite A1, andb_true_r. unfold sealeds in *. repeat split.
        -- destruct (name_in heading_names x); auto.
        -- intros Q. apply andb_true_iff in Q as [Q1 Q2]. now rewrite Q1, A2.
        -- auto.
    + cbn [with_kids kids] in *. rewrite (C3 eq_refl), app_nil_r in *. unfold left_over, sealeds in *. unfold neats at 1. cbn [forallb sealed free_of]. rewrite !andb_true_r, neat_doc. auto.
  - cbn [merge_adj_list] in E. destruct n as [|x r]; [injection E as <- <-; split; [now apply left_same|now apply lefts_same]|].
    destruct (merge_adj is_strike f x (r :: s)) as [x' st1] eqn:Ex. destruct (merge_adj_list is_strike f (hd [] st1) (tl st1)) as [r' st2] eqn:Er.
    injection E as <- <-. unfold neats in T. cbn [forallb] in T. apply andb_true_iff in T as [T1 T2].
    destruct (IHn _ _ _ _ Ex T1) as [A B]. { cbn [forallb]. unfold neats at 1. now rewrite T2, Ts. }
    inversion B as [|? r1 ? s1 B1 B2]; subst. cbn [hd tl] in Er. destruct (IHl _ _ _ _ Er (proj1 B1) (lefts_neat _ _ B2)) as [C D].
    split; [apply (left_app [x] r [x'] r'); auto; eapply left_trans; eauto|eapply lefts_trans; eauto].
Qed.
Lemma merge_neat n : neat n = true -> neat (merge_adjacent is_strike n) = true.
Proof.
  intros T. unfold merge_adjacent. destruct (merge_adj is_strike (merge_fuel n) n []) as [n' s'] eqn:E. destruct (proj1 (merge_adj_neat (merge_fuel n)) _ _ _ _ E T eq_refl) as [(A & _) _].
  unfold neats in A. cbn [forallb] in A. now rewrite andb_true_r in A.
Qed.
Lemma strike_class x : name_in strike_names x = true <-> class_strike x = Some 1.
Proof. unfold class_strike. destruct (name_in strike_names x); split; auto; discriminate. Qed.
Lemma redundant_keeps outer names n : forall anc, keeps outer names n (redundant class_strike anc n).
Proof.
  induction n as [d|x a ks IH|d|ks IH|d] using node_induction; intros anc; cbn [redundant]; try apply keeps_refl.
  - assert (K : forall anc', keepsl outer names ks (flat_map (redundant class_strike anc') ks)).
    { intros anc'. induction IH as [|k ks Hk _ IH2]; [apply keepsl_refl|]. cbn [flat_map]. now apply keepsl_cons. }
    destruct (class_strike x) as [c|]; [destruct (existsb (N.eqb c) anc)|]; try now apply keeps_elem. destruct (K anc) as [A B]. split; intros T.
    + rewrite free_elem in T. apply andb_true_iff in T as [_ T]. auto.
    + rewrite placed_elem in T. apply andb_true_iff in T as [_ T]. auto.
  - apply keeps_doc. induction IH as [|k ks Hk _ IH2]; [apply keepsl_refl|]. cbn [flat_map]. now apply keepsl_cons.
Qed.
Lemma redundant_same n : forall anc, flat n = true -> (anc = [] \/ unstruck n = true) -> redundant class_strike anc n = [n].
Proof.
  induction n as [d|x a ks IH|d|ks IH|d] using node_induction; intros anc F O; auto; cbn [redundant].
  - assert (K : forall anc', forallb flat ks = true -> (anc' = [] \/ forallb unstruck ks = true) -> flat_map (redundant class_strike anc') ks = ks).
    { clear F O. intros anc' Fk Ok. induction IH as [|k ks Hk _ IH2]; auto. cbn [flat_map forallb] in *. apply andb_true_iff in Fk as [F1 F2]. assert (anc' = [] \/ unstruck k = true) as O1 by (destruct Ok as [->|Ok]; auto; apply andb_true_iff in Ok as []; auto).
      assert (anc' = [] \/ forallb unstruck ks = true) as O2 by (destruct Ok as [->|Ok]; auto; apply andb_true_iff in Ok as []; auto).
      rewrite Hk, IH2; auto. }
    cbn [everywhere kids_free_of] in F. apply andb_true_iff in F as [F1 F2]. cbn [free_of] in O. unfold class_strike at 1. destruct (name_in strike_names x) eqn:S; cbn [negb orb] in *.
    + destruct O as [->|O]; [|discriminate]. cbn [existsb]. rewrite K; auto.
    + rewrite K; auto.
  - cbn [everywhere kids_free_of andb] in F. cbn [free_of] in O. do 2 f_equal. induction IH as [|k ks Hk _ IH2]; auto. cbn [flat_map forallb] in *. apply andb_true_iff in F as [F1 F2].
    assert (anc = [] \/ unstruck k = true) as O1 by (destruct O as [->|O]; auto; apply andb_true_iff in O as []; auto).
    assert (anc = [] \/ forallb unstruck ks = true) as O2 by (destruct O as [->|O]; auto; apply andb_true_iff in O as []; auto). rewrite Hk, IH2; auto.
Qed.
Definition state (n : node) : Prop := no_misplaced_block n = true \/ neat n = true.
Lemma strike_state e n : state n -> state (strike_pre e n).
Proof.
  intros T. right. unfold strike_pre. apply merge_neat. destruct T as [T|T].
  - unfold neat. rewrite (redundant_placed class_strike strike_names 1 strike_class n), andb_true_r. apply placed_headed. apply (keeps_one _ _ n); auto. rewrite <- redundant_one. apply redundant_keeps.
  - unfold neat in *. apply andb_true_iff in T as [T1 T2]. unfold remove_redundant. rewrite (redundant_same n [] T2 (or_introl eq_refl)). cbn [hd]. now rewrite T1, T2.
Qed.
Section sorted.
Variable sort : forall A : Type, list (Z * A) -> list (Z * A).
Hypothesis Hsort : sorts sort.
Lemma prepared_headed m us cfg url doc : In (UseCommonmark cfg) us -> valid_cfg cfg = true -> headed true (prepared sort (converter_with m us) url doc) = true.
Proof.
  intros Ic V. set (e := env_of sort (converter_with m us) url).
  assert (G : state (prepared sort (converter_with m us) url doc)).
  { apply (prepared_after_all sort Hsort m us cfg url doc state); auto; fold e.
    - intros d. left. apply commonmark_pre_placed.
    - intros d [T|T]; [left; now apply collapse_placed|right]. unfold neat in *. apply andb_true_iff in T as [T1 T2]. apply andb_true_iff. split; [now apply collapse_headed|now apply collapse_placed].
    - intros d [T|T]; [left; now apply comments_placed|right]. unfold neat in *. apply andb_true_iff in T as [T1 T2]. apply andb_true_iff. split; [now apply comments_headed|now apply comments_placed].
    - intros d _. apply strike_state. }
  destruct G as [G|G]; [now apply placed_headed|]. unfold neat in G. now apply andb_true_iff in G as [].
Qed.
Definition strikes_in (us : list use) : bool := existsb (fun u => match u with UseStrikethrough _ => true | _ => false end) us.
Lemma strikes_some us : strikes_in us = true -> exists d, In (UseStrikethrough d) us.
Proof. intros H. apply existsb_exists in H as (u & I & H). destruct u as [|c|d|os]; try discriminate. eauto. Qed.
Lemma strikes_none us : strikes_in us = false -> forall d, ~ In (UseStrikethrough d) us.
Proof. intros H d I. enough (strikes_in us = true) by congruence. apply existsb_exists. eauto. Qed.
Lemma prepared_sealed m us cfg url doc : In (UseCommonmark cfg) us -> valid_cfg cfg = true -> headed (strikes_in us) (prepared sort (converter_with m us) url doc) = true.
Proof.
  intros Ic V. destruct (strikes_in us) eqn:E; [now apply (prepared_headed m us cfg)|]. apply placed_headed. apply (prepared_placed sort Hsort m us cfg); auto. now apply strikes_none.
Qed.
Lemma uses_striking (okd : bytes -> Prop) m us : (forall d, In (UseStrikethrough d) us -> okd (or_default d (b "~~"))) ->
  striking (strikes_in us) okd (in_order sort (cv_render (converter_with m us))).
Proof.
  intros H E. apply strikes_some in E as (d & I). exists (or_default d (b "~~")). split; auto. rewrite cw_render. apply (in_order_in sort Hsort). exists 500%Z.
  apply in_flat_map. exists (UseStrikethrough d). split; auto. now left.
Qed.
End sorted.
