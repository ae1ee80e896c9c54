(** The fuel of the two passes that walk over neighbours is enough: more fuel gives the same tree. *)
From Coq Require Import List NArith ZArith Bool String Lia.
From Verif Require Import Bytes Dom DomUtils RenderInv DomFacts.
Import ListNotations.
Open Scope nat_scope.
Open Scope list_scope.

Lemma sizes_app : forall a c, sizes (a ++ c) = sizes a + sizes c.
Proof. induction a as [|k a IH]; intros c; [reflexivity|]. cbn [app sizes fold_right]. fold (sizes (a ++ c)) (sizes a). rewrite IH. lia. Qed.
Lemma sizes_cons : forall k l, sizes (k :: l) = size k + sizes l.
Proof. reflexivity. Qed.
Lemma size_elem : forall x a ks, size (Elem x a ks) = S (sizes ks).
Proof. reflexivity. Qed.
Lemma size_kids : forall n, size n = S (sizes (kids n)).
Proof. destruct n; reflexivity. Qed.
Lemma size_pos : forall n, 1 <= size n.
Proof. intros n. rewrite size_kids. lia. Qed.
Definition ssize (st : list (list node)) : nat := fold_right (fun l s => sizes l + s) 0 st.
Lemma ssize_cons : forall l st, ssize (l :: st) = sizes l + ssize st.
Proof. reflexivity. Qed.

(** ** MergeAdjacent *)
Section merge.
Variable mt : node -> bool.
Definition less (n : nat) (r : list node * list node * bool) : Prop := sizes (fst (fst r)) + sizes (snd (fst r)) <= n.
Lemma collect_list_less : forall ks, Forall (fun k => less (size k) (collect_node mt k)) ks -> less (sizes ks) (collect_list mt ks).
Proof.
  intros ks F. induction F as [|k ks Hk F IH]; unfold less in *; cbn [collect_list]; [apply le_n|]. rewrite sizes_cons.
  destruct (collect_node mt k) as [[c k'] go]. destruct go; [destruct (collect_list mt ks) as [[c2 r'] go2]|]; cbn [fst snd] in *; rewrite ?sizes_app; lia.
Qed.
Lemma collect_node_less : forall n, less (size n) (collect_node mt n).
Proof.
  induction n using node_induction; try (unfold less; cbn; lia).
  rewrite collect_elem. apply collect_list_less in H. unfold less in *. destruct (is_span _).
  - destruct (collect_list mt ks) as [[c ks'] go]. cbn [fst snd] in *. rewrite sizes_cons, !size_elem. cbn [sizes fold_right]. lia.
  - destruct (mt _); cbn [fst snd]; rewrite ?sizes_cons, ?size_elem; cbn [sizes fold_right]; lia.
Qed.
Definition shrunk (st' st : list (list node)) : Prop := Forall2 (fun l' l => sizes l' <= sizes l) st' st.
Lemma shrunk_refl : forall st, shrunk st st.
Proof. induction st; constructor; auto. Qed.
Lemma shrunk_trans : forall a c d, shrunk a c -> shrunk c d -> shrunk a d.
Proof.
  intros a c d H. revert d. induction H as [|x y a c Hx H IH]; intros d K; inversion K; subst; constructor. lia. now apply IH.
Qed.
Lemma shrunk_ssize : forall a c, shrunk a c -> ssize a <= ssize c.
Proof. intros a c H. induction H; auto. rewrite !ssize_cons. lia. Qed.
Lemma collect_stack_less : forall st c st', collect_stack mt st = (c, st') -> sizes c + ssize st' <= ssize st /\ shrunk st' st.
Proof.
  induction st as [|l up IH]; intros c st' E; cbn [collect_stack] in E. injection E as <- <-. split; [cbn; lia | constructor].
  pose proof (collect_list_less l (proj2 (Forall_forall _ _) (fun k _ => collect_node_less k))) as K. unfold less in K.
  destruct (collect_list mt l) as [[c1 l'] go]. cbn [fst snd] in K. destruct go.
  - destruct (collect_stack mt up) as [c2 up'] eqn:Eu. injection E as <- <-. destruct (IH _ _ eq_refl) as [A B]. rewrite !ssize_cons, sizes_app.
    split; [lia|]. constructor; auto. lia.
  - injection E as <- <-. rewrite !ssize_cons. split; [lia|]. constructor; [lia|]. apply shrunk_refl.
Qed.
Lemma collect_adjacent_less : forall st c st', collect_adjacent mt st = (c, st') -> sizes c + ssize st' <= ssize st /\ shrunk st' st.
Proof.
  intros st c st' E. unfold collect_adjacent in E.
  destruct st as [|[|k l] up]; try (injection E as <- <-; split; [cbn; lia | apply shrunk_refl]). now apply collect_stack_less.
Qed.
Lemma merge_more : forall f,
  (forall g n st, 2 * (size n + ssize st) <= f -> 2 * (size n + ssize st) <= g ->
     merge_adj mt f n st = merge_adj mt g n st /\ shrunk (snd (merge_adj mt f n st)) st) /\
  (forall g l st, 2 * (sizes l + ssize st) + 1 <= f -> 2 * (sizes l + ssize st) + 1 <= g ->
     merge_adj_list mt f l st = merge_adj_list mt g l st /\ shrunk (snd (merge_adj_list mt f l st)) st).
Proof.
  induction f as [|f [IH1 IH2]]; split.
  - intros g n st H. pose proof (size_pos n). lia.
  - intros g l st H. lia.
  - intros g n st H1 H2. pose proof (size_pos n) as P. destruct g as [|g]; [lia|]. cbn [merge_adj].
    destruct (if mt n then collect_adjacent mt st else ([], st)) as [c st1] eqn:E.
    assert (K : sizes c + ssize st1 <= ssize st /\ shrunk st1 st).
    { destruct (mt n). now apply collect_adjacent_less. injection E as <- <-. split; [cbn; lia | apply shrunk_refl]. }
    destruct K as [K1 K2]. rewrite size_kids in H1, H2.
    destruct (IH2 g (kids n ++ c) st1) as [A B]; [rewrite sizes_app; lia..|]. rewrite <- A.
    destruct (merge_adj_list mt f (kids n ++ c) st1) as [ks st2]. cbn [snd] in *. split; auto. eapply shrunk_trans; eauto.
  - intros g l st H1 H2. destruct g as [|g]; [lia|]. cbn [merge_adj_list]. destruct l as [|x r]. { split; auto. apply shrunk_refl. }
    rewrite sizes_cons in H1, H2. pose proof (size_pos x) as P.
    destruct (IH1 g x (r :: st)) as [A B]; [rewrite ssize_cons; lia..|]. rewrite <- A.
    destruct (merge_adj mt f x (r :: st)) as [x' st1]. cbn [snd] in B. inversion B as [|r1 r0 st1' st0 Hr Hs]; subst. cbn [hd tl].
    apply shrunk_ssize in Hs as Hq. destruct (IH2 g r1 st1') as [C D]; [lia..|]. rewrite <- C.
    destruct (merge_adj_list mt f r1 st1') as [r' st2]. cbn [snd] in *. split; auto. eapply shrunk_trans; eauto.
Qed.
Lemma merge_fuel_enough : forall n f, merge_fuel n <= f -> merge_adjacent mt n = fst (merge_adj mt f n []).
Proof.
  intros n f H. unfold merge_adjacent, merge_fuel in *. destruct (merge_more (2 * size n + 1)) as [K _].
  destruct (K f n []) as [-> _]; auto; cbn [ssize fold_right]; lia.
Qed.
End merge.

(** ** AddSpace *)
Section space.
Variables outer inner : node -> bool.
Definition alike (a c : list (list node)) : Prop := Forall2 (fun l l' => sizes l = sizes l') a c.
Lemma alike_refl : forall st, alike st st.
Proof. induction st; constructor; auto. Qed.
Lemma alike_trans : forall a c d, alike a c -> alike c d -> alike a d.
Proof. intros a c d H. revert d. induction H as [|x y a c Hx H IH]; intros d K; inversion K; subst; constructor. congruence. now apply IH. Qed.
Lemma touch_size : forall fwd n, size (fst (touch fwd n)) = size n.
Proof.
  intros fwd n. induction n using node_induction; auto. rewrite touch_elem. destruct (is_span _); auto.
  assert (K : sizes (fst (touch_kids fwd ks)) = sizes ks).
  { induction H as [|k ks Hk H IH]; auto. rewrite sizes_cons. cbn [touch_kids]. destruct fwd.
    - destruct (touch true k) as [k' f]. cbn [fst] in Hk. destruct f; cbn [fst]. now rewrite sizes_cons, Hk.
      destruct (touch_kids true ks) as [r' f2]. cbn [fst] in *. now rewrite sizes_cons, Hk, IH.
    - destruct (touch_kids false ks) as [r' f]. cbn [fst] in IH. destruct f; cbn [fst]. now rewrite sizes_cons, IH.
      destruct (touch false k) as [k' f2]. cbn [fst] in *. now rewrite sizes_cons, Hk, IH. }
  destruct (touch_kids fwd ks) as [ks' f]. cbn [fst] in *. now rewrite !size_elem, K.
Qed.
Lemma touch_list_size : forall fwd l, sizes (fst (touch_list fwd l)) = sizes l.
Proof.
  induction l as [|k r IH]; auto. cbn [touch_list]. pose proof (touch_size fwd k). destruct (touch fwd k) as [k' f]. cbn [fst] in *.
  destruct f; [|destruct (touch_list fwd r)]; cbn [fst] in *; rewrite !sizes_cons; congruence.
Qed.
Lemma touch_stack_alike : forall fwd st, alike st (touch_stack fwd st).
Proof.
  induction st as [|l up IH]; [constructor|]. cbn [touch_stack]. pose proof (touch_list_size fwd l). destruct (touch_list fwd l) as [l' f]. cbn [fst] in *.
  destruct f; (constructor; [auto | first [exact IH | apply alike_refl]]).
Qed.
Lemma space_more : forall f,
  (forall g n lt rt, 2 * size n <= f -> 2 * size n <= g ->
     add_space outer inner f n lt rt = add_space outer inner g n lt rt /\
     alike lt (snd (fst (add_space outer inner f n lt rt))) /\ alike rt (snd (add_space outer inner f n lt rt))) /\
  (forall g done todo lt rt, 2 * sizes todo + 1 <= f -> 2 * sizes todo + 1 <= g ->
     add_space_list outer inner f done todo lt rt = add_space_list outer inner g done todo lt rt /\
     alike lt (snd (fst (add_space_list outer inner f done todo lt rt))) /\ alike rt (snd (add_space_list outer inner f done todo lt rt))).
Proof.
  induction f as [|f [IH1 IH2]]; split.
  - intros g n lt rt H. pose proof (size_pos n). lia.
  - intros g done todo lt rt H. lia.
  - intros g n lt rt H1 H2. pose proof (size_pos n) as P. destruct g as [|g]; [lia|]. cbn [add_space].
    match goal with |- context [add_space_list _ _ f [] _ ?l _] => set (lt1 := l) end.
    match goal with |- context [add_space_list _ _ f [] _ lt1 ?r] => set (rt1 := r) end.
    assert (R : alike rt rt1).
    { unfold rt1. match goal with |- alike _ (if ?c then _ else _) => destruct c end; auto using alike_refl, touch_stack_alike. }
    assert (L : alike lt lt1).
    { unfold lt1. match goal with |- alike _ (if ?c then _ else _) => destruct c end; auto using alike_refl, touch_stack_alike. }
    clearbody rt1 lt1. rewrite size_kids in H1, H2. destruct (IH2 g [] (kids n) lt1 rt1) as (A & B & C); [lia..|]. rewrite <- A.
    destruct (add_space_list outer inner f [] (kids n) lt1 rt1) as [[ks lt2] rt2]. cbn [fst snd] in *. split; auto. eauto using alike_trans.
  - intros g done todo lt rt H1 H2. destruct g as [|g]; [lia|]. cbn [add_space_list]. destruct todo as [|x r]. { auto using alike_refl. }
    rewrite sizes_cons in H1, H2. pose proof (size_pos x) as P.
    destruct (IH1 g x (done :: lt) (r :: rt)) as (A & B & C); [lia..|]. rewrite <- A.
    destruct (add_space outer inner f x (done :: lt) (r :: rt)) as [[x' lt1] rt1]. cbn [fst snd] in *.
    inversion B as [|? d1 ? lt1' Hd Hl]; subst. inversion C as [|? r1 ? rt1' Hr Hs]; subst. cbn [hd tl].
    destruct (IH2 g (x' :: d1) r1 lt1' rt1') as (D & E & F); [lia..|]. rewrite <- D. split; auto. eauto using alike_trans.
Qed.
Lemma space_fuel_enough : forall n f, merge_fuel n <= f -> add_space_root outer inner n = fst (fst (add_space outer inner f n [] [])).
Proof.
  intros n f H. unfold add_space_root, merge_fuel in *. destruct (space_more (2 * size n + 1)) as [K _].
  destruct (K f n [] []) as [-> _]; auto; lia.
Qed.
End space.
