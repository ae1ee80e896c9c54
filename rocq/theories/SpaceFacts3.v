(** The exact result of AddSpace on the sequence of tags and texts (C73). *)
From Coq Require Import List NArith Arith Bool String Lia.
From Verif Require Import Bytes Dom DomUtils DomFacts4 BlockFacts RenderInv DomFacts6 SpaceFacts SpecSpace SpecSpace2.
Import ListNotations.
Open Scope list_scope.
Open Scope nat_scope.

(** ** Walking in both directions *)
Definition mirror (M : list token) : list token := rev (map flip M).
Definition dir (fwd : bool) (M : list token) : list token := if fwd then M else mirror M.
Definition W (fwd : bool) (n : node) : list token := dir fwd (tokens n).
Definition Wl (fwd : bool) (l : list node) : list token := flat_map (W fwd) l.
Definition order (fwd : bool) (l : list node) : list node := if fwd then l else rev l.
Lemma flip_flip t : flip (flip t) = t. Proof. destruct t; reflexivity. Qed.
Lemma mirror_app A B : mirror (A ++ B) = mirror B ++ mirror A.
Proof. unfold mirror. now rewrite map_app, rev_app_distr. Qed.
Lemma mirror_mirror A : mirror (mirror A) = A.
Proof. unfold mirror. rewrite map_rev, rev_involutive, map_map. rewrite (map_ext _ (fun x => x)) by apply flip_flip. apply map_id. Qed.
Lemma mirror_tokens ks : mirror (flat_map tokens ks) = Wl false (rev ks).
Proof.
  unfold Wl. induction ks as [|k r IH]; [reflexivity|]. cbn [flat_map rev]. rewrite mirror_app, IH, flat_map_app. cbn [flat_map]. now rewrite app_nil_r.
Qed.
Definition label (n : node) : node := with_kids n [].
Definition none (ks : list node) : bool := match ks with [] => true | _ => false end.
Definition inside (n : node) : bool := match n with Elem _ _ _ | Doc _ => true | _ => false end.
Lemma W_inside fwd n : inside n = true -> W fwd n = Op (label n) (none (kids n)) :: Wl fwd (order fwd (kids n)) ++ [Cl (label n) (none (kids n))].
Proof.
  assert (Q : forall a e ks, dir fwd (Op a e :: flat_map tokens ks ++ [Cl a e]) = Op a e :: Wl fwd (order fwd ks) ++ [Cl a e]).
  { intros a e ks. destruct fwd; [reflexivity|]. cbn [dir order]. rewrite <- mirror_tokens.
    change (Op a e :: flat_map tokens ks ++ [Cl a e]) with ([Op a e] ++ flat_map tokens ks ++ [Cl a e]). rewrite !mirror_app. cbn [mirror map rev flip app]. reflexivity. }
  destruct n as [d|x a ks|d|ks|d]; try discriminate; intros _; apply Q.
Qed.
Lemma W_false n : W false n = mirror (W true n). Proof. reflexivity. Qed.

Section machine.
Variables (l m : list bytes).
(** with what is behind the end *)
Fixpoint ca (r : list token) (base : bool) : bool :=
  match r with
  | [] => base
  | Cl _ _ :: r' => ca r' base
  | Op e _ :: r' => if not_span e then named m e else ca r' base
  | _ => false
  end.
Fixpoint sa (r : list token) (base : bool) (c : nat) : nat :=
  match r with
  | [] => c
  | Op e empty :: r' => (if named l e && negb empty && ca r' base then 1 else 0) + sa r' base c
  | Cl e _ :: r' => if not_span e then 0 else sa r' base c
  | _ => 0
  end.
Fixpoint rs (bl : bool) (cl : nat) (r : list token) (br : bool) (cr : nat) : list token :=
  match r with
  | [] => []
  | t :: r' => (match t with T d => T (repeat 32%N cl ++ d ++ repeat 32%N (sa r' br cr)) | _ => t end)
               :: rs (ca [flip t] bl) (sa [flip t] bl cl) r' br cr
  end.
Lemma ca_plain r : ca r false = code_after m r.
Proof. induction r as [|[d|e k|e k|n] r IH]; cbn; try reflexivity; [now rewrite IH|exact IH]. Qed.
Lemma sa_plain r : sa r false 0 = spaces_after l m r.
Proof. induction r as [|[d|e k|e k|n] r IH]; cbn; try reflexivity; [now rewrite IH, ca_plain|now rewrite IH]. Qed.
Lemma ca_app A B s : ca (A ++ B) s = ca A (ca B s).
Proof. induction A as [|[d|e k|e k|n] r IH]; cbn; try reflexivity; [now rewrite IH|exact IH]. Qed.
Lemma sa_app A B s c : sa (A ++ B) s c = sa A (ca B s) (sa B s c).
Proof. induction A as [|[d|e k|e k|n] r IH]; cbn; try reflexivity; [now rewrite IH, ca_app|now rewrite IH]. Qed.
Lemma rs_app A : forall bl cl B br cr,
  rs bl cl (A ++ B) br cr = rs bl cl A (ca B br) (sa B br cr) ++ rs (ca (mirror A) bl) (sa (mirror A) bl cl) B br cr.
Proof.
  induction A as [|t A IH]; intros bl cl B br cr; [reflexivity|]. change (t :: A) with ([t] ++ A) at 3 4. rewrite mirror_app, ca_app, sa_app.
  cbn [app rs]. rewrite IH, sa_app. reflexivity.
Qed.
Lemma respaced_rs r : forall left, respaced l m left r = rs (code_after m left) (spaces_after l m left) r false 0.
Proof.
  induction r as [|t r IH]; intros left; [reflexivity|]. cbn [respaced rs]. rewrite sa_plain. f_equal. rewrite IH.
  rewrite <- !ca_plain, <- !sa_plain. change (flip t :: left) with ([flip t] ++ left). now rewrite ca_app, sa_app.
Qed.

(** ** Shapes *)
Definition shape (t : token) : token := match t with T _ => T [] | _ => t end.
Definition shapes (r : list token) : list token := map shape r.
Lemma shapes_cons t r : shapes (t :: r) = shape t :: shapes r. Proof. reflexivity. Qed.
Lemma ca_shape r s : ca (shapes r) s = ca r s.
Proof. induction r as [|[d|e k|e k|n] r IH]; rewrite ?shapes_cons; cbn [shape ca]; try reflexivity; [now rewrite IH|exact IH]. Qed.
Lemma sa_shape r s c : sa (shapes r) s c = sa r s c.
Proof. induction r as [|[d|e k|e k|n] r IH]; rewrite ?shapes_cons; cbn [shape sa]; try reflexivity; [now rewrite IH, ca_shape|now rewrite IH]. Qed.
Lemma ca_same r r' s : shapes r = shapes r' -> ca r s = ca r' s.
Proof. intros H. now rewrite <- ca_shape, H, ca_shape. Qed.
Lemma sa_same r r' s c : shapes r = shapes r' -> sa r s c = sa r' s c.
Proof. intros H. now rewrite <- sa_shape, H, sa_shape. Qed.
Lemma rs_shape r : forall bl cl br cr, shapes (rs bl cl r br cr) = shapes r.
Proof. induction r as [|t r IH]; intros; [reflexivity|]. cbn [rs]. rewrite !shapes_cons, IH. destruct t; reflexivity. Qed.
Lemma mirror_shape r r' : shapes r = shapes r' -> shapes (mirror r) = shapes (mirror r').
Proof.
  assert (Q : forall r, shapes (mirror r) = mirror (shapes r)).
  { intros q. unfold shapes, mirror. rewrite map_rev, !map_map. f_equal. apply map_ext. intros []; reflexivity. }
  intros H. now rewrite !Q, H.
Qed.
Lemma shapes_app A B : shapes (A ++ B) = shapes A ++ shapes B. Proof. apply map_app. Qed.
Lemma shapes_length A B : shapes A = shapes B -> List.length A = List.length B.
Proof. intros H. apply (f_equal (@List.length _)) in H. unfold shapes in H. now rewrite !map_length in H. Qed.

(** ** Touching *)
Definition put (fwd : bool) (d : bytes) : bytes := if fwd then 32%N :: d else d ++ [32%N].
Fixpoint tt (fwd : bool) (r : list token) : list token :=
  match r with
  | T d :: r' => T (put fwd d) :: r'
  | Cl e k :: r' => Cl e k :: tt fwd r'
  | Op e k :: r' => if not_span e then r else Op e k :: tt fwd r'
  | _ => r
  end.
Lemma tt_shape fwd r : shapes (tt fwd r) = shapes r.
Proof. induction r as [|[d|e k|e k|n] r IH]; cbn; try reflexivity; [|now f_equal]. destruct (not_span e); cbn; [reflexivity|now f_equal]. Qed.
Lemma rep_in c (d : bytes) : repeat 32%N c ++ 32%N :: d = 32%N :: repeat 32%N c ++ d.
Proof. induction c as [|c IH]; cbn; [reflexivity|]. now rewrite IH. Qed.
Lemma rep_end c : repeat 32%N (S c) = repeat 32%N c ++ [32%N].
Proof. induction c as [|c IH]; [reflexivity|]. cbn [repeat app]. now rewrite <- IH. Qed.
Lemma tt_left r : forall bl cl br cr, rs bl cl (tt true r) br cr = rs bl (S cl) r br cr.
Proof.
  induction r as [|[d|e k|e k|n] r IH]; intros; cbn; try reflexivity.
  - f_equal. f_equal. apply rep_in.
  - destruct (not_span e) eqn:E; cbn; rewrite E; [reflexivity|]. now rewrite IH.
  - rewrite IH. f_equal. f_equal. lia.
Qed.
Lemma mirror_cons t r : mirror (t :: r) = mirror r ++ [flip t]. Proof. reflexivity. Qed.
Lemma tt_right M : forall bl cl br cr, rs bl cl M br (S cr) = mirror (tt false (mirror (rs bl cl M br cr))).
Proof.
  induction M as [|t M IH] using rev_ind; intros; [reflexivity|]. rewrite !rs_app, mirror_app. cbn [rs].
  rewrite (mirror_cons _ []). unfold mirror at 3. cbn [map rev app].
  destruct t as [d|e k|e k|n]; cbn [flip tt ca sa].
  - rewrite mirror_cons, mirror_mirror. cbn [flip put]. f_equal. f_equal. f_equal. rewrite rep_end, <- !app_assoc. reflexivity.
  - rewrite mirror_cons, <- IH. cbn [flip]. f_equal. f_equal. lia.
  - destruct (not_span e); rewrite mirror_cons; cbn [flip]; [now rewrite mirror_mirror|now rewrite <- IH].
  - rewrite mirror_cons, mirror_mirror. reflexivity.
Qed.

(** ** Touching nodes *)
Definition tgo (fwd : bool) : list node -> list node * bool :=
  fix go (l : list node) : list node * bool :=
  match l with
  | [] => ([], false)
  | k :: r => if fwd then let '(k', f) := touch fwd k in
                          if f : bool then (k' :: r, true) else let '(r', f2) := go r in (k' :: r', f2)
              else let '(r', f) := go r in
                   if f : bool then (k :: r', true) else let '(k', f2) := touch fwd k in (k' :: r', f2)
  end.
Lemma tgo_cons fwd k r : tgo fwd (k :: r) =
  if fwd then let '(k', f) := touch fwd k in
              if f : bool then (k' :: r, true) else let '(r', f2) := tgo fwd r in (k' :: r', f2)
  else let '(r', f) := tgo fwd r in
       if f : bool then (k :: r', true) else let '(k', f2) := touch fwd k in (k' :: r', f2).
Proof. reflexivity. Qed.
Lemma touch_elem fwd x a ks : touch fwd (Elem x a ks) =
  if is_span (Elem x a ks) then let '(ks', f) := tgo fwd ks in (Elem x a ks', f) else (Elem x a ks, true).
Proof. reflexivity. Qed.
Lemma Wl_app fwd A B : Wl fwd (A ++ B) = Wl fwd A ++ Wl fwd B. Proof. apply flat_map_app. Qed.
Lemma Wl_one fwd k : Wl fwd [k] = W fwd k. Proof. unfold Wl. cbn. apply app_nil_r. Qed.
Lemma Wl_cons fwd k r : Wl fwd (k :: r) = W fwd k ++ Wl fwd r. Proof. reflexivity. Qed.
Lemma Wl_order fwd k r : Wl fwd (order fwd (k :: r)) = if fwd then W fwd k ++ Wl fwd (order fwd r) else Wl fwd (order fwd r) ++ W fwd k.
Proof. destruct fwd; cbn [order rev]; [apply Wl_cons|]. now rewrite Wl_app, Wl_one. Qed.
Lemma not_span_label x a ks : not_span (Elem x a []) = negb (is_span (Elem x a ks)). Proof. reflexivity. Qed.

Lemma tgo_tt fwd ks : Forall (fun n => forall R, tt fwd (W fwd n ++ R) = W fwd (fst (touch fwd n)) ++ (if snd (touch fwd n) then R else tt fwd R)) ks ->
  none (fst (tgo fwd ks)) = none ks /\
  forall R, tt fwd (Wl fwd (order fwd ks) ++ R) = Wl fwd (order fwd (fst (tgo fwd ks))) ++ (if snd (tgo fwd ks) then R else tt fwd R).
Proof.
  induction 1 as [|k r Hk _ [_ IH]]; [split; [reflexivity|]; intros R; destruct fwd; reflexivity|].
  rewrite tgo_cons. destruct (touch fwd k) as [k' f] eqn:Ek. destruct (tgo fwd r) as [r' f2] eqn:Er. cbn [fst snd] in *. destruct fwd.
  - destruct f; cbn [fst snd]; (split; [reflexivity|]); intros R; rewrite !Wl_order, <- !app_assoc, Hk; [reflexivity|]. now rewrite IH.
  - destruct f2; cbn [fst snd]; (split; [reflexivity|]); intros R; rewrite !Wl_order, <- !app_assoc, IH; [reflexivity|]. now rewrite Hk.
Qed.
Lemma touch_tt fwd n : forall R, tt fwd (W fwd n ++ R) = W fwd (fst (touch fwd n)) ++ (if snd (touch fwd n) then R else tt fwd R).
Proof.
  induction n as [d|x a ks IH|d|ks IH|d] using node_induction; intros R.
  - destruct fwd; reflexivity.
  - rewrite touch_elem. rewrite (W_inside fwd (Elem x a ks)) by reflexivity. cbn [label with_kids kids app tt]. rewrite (not_span_label x a ks).
    destruct (is_span (Elem x a ks)); cbn [negb].
    + destruct (tgo_tt fwd ks IH) as [E Q]. destruct (tgo fwd ks) as [ks' f]. cbn [fst snd] in *. rewrite (W_inside fwd (Elem x a ks')) by reflexivity.
      cbn [label with_kids kids app]. rewrite E. f_equal. rewrite <- !app_assoc, Q. f_equal. destruct f; reflexivity.
    + cbn [fst snd]. rewrite (W_inside fwd (Elem x a ks)) by reflexivity. reflexivity.
  - destruct fwd; reflexivity.
  - cbn [touch fst snd]. rewrite (W_inside fwd (Doc ks)) by reflexivity. reflexivity.
  - destruct fwd; reflexivity.
Qed.
Lemma touch_list_tt fwd ks : forall R, tt fwd (Wl fwd ks ++ R) = Wl fwd (fst (touch_list fwd ks)) ++ (if snd (touch_list fwd ks) then R else tt fwd R).
Proof.
  induction ks as [|k r IH]; intros R; [reflexivity|]. cbn [touch_list]. pose proof (touch_tt fwd k) as Q. destruct (touch fwd k) as [k' f]. cbn [fst snd] in Q.
  rewrite Wl_cons, <- app_assoc, Q. destruct f; cbn [fst snd]; [now rewrite Wl_cons, <- app_assoc|].
  destruct (touch_list fwd r) as [r' f2]. cbn [fst snd] in *. now rewrite Wl_cons, <- app_assoc, IH.
Qed.
(** What a stack has around the node *)
Definition ctx (fwd : bool) (st : list (list node)) : list token := flat_map (Wl fwd) st.
Lemma touch_stack_tt fwd st : tt fwd (ctx fwd st) = ctx fwd (touch_stack fwd st).
Proof.
  induction st as [|k r IH]; [reflexivity|]. cbn [touch_stack]. pose proof (touch_list_tt fwd k) as Q. destruct (touch_list fwd k) as [k' f]. cbn [fst snd] in Q.
  unfold ctx in *. cbn [flat_map]. rewrite Q. destruct f; cbn [flat_map]; [reflexivity|]. now rewrite IH.
Qed.

(** ** What is next *)
Definition rgo (fwd : bool) : list node -> option node :=
  fix go (l : list node) : option node :=
  match l with
  | [] => None
  | k :: r => if fwd then match first_real fwd k with Some x => Some x | None => go r end
              else match go r with Some x => Some x | None => first_real fwd k end
  end.
Lemma rgo_cons fwd k r : rgo fwd (k :: r) =
  if fwd then match first_real fwd k with Some x => Some x | None => rgo fwd r end
  else match rgo fwd r with Some x => Some x | None => first_real fwd k end.
Proof. reflexivity. Qed.
Lemma real_elem fwd x a ks : first_real fwd (Elem x a ks) = if is_span (Elem x a ks) then rgo fwd ks else Some (Elem x a ks).
Proof. reflexivity. Qed.
Definition found (o : option node) (base : bool) : bool := match o with Some x => named m x | None => base end.
Lemma rgo_ca fwd ks : Forall (fun n => forall s, ca (W fwd n) s = found (first_real fwd n) s) ks -> forall s, ca (Wl fwd (order fwd ks)) s = found (rgo fwd ks) s.
Proof.
  induction 1 as [|k r Hk _ IH]; intros s; [destruct fwd; reflexivity|]. rewrite Wl_order, rgo_cons. destruct fwd; rewrite ca_app.
  - rewrite Hk, IH. destruct (first_real true k); reflexivity.
  - rewrite Hk, IH. destruct (rgo false r); reflexivity.
Qed.
Lemma real_ca fwd n : forall s, ca (W fwd n) s = found (first_real fwd n) s.
Proof.
  induction n as [d|x a ks IH|d|ks IH|d] using node_induction; intros s; try (destruct fwd; reflexivity).
  - rewrite real_elem, (W_inside fwd (Elem x a ks)) by reflexivity. cbn [label with_kids kids ca]. rewrite (not_span_label x a ks).
    destruct (is_span (Elem x a ks)); cbn [negb]; [|reflexivity]. rewrite ca_app. cbn [ca]. apply rgo_ca, IH.
  - rewrite (W_inside fwd (Doc ks)) by reflexivity. reflexivity.
Qed.
Lemma real_list_ca fwd ks s : ca (Wl fwd ks) s = found (first_real_list fwd ks) s.
Proof.
  induction ks as [|k r IH]; [reflexivity|]. rewrite Wl_cons, ca_app, real_ca, IH. cbn [first_real_list]. destruct (first_real fwd k); reflexivity.
Qed.
Lemma real_stack_ca fwd st : ca (ctx fwd st) false = opt_is (named m) (first_real_stack fwd st).
Proof.
  induction st as [|k r IH]; [reflexivity|]. unfold ctx in *. cbn [flat_map first_real_stack]. rewrite ca_app, IH, real_list_ca. destruct (first_real_list fwd k); reflexivity.
Qed.

(** ** Nodes that are walked through *)
Fixpoint ghost (n : node) : bool := match n with Elem x a ks => is_span n && forallb ghost ks | _ => false end.
Lemma tgo_ghost fwd ks : Forall (fun n => snd (touch fwd n) = negb (ghost n)) ks -> snd (tgo fwd ks) = negb (forallb ghost ks).
Proof.
  induction 1 as [|k r Hk _ IH]; [reflexivity|]. rewrite tgo_cons. cbn [forallb]. destruct (touch fwd k) as [k' f]. destruct (tgo fwd r) as [r' f2]. cbn [snd] in *.
  destruct fwd, f, f2, (ghost k), (forallb ghost r); cbn in *; congruence.
Qed.
Lemma touch_ghost fwd n : snd (touch fwd n) = negb (ghost n).
Proof.
  induction n as [d|x a ks IH|d|ks IH|d] using node_induction; try reflexivity. rewrite touch_elem. cbn [ghost].
  destruct (is_span (Elem x a ks)); cbn [andb]; [|reflexivity]. rewrite <- (tgo_ghost fwd ks IH). destruct (tgo fwd ks); reflexivity.
Qed.
Lemma touch_list_ghost fwd ks : snd (touch_list fwd ks) = negb (forallb ghost ks).
Proof.
  induction ks as [|k r IH]; [reflexivity|]. cbn [touch_list forallb]. pose proof (touch_ghost fwd k) as Q. destruct (touch fwd k) as [k' f]. cbn [snd] in Q. subst f.
  destruct (ghost k); cbn [negb andb]; [|reflexivity]. rewrite <- IH. destruct (touch_list fwd r); reflexivity.
Qed.
Lemma sa_list fwd ks : Forall (fun n => forall s c, sa (W fwd n) s c = sa (W fwd n) s 0 + (if ghost n then c else 0)) ks ->
  forall s c, sa (Wl fwd ks) s c = sa (Wl fwd ks) s 0 + (if forallb ghost ks then c else 0).
Proof.
  induction 1 as [|k r Hk _ IH]; intros s c; [reflexivity|]. rewrite Wl_cons, !sa_app. cbn [forallb]. rewrite (Hk _ (sa (Wl fwd r) s c)), (Hk _ (sa (Wl fwd r) s 0)), IH.
  destruct (ghost k), (forallb ghost r); cbn [andb]; lia.
Qed.
Lemma forallb_rev {A} (p : A -> bool) x : forallb p (rev x) = forallb p x.
Proof. induction x as [|y x IH]; [reflexivity|]. cbn. rewrite forallb_app, IH. cbn. now rewrite andb_true_r, andb_comm. Qed.
Lemma sa_node fwd n : forall s c, sa (W fwd n) s c = sa (W fwd n) s 0 + (if ghost n then c else 0).
Proof.
  induction n as [d|x a ks IH|d|ks IH|d] using node_induction; intros s c; try (destruct fwd; reflexivity).
  - rewrite (W_inside fwd (Elem x a ks)) by reflexivity. cbn [label with_kids kids sa ghost]. rewrite !sa_app. cbn [sa ca]. rewrite (not_span_label x a ks).
    destruct (is_span (Elem x a ks)); cbn [negb andb]; [|lia].
    rewrite (sa_list fwd (order fwd ks)); [|destruct fwd; [exact IH|apply Forall_rev, IH]]. destruct fwd; cbn [order]; rewrite ?forallb_rev; lia.
  - rewrite (W_inside fwd (Doc ks)) by reflexivity. cbn [label with_kids kids sa ghost]. rewrite !sa_app. cbn [sa ca not_span named negb]. lia.
Qed.
Lemma sa_nodes fwd ks s c : sa (Wl fwd ks) s c = sa (Wl fwd ks) s 0 + (if forallb ghost ks then c else 0).
Proof. apply sa_list. apply Forall_forall. intros n _. apply sa_node. Qed.

(** ** Several touches *)
Fixpoint it {A} (c : nat) (f : A -> A) (x : A) : A := match c with 0 => x | S c' => f (it c' f x) end.
Lemma it_add {A} (f : A -> A) a c x : it (a + c) f x = it a f (it c f x).
Proof. induction a as [|a IH]; cbn; [reflexivity|]. now rewrite IH. Qed.
Lemma it_if {A} (f : A -> A) c (q : bool) x : it c f (if q then f x else x) = it ((if q then 1 else 0) + c) f x.
Proof. rewrite (Nat.add_comm _ c), it_add. destruct q; reflexivity. Qed.
Lemma it_shape fwd c M : shapes (it c (tt fwd) M) = shapes M.
Proof. induction c as [|c IH]; cbn; [reflexivity|]. now rewrite tt_shape. Qed.
Lemma it_left c : forall M bl cl br cr, rs bl cl (it c (tt true) M) br cr = rs bl (c + cl) M br cr.
Proof.
  induction c as [|c IH]; intros; cbn; [reflexivity|]. rewrite tt_left, IH. f_equal. lia.
Qed.
Lemma it_right c M bl cl br cr : rs bl cl M br (c + cr) = mirror (it c (tt false) (mirror (rs bl cl M br cr))).
Proof. induction c as [|c IH]; cbn [it plus]; [now rewrite mirror_mirror|]. rewrite tt_right, IH, mirror_mirror. reflexivity. Qed.
Definition tn (fwd : bool) (n : node) : node := fst (touch fwd n).
Definition tl_ (fwd : bool) (ks : list node) : list node := fst (touch_list fwd ks).
Lemma tn_W fwd n : W fwd (tn fwd n) = tt fwd (W fwd n).
Proof. pose proof (touch_tt fwd n []) as Q. rewrite app_nil_r in Q. rewrite Q. destruct (snd (touch fwd n)); cbn [tt]; now rewrite app_nil_r. Qed.
Lemma tl_W fwd n : Wl fwd (tl_ fwd n) = tt fwd (Wl fwd n).
Proof. pose proof (touch_list_tt fwd n []) as Q. rewrite app_nil_r in Q. rewrite Q. destruct (snd (touch_list fwd n)); cbn [tt]; now rewrite app_nil_r. Qed.
Lemma it_tn fwd c n : W fwd (it c (tn fwd) n) = it c (tt fwd) (W fwd n).
Proof. induction c as [|c IH]; cbn [it]; [reflexivity|]. now rewrite tn_W, IH. Qed.
Lemma it_tl fwd c n : Wl fwd (it c (tl_ fwd) n) = it c (tt fwd) (Wl fwd n).
Proof. induction c as [|c IH]; cbn [it]; [reflexivity|]. now rewrite tl_W, IH. Qed.
Lemma it_ctx fwd c st : ctx fwd (it c (touch_stack fwd) st) = it c (tt fwd) (ctx fwd st).
Proof. induction c as [|c IH]; cbn [it]; [reflexivity|]. now rewrite <- touch_stack_tt, IH. Qed.
Lemma ghost_same fwd n n' : shapes (W fwd n) = shapes (W fwd n') -> ghost n = ghost n'.
Proof.
  intros H. pose proof (sa_node fwd n false 1) as A. pose proof (sa_node fwd n' false 1) as B. rewrite !(sa_same _ _ _ _ H) in A.
  destruct (ghost n), (ghost n'); try reflexivity; lia.
Qed.
Lemma ghosts_same fwd n n' : shapes (Wl fwd n) = shapes (Wl fwd n') -> forallb ghost n = forallb ghost n'.
Proof.
  intros H. pose proof (sa_nodes fwd n false 1) as A. pose proof (sa_nodes fwd n' false 1) as B. rewrite !(sa_same _ _ _ _ H) in A.
  destruct (forallb ghost n), (forallb ghost n'); try reflexivity; lia.
Qed.
Lemma it_stack fwd c k st : it c (touch_stack fwd) (k :: st) = it c (tl_ fwd) k :: (if forallb ghost k then it c (touch_stack fwd) st else st).
Proof.
  induction c as [|c IH]; [destruct (forallb ghost k); reflexivity|]. cbn [it] in *. rewrite IH. cbn [touch_stack].
  set (k' := it c (tl_ fwd) k). assert (G : forallb ghost k' = forallb ghost k).
  { apply (ghosts_same fwd). unfold k'. rewrite it_tl. apply it_shape. }
  pose proof (touch_list_ghost fwd k') as Q. rewrite G in Q. unfold tl_ at 1. destruct (touch_list fwd k') as [k2 f]. cbn [snd fst] in *. subst f.
  destruct (forallb ghost k); reflexivity.
Qed.
Lemma it_cons fwd c k st : it c (tl_ fwd) (k :: st) = it c (tn fwd) k :: (if ghost k then it c (tl_ fwd) st else st).
Proof.
  induction c as [|c IH]; [destruct (ghost k); reflexivity|]. cbn [it] in *. rewrite IH. unfold tl_ at 1. cbn [touch_list].
  set (k' := it c (tn fwd) k). assert (G : ghost k' = ghost k).
  { apply (ghost_same fwd). unfold k'. rewrite it_tn. apply it_shape. }
  pose proof (touch_ghost fwd k') as Q. rewrite G in Q. unfold tn at 1. destruct (touch fwd k') as [k2 f]. cbn [snd fst] in *. subst f.
  destruct (ghost k); cbn [negb fst]; [|reflexivity]. unfold tl_ at 2. destruct (touch_list fwd _); reflexivity.
Qed.

(** ** AddSpace *)
Definition good_list (f : nat) : Prop := forall done todo lt rt, List.length (Wl true todo) < f ->
  let L := ca (ctx false (done :: lt)) false in let R := ca (ctx true rt) false in let M := Wl true todo in
  exists done' todo' lt',
    add_space_list (named l) (named m) f done todo lt rt = (rev done' ++ todo', lt', it (sa (mirror M) L 0) (touch_stack true) rt) /\
    done' :: lt' = it (sa M R 0) (touch_stack false) (done :: lt) /\ Wl true todo' = rs L 0 M R 0.
Definition good_node (f : nat) : Prop := forall n lt rt, List.length (W true n) <= f ->
  let L := ca (ctx false lt) false in let R := ca (ctx true rt) false in let M := W true n in
  exists n', add_space (named l) (named m) f n lt rt = (n', it (sa M R 0) (touch_stack false) lt, it (sa (mirror M) L 0) (touch_stack true) rt) /\
    W true n' = rs L 0 M R 0.
Lemma ctx_cons fwd k st : ctx fwd (k :: st) = Wl fwd k ++ ctx fwd st. Proof. reflexivity. Qed.
Lemma ca_touched fwd (q : bool) st s : ca (ctx fwd (if q then touch_stack fwd st else st)) s = ca (ctx fwd st) s.
Proof. destruct q; [|reflexivity]. rewrite <- touch_stack_tt. apply ca_same, tt_shape. Qed.
Lemma W_pos fwd n : W fwd n <> [].
Proof.
  intros H. destruct (inside n) eqn:E; [rewrite (W_inside fwd n E) in H; discriminate H|].
  destruct n; try discriminate E; destruct fwd; cbn in H; discriminate H.
Qed.
Lemma W_len n : 0 < List.length (W true n).
Proof. pose proof (W_pos true n) as H. destruct (W true n); [now destruct H|cbn; lia]. Qed.
Lemma none_same ks ks' : shapes (Wl true ks) = shapes (Wl true ks') -> none ks = none ks'.
Proof.
  intros H. apply shapes_length in H. destruct ks as [|k r], ks' as [|k' r']; try reflexivity; rewrite ?Wl_cons, ?app_length in H; exfalso.
  - pose proof (W_len k'). change (List.length (Wl true [])) with 0 in H. lia.
  - pose proof (W_len k). change (List.length (Wl true [])) with 0 in H. lia.
Qed.
Lemma label_named s n ks : named s (with_kids n ks) = named s n. Proof. destruct n; reflexivity. Qed.
Lemma node_good f : good_list f -> good_node (S f).
Proof.
  intros IH n lt rt Hf L R M. cbn [add_space]. destruct (inside n) eqn:En.
  2:{ exists n. assert (E : kids n = []) by (destruct n; try discriminate; reflexivity). assert (E2 : named l n = false) by (destruct n; try discriminate; reflexivity).
      rewrite E, E2. cbn [andb]. replace (add_space_list (named l) (named m) f [] [] lt rt) with (@nil node, lt, rt) by (destruct f; reflexivity).
      unfold M. destruct n; try discriminate; cbn [with_kids W dir tokens sa mirror map rev flip app it rs repeat]; rewrite ?app_nil_r; split; reflexivity. }
  set (F := Wl true (kids n)). assert (EM : M = Op (label n) (none (kids n)) :: F ++ [Cl (label n) (none (kids n))]) by (unfold M; rewrite W_inside by exact En; reflexivity).
  assert (EF : mirror F = Wl false (rev (kids n))) by apply mirror_tokens.
  assert (EM' : mirror M = Op (label n) (none (kids n)) :: mirror F ++ [Cl (label n) (none (kids n))]) by (unfold M; rewrite <- W_false, W_inside by exact En; cbn [order]; now rewrite EF).
  assert (Nl : named l (label n) = named l n) by apply label_named.
  assert (Ne : is_empty (kids n) = none (kids n)) by reflexivity.
  rewrite <- !real_stack_ca, !ctx_cons, <- EF, !ca_app. fold F R.
  set (b1 := named l n && negb (is_empty (kids n)) && ca F R). set (lt1 := if b1 then touch_stack false lt else lt).
  assert (EL : ca (ctx false lt1) false = L) by apply ca_touched. rewrite EL.
  set (b2 := named l n && negb (is_empty (kids n)) && ca (mirror F) L). set (rt1 := if b2 then touch_stack true rt else rt).
  assert (ER : ca (ctx true rt1) false = R) by apply ca_touched.
  assert (Z : (if not_span (label n) then 0 else 0) = 0) by (destruct (not_span (label n)); reflexivity).
  assert (S1 : sa M R 0 = (if b1 then 1 else 0) + sa F R 0).
  { rewrite EM. cbn [sa]. rewrite ca_app, sa_app. cbn [ca sa]. rewrite Z, Nl, <- Ne. reflexivity. }
  assert (S2 : sa (mirror M) L 0 = (if b2 then 1 else 0) + sa (mirror F) L 0).
  { rewrite EM'. cbn [sa]. rewrite ca_app, sa_app. cbn [ca sa]. rewrite Z, Nl, <- Ne. reflexivity. }
  destruct (IH [] (kids n) lt1 rt1) as (done' & todo' & lt' & E1 & E2 & E3).
  { fold F. fold M in Hf. rewrite EM in Hf. cbn [List.length] in Hf. rewrite app_length in Hf. cbn [List.length] in Hf. revert Hf. generalize (List.length F). clear. intros; lia. }
  fold F in E1, E2, E3. rewrite ctx_cons in E1, E3. change (Wl false []) with (@nil token) in E1, E3. cbn [app] in E1, E3. rewrite EL in E1, E3. rewrite ER in E2, E3.
  rewrite it_stack in E2. cbn [forallb] in E2. injection E2 as D1 D2. assert (D0 : forall c, it c (tl_ false) [] = []) by (induction c as [|c IHc]; cbn in *; [reflexivity|now rewrite IHc]).
  rewrite D0 in D1. subst done' lt'. rewrite E1. cbn [rev app]. exists (with_kids n todo'). split.
  - unfold lt1, rt1. rewrite !it_if, S1, S2. reflexivity.
  - assert (En' : inside (with_kids n todo') = true) by (destruct n; try discriminate; reflexivity).
    rewrite W_inside by exact En'. cbn [order]. assert (Ek : kids (with_kids n todo') = todo') by (destruct n; try discriminate; reflexivity).
    assert (Eb : label (with_kids n todo') = label n) by (destruct n; reflexivity). rewrite Ek, Eb, E3.
    rewrite (none_same todo' (kids n)) by (rewrite E3; apply rs_shape). rewrite EM. cbn [rs flip ca sa]. rewrite Z, rs_app. cbn [ca sa rs flip]. rewrite Z. reflexivity.
Qed.
Lemma list_good f : good_node f -> good_list f -> good_list (S f).
Proof.
  intros IHn IHl done todo lt rt Hf. destruct todo as [|x r]; intros L R M.
  { exists done, [], lt. cbn [add_space_list]. split; [rewrite app_nil_r; reflexivity|]. split; reflexivity. }
  set (Mx := W true x). set (Mr := Wl true r). assert (EM : M = Mx ++ Mr) by reflexivity.
  assert (Px : 0 < List.length Mx) by apply W_len.
  fold M in Hf. rewrite EM, app_length in Hf. cbn [add_space_list].
  destruct (IHn x (done :: lt) (r :: rt)) as (x' & E1 & E2); [fold Mx; revert Hf; generalize (List.length Mx) (List.length Mr); clear; intros; lia|]. fold L Mx in E1, E2. rewrite ctx_cons, ca_app in E1, E2. fold R Mr in E1, E2.
  set (c1 := sa Mx (ca Mr R) 0) in *. set (c2 := sa (mirror Mx) L 0) in *. rewrite E1. rewrite !it_stack. cbn [hd tl].
  set (r1 := it c2 (tl_ true) r). set (rt1 := if forallb ghost r then it c2 (touch_stack true) rt else rt).
  set (d1 := it c1 (tl_ false) done). set (lt1 := if forallb ghost done then it c1 (touch_stack false) lt else lt).
  assert (H1 : shapes (Wl true r1) = shapes Mr) by (unfold r1; rewrite it_tl; apply it_shape).
  assert (W1 : Wl true r1 = it c2 (tt true) Mr) by (unfold r1; now rewrite it_tl).
  assert (D1 : d1 :: lt1 = it c1 (touch_stack false) (done :: lt)) by (now rewrite it_stack).
  assert (R1 : ca (ctx true rt1) false = R).
  { unfold rt1. destruct (forallb ghost r); [|reflexivity]. rewrite it_ctx. apply ca_same, it_shape. }
  assert (L1 : ca (ctx false ((x' :: d1) :: lt1)) false = ca (mirror Mx) L).
  { rewrite ctx_cons, Wl_cons, <- app_assoc, ca_app. change (Wl false d1 ++ ctx false lt1) with (ctx false (d1 :: lt1)). rewrite D1, it_ctx.
    rewrite (ca_same (it c1 (tt false) (ctx false (done :: lt))) (ctx false (done :: lt))) by apply it_shape. fold L. apply ca_same. rewrite W_false. apply mirror_shape. rewrite E2. apply rs_shape. }
  destruct (IHl (x' :: d1) r1 lt1 rt1) as (done' & todo' & lt' & F1 & F2 & F3); [rewrite (shapes_length _ _ H1); revert Hf Px; generalize (List.length Mx) (List.length Mr); clear; intros; lia|].
  rewrite L1 in F1, F3. rewrite R1 in F2, F3. rewrite (sa_same _ _ _ _ H1) in F2. rewrite (sa_same _ _ _ _ (mirror_shape _ _ H1)) in F1.
  set (k := sa Mr R 0) in *. rewrite it_stack, it_cons in F2. injection F2 as F2 F4.
  exists (if ghost x' then it k (tl_ false) d1 else d1), (it k (tn false) x' :: todo'), lt'.
  assert (G : ghost x' = ghost x) by (apply (ghost_same true); rewrite E2; apply rs_shape).
  assert (SM : sa M R 0 = (if ghost x then k else 0) + c1).
  { rewrite EM, sa_app. fold k. unfold Mx. rewrite sa_node. fold Mx. fold c1. apply Nat.add_comm. }
  split; [|split].
  - rewrite F1. subst done'. cbn [rev]. rewrite <- app_assoc. cbn [app]. f_equal. 
    assert (SR : sa (mirror M) L 0 = sa (mirror Mr) (ca (mirror Mx) L) 0 + (if forallb ghost r then c2 else 0)).
    { rewrite EM, mirror_app, sa_app. fold c2. unfold Mr. change (Wl true r) with (flat_map tokens r). rewrite mirror_tokens, sa_nodes, forallb_rev. reflexivity. }
    rewrite SR, it_add. f_equal. unfold rt1. destruct (forallb ghost r); reflexivity.
  - rewrite <- it_stack, SM, it_add, <- D1. subst lt'. cbn [forallb]. rewrite G. destruct (ghost x); cbn [andb]; [|reflexivity]. rewrite it_stack. reflexivity.
  - rewrite Wl_cons, F3, EM, rs_app. fold k c2. f_equal.
    + pose proof (it_right k Mx L 0 (ca Mr R) 0) as Q. rewrite Nat.add_0_r in Q. rewrite Q, <- E2. rewrite <- W_false, <- it_tn, W_false, mirror_mirror. reflexivity.
    + rewrite W1, it_left, Nat.add_0_r. reflexivity.
Qed.
Lemma all_good f : good_list f /\ good_node f.
Proof.
  induction f as [|f [IH1 IH2]].
  - split; [intros done todo lt rt H; lia|]. intros n lt rt H. pose proof (W_len n). lia.
  - split; [apply list_good; assumption|apply node_good; assumption].
Qed.
Lemma exact_tokens n : tokens (add_space_root (named l) (named m) n) = respaced l m [] (tokens n).
Proof.
  rewrite (space_fuel_enough _ _ _ (merge_fuel n + List.length (W true n))) by lia.
  destruct (proj2 (all_good (merge_fuel n + List.length (W true n))) n [] []) as (n' & E1 & E2); [lia|]. rewrite E1. cbn [fst]. rewrite respaced_rs. exact E2.
Qed.
End machine.
