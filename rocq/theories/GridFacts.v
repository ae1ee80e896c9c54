(** The grid of a table with spans (C57). *)
From Coq Require Import List NArith ZArith Bool String Arith Lia.
From Verif Require Import Bytes BytesFacts Dom Table SpecTable SpecGrid.
Import ListNotations.
Open Scope list_scope.

Definition apply_mods (ms : list modification) (rows : list (list bytes)) : list (list bytes) := fold_left apply_modification ms rows.
Lemma apply_mods_app m1 m2 rows : apply_mods (m1 ++ m2) rows = apply_mods m2 (apply_mods m1 rows).
Proof. apply fold_left_app. Qed.
Lemma grouped_cons rows g gs : apply_grouped rows (g :: gs) = apply_mods g (apply_grouped rows gs).
Proof. unfold apply_grouped. cbn [rev]. rewrite fold_left_app. reflexivity. Qed.
Definition shift (m : modification) : modification := let '(y, x, d) := m in (S y, x, d).
Lemma grow_cons {A} (r : A) rows n d : grow (r :: rows) (S n) d = r :: grow rows n d.
Proof. reflexivity. Qed.
Lemma apply_shift ms : forall r rows, apply_mods (map shift ms) (r :: rows) = r :: apply_mods ms rows.
Proof.
  induction ms as [|((y & x) & d) ms IH]; intros r rows; [reflexivity|]. cbn [map apply_mods fold_left].
  change (apply_mods (map shift ms) (apply_modification (r :: rows) (S y, x, d)) = r :: apply_mods ms (apply_modification rows (y, x, d))).
  rewrite <- IH. f_equal.
Qed.
Lemma modifications_shift y x r k d : modifications (S y) x r k d = map shift (modifications y x r k d).
Proof.
  unfold modifications. rewrite map_app, map_map, flat_map_concat_map, flat_map_concat_map, concat_map, map_map. f_equal.
  f_equal. apply map_ext. intros dy. rewrite map_map. reflexivity.
Qed.

Lemma map_repeat {B C} (f : B -> C) x k : map f (repeat x k) = repeat (f x) k.
Proof. induction k; cbn; congruence. Qed.
Section grid.
Context {A : Type}.
Variables own merged : A -> bytes.
Definition show (s : slot A) : bytes := match s with Own a => own a | Merged a => merged a | Blank => [] end.
Notation cover := (list (option (nat * A))).

(** The modifications of a row whose first cell has the index [x] *)
Fixpoint row_mods (y x : nat) (row : list gcell) : list modification :=
  match row with
  | [] => []
  | (a, r, k) :: rest => modifications y x r k (merged a) ++ row_mods y (S x) rest
  end.
Definition contents (row : list (@gcell A)) : list bytes := map (fun c => own (fst (fst c))) row.
Fixpoint groups (y : nat) (rows : list (list gcell)) : list (list modification) :=
  match rows with [] => [] | r :: rs => row_mods y 0 r :: groups (S y) rs end.
Lemma row_mods_shift y row : forall x, row_mods (S y) x row = map shift (row_mods y x row).
Proof. induction row as [|((a & r) & k) row IH]; intros x; [reflexivity|]. cbn [row_mods]. now rewrite map_app, modifications_shift, IH. Qed.
Lemma groups_shift rows : forall y, groups (S y) rows = map (map shift) (groups y rows).
Proof. induction rows as [|r rs IH]; intros y; [reflexivity|]. cbn [groups map]. now rewrite row_mods_shift, IH. Qed.
Lemma grouped_shift gs : forall r rows, apply_grouped (r :: rows) (map (map shift) gs) = r :: apply_grouped rows gs.
Proof. induction gs as [|g gs IH]; intros r rows; [reflexivity|]. cbn [map]. rewrite !grouped_cons, IH. apply apply_shift. Qed.
(** The rows from the last to the first *)
Fixpoint built (rows : list (list gcell)) : list (list bytes) :=
  match rows with [] => [] | r :: rs => apply_mods (row_mods 0 0 r) (contents r :: built rs) end.
Lemma grouped_built rows : apply_grouped (map contents rows) (groups 0 rows) = built rows.
Proof.
  induction rows as [|r rs IH]; [reflexivity|]. cbn [map groups built]. rewrite grouped_cons, groups_shift, grouped_shift. now rewrite IH.
Qed.

(** ** Inserting *)
Fixpoint weave (P : cover) (row : list bytes) : list bytes :=
  match P with
  | [] => row
  | Some c :: p => merged (snd c) :: weave p row
  | None :: p => match row with
                 | x :: r => x :: weave p r
                 | [] => if forallb is_free p then [] else [] :: weave p []
                 end
  end.
Definition less (c : option (nat * A)) : option (nat * A) := match c with Some c => one_less c | None => None end.
Fixpoint weave_rows (P : cover) (rows : list (list bytes)) : list (list bytes) :=
  match rows with [] => [] | r :: rs => weave P r :: weave_rows (map less P) rs end.
Lemma insert_grow_cons x d (r : list bytes) v : insert_at (S x) d (grow (v :: r) (S x) []) = v :: insert_at x d (grow r x []).
Proof. reflexivity. Qed.
Lemma insert_grow_nil x d : insert_at (S x) d (grow [] (S x) []) = @nil N :: insert_at x d (grow [] x []).
Proof. unfold grow. cbn [List.length app]. rewrite !Nat.sub_0_r. reflexivity. Qed.
Lemma weave_free p : forallb is_free p = true -> forall row, weave p row = row.
Proof.
  induction p as [|[c|] p IH]; intros F row; cbn in *; [reflexivity|discriminate|]. destruct row; rewrite ?F, ?IH; auto.
Qed.
Lemma weave_snoc P c row : weave (P ++ [Some c]) row = insert_at (List.length P) (merged (snd c)) (grow (weave P row) (List.length P) []).
Proof.
  revert row. induction P as [|[d|] P IH]; intros row; cbn [app weave List.length].
  - unfold grow. cbn [insert_at firstn skipn repeat Nat.sub]. now rewrite app_nil_r.
  - now rewrite insert_grow_cons, IH.
  - destruct row as [|x r]; [|now rewrite insert_grow_cons, IH].
    rewrite forallb_app. cbn [forallb is_free]. rewrite andb_comm. cbn [andb]. rewrite IH. destruct (forallb is_free P) eqn:F.
    + rewrite insert_grow_nil. now rewrite weave_free.
    + now rewrite insert_grow_cons.
Qed.
Lemma weave_none P row : weave (P ++ [None]) row = weave P row.
Proof.
  revert row. induction P as [|[d|] P IH]; intros row; cbn [app weave].
  - now destruct row.
  - now rewrite IH.
  - destruct row; [|now rewrite IH]. rewrite forallb_app. cbn [forallb is_free]. rewrite andb_true_r. now rewrite IH.
Qed.
Lemma weave_rows_none P rows : weave_rows (P ++ [None]) rows = weave_rows P rows.
Proof. revert P. induction rows as [|r rs IH]; intros P; [reflexivity|]. cbn [weave_rows]. rewrite weave_none, map_app. cbn [map less]. now rewrite IH. Qed.
Lemma weave_rows_nones P k rows : weave_rows (P ++ repeat None k) rows = weave_rows P rows.
Proof.
  revert P. induction k as [|k IH]; intros P; cbn [repeat]; [now rewrite app_nil_r|].
  replace (P ++ None :: repeat None k) with ((P ++ [None]) ++ repeat None k) by now rewrite <- app_assoc. now rewrite IH, weave_rows_none.
Qed.
Lemma update_head {B} (f : B -> B) x l : update 0 f (x :: l) = f x :: l.
Proof. reflexivity. Qed.
(** c insertions side by side into the first row *)
Lemma insert_many x d rest : forall k P row, List.length P = x -> 
  apply_mods (map (fun dx => (O, (x + dx)%nat, merged (snd d))) (seq 0 k)) (weave P row :: rest) = weave (P ++ repeat (Some d) k) row :: rest.
Proof.
  induction k as [|k IH]; intros P row L; [cbn; now rewrite app_nil_r|].
  rewrite seq_S, map_app, apply_mods_app, IH by auto. cbn [map apply_mods fold_left apply_modification plus].
  assert (G : forall r : list bytes, grow (r :: rest) 1 [] = r :: rest) by (intros r; unfold grow; cbn; now rewrite app_nil_r).
  rewrite G, update_head. f_equal.
  replace (P ++ repeat (Some d) (S k)) with ((P ++ repeat (Some d) k) ++ [Some d]).
  - rewrite weave_snoc, app_length, repeat_length, L. reflexivity.
  - rewrite <- app_assoc. f_equal. change [Some d] with (repeat (Some d) 1). rewrite <- repeat_app. f_equal. lia.
Qed.
Definition below_mods (x n k : nat) (d : bytes) : list modification :=
  flat_map (fun dy => map (fun dx => (dy, (x + dx)%nat, d)) (seq 0 k)) (seq 0 n).
Lemma below_shift x n k d : flat_map (fun dy => map (fun dx => (dy, (x + dx)%nat, d)) (seq 0 k)) (seq 1 n) = map shift (below_mods x n k d).
Proof.
  unfold below_mods. rewrite <- seq_shift, !flat_map_concat_map, concat_map, !map_map. f_equal. apply map_ext. intros dy. now rewrite map_map.
Qed.
Lemma below_weave x k a : forall n P rows, List.length P = x -> (S n <= List.length rows)%nat ->
  apply_mods (below_mods x (S n) k (merged a)) (weave_rows P rows) = weave_rows (P ++ repeat (Some (n, a)) k) rows.
Proof.
  induction n as [|n IH]; intros P rows L H; (destruct rows as [|r rows]; [cbn in H; lia|]); cbn [weave_rows].
  - unfold below_mods. cbn [seq flat_map]. rewrite app_nil_r. rewrite (insert_many x (O, a) _ k P r L). f_equal.
    rewrite map_app, map_repeat. cbn [less one_less fst]. now rewrite weave_rows_nones.
  - unfold below_mods. change (seq 0 (S (S n))) with (0%nat :: seq 1 (S n)). cbn [flat_map]. rewrite apply_mods_app. rewrite (insert_many x (S n, a) _ k P r L).
    rewrite (below_shift x (S n) k (merged a)), apply_shift, IH by (rewrite ?map_length; cbn in H; auto; lia).
    f_equal. rewrite map_app, map_repeat. reflexivity.
Qed.

(** ** One row and what it covers below *)
Definition covers (row : list (@gcell A)) : cover := map left_over (flat_map pieces row).
Definition expanded (row : list (@gcell A)) : list bytes := map (fun p => show (slot_of p)) (flat_map pieces row).
Definition fits_below (n : nat) (c : @gcell A) : Prop := let '(_, r, _) := c in (1 <= r)%nat /\ (r <= S n)%nat.
Lemma below_part R x r k a P rows : List.length P = x -> (1 <= r)%nat -> (r <= S (List.length rows))%nat ->
  apply_mods (flat_map (fun dy => map (fun dx => (dy, (x + dx)%nat, merged a)) (seq 0 k)) (seq 1 (r - 1))) (R :: weave_rows P rows)
  = R :: weave_rows (P ++ repeat (left_over (false, a, r)) k) rows.
Proof.
  intros L H1 H2. rewrite below_shift, apply_shift. f_equal. destruct r as [|[|r]]; [lia| |].
  - cbn [Nat.sub left_over]. rewrite weave_rows_nones. reflexivity.
  - cbn [left_over]. replace (S (S r) - 1)%nat with (S r) by lia. apply below_weave; auto. lia.
Qed.
Lemma modifications_y0 x r k d : modifications 0 x r k d =
  map (fun dx => (O, (x + dx)%nat, d)) (seq 1 (k - 1)) ++ flat_map (fun dy => map (fun dx => (dy, (x + dx)%nat, d)) (seq 0 k)) (seq 1 (r - 1)).
Proof. reflexivity. Qed.
Definition is_narrow (c : @gcell A) : Prop := let '(_, _, k) := c in k = 1%nat.
Definition is_single (c : @gcell A) : Prop := let '(_, r, k) := c in r = 1%nat /\ k = 1%nat.
Lemma narrow_mods rows R u : Forall is_narrow u -> Forall (fits_below (List.length rows)) u -> forall x P, List.length P = x ->
  apply_mods (row_mods 0 x u) (R :: weave_rows P rows) = R :: weave_rows (P ++ covers u) rows.
Proof.
  intros N. induction N as [|((a & r) & k) u Nk N IH]; intros F x P L; [cbn; now rewrite app_nil_r|].
  inversion F as [|? ? Fc Fu]; subst. cbn in Fc. destruct Fc as [F1 F2]. cbn in Nk. subst k. cbn [row_mods]. rewrite apply_mods_app, modifications_y0. change (seq 1 (1 - 1)) with (@nil nat). cbn [map app].
  rewrite below_part by auto. cbn [repeat]. rewrite IH; auto; [|rewrite app_length; cbn; lia].
  unfold covers. cbn [flat_map pieces Nat.sub repeat app map]. now rewrite <- app_assoc.
Qed.
Lemma single_mods v : Forall is_single v -> forall x rows, apply_mods (row_mods 0 x v) rows = rows.
Proof.
  induction 1 as [|((a & r) & k) v Hs _ IH]; intros x rows; [reflexivity|]. cbn in Hs. destruct Hs as [-> ->]. cbn [row_mods]. rewrite apply_mods_app. cbn. apply IH.
Qed.
Lemma narrow_expanded u : Forall is_narrow u -> expanded u = contents u.
Proof.
  induction 1 as [|((a & r) & k) u Nk _ IH]; [reflexivity|]. cbn in Nk. subst k. unfold expanded in *. cbn [flat_map pieces Nat.sub repeat app map contents fst slot_of show].
  now f_equal.
Qed.
Lemma single_narrow v : Forall is_single v -> Forall is_narrow v.
Proof. apply Forall_impl. intros ((a & r) & k) H. apply H. Qed.
Lemma covers_app u v : covers (u ++ v) = covers u ++ covers v.
Proof. unfold covers. now rewrite flat_map_app, map_app. Qed.
Lemma expanded_app u v : expanded (u ++ v) = expanded u ++ expanded v.
Proof. unfold expanded. now rewrite flat_map_app, map_app. Qed.
Lemma contents_app u v : contents (u ++ v) = contents u ++ contents v.
Proof. apply map_app. Qed.
Lemma covers_single v : Forall is_single v -> covers v = repeat None (List.length v).
Proof.
  induction 1 as [|((a & r) & k) v Hs _ IH]; [reflexivity|]. cbn in Hs. destruct Hs as [-> ->]. unfold covers in *. cbn [flat_map pieces Nat.sub repeat app map List.length left_over]. now f_equal.
Qed.
Lemma covers_narrow_length u : Forall is_narrow u -> List.length (covers u) = List.length u.
Proof.
  induction 1 as [|((a & r) & k) u Nk _ IH]; [reflexivity|]. cbn in Nk. subst k. unfold covers in *. cbn [flat_map pieces Nat.sub repeat app map List.length]. now f_equal.
Qed.
Lemma narrow_or_wide row : Forall (fun c : @gcell A => let '(_, _, k) := c in (1 <= k)%nat) row -> one_wide row ->
  Forall is_narrow row \/ exists u a r k v, row = u ++ (a, r, k) :: v /\ Forall is_narrow u /\ (1 < k)%nat /\ Forall is_single v.
Proof.
  intros K H. induction K as [|((a & r) & k) row Hk K IH]; [now left|].
  destruct (Nat.eq_dec k 1) as [->|Hk1].
  - assert (O : one_wide row) by (intros u a' r' k' v E; apply (H ((a, r, 1%nat) :: u) a' r' k' v); now rewrite E).
    destruct (IH O) as [N|(u & a' & r' & k' & v & -> & N & Hk' & S)]; [left; now constructor|right].
    exists ((a, r, 1%nat) :: u), a', r', k', v. repeat split; auto. constructor; auto. reflexivity.
  - right. exists [], a, r, k, row. repeat split; auto; [lia|]. apply (H [] a r k row); auto. lia.
Qed.
(** inserting the further columns of a wide cell *)
Lemma wide_insert d rest : forall k l r, apply_mods (map (fun dx => (O, (List.length l + dx)%nat, d)) (seq 1 k)) ((l ++ r) :: rest)
   = (firstn (S (List.length l)) (l ++ r) ++ repeat d k ++ skipn (S (List.length l)) (l ++ r)) :: rest \/ r = [].
Proof.
  intros k l r. destruct r as [|x r]; [now right|left].
  assert (E : firstn (S (List.length l)) (l ++ x :: r) = l ++ [x]).
  { rewrite firstn_app, firstn_all2 by lia. replace (S (List.length l) - List.length l)%nat with 1%nat by lia. reflexivity. }
  assert (E2 : skipn (S (List.length l)) (l ++ x :: r) = r).
  { rewrite skipn_app, skipn_all2 by lia. replace (S (List.length l) - List.length l)%nat with 1%nat by lia. reflexivity. }
  rewrite E, E2. clear E E2. revert r. induction k as [|k IH]; intros r; [cbn; now rewrite <- app_assoc|].
  rewrite seq_S, map_app, apply_mods_app, IH. cbn [map apply_mods fold_left apply_modification].
  assert (G : forall q : list bytes, grow (q :: rest) 1 [] = q :: rest) by (intros q; unfold grow; cbn; now rewrite app_nil_r).
  rewrite G, update_head. f_equal. set (p := (l ++ [x]) ++ repeat d k). rewrite (app_assoc (l ++ [x]) (repeat d k) r). fold p.
  assert (Lp : (List.length l + (1 + k))%nat = List.length p) by (unfold p; rewrite !app_length, repeat_length; cbn; lia).
  rewrite Lp. unfold grow. replace (List.length p - List.length (p ++ r))%nat with O by (rewrite app_length; lia). cbn [repeat]. rewrite app_nil_r.
  unfold insert_at. rewrite firstn_app, Nat.sub_diag, firstn_all, skipn_app, Nat.sub_diag, skipn_all. cbn [firstn skipn app]. rewrite app_nil_r.
  unfold p. rewrite <- !app_assoc. do 2 f_equal. change (d :: r) with ([d] ++ r). cbn [app]. clear. induction k; cbn; congruence.
Qed.
Lemma row_step row rows : Forall (fun c : @gcell A => let '(_, _, k) := c in (1 <= k)%nat) row -> one_wide row ->
  Forall (fits_below (List.length rows)) row ->
  apply_mods (row_mods 0 0 row) (contents row :: rows) = expanded row :: weave_rows (covers row) rows.
Proof.
  intros K O F. assert (W : weave_rows [] rows = rows) by (clear; induction rows; cbn; congruence).
  rewrite <- W at 1. destruct (narrow_or_wide row K O) as [N|(u & a & r & k & v & -> & N & Hk & Sv)].
  - rewrite (narrow_mods rows _ row N F 0 []) by reflexivity. now rewrite narrow_expanded.
  - apply Forall_app in F as [Fu F]. inversion F as [|? ? Fc Fv]; subst. cbn in Fc. destruct Fc as [F1 F2].
    assert (R : forall x w, row_mods 0 x (u ++ w) = row_mods 0 x u ++ row_mods 0 (x + List.length u) w).
    { clear. induction u as [|((a & r) & k) u IH]; intros x w; cbn [app row_mods List.length]; [now rewrite Nat.add_0_r|].
      rewrite IH, <- app_assoc. do 3 f_equal. lia. }
    rewrite R, apply_mods_app, (narrow_mods rows _ u N Fu 0 []) by reflexivity. cbn [app plus row_mods].
    rewrite !apply_mods_app, modifications_y0, apply_mods_app, contents_app. cbn [contents map fst].
    pose proof (wide_insert (merged a) (weave_rows (covers u) rows) (k - 1) (contents u) (own a :: contents v)) as [E|E]; [|discriminate].
    assert (Lu : List.length (contents u) = List.length u) by apply map_length. rewrite Lu in E. unfold contents in *. rewrite E. clear E.
    assert (E : firstn (S (List.length u)) (map (fun c => own (fst (fst c))) u ++ own a :: map (fun c => own (fst (fst c))) v) = map (fun c => own (fst (fst c))) u ++ [own a]).
    { rewrite firstn_app, firstn_all2 by lia. rewrite Lu. replace (S (List.length u) - List.length u)%nat with 1%nat by lia. reflexivity. }
    assert (E2 : skipn (S (List.length u)) (map (fun c => own (fst (fst c))) u ++ own a :: map (fun c => own (fst (fst c))) v) = map (fun c => own (fst (fst c))) v).
    { rewrite skipn_app, skipn_all2 by lia. rewrite Lu. replace (S (List.length u) - List.length u)%nat with 1%nat by lia. reflexivity. }
    rewrite E, E2. clear E E2. rewrite below_part by (auto using covers_narrow_length). rewrite single_mods by auto.
    rewrite expanded_app, covers_app. change ((a, r, k) :: v) with ([(a, r, k)] ++ v). rewrite expanded_app, covers_app. f_equal.
    + rewrite (narrow_expanded u) by auto. rewrite (narrow_expanded v) by now apply single_narrow. unfold contents. rewrite <- app_assoc. f_equal.
      unfold expanded. cbn [flat_map pieces app map slot_of show]. rewrite app_nil_r, map_repeat. reflexivity.
    + rewrite (covers_single v) by auto. rewrite (app_assoc (covers u)), weave_rows_nones. do 2 f_equal.
      unfold covers. cbn [flat_map pieces app map]. rewrite app_nil_r, map_repeat. destruct k as [|k]; [lia|]. cbn [repeat Nat.sub]. rewrite Nat.sub_0_r. reflexivity.
Qed.
End grid.
