(** General lemmas about the byte helpers. *)
From Coq Require Import List NArith Bool Lia Arith ZifyBool ZifyNat ZifyN.
From Verif Require Import Bytes.
Import ListNotations.
Open Scope N_scope.
Open Scope list_scope.

Lemma split_on_ne sep s : split_on sep s <> [].
Proof.
  destruct s as [|c s]; cbn [split_on]; [easy|]. destruct (c =? sep); [easy|]. now destruct (split_on sep s).
Qed.
Lemma join_cons sep p ps : ps <> [] -> join sep (p :: ps) = p ++ sep ++ join sep ps.
Proof. destruct ps; [easy|reflexivity]. Qed.
Lemma split_join sep s : join [sep] (split_on sep s) = s.
Proof.
  induction s as [|c s IH]; [reflexivity|]. cbn [split_on]. pose proof (split_on_ne sep s) as N.
  destruct (c =? sep) eqn:E.
  - apply N.eqb_eq in E. subst. rewrite join_cons by easy. cbn [app]. now rewrite IH.
  - destruct (split_on sep s) as [|p [|q ps]] eqn:Es; [easy| |]; cbn [join app] in *; now rewrite IH.
Qed.
Lemma split_nosep sep s l : In l (split_on sep s) -> ~ In sep l.
Proof.
  revert l. induction s as [|c s IH]; intros l I; cbn [split_on] in I.
  - destruct I as [<-|[]]. easy.
  - destruct (c =? sep) eqn:E.
    + destruct I as [<-|I]; [easy|now apply IH].
    + pose proof (split_on_ne sep s) as N. destruct (split_on sep s) as [|p ps]; [easy|].
      destruct I as [<-|I].
      * intros [->|H]; [now rewrite N.eqb_refl in E|]. now apply (IH p (or_introl eq_refl)).
      * apply IH. now right.
Qed.
Lemma join_app sep a b0 : a <> [] -> b0 <> [] -> join sep (a ++ b0) = join sep a ++ sep ++ join sep b0.
Proof.
  intros Ha Hb. induction a as [|x a IH]; [easy|]. destruct a as [|y a].
  - cbn [app]. rewrite join_cons by easy. reflexivity.
  - change ((x :: y :: a) ++ b0) with (x :: ((y :: a) ++ b0)). rewrite !join_cons by (cbn; easy).
    rewrite IH by easy. now rewrite !app_assoc.
Qed.
(** Splitting what was joined from separator-free lines. *)
Lemma split_app_nosep sep p s : ~ In sep p ->
  split_on sep (p ++ s) = match split_on sep s with q :: qs => (p ++ q) :: qs | [] => [p] end.
Proof.
  intros H. induction p as [|c p IH].
  - pose proof (split_on_ne sep s). cbn [app]. now destruct (split_on sep s).
  - cbn [app split_on]. destruct (c =? sep) eqn:E; [apply N.eqb_eq in E; subst; elim H; now left|].
    rewrite IH by (intros I; apply H; now right). pose proof (split_on_ne sep s). now destruct (split_on sep s).
Qed.
Lemma join_split sep ls : ls <> [] -> (forall l, In l ls -> ~ In sep l) -> split_on sep (join [sep] ls) = ls.
Proof.
  induction ls as [|p ls IH]; intros N H; [easy|]. destruct ls as [|q ls].
  - cbn [join]. rewrite <- (app_nil_r p) at 1. rewrite split_app_nosep by (apply H; now left). cbn. now rewrite app_nil_r.
  - rewrite join_cons by easy. rewrite split_app_nosep by (apply H; now left). cbn [app split_on]. rewrite N.eqb_refl.
    rewrite IH; [|easy|intros; apply H; now right]. now rewrite app_nil_r.
Qed.
Lemma split_length sep s : List.length (split_on sep s) = S (count_occ N.eq_dec s sep).
Proof.
  induction s as [|c s IH]; [reflexivity|]. cbn [split_on count_occ]. destruct (N.eq_dec c sep) as [->|E].
  - rewrite N.eqb_refl. cbn. now rewrite IH.
  - apply N.eqb_neq in E. rewrite E. pose proof (split_on_ne sep s). destruct (split_on sep s); [easy|]. exact IH.
Qed.

(** ** UTF-8 *)
Lemma decode_rune_spec c t : let '(r, n) := decode_rune (c :: t) in
  (c < 128 /\ r = c /\ n = 1%nat) \/
  (128 <= c /\ 128 <= r /\ (1 <= n <= S (List.length t))%nat /\ Forall (fun x => 128 <= x) (firstn n (c :: t))).
Proof.
  unfold decode_rune. destruct (c <? 128) eqn:E1; [left; repeat split; lia|].
  assert (ERR : 128 <= c /\ 128 <= rune_error /\ (1 <= 1 <= S (List.length t))%nat /\
      Forall (fun x => 128 <= x) (firstn 1 (c :: t))).
  { unfold rune_error. repeat split; try lia. cbn [firstn]. constructor; [lia|constructor]. }
  destruct (in_range 194 223 c) eqn:E2.
  { destruct t as [|b1 u]; [right; exact ERR|]. destruct (is_cont b1) eqn:C; [|right; exact ERR].
    right. unfold is_cont, in_range in *. cbn [List.length firstn].
    repeat split; try lia. repeat constructor; lia. }
  destruct (in_range 224 239 c) eqn:E3.
  { destruct t as [|b1 [|b2 u]]; [right; exact ERR..|].
    match goal with |- context [if ?X then _ else _] => match X with andb _ _ => destruct X eqn:C end end; [|right; exact ERR].
    right. apply andb_prop in C as [C1 C2]. destruct (c =? 224) eqn:Z1; destruct (c =? 237) eqn:Z2;
    unfold is_cont, in_range in *; cbn [List.length firstn]; (repeat split; [lia..|]); repeat constructor; lia. }
  destruct (in_range 240 244 c) eqn:E4; [|right; exact ERR].
  destruct t as [|b1 [|b2 [|b3 u]]]; [right; exact ERR..|].
  match goal with |- context [if ?X then _ else _] => match X with andb _ _ => destruct X eqn:C end end; [|right; exact ERR].
  right. apply andb_prop in C as [C C3]. apply andb_prop in C as [C1 C2]. destruct (c =? 240) eqn:Z1; destruct (c =? 244) eqn:Z2;
    unfold is_cont, in_range in *; cbn [List.length firstn]; (repeat split; [lia..|]); repeat constructor; lia.
Qed.

Lemma decode_rune_prefix p q : p <> [] ->
  fst (decode_rune p) = fst (decode_rune (p ++ q)) \/ fst (decode_rune p) = rune_error.
Proof.
  intros N. destruct p as [|c t]; [easy|]. clear N. cbn [app]. unfold decode_rune.
  destruct (c <? 128) eqn:E1; [now left|].
  destruct (in_range 194 223 c) eqn:E2.
  { destruct t as [|b1 u]; [now right|]. now left. }
  destruct (in_range 224 239 c) eqn:E3.
  { destruct t as [|b1 [|b2 u]]; [now right..|]. now left. }
  destruct (in_range 240 244 c) eqn:E4; [|now left].
  destruct t as [|b1 [|b2 [|b3 u]]]; [now right..|]. now left.
Qed.

Lemma is_space_error : is_space_rune rune_error = false. Proof. reflexivity. Qed.

(** ** Trimming *)
(** [spaces l]: l consists of complete white space characters (read from the left). *)
Definition starts_nonspace (s : bytes) : Prop := s <> [] -> is_space_rune (fst (decode_rune s)) = false.
Definition ends_nonspace (s : bytes) : Prop := s <> [] -> is_space_rune (fst (decode_last_rune s)) = false.

Lemma trim_left_from_suffix s : forall k, exists l, s = l ++ trim_left_from k s.
Proof.
  induction s as [|c t IH]; intros k; [exists []; easy|]. cbn [trim_left_from].
  destruct k as [|k].
  - destruct (decode_rune (c :: t)) as [r n]. destruct (is_space_rune r).
    + destruct (IH (pred n)) as [l E]. exists (c :: l). cbn. now f_equal.
    + now exists [].
  - destruct (IH k) as [l E]. exists (c :: l). cbn. now f_equal.
Qed.
Lemma trim_left_suffix s : exists l, s = l ++ trim_left s.
Proof. apply trim_left_from_suffix. Qed.
Lemma trim_left_from_starts s : forall k, (k = O \/ True) -> starts_nonspace (trim_left_from k s).
Proof.
  induction s as [|c t IH]; intros k _; cbn [trim_left_from]; [easy|].
  destruct k as [|k]; [|now apply IH; right].
  destruct (decode_rune (c :: t)) as [r n] eqn:E. destruct (is_space_rune r) eqn:S; [now apply IH; right|].
  intros _. now rewrite E.
Qed.
Lemma trim_left_starts s : starts_nonspace (trim_left s).
Proof. apply trim_left_from_starts. now left. Qed.
Lemma trim_left_id s : starts_nonspace s -> trim_left s = s.
Proof.
  destruct s as [|c t]; [easy|]. intros H. unfold trim_left. cbn [trim_left_from].
  specialize (H ltac:(discriminate)). destruct (decode_rune (c :: t)) as [r n]. cbn [fst] in H. now rewrite H.
Qed.
Lemma trim_right_rev_suffix s : forall k, exists l, s = l ++ trim_right_rev_from k s.
Proof.
  induction s as [|c t IH]; intros k; [exists []; easy|]. cbn [trim_right_rev_from].
  destruct k as [|k].
  - destruct (decode_last_rune_rev (c :: t)) as [r n]. destruct (is_space_rune r).
    + destruct (IH (pred n)) as [l E]. exists (c :: l). cbn. now f_equal.
    + now exists [].
  - destruct (IH k) as [l E]. exists (c :: l). cbn. now f_equal.
Qed.
Lemma trim_right_prefix s : exists l, s = trim_right s ++ l.
Proof.
  unfold trim_right. destruct (trim_right_rev_suffix (rev s) O) as [l E]. exists (rev l).
  rewrite <- rev_app_distr, <- E. now rewrite rev_involutive.
Qed.
Lemma trim_right_ends s : ends_nonspace (trim_right s).
Proof.
  unfold ends_nonspace, trim_right, decode_last_rune. rewrite rev_involutive.
  generalize O. induction (rev s) as [|c t IH]; intros k; cbn [trim_right_rev_from]; [easy|].
  destruct k as [|k]; [|apply IH].
  destruct (decode_last_rune_rev (c :: t)) as [r n] eqn:E. destruct (is_space_rune r) eqn:S; [apply IH|].
  intros _. now rewrite E.
Qed.
Lemma trim_right_id s : ends_nonspace s -> trim_right s = s.
Proof.
  intros H. unfold trim_right, ends_nonspace, decode_last_rune in *.
  rewrite <- (rev_involutive s) at 2. f_equal. destruct (rev s) as [|c t] eqn:R; [easy|].
  assert (N : s <> []) by (intros ->; discriminate). specialize (H N).
  cbn [trim_right_rev_from]. destruct (decode_last_rune_rev (c :: t)) as [r n]. cbn [fst] in H. now rewrite H.
Qed.
Lemma starts_nonspace_prefix p q : starts_nonspace (p ++ q) -> starts_nonspace p.
Proof.
  intros H N. destruct (decode_rune_prefix p q N) as [E|E]; rewrite E; [|reflexivity].
  apply H. destruct p; easy.
Qed.
Lemma trim_space_starts s : starts_nonspace (trim_space s).
Proof.
  unfold trim_space. destruct (trim_right_prefix (trim_left s)) as [l E].
  apply starts_nonspace_prefix with (q := l). rewrite <- E. apply trim_left_starts.
Qed.
Lemma trim_space_ends s : ends_nonspace (trim_space s).
Proof. apply trim_right_ends. Qed.
Lemma trim_space_id s : starts_nonspace s -> ends_nonspace s -> trim_space s = s.
Proof. intros H1 H2. unfold trim_space. rewrite trim_left_id by easy. now apply trim_right_id. Qed.
Lemma trim_space_idem s : trim_space (trim_space s) = trim_space s.
Proof. apply trim_space_id; [apply trim_space_starts|apply trim_space_ends]. Qed.
Lemma trim_space_infix s : exists l r, s = l ++ trim_space s ++ r.
Proof.
  destruct (trim_left_suffix s) as [l E]. destruct (trim_right_prefix (trim_left s)) as [r E2].
  exists l, r. unfold trim_space. rewrite <- E2. exact E.
Qed.

(** What trimming removes: ASCII white space or bytes of multi-byte white space characters. *)
Definition ws_byte (c : N) : Prop := 9 <= c <= 13 \/ c = 32 \/ 128 <= c.
Lemma trim_left_from_ws s : forall k, Forall ws_byte (firstn k s) ->
  exists l, s = l ++ trim_left_from k s /\ Forall ws_byte l.
Proof.
  induction s as [|c t IH]; intros k F; [exists []; split; [easy|constructor]|]. cbn [trim_left_from].
  destruct k as [|k].
  - pose proof (decode_rune_spec c t) as D. destruct (decode_rune (c :: t)) as [r n]. destruct (is_space_rune r) eqn:S.
    + destruct (IH (pred n)) as (l & E & Fl).
      { destruct D as [(L & -> & ->)|(L & L2 & L3 & D)]; [constructor|]. destruct n; [lia|]. cbn [firstn] in D. inversion D; subst.
        cbn [pred]. apply Forall_impl with (2 := H2). unfold ws_byte. lia. }
      exists (c :: l). split; [cbn; now f_equal|]. constructor; [|easy].
      destruct D as [(L & -> & ->)|(L & _)]; [unfold is_space_rune, in_range, ws_byte in *; lia|unfold ws_byte; lia].
    + exists []. split; [easy|constructor].
  - cbn [firstn] in F. inversion F; subst. destruct (IH k H2) as (l & E & Fl). exists (c :: l).
    split; [cbn; now f_equal|now constructor].
Qed.
Lemma trim_left_ws s : exists l, s = l ++ trim_left s /\ Forall ws_byte l.
Proof. apply trim_left_from_ws. constructor. Qed.
Lemma decode_last_rev_spec c t : let '(r, n) := decode_last_rune_rev (c :: t) in
  (c < 128 /\ r = c /\ n = 1%nat) \/
  (128 <= c /\ 128 <= r /\ (1 <= n <= S (List.length t))%nat /\ Forall (fun x => 128 <= x) (firstn n (c :: t))).
Proof.
  unfold decode_last_rune_rev. destruct (c <? 128) eqn:E; [left; repeat split; lia|].
  assert (ERR : 128 <= c /\ 128 <= rune_error /\ (1 <= 1 <= S (List.length t))%nat /\
      Forall (fun x => 128 <= x) (firstn 1 (c :: t))).
  { unfold rune_error. repeat split; try lia. cbn [firstn]. constructor; [lia|constructor]. }
  assert (TRY : forall k, (2 <= k <= S (List.length t))%nat ->
    let '(r, n) := (let '(r, n) := decode_rune (rev (firstn k (c :: t))) in if Nat.eqb n k then (r, k) else (rune_error, 1%nat)) in
    (c < 128 /\ r = c /\ n = 1%nat) \/
    (128 <= c /\ 128 <= r /\ (1 <= n <= S (List.length t))%nat /\ Forall (fun x => 128 <= x) (firstn n (c :: t)))).
  { intros k Hk. destruct (rev (firstn k (c :: t))) as [|b0 u] eqn:R.
    { apply (f_equal (@rev _)) in R. rewrite rev_involutive in R. destruct k; [lia|discriminate]. }
    pose proof (decode_rune_spec b0 u) as D. destruct (decode_rune (b0 :: u)) as [r n].
    destruct (Nat.eqb_spec n k) as [->|]; [|right; exact ERR].
    assert (LN : List.length (b0 :: u) = k).
    { rewrite <- R, rev_length, firstn_length. cbn [List.length]. lia. }
    destruct D as [(L & -> & ->)|(L & L2 & L3 & D)]; [lia|].
    right. repeat split; try lia. rewrite firstn_all2 in D by lia. rewrite <- R in D.
    rewrite <- (rev_involutive (firstn k (c :: t))). now apply Forall_rev. }
  destruct t as [|c1 t1]; [right; exact ERR|]. destruct (rune_start c1); [apply TRY; cbn; lia|].
  destruct t1 as [|c2 t2]; [right; exact ERR|]. destruct (rune_start c2); [apply TRY; cbn; lia|].
  destruct t2 as [|c3 t3]; [right; exact ERR|]. destruct (rune_start c3); [apply TRY; cbn; lia|right; exact ERR].
Qed.
Lemma trim_right_rev_ws s : forall k, Forall ws_byte (firstn k s) ->
  exists l, s = l ++ trim_right_rev_from k s /\ Forall ws_byte l.
Proof.
  induction s as [|c t IH]; intros k F; [exists []; split; [easy|constructor]|]. cbn [trim_right_rev_from].
  destruct k as [|k].
  - pose proof (decode_last_rev_spec c t) as D. destruct (decode_last_rune_rev (c :: t)) as [r n]. destruct (is_space_rune r) eqn:S.
    + destruct (IH (pred n)) as (l & E & Fl).
      { destruct D as [(L & -> & ->)|(L & L2 & L3 & D)]; [constructor|]. destruct n; [lia|]. cbn [firstn] in D. inversion D; subst.
        cbn [pred]. apply Forall_impl with (2 := H2). unfold ws_byte. lia. }
      exists (c :: l). split; [cbn; now f_equal|]. constructor; [|easy].
      destruct D as [(L & -> & ->)|(L & _)]; [unfold is_space_rune, in_range, ws_byte in *; lia|unfold ws_byte; lia].
    + exists []. split; [easy|constructor].
  - cbn [firstn] in F. inversion F; subst. destruct (IH k H2) as (l & E & Fl). exists (c :: l).
    split; [cbn; now f_equal|now constructor].
Qed.
Lemma trim_right_ws s : exists l, s = trim_right s ++ l /\ Forall ws_byte l.
Proof.
  unfold trim_right. destruct (trim_right_rev_ws (rev s) O ltac:(constructor)) as (l & E & F). exists (rev l). split.
  - rewrite <- rev_app_distr, <- E. now rewrite rev_involutive.
  - now apply Forall_rev.
Qed.
Lemma trim_space_ws s : exists l r, s = l ++ trim_space s ++ r /\ Forall ws_byte l /\ Forall ws_byte r.
Proof.
  destruct (trim_left_ws s) as (l & E & Fl). destruct (trim_right_ws (trim_left s)) as (r & E2 & Fr).
  exists l, r. unfold trim_space. rewrite <- E2. auto.
Qed.

(** ** Lists of runes and ASCII bytes *)
Lemma beqb_eq x y : beqb x y = true <-> x = y.
Proof.
  revert y. induction x as [|c x IH]; intros [|d y]; cbn [beqb]; try easy.
  rewrite andb_true_iff, IH, N.eqb_eq. split; [intros [-> ->]; easy|now inversion 1].
Qed.
Lemma beqb_refl x : beqb x x = true. Proof. now apply beqb_eq. Qed.
Lemma has_prefix_iff p s : has_prefix p s = true <-> exists r, s = p ++ r.
Proof.
  revert s. induction p as [|c p IH]; intros s; cbn [has_prefix].
  - split; [intros _; now exists s|easy].
  - destruct s as [|d s]; [split; [easy|intros [r E]; discriminate]|].
    rewrite andb_true_iff, IH, N.eqb_eq. split.
    + intros [-> [r ->]]. now exists r.
    + intros [r E]. inversion E; subst. split; [easy|now exists r].
Qed.
Lemma has_suffix_iff p s : has_suffix p s = true <-> exists r, s = r ++ p.
Proof.
  unfold has_suffix. rewrite has_prefix_iff. split; intros [r E].
  - exists (rev r). apply (f_equal (@rev _)) in E. now rewrite rev_involutive, rev_app_distr, rev_involutive in E.
  - exists (rev r). now rewrite E, rev_app_distr.
Qed.
Lemma contains_byte_iff c s : contains_byte c s = true <-> In c s.
Proof.
  unfold contains_byte. rewrite existsb_exists. split.
  - intros (x & I & E). apply N.eqb_eq in E. now subst.
  - intros I. exists c. split; [easy|apply N.eqb_refl].
Qed.
Lemma contains_byte_false c s : contains_byte c s = false <-> ~ In c s.
Proof. rewrite <- contains_byte_iff. now destruct (contains_byte c s). Qed.
