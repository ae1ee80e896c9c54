(** Lemmas about trimming, delimiters, replacing and multi-line escaping. *)
From Coq Require Import List NArith ZArith Bool Lia ZifyBool ZifyNat ZifyN.
From Verif Require Import Bytes TextUtils BytesFacts SpecText TextFacts.
Import ListNotations.
Open Scope N_scope.
Open Scope list_scope.

(** ** White space characters *)
Lemma spaces_app x y : spaces x -> spaces y -> spaces (x ++ y).
Proof. induction 1 as [|e r s D R H IH]; intros Y; [easy|]. rewrite <- app_assoc. econstructor; eauto. Qed.
Lemma spaces_one e r : decode_rune e = (r, List.length e) -> is_space_rune r = true -> spaces e.
Proof. intros D R. rewrite <- (app_nil_r e). econstructor; eauto. constructor. Qed.
Lemma decode_firstn s r n : s <> [] -> decode_rune s = (r, n) -> decode_rune (firstn n s) = (r, n) /\ (1 <= n <= List.length s)%nat.
Proof.
  intros N D. destruct s as [|c t]; [easy|]. clear N. unfold decode_rune in D.
  destruct (c <? 128) eqn:E1.
  { injection D as <- <-. cbn [firstn List.length]. unfold decode_rune. rewrite E1. split; [easy|lia]. }
  assert (W1 : (rune_error, 1%nat) = (r, n) -> decode_rune (firstn n (c :: t)) = (r, n) /\ (1 <= n <= List.length (c :: t))%nat).
  { intros [= <- <-]. cbn [firstn List.length]. unfold decode_rune. rewrite E1.
    destruct (in_range 194 223 c), (in_range 224 239 c), (in_range 240 244 c); (split; [reflexivity|lia]). }
  destruct (in_range 194 223 c) eqn:E2; [|destruct (in_range 224 239 c) eqn:E3; [|destruct (in_range 240 244 c) eqn:E4]]; auto.
  - destruct t as [|b1 t]; auto. destruct (is_cont b1) eqn:C1; auto. injection D as <- <-.
    cbn [firstn List.length]. unfold decode_rune. rewrite E1, E2, C1. split; [easy|lia].
  - destruct t as [|b1 [|b2 t]]; auto. cbv zeta in D.
    destruct (in_range (if c =? 224 then 160 else 128) (if c =? 237 then 159 else 191) b1 && is_cont b2) eqn:C1; auto.
    injection D as <- <-. cbn [firstn List.length]. unfold decode_rune. rewrite E1, E2, E3. cbv zeta. rewrite C1. split; [easy|lia].
  - destruct t as [|b1 [|b2 [|b3 t]]]; auto. cbv zeta in D.
    destruct (in_range (if c =? 240 then 144 else 128) (if c =? 244 then 143 else 191) b1 && is_cont b2 && is_cont b3) eqn:C1; auto.
    injection D as <- <-. cbn [firstn List.length]. unfold decode_rune. rewrite E1, E2, E3, E4. cbv zeta. rewrite C1. split; [easy|lia].
Qed.
Lemma trim_left_from_skip s : forall k, trim_left_from k s = trim_left (skipn k s).
Proof.
  induction s as [|c t IH]; intros k; [now destruct k|]. destruct k as [|k]; [reflexivity|]. cbn [trim_left_from skipn]. apply IH.
Qed.
Lemma trim_right_rev_from_skip s : forall k, trim_right_rev_from k s = trim_right_rev_from O (skipn k s).
Proof.
  induction s as [|c t IH]; intros k; [now destruct k|]. destruct k as [|k]; [reflexivity|]. cbn [trim_right_rev_from skipn]. apply IH.
Qed.
Lemma trim_left_spaces s : exists l, s = l ++ trim_left s /\ spaces l.
Proof.
  remember (List.length s) as n eqn:L. revert s L. induction n as [n IH] using lt_wf_ind. intros s L.
  destruct s as [|c t]; [exists []; split; [easy|constructor]|].
  destruct (decode_rune (c :: t)) as [r w] eqn:D.
  destruct (decode_firstn (c :: t) r w ltac:(easy) D) as [D' Lw].
  destruct (is_space_rune r) eqn:R.
  - assert (E : trim_left (c :: t) = trim_left (skipn w (c :: t))).
    { unfold trim_left at 1. cbn [trim_left_from]. rewrite D, R. destruct w as [|w]; [lia|]. cbn [pred skipn]. apply trim_left_from_skip. }
    destruct (IH (List.length (skipn w (c :: t))) ltac:(rewrite skipn_length; lia) _ eq_refl) as (l & E2 & Sl).
    exists (firstn w (c :: t) ++ l). split.
    + rewrite E, <- app_assoc, <- E2. now rewrite firstn_skipn.
    + apply spaces_app; [|easy]. apply spaces_one with (r := r); [|easy]. rewrite D'. f_equal. rewrite firstn_length. lia.
  - exists []. split; [|constructor]. cbn [app]. unfold trim_left. cbn [trim_left_from]. now rewrite D, R.
Qed.
Lemma decode_last_space rs r w : rs <> [] -> decode_last_rune_rev rs = (r, w) -> is_space_rune r = true ->
  decode_rune (rev (firstn w rs)) = (r, w) /\ (1 <= w <= List.length rs)%nat.
Proof.
  intros N D R. destruct rs as [|c t]; [easy|]. clear N. unfold decode_last_rune_rev in D.
  destruct (c <? 128) eqn:E1.
  { injection D as <- <-. cbn. rewrite E1. split; [easy|lia]. }
  assert (Err : (rune_error, 1%nat) = (r, w) -> False) by (intros [= <- <-]; discriminate).
  cbv zeta in D.
  assert (Try : forall k, (1 <= k <= List.length (c :: t))%nat -> (let '(r0, n) := decode_rune (rev (firstn k (c :: t))) in if Nat.eqb n k then (r0, k) else (rune_error, 1%nat)) = (r, w) ->
     decode_rune (rev (firstn w (c :: t))) = (r, w) /\ (1 <= w <= List.length (c :: t))%nat).
  { intros k L H. destruct (decode_rune (rev (firstn k (c :: t)))) as [r0 n] eqn:Dk.
    destruct (Nat.eqb_spec n k) as [->|]; [|now destruct (Err H)]. injection H as <- <-. auto. }
  destruct t as [|c1 t]; [now destruct (Err D)|].
  destruct (rune_start c1); [apply (Try 2%nat); [cbn; lia|exact D]|].
  destruct t as [|c2 t]; [now destruct (Err D)|].
  destruct (rune_start c2); [apply (Try 3%nat); [cbn; lia|exact D]|].
  destruct t as [|c3 t]; [now destruct (Err D)|].
  destruct (rune_start c3); [apply (Try 4%nat); [cbn; lia|exact D]|]. now destruct (Err D).
Qed.
Lemma trim_right_rev_spaces rs : exists l, rs = l ++ trim_right_rev_from O rs /\ spaces (rev l).
Proof.
  remember (List.length rs) as n eqn:L. revert rs L. induction n as [n IH] using lt_wf_ind. intros s L.
  destruct s as [|c t]; [exists []; split; [easy|constructor]|].
  destruct (decode_last_rune_rev (c :: t)) as [r w] eqn:D.
  destruct (is_space_rune r) eqn:R.
  - destruct (decode_last_space (c :: t) r w ltac:(easy) D R) as [D' Lw].
    assert (E : trim_right_rev_from O (c :: t) = trim_right_rev_from O (skipn w (c :: t))).
    { cbn [trim_right_rev_from]. rewrite D, R. destruct w as [|w]; [lia|]. cbn [pred skipn]. apply trim_right_rev_from_skip. }
    destruct (IH (List.length (skipn w (c :: t))) ltac:(rewrite skipn_length; lia) _ eq_refl) as (l & E2 & Sl).
    exists (firstn w (c :: t) ++ l). split.
    + rewrite E, <- app_assoc, <- E2. now rewrite firstn_skipn.
    + rewrite rev_app_distr. apply spaces_app; [easy|]. apply spaces_one with (r := r); [|easy]. rewrite D'. f_equal.
      rewrite rev_length, firstn_length. lia.
  - exists []. split; [|constructor]. cbn [app]. cbn [trim_right_rev_from]. now rewrite D, R.
Qed.
Lemma trim_right_spaces s : exists r, s = trim_right s ++ r /\ spaces r.
Proof.
  destruct (trim_right_rev_spaces (rev s)) as (l & E & S). exists (rev l). split; [|easy]. unfold trim_right.
  rewrite <- rev_app_distr, <- E. now rewrite rev_involutive.
Qed.
Lemma trim_space_spaces s : exists l r, s = l ++ trim_space s ++ r /\ spaces l /\ spaces r.
Proof.
  destruct (trim_left_spaces s) as (l & E & Sl). destruct (trim_right_spaces (trim_left s)) as (r & E2 & Sr).
  exists l, r. unfold trim_space. rewrite <- E2. auto.
Qed.
Lemma decode_last_prefix p q : p <> [] ->
  fst (decode_last_rune_rev p) = fst (decode_last_rune_rev (p ++ q)) \/ fst (decode_last_rune_rev p) = rune_error.
Proof.
  intros N. destruct p as [|c t]; [easy|]. clear N. cbn [app]. unfold decode_last_rune_rev.
  destruct (c <? 128); [now left|]. cbv zeta.
  destruct t as [|c1 t]; [now right|]. cbn [app]. destruct (rune_start c1); [now left|].
  destruct t as [|c2 t]; [now right|]. cbn [app]. destruct (rune_start c2); [now left|].
  destruct t as [|c3 t]; [now right|]. cbn [app]. destruct (rune_start c3); now left.
Qed.
Lemma ends_nonspace_suffix p q : ends_nonspace (q ++ p) -> ends_nonspace p.
Proof.
  intros H N. unfold ends_nonspace, decode_last_rune in *. rewrite rev_app_distr in H.
  destruct (decode_last_prefix (rev p) (rev q)) as [E|E].
  - intros E. apply N. rewrite <- (rev_involutive p), E. reflexivity.
  - rewrite E. apply H. destruct q; [easy|]. discriminate.
  - rewrite E. reflexivity.
Qed.
Lemma surrounding_spaces_spec s : let '(l, t, r) := surrounding_spaces s in
  s = l ++ t ++ r /\ spaces l /\ spaces r /\ (t = [] \/ hugs t).
Proof.
  unfold surrounding_spaces. cbv zeta. destruct (trim_right_spaces s) as (r & E & Sr). set (R := trim_right s) in *.
  destruct (trim_left_spaces R) as (l & E2 & Sl). set (T := trim_left R) in *.
  assert (Er : skipn (List.length R) s = r).
  { rewrite E, skipn_app, skipn_all, Nat.sub_diag. reflexivity. }
  assert (El : firstn (List.length R - List.length T) s = l).
  { rewrite E. assert (HR : (List.length R = List.length l + List.length T)%nat) by (rewrite E2 at 1; apply app_length).
    rewrite HR. rewrite E2 at 1. rewrite <- app_assoc.
    replace (List.length l + List.length T - List.length T)%nat with (List.length l) by lia.
    rewrite firstn_app, firstn_all, Nat.sub_diag. cbn. apply app_nil_r. }
  rewrite Er, El. split; [now rewrite app_assoc, <- E2|]. split; [easy|]. split; [easy|].
  assert (TS : starts_nonspace T) by apply trim_left_starts. assert (EN : ends_nonspace R) by apply trim_right_ends.
  clearbody T R. rewrite E2 in EN. apply ends_nonspace_suffix in EN.
  destruct T as [|c T]; [now left|]. right. split; [easy|]. split; [now apply TS|now apply EN].
Qed.
Lemma delimit_line_spec d l : delimited d l (delimit_line d l).
Proof.
  unfold delimit_line. pose proof (surrounding_spaces_spec l) as H. destruct (surrounding_spaces l) as [[x t] r].
  destruct H as (-> & Sx & Sr & [->|Hg]); cbn [is_empty app].
  - constructor. now apply spaces_app.
  - destruct t as [|c t]; [now destruct Hg|]. now constructor.
Qed.

(** ** Lines *)
Lemma join_lines d ls : ls <> [] -> (forall l, In l ls -> ~ In 10 l) -> ~ In 10 d ->
  split_on 10 (join [10] (map (delimit_line d) ls)) = map (delimit_line d) ls.
Proof.
  intros N H D. apply join_split.
  - now destruct ls.
  - intros l I. apply in_map_iff in I as (x & <- & I). specialize (H x I). intros I10. apply H.
    pose proof (delimit_line_spec d x) as S. remember (delimit_line d x) as o. destruct S as [l Sl|l t r S1 S2 S3]; [easy|].
    rewrite !in_app_iff in *. tauto.
Qed.
Lemma delimiter_lines text d : ~ In 10 d ->
  Forall2 (delimited d) (split_on 10 text) (split_on 10 (delimiter_for_every_line text d)).
Proof.
  intros D. unfold delimiter_for_every_line. unfold cNL. rewrite join_lines; auto.
  - induction (split_on 10 text); constructor; [apply delimit_line_spec|easy].
  - apply split_on_ne.
  - intros l I. eapply split_nosep; eauto.
Qed.
Lemma prefix_lines_app p x y : prefix_lines (x ++ y) p = prefix_lines x p ++ flat_map (fun c => if c =? cNL then c :: p else [c]) y.
Proof. unfold prefix_lines. now rewrite flat_map_app, app_assoc. Qed.
Lemma prefix_lines_split p s : ~ In 10 p -> split_on 10 (prefix_lines s p) = map (app p) (split_on 10 s).
Proof.
  intros D. unfold prefix_lines. rewrite split_app_nosep by easy.
  assert (H : split_on 10 (flat_map (fun c => if c =? cNL then c :: p else [c]) s) =
     match split_on 10 s with q :: qs => q :: map (app p) qs | [] => [] end).
  { induction s as [|c s IH]; [reflexivity|]. cbn [flat_map split_on]. unfold cNL in *. destruct (c =? 10) eqn:E.
    - apply N.eqb_eq in E. subst c. cbn [app split_on]. change (10 =? 10) with true. cbn iota. f_equal.
      rewrite split_app_nosep by easy. rewrite IH. pose proof (split_on_ne 10 s). now destruct (split_on 10 s).
    - cbn [app split_on]. rewrite E, IH. pose proof (split_on_ne 10 s). now destruct (split_on 10 s). }
  rewrite H. pose proof (split_on_ne 10 s). now destruct (split_on 10 s).
Qed.
Lemma split_infix sep s l : In l (split_on sep s) -> exists x y, s = x ++ l ++ y.
Proof.
  revert l. induction s as [|c s IH]; intros l I; cbn [split_on] in I.
  - destruct I as [<-|[]]. now exists [], [].
  - destruct (c =? sep) eqn:E.
    + destruct I as [<-|I]; [now exists [], (c :: s)|]. destruct (IH l I) as (x & y & ->). now exists (c :: x), y.
    + pose proof (split_on_ne sep s) as N. destruct (split_on sep s) as [|p ps] eqn:Sp; [easy|].
      destruct I as [<-|I].
      * assert (Es : s = p ++ match ps with [] => [] | _ => sep :: join [sep] ps end).
        { rewrite <- (split_join sep s), Sp. destruct ps; cbn; [now rewrite app_nil_r|reflexivity]. }
        exists [], (match ps with [] => [] | _ => sep :: join [sep] ps end). cbn. now rewrite <- Es.
      * destruct (IH l (or_intror I)) as (x & y & ->). now exists (c :: x), y.
Qed.

(** ** Replacing *)
Lemma replace_from_skip old new s : forall k, replace_all_from old new k s = replace_all old new (skipn k s).
Proof.
  induction s as [|c t IH]; intros k; [now destruct k|]. destruct k as [|k]; [reflexivity|]. cbn [replace_all_from skipn]. apply IH.
Qed.
Lemma replace_all_cons old new c t : replace_all old new (c :: t) =
  if has_prefix old (c :: t) then new ++ replace_all old new (skipn (pred (List.length old)) t) else c :: replace_all old new t.
Proof. unfold replace_all at 1. cbn [replace_all_from]. destruct (has_prefix old (c :: t)); [now rewrite replace_from_skip|reflexivity]. Qed.
Lemma replace_all_one c new s : replace_all [c] new s = flat_map (fun d => if d =? c then new else [d]) s.
Proof.
  induction s as [|d s IH]; [reflexivity|]. rewrite replace_all_cons. cbn [has_prefix List.length pred skipn flat_map].
  rewrite N.eqb_sym, andb_true_r. destruct (d =? c); now rewrite IH.
Qed.
Lemma replace_one_map c d s : replace_all [c] [d] s = map (fun x => if x =? c then d else x) s.
Proof. rewrite replace_all_one. induction s as [|x s IH]; [reflexivity|]. cbn [flat_map map]. rewrite IH. now destruct (x =? c). Qed.
Lemma has_prefix_app_sep old c x y : ~ In c old -> has_prefix old (x ++ c :: y) = has_prefix old x.
Proof.
  revert x. induction old as [|o old IH]; intros x H; [reflexivity|]. destruct x as [|d x]; cbn [app has_prefix].
  - destruct (o =? c) eqn:E; [|reflexivity]. apply N.eqb_eq in E. elim H. now left.
  - rewrite IH; [reflexivity|]. intros I. apply H. now right.
Qed.
Lemma replace_all_sep old new c x y : ~ In c old -> old <> [] ->
  replace_all old new (x ++ c :: y) = replace_all old new x ++ c :: replace_all old new y.
Proof.
  intros H Nn. remember (List.length x) as n eqn:L. revert x L. induction n as [n IH] using lt_wf_ind. intros x L.
  destruct x as [|d x].
  - cbn [app]. rewrite replace_all_cons. destruct old as [|o old]; [easy|]. cbn [has_prefix].
    replace (o =? c) with false; [reflexivity|]. symmetry. apply N.eqb_neq. intros ->. apply H. now left.
  - cbn [app]. rewrite !replace_all_cons. rewrite app_comm_cons, has_prefix_app_sep by easy.
    destruct (has_prefix old (d :: x)) eqn:E.
    + apply has_prefix_iff in E as [r E]. rewrite <- app_assoc. f_equal.
      assert (Lx : (pred (List.length old) <= List.length x)%nat).
      { apply (f_equal (@List.length N)) in E. rewrite app_length in E. cbn [List.length] in E. lia. }
      rewrite skipn_app. replace (pred (List.length old) - List.length x)%nat with O by lia. cbn [skipn].
      apply IH with (m := List.length (skipn (pred (List.length old)) x)); [|easy]. rewrite skipn_length. subst n. cbn. lia.
    + cbn [app]. f_equal. apply IH with (m := List.length x); [subst n; cbn; lia|easy].
Qed.
Lemma infix_cons p c s : infix p s -> infix p (c :: s).
Proof. intros (x & y & ->). now exists (c :: x), y. Qed.
Lemma replace_none old new s : old <> [] -> ~ infix old s -> replace_all old new s = s.
Proof.
  intros N. induction s as [|c s IH]; intros H; [reflexivity|]. rewrite replace_all_cons.
  destruct (has_prefix old (c :: s)) eqn:E.
  - exfalso. apply H. apply has_prefix_iff in E as [r ->]. now exists [], r.
  - f_equal. apply IH. intros I. apply H. now apply infix_cons.
Qed.
Lemma marker_back s : ~ infix marker_nl s -> replace_all marker_nl [10] (replace_all [10] marker_nl s) = s.
Proof.
  rewrite replace_all_one. induction s as [|c s IH]; intros H; [reflexivity|]. cbn [flat_map].
  assert (Hs : ~ infix marker_nl s) by (intros I; apply H; now apply infix_cons).
  destruct (c =? 10) eqn:E.
  - apply N.eqb_eq in E. subst c. unfold marker_nl at 2. cbn [app]. rewrite replace_all_cons. cbn [has_prefix marker_nl].
    rewrite !N.eqb_refl. cbn [andb List.length pred skipn app]. f_equal. now apply IH.
  - cbn [app]. rewrite replace_all_cons.
    match goal with |- context [has_prefix _ ?z] => destruct (has_prefix marker_nl z) eqn:P end.
    + exfalso. apply has_prefix_iff in P as [r P]. unfold marker_nl in P. injection P as Ec P. subst c.
      destruct s as [|c1 s]; [discriminate|]. cbn [flat_map] in P. destruct (c1 =? 10); [discriminate|].
      injection P as Ec P. subst c1.
      destruct s as [|c2 s]; [discriminate|]. cbn [flat_map] in P. destruct (c2 =? 10); [discriminate|].
      injection P as Ec P. subst c2. apply H. now exists [], s.
    + f_equal. now apply IH.
Qed.
