(** Proofs about concurrent registrations and conversions (C76). *)
From Coq Require Import List Arith Bool Lia Permutation.
From Verif Require Import Locks SpecLocks.
Import ListNotations.

Section facts.
Variable handler : Type.
Variable sort : list handler -> list handler.
Notation goroutine := (goroutine handler).
Notation shared := (shared handler).
Notation state := (state handler).
Notation step1 := (step1 handler sort).
Notation step := (step handler sort).
Notation reach := (reach handler sort).

Definition wr (g : goroutine) : nat := match at_ g with Locked | Appending _ | Stored | Busy true => 1 | _ => 0 end.
Definition rd (g : goroutine) : nat := match at_ g with Reading | Copying _ _ | Busy false => 1 | _ => 0 end.
Fixpoint total (f : goroutine -> nat) (l : list goroutine) : nat := match l with [] => 0 | g :: r => f g + total f r end.
Lemma total_app f x g y : total f (x ++ g :: y) = total f x + (f g + total f y).
Proof. induction x as [|a x IH]; cbn; [reflexivity|]. rewrite IH. lia. Qed.
Lemma total_zero f l : total f l = 0 -> forall g, In g l -> f g = 0.
Proof.
  induction l as [|a l IH]; intros H g Hg; [contradiction|]. cbn in H. destruct Hg as [->|Hg]; [lia|].
  apply IH; [lia|assumption].
Qed.

Definition fits (m : list handler) (g : goroutine) : Prop :=
  ~ In Peek (todo g) /\
  match at_ g with
  | Outside => True
  | Locked => exists h r, todo g = Register h :: r
  | Appending l => l = m /\ exists h r, todo g = Register h :: r
  | Stored => exists h r, todo g = Register h :: r
  | Reading => exists r, todo g = Get :: r
  | Copying l n => n = length m /\ (exists z, m = l ++ z) /\ exists r, todo g = Get :: r
  | Busy w => exists r, todo g = Elsewhere w :: r
  end.
Record inv (s : state) : Prop := {
  i_w : total wr (fst s) = if writer (snd s) then 1 else 0;
  i_r : total rd (fst s) = readers (snd s);
  i_x : writer (snd s) = true -> readers (snd s) = 0;
  i_f : Forall (fits (slice (snd s))) (fst s) }.

Lemma fits_out m m' g : fits m g -> wr g = 0 -> rd g = 0 -> fits m' g.
Proof. intros [H1 H2] H3 H4. split; [assumption|]. unfold wr, rd in *. destruct (at_ g) as [| | | | | |[|]]; try discriminate; exact I. Qed.

Lemma start_inv ps init : locked_only ps -> inv (start handler ps init).
Proof.
  intros H. unfold start. constructor; cbn [fst snd writer readers slice].
  - induction ps as [|p ps IH]; [reflexivity|]. cbn. apply IH. intros q Hq. apply H. right; exact Hq.
  - induction ps as [|p ps IH]; [reflexivity|]. cbn. apply IH. intros q Hq. apply H. right; exact Hq.
  - discriminate.
  - apply Forall_forall. intros g Hg. apply in_map_iff in Hg. destruct Hg as (p & <- & Hp). split; [apply H, Hp|exact I].
Qed.

(** What one step does, in a state that meets the invariant *)
Inductive kind (g : goroutine) (s : shared) : goroutine -> shared -> Prop :=
| k_lock h r : todo g = Register h :: r -> at_ g = Outside -> writer s = false -> readers s = 0 ->
    kind g s (goes handler g Locked) (with_writer handler true s)
| k_seen h r : todo g = Register h :: r -> at_ g = Locked -> kind g s (goes handler g (Appending (slice s))) s
| k_store h r : todo g = Register h :: r -> at_ g = Appending (slice s) ->
    kind g s (goes handler g Stored) (with_slice handler (slice s ++ [h]) s)
| k_unlock h r : todo g = Register h :: r -> at_ g = Stored ->
    kind g s {| todo := r; at_ := Outside; got := got g |} (with_writer handler false s)
| k_rlock r : todo g = Get :: r -> at_ g = Outside -> writer s = false ->
    kind g s (goes handler g Reading) (with_readers handler (S (readers s)) s)
| k_len r : todo g = Get :: r -> at_ g = Reading -> kind g s (goes handler g (Copying [] (length (slice s)))) s
| k_copy r l h z : todo g = Get :: r -> at_ g = Copying l (length (slice s)) -> slice s = l ++ h :: z ->
    kind g s (goes handler g (Copying (l ++ [h]) (length (slice s)))) s
| k_done r : todo g = Get :: r -> at_ g = Copying (slice s) (length (slice s)) ->
    kind g s {| todo := r; at_ := Outside; got := got g ++ [sort (slice s)] |} (with_readers handler (pred (readers s)) s)
| k_wbusy r : todo g = Elsewhere true :: r -> at_ g = Outside -> writer s = false -> readers s = 0 ->
    kind g s (goes handler g (Busy true)) (with_writer handler true s)
| k_wfree r : todo g = Elsewhere true :: r -> at_ g = Busy true ->
    kind g s {| todo := r; at_ := Outside; got := got g |} (with_writer handler false s)
| k_rbusy r : todo g = Elsewhere false :: r -> at_ g = Outside -> writer s = false ->
    kind g s (goes handler g (Busy false)) (with_readers handler (S (readers s)) s)
| k_rfree r : todo g = Elsewhere false :: r -> at_ g = Busy false ->
    kind g s {| todo := r; at_ := Outside; got := got g |} (with_readers handler (pred (readers s)) s).

Lemma step_kind g s g' s' : fits (slice s) g -> step1 g s = Some (g', s') -> kind g s g' s'.
Proof.
  intros [Hp Hf] H. unfold Locks.step1 in H. destruct (todo g) as [|[h| | |w] r] eqn:Et; [discriminate| | |exfalso; apply Hp; left; reflexivity|].
  - destruct (at_ g) as [| |l| | |l n|v] eqn:Ea; try discriminate.
    + destruct (writer s) eqn:Ew; [discriminate|]. destruct (readers s =? 0) eqn:Er; [|discriminate].
      injection H as <- <-. apply Nat.eqb_eq in Er. eapply k_lock; eauto.
    + injection H as <- <-. eapply k_seen; eauto.
    + injection H as <- <-. destruct Hf as [-> _]. eapply k_store; eauto.
    + injection H as <- <-. eapply k_unlock; eauto.
  - destruct (at_ g) as [| |l| | |l n|v] eqn:Ea; try discriminate.
    + destruct (writer s) eqn:Ew; [discriminate|]. injection H as <- <-. eapply k_rlock; eauto.
    + injection H as <- <-. eapply k_len; eauto.
    + destruct Hf as (-> & (z & Hz) & _). destruct (length l <? length (slice s)) eqn:El.
      * apply Nat.ltb_lt in El. destruct z as [|h z]; [rewrite Hz, app_nil_r in El; lia|].
        rewrite Hz in H at 1. rewrite nth_error_app2, Nat.sub_diag in H by lia. cbn in H. injection H as <- <-. eapply k_copy; eauto.
      * apply Nat.ltb_ge in El. destruct z as [|h z]; [|rewrite Hz, app_length in El; cbn in El; lia].
        rewrite app_nil_r in Hz. subst l. injection H as <- <-. eapply k_done; eauto.
  - destruct w.
    + destruct (at_ g) as [| |l| | |l n|[|]] eqn:Ea; try discriminate.
      * destruct (writer s) eqn:Ew; [discriminate|]. destruct (readers s =? 0) eqn:Er; [|discriminate].
        injection H as <- <-. apply Nat.eqb_eq in Er. eapply k_wbusy; eauto.
      * injection H as <- <-. eapply k_wfree; eauto.
    + destruct (at_ g) as [| |l| | |l n|[|]] eqn:Ea; try discriminate.
      * destruct (writer s) eqn:Ew; [discriminate|]. injection H as <- <-. eapply k_rbusy; eauto.
      * injection H as <- <-. eapply k_rfree; eauto.
Qed.

Lemma at_w g p : at_ g = p -> wr g = match p with Locked | Appending _ | Stored | Busy true => 1 | _ => 0 end.
Proof. unfold wr. intros ->. reflexivity. Qed.
Lemma at_r g p : at_ g = p -> rd g = match p with Reading | Copying _ _ | Busy false => 1 | _ => 0 end.
Proof. unfold rd. intros ->. reflexivity. Qed.

(** The others are outside while one goroutine has the write lock. *)
Lemma alone x g y s : inv (x ++ g :: y, s) -> wr g = 1 ->
  writer s = true /\ readers s = 0 /\ forall o, In o x \/ In o y -> wr o = 0 /\ rd o = 0.
Proof.
  intros [Hw Hr Hx _] Hg. cbn [fst snd] in *. rewrite total_app, Hg in Hw. rewrite total_app in Hr.
  destruct (writer s); [|lia]. specialize (Hx eq_refl). split; [reflexivity|]. split; [assumption|].
  assert (total wr x = 0) by lia. assert (total wr y = 0) by lia. assert (total rd x = 0) by lia. assert (total rd y = 0) by lia.
  intros o [Ho|Ho]; split; (eapply total_zero; [|exact Ho]); assumption.
Qed.

Lemma step_inv s s' : inv s -> step s s' -> inv s'.
Proof.
  intros Hi Hs. destruct Hs as [x g y s g' s' H1].
  assert (Hfg : fits (slice s) g) by (destruct Hi as [_ _ _ Hf]; rewrite Forall_forall in Hf; apply Hf, in_elt).
  assert (Hk := step_kind _ _ _ _ Hfg H1). clear H1.
  pose proof Hi as [Hw Hr Hx Hf]. cbn [fst snd] in *. rewrite total_app in Hw, Hr.
  apply Forall_app in Hf. destruct Hf as [Hfx Hfy]. inversion Hfy as [|? ? _ Hfy']; subst. destruct Hfg as [Hpk Hfg].
  assert (Hrest : forall h r, todo g = h :: r -> ~ In Peek r) by (intros h r E; rewrite E in Hpk; intros Hin; apply Hpk; right; exact Hin).
  destruct Hk as [h r Ht Ha Hsw Hsr|h r Ht Ha|h r Ht Ha|h r Ht Ha|r Ht Ha Hsw|r Ht Ha|r l h z Ht Ha Hz|r Ht Ha|r Ht Ha Hsw Hsr|r Ht Ha|r Ht Ha Hsw|r Ht Ha];
    pose proof (at_w _ _ Ha) as Hgw; pose proof (at_r _ _ Ha) as Hgr; cbn in Hgw, Hgr.
  - rewrite Hsw in *. constructor; cbn [fst snd with_writer writer readers slice]; try (rewrite total_app; cbn [goes wr rd at_]; unfold wr at 2, rd at 2; cbn; lia); try (intros; assumption).
    + rewrite total_app. unfold wr at 2. cbn. lia.
    + rewrite total_app. unfold rd at 2. cbn. lia.
    + apply Forall_app. split; [assumption|]. constructor; [|assumption]. split; [exact Hpk|]. cbn. eauto.
  - constructor; cbn [fst snd]; try assumption.
    + rewrite total_app. unfold wr at 2. cbn. lia.
    + rewrite total_app. unfold rd at 2. cbn. lia.
    + apply Forall_app. split; [assumption|]. constructor; [|assumption]. split; [exact Hpk|]. cbn. split; eauto.
  - destruct (alone _ _ _ _ Hi Hgw) as (Ew & Er & Ho).
    constructor; cbn [fst snd with_slice writer readers slice]; try assumption.
    + rewrite total_app. unfold wr at 2. cbn. lia.
    + rewrite total_app. unfold rd at 2. cbn. lia.
    + apply Forall_app. split; [|constructor].
      * rewrite Forall_forall in Hfx |- *. intros o Hin. destruct (Ho o (or_introl Hin)). eapply fits_out; eauto.
      * split; [exact Hpk|]. cbn. eauto.
      * rewrite Forall_forall in Hfy' |- *. intros o Hin. destruct (Ho o (or_intror Hin)). eapply fits_out; eauto.
  - destruct (alone _ _ _ _ Hi Hgw) as (Ew & Er & Ho). rewrite Ew in *.
    constructor; cbn [fst snd with_writer writer readers slice].
    + rewrite total_app. unfold wr at 2. cbn. lia.
    + rewrite total_app. unfold rd at 2. cbn. lia.
    + discriminate.
    + apply Forall_app. split; [assumption|]. constructor; [|assumption]. split; [eapply Hrest; eauto|exact I].
  - rewrite Hsw in *. constructor; cbn [fst snd with_readers writer readers slice].
    + rewrite total_app. unfold wr at 2. cbn. rewrite Hsw. lia.
    + rewrite total_app. unfold rd at 2. cbn. lia.
    + rewrite Hsw. discriminate.
    + apply Forall_app. split; [assumption|]. constructor; [|assumption]. split; [exact Hpk|]. cbn. eauto.
  - constructor; cbn [fst snd]; try assumption.
    + rewrite total_app. unfold wr at 2. cbn. lia.
    + rewrite total_app. unfold rd at 2. cbn. lia.
    + apply Forall_app. split; [assumption|]. constructor; [|assumption]. split; [exact Hpk|]. cbn. split; [reflexivity|]. split; eauto.
  - constructor; cbn [fst snd]; try assumption.
    + rewrite total_app. unfold wr at 2. cbn. lia.
    + rewrite total_app. unfold rd at 2. cbn. lia.
    + apply Forall_app. split; [assumption|]. constructor; [|assumption]. split; [exact Hpk|]. cbn. split; [reflexivity|].
      split; [|eauto]. exists z. rewrite <- app_assoc. exact Hz.
  - constructor; cbn [fst snd with_readers writer readers slice].
    + rewrite total_app. unfold wr at 2. cbn. lia.
    + rewrite total_app. unfold rd at 2. cbn. lia.
    + intros E. rewrite (Hx E). reflexivity.
    + apply Forall_app. split; [assumption|]. constructor; [|assumption]. split; [eapply Hrest; eauto|exact I].
  - rewrite Hsw in *. constructor; cbn [fst snd with_writer writer readers slice].
    + rewrite total_app. unfold wr at 2. cbn. lia.
    + rewrite total_app. unfold rd at 2. cbn. lia.
    + intros; assumption.
    + apply Forall_app. split; [assumption|]. constructor; [|assumption]. split; [exact Hpk|]. cbn. eauto.
  - destruct (alone _ _ _ _ Hi Hgw) as (Ew & Er & Ho). rewrite Ew in *.
    constructor; cbn [fst snd with_writer writer readers slice].
    + rewrite total_app. unfold wr at 2. cbn. lia.
    + rewrite total_app. unfold rd at 2. cbn. lia.
    + discriminate.
    + apply Forall_app. split; [assumption|]. constructor; [|assumption]. split; [eapply Hrest; eauto|exact I].
  - rewrite Hsw in *. constructor; cbn [fst snd with_readers writer readers slice].
    + rewrite total_app. unfold wr at 2. cbn. rewrite Hsw. lia.
    + rewrite total_app. unfold rd at 2. cbn. lia.
    + rewrite Hsw. discriminate.
    + apply Forall_app. split; [assumption|]. constructor; [|assumption]. split; [exact Hpk|]. cbn. eauto.
  - constructor; cbn [fst snd with_readers writer readers slice].
    + rewrite total_app. unfold wr at 2. cbn. lia.
    + rewrite total_app. unfold rd at 2. cbn. lia.
    + intros E. rewrite (Hx E). reflexivity.
    + apply Forall_app. split; [assumption|]. constructor; [|assumption]. split; [eapply Hrest; eauto|exact I].
Qed.
Lemma reach_inv s s' : inv s -> reach s s' -> inv s'.
Proof. intros Hi H. induction H as [|s1 s2 s3 H IH Hs]; [assumption|]. eapply step_inv; [apply IH, Hi|exact Hs]. Qed.

(** No data race *)
Lemma access_in m g : fits m g -> access g <> None -> wr g = 1 \/ rd g = 1.
Proof.
  intros [Hp Hf] Ha. unfold access in Ha. unfold wr, rd. destruct (todo g) as [|[h| | |w] r] eqn:Et; [congruence| | |exfalso; apply Hp; left; reflexivity|congruence];
    destruct (at_ g); try congruence; auto.
Qed.
Lemma access_write g : access g = Some true -> wr g = 1.
Proof.
  unfold access, wr. destruct (todo g) as [|[h| | |w] r]; try discriminate; destruct (at_ g); try discriminate; auto.
  destruct (_ <? _); discriminate.
Qed.
Lemma inv_no_race s : inv s -> ~ race s.
Proof.
  destruct s as [ts s]. intros Hi (x & y & z & g1 & g2 & E & Hr). cbn [fst] in E. subst ts.
  assert (F : forall g, In g (x ++ g1 :: y ++ g2 :: z) -> fits (slice s) g) by (destruct Hi as [_ _ _ Hf]; rewrite Forall_forall in Hf; exact Hf).
  assert (I2 : In g2 (x ++ g1 :: y ++ g2 :: z)) by (apply in_or_app; right; right; apply in_elt).
  assert (I1 : In g1 (x ++ g1 :: y ++ g2 :: z)) by apply in_elt.
  destruct Hr as [[H1 H2]|[H2 H1]].
  - destruct (alone _ _ _ _ Hi (access_write _ H1)) as (_ & _ & Ho). destruct (Ho g2) as [A B]; [right; apply in_elt|].
    destruct (access_in _ _ (F _ I2) H2); lia.
  - assert (Hi' : inv ((x ++ g1 :: y) ++ g2 :: z, s)) by (rewrite <- app_assoc; exact Hi).
    destruct (alone _ _ _ _ Hi' (access_write _ H2)) as (_ & _ & Ho). destruct (Ho g1) as [A B]; [left; apply in_elt|].
    destruct (access_in _ _ (F _ I1) H1); lia.
Qed.
Lemma no_race ps init s : locked_only ps -> reach (start handler ps init) s -> ~ race s.
Proof. intros H1 H2. eapply inv_no_race, reach_inv; [apply start_inv, H1|exact H2]. Qed.

(** Snapshots *)
Definition later (s1 s2 : state) : Prop :=
  (exists z, slice (snd s2) = slice (snd s1) ++ z) /\
  Forall2 (fun g1 g2 => exists ms, got g2 = got g1 ++ map sort ms /\ Forall (between (slice (snd s1)) (slice (snd s2))) ms) (fst s1) (fst s2).
Lemma between_self (l : list handler) : between l l l.
Proof. split; exists []; rewrite app_nil_r; reflexivity. Qed.
Lemma later_refl s : later s s.
Proof.
  split; [exists []; rewrite app_nil_r; reflexivity|]. induction (fst s) as [|g l IH]; constructor; [|exact IH].
  exists []. cbn. rewrite app_nil_r. split; [reflexivity|constructor].
Qed.
Lemma later_trans s1 s2 s3 : later s1 s2 -> later s2 s3 -> later s1 s3.
Proof.
  intros [[z1 E1] F1] [[z2 E2] F2]. split; [exists (z1 ++ z2); rewrite E2, E1, <- app_assoc; reflexivity|].
  revert F2. generalize (fst s3). induction F1 as [|g1 g2 l1 l2 H F1 IH]; intros l3 F2; inversion F2 as [|? g3 ? l3' H' F2']; subst; constructor.
  - destruct H as (m1 & A1 & B1). destruct H' as (m2 & A2 & B2). exists (m1 ++ m2). split; [rewrite A2, A1, map_app, <- app_assoc; reflexivity|].
    apply Forall_app. split.
    + eapply Forall_impl; [|exact B1]. intros m [Hx [y Hy]]. split; [exact Hx|]. exists (y ++ z2). rewrite E2, Hy, <- app_assoc. reflexivity.
    + eapply Forall_impl; [|exact B2]. intros m [[x Hx] Hy]. split; [|exact Hy]. exists (z1 ++ x). rewrite Hx, E1, <- app_assoc. reflexivity.
  - apply IH, F2'.
Qed.
Lemma step_later s s' : inv s -> step s s' -> later s s'.
Proof.
  intros Hi Hs. destruct Hs as [x g y s g' s' H1].
  assert (Hfg : fits (slice s) g) by (destruct Hi as [_ _ _ Hf]; rewrite Forall_forall in Hf; apply Hf, in_elt).
  assert (Hk := step_kind _ _ _ _ Hfg H1). clear H1.
  assert (K : (exists z, slice s' = slice s ++ z) /\ exists ms, got g' = got g ++ map sort ms /\ Forall (between (slice s) (slice s')) ms).
  { destruct Hk; cbn [goes got with_writer with_readers with_slice slice];
      try (split; [exists []; rewrite app_nil_r; reflexivity|]; exists []; cbn; rewrite app_nil_r; split; [reflexivity|constructor]).
    - split; [eexists; reflexivity|]. exists []; cbn; rewrite app_nil_r; split; [reflexivity|constructor].
    - split; [exists []; rewrite app_nil_r; reflexivity|]. exists [slice s]. split; [reflexivity|]. constructor; [apply between_self|constructor]. }
  destruct K as [K1 K2]. split; [exact K1|]. cbn [fst snd].
  assert (R : forall l : list goroutine, Forall2 (fun g1 g2 => exists ms, got g2 = got g1 ++ map sort ms /\ Forall (between (slice s) (slice s')) ms) l l).
  { induction l as [|o l IH]; constructor; [|exact IH]. exists []. cbn. rewrite app_nil_r. split; [reflexivity|constructor]. }
  apply Forall2_app; [apply R|]. constructor; [exact K2|apply R].
Qed.
Lemma reach_later s s' : inv s -> reach s s' -> later s s'.
Proof.
  intros Hi H. induction H as [|s1 s2 s3 H IH Hs]; [apply later_refl|].
  eapply later_trans; [apply IH, Hi|]. apply step_later; [|exact Hs]. eapply reach_inv; eauto.
Qed.
Lemma snapshots ps init s1 s2 : locked_only ps -> reach (start handler ps init) s1 -> reach s1 s2 ->
  Forall2 (fun g1 g2 => exists ms, got g2 = got g1 ++ map sort ms /\ Forall (between (slice (snd s1)) (slice (snd s2))) ms) (fst s1) (fst s2).
Proof. intros H1 H2 H3. apply reach_later; [|exact H3]. eapply reach_inv; [apply start_inv, H1|exact H2]. Qed.

(** Nothing is lost *)
Definition pending (g : goroutine) : list handler := match at_ g with Stored => registers (tl (todo g)) | _ => registers (todo g) end.
Definition everything (s : state) : list handler := slice (snd s) ++ flat_map pending (fst s).
Lemma step_everything s s' : inv s -> step s s' -> Permutation (everything s) (everything s').
Proof.
  intros Hi Hs. destruct Hs as [x g y s g' s' H1].
  assert (Hfg : fits (slice s) g) by (destruct Hi as [_ _ _ Hf]; rewrite Forall_forall in Hf; apply Hf, in_elt).
  assert (Hk := step_kind _ _ _ _ Hfg H1). clear H1. unfold everything. cbn [fst snd]. rewrite !flat_map_app. cbn [flat_map].
  assert (K : Permutation (slice s ++ pending g) (slice s' ++ pending g')).
  { destruct Hk as [h r Ht Ha Hsw Hsr|h r Ht Ha|h r Ht Ha|h r Ht Ha|r Ht Ha Hsw|r Ht Ha|r l h z Ht Ha Hz|r Ht Ha|r Ht Ha Hsw Hsr|r Ht Ha|r Ht Ha Hsw|r Ht Ha];
      unfold pending; rewrite ?Ha; cbn [goes at_ todo with_writer with_readers with_slice slice]; rewrite ?Ht; cbn [registers tl];
      try reflexivity. rewrite <- app_assoc. reflexivity. }
  rewrite !(Permutation_app_comm (pending _) (flat_map _ _)).
  rewrite (Permutation_app_comm (slice s)), (Permutation_app_comm (slice s')). rewrite <- !app_assoc.
  apply Permutation_app_head, Permutation_app_head. rewrite (Permutation_app_comm (pending g)), (Permutation_app_comm (pending g')). exact K.
Qed.
Lemma reach_everything s s' : inv s -> reach s s' -> Permutation (everything s) (everything s').
Proof.
  intros Hi H. induction H as [|s1 s2 s3 H IH Hs]; [reflexivity|]. rewrite (IH Hi). apply step_everything; [|exact Hs]. eapply reach_inv; eauto.
Qed.
Lemma finished_pending m l : Forall (fits m) l -> Forall finished l -> flat_map pending l = [].
Proof.
  intros Hf Hd. induction Hd as [|g l Hg Hd IH]; [reflexivity|]. inversion Hf; subst. cbn. rewrite IH by assumption. rewrite app_nil_r.
  unfold pending. unfold finished in Hg. rewrite Hg. cbn. destruct (at_ g); reflexivity.
Qed.
Lemma nothing_lost ps init s : locked_only ps -> reach (start handler ps init) s -> Forall finished (fst s) ->
  Permutation (slice (snd s)) (init ++ flat_map registers ps).
Proof.
  intros H1 H2 H3. assert (Hi := start_inv ps init H1). assert (P := reach_everything _ _ Hi H2). assert (Hi' := reach_inv _ _ Hi H2).
  unfold everything in P. rewrite (finished_pending _ _ (i_f _ Hi') H3), app_nil_r in P. symmetry.
  replace (flat_map registers ps) with (flat_map pending (fst (start handler ps init))); [exact P|].
  clear. cbn. induction ps as [|p ps IH]; [reflexivity|]. cbn. rewrite IH. reflexivity.
Qed.

(** No deadlock *)
Lemma holder_free m g s : m = slice s -> fits m g -> wr g = 1 \/ rd g = 1 -> step1 g s <> None.
Proof.
  intros -> [Hp Hf] Hh. unfold Locks.step1. unfold wr, rd in Hh. destruct (at_ g) as [| |l| | |l n|w]; try (destruct Hh; discriminate).
  - destruct Hf as (h & r & ->). discriminate.
  - destruct Hf as (_ & h & r & ->). discriminate.
  - destruct Hf as (h & r & ->). discriminate.
  - destruct Hf as (r & ->). discriminate.
  - destruct Hf as (-> & (z & Hz) & r & ->). destruct (length l <? length (slice s)) eqn:E; [|discriminate]. apply Nat.ltb_lt in E.
    destruct (nth_error (slice s) (length l)) eqn:En; [discriminate|]. apply nth_error_None in En. lia.
  - destruct Hf as (r & ->). destruct w; discriminate.
Qed.
Lemma total_pos f l : total f l <> 0 -> exists x g y, l = x ++ g :: y /\ f g <> 0.
Proof.
  induction l as [|a l IH]; intros H; [exfalso; apply H; reflexivity|]. destruct (Nat.eq_dec (f a) 0) as [E|E].
  - destruct IH as (x & g & y & -> & Hg); [intros E'; apply H; cbn; lia|]. exists (a :: x), g, y. auto.
  - exists [], a, l. auto.
Qed.
Lemma wr_one g : wr g <> 0 -> wr g = 1. Proof. unfold wr. destruct (at_ g) as [| | | | | |[|]]; congruence. Qed.
Lemma rd_one g : rd g <> 0 -> rd g = 1. Proof. unfold rd. destruct (at_ g) as [| | | | | |[|]]; congruence. Qed.
Lemma inv_progress s : inv s -> Forall finished (fst s) \/
  exists x g y g' s', fst s = x ++ g :: y /\ step1 g (snd s) = Some (g', s') /\
    (wants_read g = true -> forall o, In o (fst s) -> wants_write o = false).
Proof.
  destruct s as [ts s]. intros Hi. pose proof Hi as [Hw Hr Hx Hf]. cbn [fst snd] in *.
  assert (G : forall x g y, ts = x ++ g :: y -> wr g = 1 \/ rd g = 1 ->
    exists x g y g' s', ts = x ++ g :: y /\ step1 g s = Some (g', s') /\ (wants_read g = true -> forall o, In o ts -> wants_write o = false)).
  { intros x g y -> Hg. assert (F : fits (slice s) g) by (rewrite Forall_forall in Hf; apply Hf, in_elt).
    assert (H := holder_free _ _ s eq_refl F Hg). destruct (step1 g s) as [[g' s']|] eqn:E; [|congruence].
    exists x, g, y, g', s'. split; [reflexivity|]. split; [exact E|]. intros Hq. exfalso. unfold wants_read in Hq. unfold wr, rd in Hg.
    destruct (at_ g); try discriminate Hq. destruct Hg; discriminate. }
  destruct (Nat.eq_dec (total wr ts) 0) as [E1|E1].
  2:{ destruct (total_pos _ _ E1) as (x & g & y & E & Hg). right. eapply G; [exact E|]. left. apply wr_one, Hg. }
  destruct (Nat.eq_dec (total rd ts) 0) as [E2|E2].
  2:{ destruct (total_pos _ _ E2) as (x & g & y & E & Hg). right. eapply G; [exact E|]. right. apply rd_one, Hg. }
  assert (W : writer s = false) by (destruct (writer s); [lia|reflexivity]).
  assert (R : readers s = 0) by lia.
  assert (D : Forall finished ts \/ exists x g y, ts = x ++ g :: y /\ ~ finished g).
  { clear. induction ts as [|a l IH]; [left; constructor|]. destruct (todo a) eqn:E.
    - destruct IH as [IH|(x & g & y & -> & Hg)]; [left; constructor; assumption|]. right. exists (a :: x), g, y. auto.
    - right. exists [], a, l. split; [reflexivity|]. unfold finished. congruence. }
  destruct (existsb wants_write ts) eqn:Ew.
  - right. apply existsb_exists in Ew. destruct Ew as (g & Hin & Hg). apply in_split in Hin. destruct Hin as (x & y & ->).
    unfold wants_write in Hg. destruct (at_ g) eqn:Ea; try discriminate. destruct (todo g) as [|[h| | |[|]] r] eqn:Et; try discriminate;
      (exists x, g, y; eexists; eexists; split; [reflexivity|]; split; [unfold Locks.step1; rewrite Et, Ea, W, R; reflexivity|];
       unfold wants_read; rewrite Ea, Et; discriminate).
  - assert (N : forall o, In o ts -> wants_write o = false).
    { intros o Ho. destruct (wants_write o) eqn:E; [|reflexivity]. rewrite <- Ew. symmetry. apply existsb_exists. eauto. }
    destruct D as [D|(x & g & y & -> & Hg)]; [left; exact D|]. right.
    assert (F : fits (slice s) g) by (rewrite Forall_forall in Hf; apply Hf, in_elt). destruct F as [Hp F].
    assert (A1 := total_zero _ _ E1 g (in_elt _ _ _)). assert (A2 := total_zero _ _ E2 g (in_elt _ _ _)).
    unfold wr in A1. unfold rd in A2. destruct (at_ g) as [| | | | | |[|]] eqn:Ea; try discriminate.
    exists x, g, y. destruct (todo g) as [|[h| | |w] r] eqn:Et; [exfalso; apply Hg; exact Et| | |exfalso; apply Hp; left; reflexivity|].
    + eexists. eexists. split; [reflexivity|]. split; [unfold Locks.step1; rewrite Et, Ea, W, R; reflexivity|]. intros _. exact N.
    + eexists. eexists. split; [reflexivity|]. split; [unfold Locks.step1; rewrite Et, Ea, W; reflexivity|]. intros _. exact N.
    + destruct w; (eexists; eexists; split; [reflexivity|]; split; [unfold Locks.step1; rewrite Et, Ea, W, ?R; reflexivity|]; intros _; exact N).
Qed.
Lemma no_deadlock_queue ps init s : locked_only ps -> reach (start handler ps init) s -> Forall finished (fst s) \/
  exists x g y g' s', fst s = x ++ g :: y /\ step1 g (snd s) = Some (g', s') /\
    (wants_read g = true -> forall o, In o (fst s) -> wants_write o = false).
Proof. intros H1 H2. eapply inv_progress, reach_inv; [apply start_inv, H1|exact H2]. Qed.
Lemma no_deadlock ps init s : locked_only ps -> reach (start handler ps init) s -> Forall finished (fst s) \/ exists s', step s s'.
Proof.
  intros H1 H2. destruct (no_deadlock_queue _ _ _ H1 H2) as [H|(x & g & y & g' & s' & E & H & _)]; [left; exact H|right].
  destruct s as [ts sh]. cbn [fst snd] in *. subst ts. eexists. apply step_one, H.
Qed.

(** What a goroutine has registered is there. *)
Lemma registers_app (p q : list (op handler)) : registers (p ++ q) = registers p ++ registers q.
Proof. induction p as [|[h| | |w] p IH]; cbn; [reflexivity|rewrite IH; reflexivity|exact IH|exact IH|exact IH]. Qed.
Definition kept (m : list handler) (p : list (op handler)) (g : goroutine) : Prop :=
  exists d, p = d ++ todo g /\ incl (registers d) m /\ (at_ g = Stored -> forall h r, todo g = Register h :: r -> In h m).
Lemma kept_more m z p g : kept m p g -> kept (m ++ z) p g.
Proof.
  intros (d & E & A & B). exists d. split; [exact E|]. split; [intros h Hh; apply in_or_app; left; apply A, Hh|].
  intros Ha h r Ht. apply in_or_app. left. eapply B; eauto.
Qed.
Lemma kind_kept p g s g' s' : kind g s g' s' -> kept (slice s) p g -> kept (slice s') p g'.
Proof.
  intros Hk (d & E & A & B). destruct Hk as [h r Ht Ha Hsw Hsr|h r Ht Ha|h r Ht Ha|h r Ht Ha|r Ht Ha Hsw|r Ht Ha|r l h z Ht Ha Hz|r Ht Ha|r Ht Ha Hsw Hsr|r Ht Ha|r Ht Ha Hsw|r Ht Ha];
    try (exists d; split; [exact E|]; split; [exact A|]; cbn; discriminate).
  - exists d. split; [exact E|]. cbn [with_slice slice goes todo at_]. split; [intros q Hq; apply in_or_app; left; apply A, Hq|].
    intros _ h' r' E'. rewrite Ht in E'. injection E' as <- <-. apply in_elt.
  - exists (d ++ [Register h]). cbn [with_writer slice todo at_]. split; [rewrite <- app_assoc, E, Ht; reflexivity|]. split; [|discriminate].
    rewrite registers_app. cbn. intros q Hq. apply in_app_or in Hq. destruct Hq as [Hq|[<-|[]]]; [apply A, Hq|]. eapply B; eauto.
  - exists (d ++ [Get]). cbn [with_readers slice todo at_]. split; [rewrite <- app_assoc, E, Ht; reflexivity|]. split; [|discriminate].
    rewrite registers_app. cbn. rewrite app_nil_r. exact A.
  - exists (d ++ [Elsewhere true]). cbn [with_writer slice todo at_]. split; [rewrite <- app_assoc, E, Ht; reflexivity|]. split; [|discriminate].
    rewrite registers_app. cbn. rewrite app_nil_r. exact A.
  - exists (d ++ [Elsewhere false]). cbn [with_readers slice todo at_]. split; [rewrite <- app_assoc, E, Ht; reflexivity|]. split; [|discriminate].
    rewrite registers_app. cbn. rewrite app_nil_r. exact A.
Qed.
Lemma step_kept ps s s' : inv s -> step s s' -> Forall2 (kept (slice (snd s))) ps (fst s) -> Forall2 (kept (slice (snd s'))) ps (fst s').
Proof.
  intros Hi Hs Hp. destruct (step_later _ _ Hi Hs) as [[z Ez] _]. destruct Hs as [x g y s g' s' H1]. cbn [fst snd] in *.
  assert (Hfg : fits (slice s) g) by (destruct Hi as [_ _ _ Hf]; rewrite Forall_forall in Hf; apply Hf, in_elt).
  assert (Hk := step_kind _ _ _ _ Hfg H1). clear H1.
  apply Forall2_app_inv_r in Hp. destruct Hp as (p1 & p2 & F1 & F2 & ->). inversion F2 as [|p ? p2' ? Hg F2']; subst.
  assert (M : forall a c, Forall2 (kept (slice s)) a c -> Forall2 (kept (slice s')) a c).
  { intros a c H. rewrite Ez. induction H; constructor; [apply kept_more; assumption|assumption]. }
  apply Forall2_app; [apply M, F1|]. constructor; [eapply kind_kept; eauto|apply M, F2'].
Qed.
Lemma registered ps init s : locked_only ps -> reach (start handler ps init) s ->
  Forall2 (fun p g => exists d, p = d ++ todo g /\ incl (registers d) (slice (snd s))) ps (fst s).
Proof.
  intros H1 H2. assert (Hi := start_inv ps init H1).
  assert (K : Forall2 (kept (slice (snd s))) ps (fst s)).
  { remember (start handler ps init) as s0 eqn:E0. induction H2 as [s0|s1 s2 s3 H IH Hs]; subst.
    - clear. cbn. induction ps as [|p ps IH]; constructor; [|exact IH]. exists []. split; [reflexivity|]. split; [intros h []|discriminate].
    - eapply step_kept; [eapply reach_inv; eauto|exact Hs|apply IH; auto]. }
  clear -K. induction K as [|p g ps ts (d & E & A & _) K IH]; constructor; eauto.
Qed.

(** Every run ends. *)
Fixpoint costs (m : nat) (p : list (op handler)) : nat :=
  match p with [] => 0 | Register _ :: r => 4 + costs m r | Get :: r => m + 3 + costs m r | Peek :: r => 1 + costs m r | Elsewhere _ :: r => 2 + costs m r end.
Definition gone (g : goroutine) : nat :=
  match at_ g with Outside => 0 | Locked => 1 | Appending _ => 2 | Stored => 3 | Reading => 1 | Copying l _ => 2 + length l | Busy _ => 1 end.
Definition left_ (m : nat) (g : goroutine) : nat := costs m (todo g) - gone g.
Lemma kind_less m g s g' s' : kind g s g' s' -> length (slice s) <= m -> left_ m g' < left_ m g.
Proof.
  intros Hk Hm. unfold left_, gone.
  destruct Hk as [h r Ht Ha Hsw Hsr|h r Ht Ha|h r Ht Ha|h r Ht Ha|r Ht Ha Hsw|r Ht Ha|r l h z Ht Ha Hz|r Ht Ha|r Ht Ha Hsw Hsr|r Ht Ha|r Ht Ha Hsw|r Ht Ha];
    rewrite ?Ha; cbn [goes todo at_]; rewrite ?Ht; cbn [costs]; try lia; cbn [length]; try lia.
  rewrite Hz in Hm. rewrite app_length in *. cbn [length] in *. lia.
Qed.
Lemma step_less m s s' : inv s -> step s s' -> length (everything s) <= m -> total (left_ m) (fst s') < total (left_ m) (fst s).
Proof.
  intros Hi Hs Hm. destruct Hs as [x g y s g' s' H1].
  assert (Hfg : fits (slice s) g) by (destruct Hi as [_ _ _ Hf]; rewrite Forall_forall in Hf; apply Hf, in_elt).
  assert (Hk := step_kind _ _ _ _ Hfg H1). clear H1. unfold everything in Hm. cbn [fst snd] in *. rewrite app_length in Hm.
  assert (L := kind_less m _ _ _ _ Hk). rewrite !total_app. lia.
Qed.
Lemma steps_reach n s s' : steps sort n s s' -> reach s s'.
Proof. intros H. induction H as [|n s1 s2 s3 H IH Hs]; [constructor|]. eapply reach_step; [exact IH|exact Hs]. Qed.
Lemma runs_end ps init : locked_only ps -> exists bound, forall n s, steps sort n (start handler ps init) s -> n <= bound.
Proof.
  intros H1. assert (Hi := start_inv ps init H1). set (m := length (everything (start handler ps init))).
  exists (total (left_ m) (fst (start handler ps init))). intros n s Hn.
  enough (n + total (left_ m) (fst s) <= total (left_ m) (fst (start handler ps init))) by lia.
  remember (start handler ps init) as s0 eqn:E0. induction Hn as [|n s1 s2 s3 H IH Hs]; [lia|].
  assert (R := steps_reach _ _ _ H). specialize (IH E0 Hi). fold m in IH.
  assert (P := Permutation_length (reach_everything _ _ Hi R)).
  assert (L := step_less m _ _ (reach_inv _ _ Hi R) Hs). unfold m in *. lia.
Qed.

(** Schedules *)
Lemma replace_mid x g y g' : replace_nth handler (length x) g' (x ++ g :: y) = x ++ g' :: y.
Proof. induction x as [|a x IH]; [reflexivity|]. cbn. rewrite IH. reflexivity. Qed.
Lemma reach_trans s1 s2 s3 : reach s1 s2 -> reach s2 s3 -> reach s1 s3.
Proof. intros H1 H2. induction H2 as [|a c d H2 IH Hs]; [assumption|]. eapply reach_step; [apply IH, H1|exact Hs]. Qed.
Lemma turn_reach s i : reach s (turn handler sort s i).
Proof.
  destruct s as [ts s]. unfold turn. cbn [fst snd]. destruct (nth_error ts i) as [g|] eqn:E; [|constructor].
  destruct (step1 g s) as [[g' s']|] eqn:E1; [|constructor]. apply nth_error_split in E. destruct E as (x & y & -> & <-).
  rewrite replace_mid. eapply reach_step; [constructor|]. apply step_one, E1.
Qed.
Lemma play_reach l : forall s, reach s (play handler sort l s).
Proof.
  unfold play. induction l as [|i l IH]; intros s; [constructor|]. cbn [fold_left]. eapply reach_trans; [apply turn_reach|apply IH].
Qed.
End facts.

(** The names of the plugins are looked at without the lock. *)
Lemma peek_races : exists s : state nat, reach nat (fun l => l) (start nat [[Register 1]; [Peek]] []) s /\ race s.
Proof.
  exists (play nat (fun l => l) [0; 0] (start nat [[Register 1]; [Peek]] [])). split; [apply play_reach|].
  exists [], [], [], {| todo := [Register 1]; at_ := Appending []; got := [] |}, {| todo := [Peek]; at_ := Outside; got := [] |}.
  split; [reflexivity|]. left. split; [reflexivity|discriminate].
Qed.

(** ** What a step uses *)
Lemma writes_seen handler sort (g : goroutine handler) s g' s' :
  step1 handler sort g s = Some (g', s') -> slice s' <> slice s -> access g = Some true.
Proof.
  unfold step1, access. intros H Hs.
  destruct (todo g) as [|[h| | |[|]] r]; [discriminate| | | | |]; destruct (at_ g) as [| | | | | |[|]]; try discriminate; try reflexivity;
    repeat match type of H with
    | (if ?c then _ else _) = _ => destruct c
    | match ?c with Some _ => _ | None => _ end = _ => destruct c
    end; try discriminate; injection H as <- <-; exfalso; apply Hs; reflexivity.
Qed.
Lemma reads_seen handler sort (g : goroutine handler) s l :
  access g = None ->
  step1 handler sort g (with_slice handler l s) = option_map (fun r => (fst r, with_slice handler l (snd r))) (step1 handler sort g s).
Proof.
  unfold step1, access. intros H.
  destruct (todo g) as [|[h| | |[|]] r]; [reflexivity| | | | |]; destruct (at_ g) as [| | | | |c n|[|]]; try discriminate; try reflexivity;
    cbn [writer readers with_slice slice].
  - destruct (writer s || negb (readers s =? 0)); reflexivity.
  - destruct (writer s); reflexivity.
  - destruct (length c <? n); [discriminate|reflexivity].
  - destruct (writer s || negb (readers s =? 0)); reflexivity.
  - destruct (writer s); reflexivity.
Qed.
Lemma accesses_seen handler sort (g : goroutine handler) s :
  (forall g' s', step1 handler sort g s = Some (g', s') -> slice s' <> slice s -> access g = Some true) /\
  (access g = None -> forall l, step1 handler sort g (with_slice handler l s) =
     option_map (fun r => (fst r, with_slice handler l (snd r))) (step1 handler sort g s)).
Proof. split; [apply writes_seen|]. intros H l. now apply reads_seen. Qed.
