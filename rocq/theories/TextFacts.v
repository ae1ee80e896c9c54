(** Lemmas about the text utilities: white space collapse, consecutive newlines, fences. *)
From Coq Require Import List NArith ZArith Bool Lia ZifyBool ZifyNat ZifyN.
From Verif Require Import Bytes TextUtils BytesFacts SpecText.
Import ListNotations.
Open Scope N_scope.
Open Scope list_scope.

(** ** Collapsing white space (C16) *)
Definition last_ws (p : bool) (x : bytes) : bool := fold_left (fun _ c => is_ws c) x p.
Lemma collapse_from_app x : forall p y,
  collapse_ws_from p (x ++ y) = collapse_ws_from p x ++ collapse_ws_from (last_ws p x) y.
Proof.
  induction x as [|c x IH]; intros p y; [reflexivity|]. cbn [app collapse_ws_from last_ws fold_left].
  destruct (is_ws c) eqn:E; [destruct p|]; cbn [app]; rewrite IH; unfold last_ws; reflexivity.
Qed.
Lemma last_ws_app p x y : last_ws p (x ++ y) = last_ws (last_ws p x) y.
Proof. unfold last_ws. apply fold_left_app. Qed.
Lemma collapse_run w : Forall (fun c => is_ws c = true) w -> forall p, collapse_ws_from p w = match w with [] => [] | _ => if p then [] else [32] end.
Proof.
  induction 1 as [|c w H F IH]; intros p; [reflexivity|]. cbn [collapse_ws_from]. rewrite H, IH.
  destruct p, w; reflexivity.
Qed.
Lemma last_ws_run w p : w <> [] -> Forall (fun c => is_ws c = true) w -> last_ws p w = true.
Proof.
  intros N F. destruct (exists_last N) as (x & c & ->). rewrite last_ws_app. cbn.
  apply Forall_app in F as [_ F]. now inversion F.
Qed.

Record rw_inv (src pre : bytes) (st : raw_state) (A M W : bytes) : Prop := {
  ri_pre : pre = A ++ M ++ W;
  ri_normal : rw_normal st = List.length A;
  ri_match : match rw_match st with None => W = [] | Some m => W <> [] /\ m = (List.length A + List.length M)%nat end;
  ri_ws : Forall (fun c => is_ws c = true) W;
  ri_out : (match rw_ret st with None => [] | Some r => r end) ++ M = collapse_ws (A ++ M);
  ri_last : last_ws false (A ++ M) = false;
  ri_nil : rw_ret st = None <-> A = []
}.
Lemma slice_app A M W : slice (List.length A) (List.length A + List.length M) (A ++ M ++ W) = M.
Proof.
  unfold slice. rewrite skipn_app, skipn_all2 by lia. rewrite Nat.sub_diag. cbn [app skipn].
  replace (List.length A + List.length M - List.length A)%nat with (List.length M) by lia.
  rewrite firstn_app, Nat.sub_diag, firstn_all. cbn. apply app_nil_r.
Qed.
Lemma nth_app2 A W (c : N) : nth (List.length A) (A ++ c :: W) 0 = c.
Proof. rewrite app_nth2, Nat.sub_diag by lia. reflexivity. Qed.
Lemma rw_loop_inv src rest : forall pre st A M W, src = pre ++ rest -> rw_inv src pre st A M W ->
  exists A' M' W', rw_inv src src (rw_loop src (List.length pre) rest st) A' M' W'.
Proof.
  induction rest as [|c t IH]; intros pre st A M W S I.
  - rewrite app_nil_r in S. subst pre. now exists A, M, W.
  - cbn [rw_loop].
    assert (S' : src = (pre ++ [c]) ++ t) by (rewrite <- app_assoc; exact S).
    replace (Datatypes.S (List.length pre)) with (List.length (pre ++ [c])) by (rewrite app_length; cbn; lia).
    destruct I as [I1 I2 I3 I4 I5 I6 I7]. unfold rw_step.
    destruct (rw_match st) as [m|] eqn:Em.
    + destruct I3 as [Wn ->]. destruct (is_ws c) eqn:Ec.
      * apply IH with (A := A) (M := M) (W := W ++ [c]); [easy|]. constructor; rewrite ?Em; auto.
        -- rewrite I1, <- !app_assoc. reflexivity.
        -- split; [destruct W; easy|easy].
        -- apply Forall_app; split; [easy|]. now constructor.
      * assert (LW : (List.length pre - (List.length A + List.length M) = List.length W)%nat)
          by (rewrite I1, !app_length; lia).
        rewrite LW.
        assert (Hnth : nth (List.length A + List.length M) src 0 = hd 0 W).
        { rewrite S, I1. rewrite <- app_length, (app_assoc A), <- (app_assoc (A ++ M)). destruct W as [|w W]; [now elim Wn|].
          cbn [app hd]. apply nth_app2. }
        rewrite Hnth.
        assert (Cw : collapse_ws (A ++ M ++ W) = collapse_ws (A ++ M) ++ [32]).
        { unfold collapse_ws. rewrite app_assoc, collapse_from_app, I6, (collapse_run W) by easy. now destruct W. }
        assert (Cc : forall x, collapse_ws (x ++ [c]) = collapse_ws x ++ [c]).
        { intros x. unfold collapse_ws. rewrite collapse_from_app. cbn [collapse_ws_from]. now rewrite Ec. }
        destruct (Nat.eqb (List.length W) 1 && (hd 0 W =? cSP)) eqn:E.
        -- apply IH with (A := A) (M := M ++ W ++ [c]) (W := []); [easy|].
           apply andb_true_iff in E as [E1 E2]. apply Nat.eqb_eq in E1. apply N.eqb_eq in E2.
           destruct W as [|w [|]]; try discriminate. cbn [hd] in E2. subst w.
           constructor; cbn [rw_match rw_ret rw_normal]; auto.
           ++ rewrite I1, <- !app_assoc. now rewrite app_nil_r.
           ++ rewrite !app_assoc, Cc, <- !app_assoc, Cw. rewrite (app_assoc _ M), I5. now rewrite <- app_assoc.
           ++ rewrite !app_assoc, last_ws_app. cbn. exact Ec.
        -- apply IH with (A := A ++ M ++ W) (M := [c]) (W := []); [easy|].
           constructor; cbn [rw_match rw_ret rw_normal]; auto.
           ++ rewrite I1, <- !app_assoc. reflexivity.
           ++ rewrite I1, !app_length. lia.
           ++ rewrite I2, S, I1, <- !app_assoc. rewrite slice_app.
              replace (A ++ M ++ W ++ [c]) with ((A ++ M ++ W) ++ [c]) by now rewrite <- !app_assoc.
              rewrite Cc. f_equal. rewrite Cw, <- I5.
              destruct (rw_ret st); cbn [rw_append]; rewrite <- ?app_assoc; reflexivity.
           ++ rewrite last_ws_app. cbn. exact Ec.
           ++ split; intros H; [destruct (rw_ret st); discriminate|]. destruct A; [|easy]. destruct M; [|easy]. destruct W; easy.
    + subst W. rewrite app_nil_r in I1. destruct (is_ws c) eqn:Ec.
      * apply IH with (A := A) (M := M) (W := [c]); [easy|].
        constructor; cbn [rw_match rw_ret rw_normal]; auto.
        -- rewrite I1, <- app_assoc. reflexivity.
        -- split; [easy|]. rewrite I1, app_length. lia.
      * apply IH with (A := A) (M := M ++ [c]) (W := []); [easy|]. constructor; rewrite ?Em; auto.
        -- rewrite I1, app_nil_r, <- app_assoc. reflexivity.
        -- rewrite !app_assoc, I5. unfold collapse_ws. rewrite (collapse_from_app (A ++ M)). cbn [collapse_ws_from]. now rewrite Ec.
        -- rewrite app_assoc, last_ws_app. cbn. exact Ec.
Qed.
Lemma replace_any_whitespace_go_eq s : replace_any_whitespace_go s = collapse_ws s.
Proof.
  destruct s as [|c s]; [reflexivity|]. unfold replace_any_whitespace_go. remember (c :: s) as src eqn:Hs. clear Hs c s.
  destruct (rw_loop_inv src src [] {| rw_ret := None; rw_normal := O; rw_match := None |} [] [] [])
    as (A & M & W & I).
  - reflexivity.
  - constructor; cbn; auto. easy.
  - cbn [List.length] in I. set (st := rw_loop _ _ _ _) in *. clearbody st.
    destruct I as [I1 I2 I3 I4 I5 I6 I7]. unfold rw_finish. destruct (rw_match st) as [m|] eqn:Em.
    + destruct I3 as [Wn ->].
      assert (Cw : collapse_ws src = collapse_ws (A ++ M) ++ [32]).
      { rewrite I1. unfold collapse_ws. rewrite app_assoc, collapse_from_app, I6, (collapse_run W) by easy. now destruct W. }
      destruct (_ && _ && _) eqn:E.
      * apply andb_true_iff in E as [E E2]. apply andb_true_iff in E as [E0 E1].
        destruct (rw_ret st) eqn:Er; [discriminate|]. clear E0. rewrite Cw.
        assert (A = []) by now apply I7. subst A. rewrite <- I5. cbn [app] in *.
        rewrite I1 in E1 at 1. rewrite app_length in E1. apply Nat.eqb_eq in E1.
        assert (List.length W = 1%nat) as LW by (cbn in E1; lia). destruct W as [|w [|]]; try discriminate.
        rewrite I1 in E2. cbn [List.length Nat.add] in E2. rewrite nth_app2 in E2. apply N.eqb_eq in E2. subst w. exact I1.
      * rewrite I2, Cw, <- I5. rewrite I1 at 1. rewrite slice_app.
        destruct (rw_ret st); cbn [rw_append]; rewrite <- ?app_assoc; reflexivity.
    + subst W. rewrite app_nil_r in I1. rewrite I2. destruct (Nat.eqb_spec (List.length A) 0) as [E|E].
      * destruct A; [|discriminate]. assert (R : rw_ret st = None) by now apply I7. rewrite R in *. cbn [app] in *. now rewrite I1, <- I5.
      * rewrite I1 at 1. rewrite skipn_app, skipn_all, Nat.sub_diag. cbn [app skipn].
        destruct (rw_ret st) as [r|] eqn:Er; [|exfalso; apply E; now rewrite (proj1 I7 eq_refl)].
        cbn [rw_append]. now rewrite I5, I1.
Qed.

Lemma is_ws_blank c : is_ws c = true <-> html_blank c.
Proof. unfold is_ws, html_blank, cSP, cCR, cNL, cTAB. lia. Qed.
Lemma is_ws_unblank c : is_ws c = false <-> ~ html_blank c.
Proof. rewrite <- is_ws_blank. now destruct (is_ws c). Qed.
Lemma collapse_from_true s : collapse_ws_from true s = match s with c :: t => if is_ws c then collapse_ws_from true t else collapse_ws_from false s | [] => [] end.
Proof. destruct s as [|c t]; [reflexivity|]. cbn. now destruct (is_ws c). Qed.
Definition starts_unblank (s : bytes) : Prop := match s with [] => True | c :: _ => ~ html_blank c end.
Lemma collapsed_sound s : forall p, exists w, Forall html_blank w /\ (p = false -> w = []) /\
  exists s', s = w ++ s' /\ (p = true -> starts_unblank s') /\ collapsed s' (collapse_ws_from p s).
Proof.
  induction s as [|c t IH]; intros p.
  - exists []. split; [constructor|]. split; [easy|]. exists []. repeat split; constructor.
  - cbn [collapse_ws_from]. destruct (is_ws c) eqn:E.
    + apply is_ws_blank in E. destruct (IH true) as (w & F & _ & s' & E1 & S & C). destruct p.
      * exists (c :: w). split; [now constructor|]. split; [easy|]. exists s'. subst t. auto.
      * exists []. split; [constructor|]. split; [easy|]. exists (c :: t). split; [easy|]. split; [easy|].
        subst t. apply (col_run html_blank (c :: w)); [easy|now constructor|now apply S|exact C].
    + apply is_ws_unblank in E. destruct (IH false) as (w & F & W & s' & E1 & S & C).
      rewrite (W eq_refl) in E1. cbn in E1. subst s'.
      exists []. split; [constructor|]. split; [easy|]. exists (c :: t). split; [easy|]. split; [easy|]. now constructor.
Qed.
Lemma collapse_ws_sound s : collapsed s (collapse_ws s).
Proof.
  destruct (collapsed_sound s false) as (w & _ & W & s' & E & _ & C). rewrite (W eq_refl) in E. cbn in E. now subst s'.
Qed.
Lemma collapsed_complete s o : collapsed s o -> o = collapse_ws s.
Proof.
  induction 1 as [|c s o H C IH|w s o N F S C IH]; [reflexivity| |]; unfold collapse_ws in *.
  - cbn [collapse_ws_from]. apply is_ws_unblank in H. now rewrite H, IH.
  - assert (F' : Forall (fun c => is_ws c = true) w) by (eapply Forall_impl; [|exact F]; intros; now apply is_ws_blank).
    rewrite collapse_from_app, last_ws_run, (collapse_run w) by easy. destruct w; [easy|]. cbn [app]. f_equal.
    rewrite IH. destruct s as [|c s]; [reflexivity|]. cbn [collapse_ws_from]. apply is_ws_unblank in S. now rewrite S.
Qed.
Lemma collapse_ws_iff s o : collapsed s o <-> o = collapse_ws s.
Proof. split; [apply collapsed_complete|intros ->; apply collapse_ws_sound]. Qed.
Lemma collapse_from_no_double s : forall p, forall x y c d, collapse_ws_from p s = x ++ [c; d] ++ y -> is_ws c = true -> is_ws d = false.
Proof.
  assert (H0 : forall s d y, collapse_ws_from true s = d :: y -> is_ws d = false).
  { induction s0 as [|c t IH]; intros d y E; [discriminate|]. cbn in E. destruct (is_ws c) eqn:Ec; [eauto|]. congruence. }
  induction s as [|e t IH]; intros p x y c d E Hc; [now destruct x|]. cbn [collapse_ws_from] in E.
  destruct (is_ws e) eqn:Ee; [destruct p|].
  - exact (IH _ _ _ _ _ E Hc).
  - destruct x as [|x0 x]; injection E as E0 E; [now apply H0 in E|]. exact (IH _ _ _ _ _ E Hc).
  - destruct x as [|x0 x]; injection E as E0 E; [congruence|]. exact (IH _ _ _ _ _ E Hc).
Qed.
Lemma collapse_from_idem s : forall p, collapse_ws_from p (collapse_ws_from p s) = collapse_ws_from p s.
Proof.
  induction s as [|c t IH]; intros p; [reflexivity|]. cbn [collapse_ws_from].
  destruct (is_ws c) eqn:E; [destruct p|]; [apply IH| |]; cbn [collapse_ws_from].
  - change (is_ws cSP) with true. cbn iota. now rewrite IH.
  - rewrite E. now rewrite IH.
Qed.
Lemma collapse_ws_idem s : collapse_ws (collapse_ws s) = collapse_ws s.
Proof. apply collapse_from_idem. Qed.

(** ** Consecutive newlines (C18) *)
Lemma repeat_snoc {A} (x : A) n : repeat x n ++ [x] = repeat x (S n).
Proof. induction n as [|n IH]; [reflexivity|]. cbn [repeat app]. f_equal. exact IH. Qed.
Lemma tcn_go_skip s : forall k nl, (nl = O \/ k = O) -> Forall (fun x => 128 <= x) (firstn k s) ->
  forall sp, (k <> O -> sp = O) -> tcn_go k nl (repeat cSP sp) s = tcn nl sp s.
Proof.
  induction s as [|c t IH]; intros k nl D F sp Sp; [reflexivity|]. cbn [tcn_go tcn]. destruct k as [|k].
  - pose proof (decode_rune_spec c t) as H. destruct (decode_rune (c :: t)) as [r n].
    destruct H as [(L & -> & ->)|(L & Lr & Ln & Fn)].
    + destruct (c =? cNL) eqn:E1.
      * destruct (Nat.leb (S nl) 2); [f_equal; f_equal|]; apply (IH O (S nl)) with (sp := O); auto; constructor.
      * destruct (c =? cSP) eqn:E2.
        -- apply N.eqb_eq in E2. subst c. rewrite repeat_snoc. apply IH; auto; easy.
        -- cbn [pred]. f_equal. f_equal. apply (IH O O) with (sp := O); auto.
    + replace (r =? cNL) with false by (unfold cNL; lia). replace (r =? cSP) with false by (unfold cSP; lia).
      replace (c =? cNL) with false by (unfold cNL; lia). replace (c =? cSP) with false by (unfold cSP; lia).
      f_equal. f_equal. apply (IH (pred n) O) with (sp := O); auto.
      destruct n; cbn [pred firstn] in *; [constructor|]. now inversion Fn.
  - cbn [firstn] in F. inversion F as [|? ? Hc Ft]; subst.
    replace (c =? cNL) with false by (unfold cNL; lia). replace (c =? cSP) with false by (unfold cSP; lia).
    rewrite (Sp ltac:(easy)). cbn [repeat app]. destruct D as [->|]; [|easy]. f_equal. apply (IH k O) with (sp := O); auto.
Qed.
Lemma tcn_go_eq s : trim_consecutive_newlines_go s = trim_consecutive_newlines s.
Proof. apply (tcn_go_skip s O O) with (sp := O); auto. constructor. Qed.

Definition ends_newlines (nl : nat) (x : bytes) : Prop :=
  ((1 <= nl)%nat -> exists y, x = y ++ [10]) /\ ((2 <= nl)%nat -> exists y p, x = y ++ [10] ++ repeat 32 p ++ [10]).
Lemma tcn_squeeze s : forall nl sp x, ends_newlines nl x ->
  newline_squeeze (x ++ repeat 32 sp ++ s) (x ++ tcn nl sp s).
Proof.
  induction s as [|c t IH]; intros nl sp x [E1 E2]; cbn [tcn].
  - rewrite app_nil_r. constructor.
  - destruct (c =? cNL) eqn:H1; [|destruct (c =? cSP) eqn:H2].
    + apply N.eqb_eq in H1. unfold cNL in H1. subst c. destruct (Nat.leb_spec (S nl) 2) as [L|L].
      * specialize (IH (S nl) O (x ++ repeat 32 sp ++ [10])). cbn [repeat app] in IH.
        rewrite <- !app_assoc in IH. apply IH. split.
        -- intros _. exists (x ++ repeat 32 sp). now rewrite <- app_assoc.
        -- intros H. destruct (E1 ltac:(lia)) as [y ->]. exists y, sp. now rewrite <- app_assoc.
      * destruct (E2 ltac:(lia)) as (y & p & ->). specialize (IH (S nl) O (y ++ [10] ++ repeat 32 p ++ [10])).
        cbn [repeat app] in IH. rewrite <- !app_assoc in *. cbn [app] in *. rewrite <- !app_assoc in *. cbn [app] in *.
        apply (nsq_step y p sp t). apply IH. split.
        -- intros _. exists (y ++ 10 :: repeat 32 p). rewrite <- app_assoc. reflexivity.
        -- intros _. now exists y, p.
    + apply N.eqb_eq in H2. unfold cSP in H2. subst c. specialize (IH nl (S sp) x ltac:(now split)).
      rewrite <- repeat_snoc, <- app_assoc in IH. exact IH.
    + specialize (IH O O (x ++ repeat 32 sp ++ [c])). cbn [repeat app] in IH. rewrite <- !app_assoc in IH. apply IH.
      split; lia.
Qed.
Lemma trim_newlines_squeeze s : newline_squeeze s (trim_consecutive_newlines s).
Proof. apply (tcn_squeeze s O O []). split; lia. Qed.

(** A scanner for three line ends; [k]: line ends read since the last other character. *)
Fixpoint triple (k : nat) (s : bytes) : bool :=
  match s with
  | [] => false
  | c :: t => if c =? 10 then (Nat.leb 2 k || triple (S k) t) else if c =? 32 then triple k t else triple O t
  end.
Lemma triple_spaces k p s : triple k (repeat 32 p ++ s) = triple k s.
Proof. induction p; [reflexivity|]. exact IHp. Qed.
Lemma triple_mono s : forall k k', (k <= k')%nat -> triple k s = true -> triple k' s = true.
Proof.
  induction s as [|c t IH]; intros k k' L H; [discriminate|]. cbn [triple] in *.
  destruct (c =? 10); [|destruct (c =? 32); eauto].
  apply orb_true_iff in H as [H|H]; apply orb_true_iff; [left; apply Nat.leb_le in H; apply Nat.leb_le; lia|].
  right. eapply IH; [|exact H]. lia.
Qed.
Lemma triple_three s : three_newlines s -> forall k, triple k s = true.
Proof.
  intros (x & p & q & z & ->). induction x as [|c x IH]; intros k.
  - cbn [app triple]. change (10 =? 10) with true. cbn iota. rewrite triple_spaces. cbn [triple].
    change (10 =? 10) with true. cbn iota. rewrite triple_spaces. cbn [triple]. change (10 =? 10) with true. cbn iota.
    destruct k as [|[|k]]; cbn; try reflexivity.
  - cbn [app triple]. destruct (c =? 10); [rewrite IH; apply orb_true_r|]. destruct (c =? 32); apply IH.
Qed.
Lemma three_cons c s : three_newlines s -> three_newlines (c :: s).
Proof. intros (x & p & q & z & ->). now exists (c :: x), p, q, z. Qed.
Definition nls_before (k : nat) (s : bytes) : Prop :=
  match k with
  | O => three_newlines s
  | S O => three_newlines (10 :: s)
  | _ => exists p, three_newlines (10 :: repeat 32 p ++ 10 :: s)
  end.
Lemma three_triple s : forall k, (k <= 2)%nat -> triple k s = true ->
  three_newlines s \/
  (k = 1%nat /\ exists p q z, s = repeat 32 p ++ [10] ++ repeat 32 q ++ [10] ++ z) \/
  (k = 2%nat /\ exists p z, s = repeat 32 p ++ [10] ++ z) \/
  (k = 2%nat /\ exists p q z, s = repeat 32 p ++ [10] ++ repeat 32 q ++ [10] ++ z).
Proof.
  induction s as [|c t IH]; intros k L H; [discriminate|]. cbn [triple] in H.
  destruct (c =? 10) eqn:E1; [|destruct (c =? 32) eqn:E2].
  - apply N.eqb_eq in E1. subst c. destruct k as [|[|k]].
    + cbn [Nat.leb orb] in H. destruct (IH 1%nat ltac:(lia) H) as [T|[[_ (p & q & z & ->)]|[[? _]|[? _]]]]; try discriminate.
      * left. now apply three_cons.
      * left. now exists [], p, q, z.
    + cbn [Nat.leb orb] in H. destruct (IH 2%nat ltac:(lia) H) as [T|[[? _]|[[_ (p & z & ->)]|[_ (p & q & z & ->)]]]]; try discriminate.
      * left. now apply three_cons.
      * right; left. split; [easy|]. exists O, p, z. reflexivity.
      * left. exists [], p, q, z. reflexivity.
    + assert (k = O) by lia. subst k. right; right; left. split; [easy|]. now exists O, t.
  - apply N.eqb_eq in E2. subst c. destruct (IH k L H) as [T|[[-> (p & q & z & ->)]|[[-> (p & z & ->)]|[-> (p & q & z & ->)]]]].
    + left. now apply three_cons.
    + right; left. split; [easy|]. now exists (S p), q, z.
    + right; right; left. split; [easy|]. now exists (S p), z.
    + right; right; right. split; [easy|]. now exists (S p), q, z.
  - destruct (IH O ltac:(lia) H) as [T|[[? _]|[[? _]|[? _]]]]; try discriminate. left. now apply three_cons.
Qed.
Lemma three_triple0 s : triple O s = true <-> three_newlines s.
Proof.
  split; [|intros H; now apply triple_three].
  intros H. destruct (three_triple s O ltac:(lia) H) as [T|[[? _]|[[? _]|[? _]]]]; try discriminate. exact T.
Qed.
Lemma tcn_triple s : forall nl sp, triple (Nat.min nl 2) (tcn nl sp s) = false.
Proof.
  induction s as [|c t IH]; intros nl sp; cbn [tcn].
  - rewrite <- (app_nil_r (repeat cSP sp)). now rewrite triple_spaces.
  - destruct (c =? cNL) eqn:E1; [|destruct (c =? cSP) eqn:E2].
    + destruct (Nat.leb_spec (S nl) 2) as [L|L].
      * rewrite triple_spaces. cbn [triple]. change (cNL =? 10) with true. cbn iota. specialize (IH (S nl) O).
        destruct nl as [|[|nl]]; cbn in *; try exact IH. lia.
      * specialize (IH (S nl) O). replace (Nat.min (S nl) 2) with 2%nat in IH by lia.
        replace (Nat.min nl 2) with 2%nat by lia. exact IH.
    + apply IH.
    + rewrite triple_spaces. cbn [triple]. unfold cNL, cSP in *. rewrite E1, E2. exact (IH O O).
Qed.
Lemma trim_newlines_none s : ~ three_newlines (trim_consecutive_newlines s).
Proof. intros T. apply three_triple0 in T. pose proof (tcn_triple s O O) as E. cbn [Nat.min] in E. unfold trim_consecutive_newlines in T. congruence. Qed.
Lemma squeeze_normal s o : newline_squeeze s o -> ~ three_newlines s -> o = s.
Proof. intros H N. destruct H as [|x p q z o H]; [easy|]. exfalso. apply N. now exists x, p, q, z. Qed.
Lemma trim_newlines_id s : ~ three_newlines s -> trim_consecutive_newlines s = s.
Proof. intros N. apply squeeze_normal; [apply trim_newlines_squeeze|easy]. Qed.
Lemma trim_newlines_idem s : trim_consecutive_newlines (trim_consecutive_newlines s) = trim_consecutive_newlines s.
Proof. apply trim_newlines_id, trim_newlines_none. Qed.

Lemma split_on_app10 x z : split_on 10 (x ++ [10] ++ z) = split_on 10 x ++ split_on 10 z.
Proof.
  induction x as [|c x IH]; [reflexivity|]. cbn [app split_on] in *. destruct (c =? 10); [now rewrite IH|].
  rewrite IH. pose proof (split_on_ne 10 x) as N. now destruct (split_on 10 x).
Qed.
Lemma text_lines_app x z : text_lines (x ++ [10] ++ z) = text_lines x ++ text_lines z.
Proof. unfold text_lines. now rewrite split_on_app10, filter_app. Qed.
Lemma text_lines_spaces p : text_lines (repeat 32 p) = [].
Proof.
  unfold text_lines. assert (split_on 10 (repeat 32 p) = [repeat 32 p]) as ->.
  { induction p as [|p IH]; [reflexivity|]. cbn [repeat split_on]. now rewrite IH. }
  cbn [filter]. assert (unblank_line (repeat 32 p) = false) as -> by (induction p; [reflexivity|exact IHp]). reflexivity.
Qed.
Lemma squeeze_text_lines s o : newline_squeeze s o -> text_lines o = text_lines s.
Proof.
  induction 1 as [|x p q z o H IH]; [reflexivity|]. rewrite IH. rewrite !text_lines_app, !text_lines_spaces. reflexivity.
Qed.
Lemma trim_newlines_text_lines s : text_lines (trim_consecutive_newlines s) = text_lines s.
Proof. apply squeeze_text_lines, trim_newlines_squeeze. Qed.

(** ** Fences (C20) *)
Lemma fence_occ_ge f rs : forall cur mx, (mx <= fence_occ f cur mx rs /\ cur <= fence_occ f cur mx rs)%nat.
Proof.
  induction rs as [|r rs IH]; intros cur mx; cbn [fence_occ]; [lia|]. destruct (r =? f).
  - destruct (IH (S cur) mx). lia.
  - destruct (IH O (Nat.max mx cur)). lia.
Qed.
Lemma fence_occ_mono f rs : forall cur mx cur' mx', (cur <= cur' -> mx <= mx' -> fence_occ f cur mx rs <= fence_occ f cur' mx' rs)%nat.
Proof.
  induction rs as [|r rs IH]; intros cur mx cur' mx' H1 H2; cbn [fence_occ]; [lia|]. destruct (r =? f); apply IH; lia.
Qed.
Lemma fence_occ_run f k rs : forall cur mx, (cur + k <= fence_occ f cur mx (repeat f k ++ rs))%nat.
Proof.
  induction k as [|k IH]; intros cur mx; cbn [repeat app fence_occ].
  - destruct (fence_occ_ge f rs cur mx). lia.
  - rewrite N.eqb_refl. specialize (IH (S cur) mx). lia.
Qed.
Lemma fence_occ_run_in f k a rs : forall cur mx, (k <= fence_occ f cur mx (a ++ repeat f k ++ rs))%nat.
Proof.
  induction a as [|r a IH]; intros cur mx; cbn [app fence_occ].
  - pose proof (fence_occ_run f k rs cur mx). lia.
  - destruct (r =? f); apply IH.
Qed.
(** Reading runes commutes with cutting in front of an ASCII character. *)
Lemma runes_from_ascii x : forall c y k, c < 128 -> Forall (fun z => 128 <= z) (firstn k (x ++ c :: y)) ->
  runes_from k (x ++ c :: y) = runes_from k x ++ runes_from O (c :: y).
Proof.
  induction x as [|d x IH]; intros c y k Hc F; cbn [app].
  - destruct k; [reflexivity|]. cbn [firstn app] in F. inversion F. lia.
  - cbn [runes_from]. destruct k as [|k].
    + assert (D : decode_rune (d :: x) = decode_rune (d :: x ++ c :: y) ).
      { unfold decode_rune. destruct (d <? 128); [reflexivity|].
        destruct (in_range 194 223 d); [|destruct (in_range 224 239 d); [|destruct (in_range 240 244 d)]].
        - destruct x as [|x1 x]; cbn [app]; [|reflexivity]. unfold is_cont, in_range. replace (128 <=? c) with false by lia. reflexivity.
        - destruct x as [|x1 [|x2 x]]; cbn [app]; [| |reflexivity].
          + destruct y; [reflexivity|]. unfold is_cont, in_range.
            replace ((if d =? 224 then 160 else 128) <=? c) with false by (destruct (d =? 224); lia). reflexivity.
          + unfold is_cont, in_range. replace (128 <=? c) with false by lia. cbn [andb]. now rewrite andb_false_r.
        - destruct x as [|x1 [|x2 [|x3 x]]]; cbn [app]; [| | |reflexivity].
          + destruct y as [|y1 [|y2 y]]; [reflexivity|reflexivity|]. unfold is_cont, in_range.
            replace ((if d =? 240 then 144 else 128) <=? c) with false by (destruct (d =? 240); lia). reflexivity.
          + destruct y as [|y1 y]; [reflexivity|]. unfold is_cont, in_range. replace (128 <=? c) with false by lia.
            cbn [andb]. now rewrite andb_false_r.
          + unfold is_cont, in_range. replace (128 <=? c) with false by lia. cbn [andb]. now rewrite !andb_false_r.
        - reflexivity. }
      rewrite <- D. pose proof (decode_rune_spec d x) as Sp. destruct (decode_rune (d :: x)) as [r n]. cbn [app]. f_equal.
      apply IH; [easy|]. destruct Sp as [(_ & _ & ->)|(L1 & L2 & L3 & Fn)]; [constructor|].
      destruct n as [|n]; [constructor|]. cbn [pred firstn] in *. inversion Fn as [|? ? _ Fn']; subst.
      rewrite firstn_app. replace (n - List.length x)%nat with O by lia. cbn. now rewrite app_nil_r.
    + apply IH; [easy|]. cbn [app firstn] in F. now inversion F.
Qed.
Lemma runes_ascii x c y : c < 128 -> runes (x ++ c :: y) = runes x ++ c :: runes y.
Proof.
  intros H. unfold runes. rewrite runes_from_ascii by (auto; constructor). f_equal. cbn [runes_from].
  pose proof (decode_rune_spec c y) as S. destruct (decode_rune (c :: y)) as [r n]. destruct S as [(_ & -> & ->)|(L & _)]; [reflexivity|lia].
Qed.
Lemma runes_run f k y : f < 128 -> runes (repeat f k ++ y) = repeat f k ++ runes y.
Proof.
  intros H. induction k as [|k IH]; [reflexivity|]. cbn [repeat app]. change (f :: repeat f k ++ y) with ([] ++ f :: (repeat f k ++ y)). rewrite runes_ascii by easy. cbn [app]. rewrite IH. reflexivity.
Qed.
Lemma occurrences_run f k s : f < 128 -> has_run f k s -> (k <= code_fence_occurrences f s)%nat.
Proof.
  intros H (x & y & ->). unfold code_fence_occurrences. destruct k as [|k]; [lia|].
  cbn [repeat app]. rewrite runes_ascii by easy. rewrite runes_run by easy.
  exact (fence_occ_run_in f (S k) (runes x) (runes y) O O).
Qed.
(** ... and it is the length of an actual run. *)
Lemma fence_occ_is f rs : forall cur mx, fence_occ f cur mx rs = mx \/
  (exists j rest, rs = repeat f j ++ rest /\ fence_occ f cur mx rs = (cur + j)%nat) \/
  (exists a j rest, rs = a ++ repeat f j ++ rest /\ fence_occ f cur mx rs = j).
Proof.
  induction rs as [|r rs IH]; intros cur mx; cbn [fence_occ].
  - destruct (Nat.max_spec mx cur) as [[_ ->]|[_ ->]]; [right; left|now left]. exists O, []. split; [easy|lia].
  - destruct (r =? f) eqn:E.
    + apply N.eqb_eq in E. subst r. destruct (IH (S cur) mx) as [H|[(j & rest & -> & H)|(a & j & rest & -> & H)]]; rewrite H.
      * now left.
      * right; left. exists (S j), rest. split; [easy|lia].
      * right; right. exists (f :: a), j, rest. easy.
    + destruct (IH O (Nat.max mx cur)) as [H|[(j & rest & -> & H)|(a & j & rest & -> & H)]]; rewrite H.
      * destruct (Nat.max_spec mx cur) as [[_ ->]|[_ ->]]; [right; left|now left]. exists O, (r :: rs). split; [easy|lia].
      * right; right. exists [r], j, rest. cbn. split; [easy|lia].
      * right; right. exists (r :: a), j, rest. easy.
Qed.
Lemma code_fence_longer f s k : f < 128 -> has_run f k s -> (k < List.length (calculate_code_fence f s))%nat.
Proof.
  intros H R. unfold calculate_code_fence. rewrite repeat_length. pose proof (occurrences_run f k s H R). lia.
Qed.
