(** Lemmas about multi-line content, titles, image descriptions, list numbers and items. *)
From Coq Require Import List NArith ZArith Bool Lia ZifyBool ZifyNat ZifyN.
From Verif Require Import Bytes TextUtils RenderText BytesFacts SpecText TextFacts TextFacts2 RenderFacts.
Import ListNotations.
Open Scope N_scope.
Open Scope list_scope.

(** ** Multi-line content (C24) *)
Lemma spaces_start s : spaces s -> s <> [] -> is_space_rune (fst (decode_rune s)) = true.
Proof.
  destruct 1 as [|e r s D R S]; intros N; [easy|]. destruct e as [|c e].
  - cbn in D. injection D as <-. discriminate.
  - destruct (decode_rune_prefix (c :: e) s ltac:(easy)) as [E|E].
    + rewrite <- E, D. exact R.
    + rewrite D in E. cbn in E. subst r. discriminate.
Qed.
Lemma not_spaces t : t <> [] -> is_space_rune (fst (decode_rune t)) = false -> ~ spaces t.
Proof. intros N R S. rewrite spaces_start in R by easy. discriminate. Qed.
Lemma trim_left_nil s : trim_left s = [] <-> spaces s.
Proof.
  destruct (trim_left_spaces s) as (l & E & S). split.
  - intros H. rewrite H, app_nil_r in E. now subst.
  - intros Sp. pose proof (trim_left_starts s) as T. destruct (trim_left s) as [|c t] eqn:H; [reflexivity|]. exfalso.
    revert Sp. assert (G : forall l x, spaces l -> spaces (l ++ x) -> spaces x).
    { intros l0 x Sl. revert x. induction Sl as [|e r s0 D R Sl IH]; intros x Sx; [exact Sx|].
      rewrite <- app_assoc in Sx. remember (e ++ s0 ++ x) as z eqn:Ez. destruct Sx as [|e' r' s' D' R' Sx].
      - destruct e; [cbn in D; injection D as <-; discriminate|discriminate].
      - (* both encodings start the same string *)
        assert (He : decode_rune (e ++ s0 ++ x) = (r, List.length e) /\ decode_rune (e' ++ s') = (r', List.length e')).
        { assert (Ext : forall e r y, decode_rune e = (r, List.length e) -> is_space_rune r = true -> decode_rune (e ++ y) = (r, List.length e)).
          { clear. intros e r y D R. destruct e as [|c t]; [cbn in D; injection D as <-; discriminate|].
            assert (Err : (rune_error, 1%nat) = (r, List.length (c :: t)) -> False) by (intros [= <- _]; discriminate).
            cbn [app]. unfold decode_rune in *. destruct (c <? 128); [exact D|].
            destruct (in_range 194 223 c); [|destruct (in_range 224 239 c); [|destruct (in_range 240 244 c)]].
            - destruct t as [|b1 t]; [now destruct (Err D)|]. exact D.
            - destruct t as [|b1 [|b2 t]]; try now destruct (Err D). exact D.
            - destruct t as [|b1 [|b2 [|b3 t]]]; try now destruct (Err D). exact D.
            - now destruct (Err D). }
          split; apply Ext; auto. }
        destruct He as [He1 He2]. rewrite Ez in He2. rewrite He1 in He2. injection He2 as _ Hl.
        assert (s' = s0 ++ x).
        { apply (f_equal (skipn (List.length e'))) in Ez. rewrite skipn_app, skipn_all, Nat.sub_diag in Ez. cbn in Ez.
          rewrite Ez, <- Hl, skipn_app, skipn_all, Nat.sub_diag. reflexivity. }
        subst s'. now apply IH. }
    intros Sp. rewrite E in Sp. apply G in Sp; [|easy].
    apply (not_spaces (c :: t)); [easy| |easy]. now apply T.
Qed.
Lemma trim_space_nil s : trim_space s = [] <-> spaces s.
Proof.
  unfold trim_space. rewrite <- trim_left_nil. split; intros H.
  - pose proof (trim_left_starts s) as T. destruct (trim_right_spaces (trim_left s)) as (r & E & Sr). rewrite H in E. cbn [app] in E.
    destruct (trim_left s) as [|c t] eqn:L; [easy|]. exfalso. rewrite <- E in Sr. apply (not_spaces (c :: t)); [easy|now apply T|easy].
  - now rewrite H.
Qed.
Lemma trim_left_text s : trim_left s <> [] -> exists l, s = l ++ trim_left s /\ spaces l /\ is_space_rune (fst (decode_rune (trim_left s))) = false.
Proof. intros N. destruct (trim_left_spaces s) as (l & E & S). exists l. split; [easy|]. split; [easy|]. now apply trim_left_starts. Qed.
Definition multi_line (p : bytes) : bytes :=
  let tl := trim_left p in if is_empty tl then [92] else if has_suffix [32; 32] tl then tl else tl ++ [32; 32].
Lemma multi_line_broken p : broken_line p (multi_line p).
Proof.
  unfold multi_line. cbv zeta. destruct (trim_left p) as [|c t] eqn:T; cbn [is_empty].
  - constructor. now apply trim_left_nil.
  - destruct (trim_left_text p) as (l & E & S & R); [now rewrite T|]. rewrite T in *.
    destruct (has_suffix [32; 32] (c :: t)) eqn:H.
    + apply has_suffix_iff in H as [x H]. rewrite H in *. rewrite E. now constructor.
    + rewrite E. now constructor.
Qed.
Lemma escape_parts_app ps p : trim_left p <> [] ->
  escape_multi_parts (ps ++ [p]) = join [10] (map multi_line ps ++ [trim_left p]).
Proof.
  intros N. induction ps as [|q ps IH]; cbn [app escape_multi_parts map].
  - destruct (trim_left p); [easy|]. cbn [is_empty join]. now rewrite app_nil_r.
  - rewrite join_cons by (destruct ps; easy). rewrite IH. unfold multi_line at 2. cbv zeta. unfold cBSL, cNL, cSP.
    destruct (trim_left q) as [|c t] eqn:T; cbn [is_empty]; [reflexivity|].
    destruct (is_empty (ps ++ [p])) eqn:E; [destruct ps; discriminate|]. rewrite app_assoc. f_equal.
    destruct (has_suffix [32; 32] (c :: t)); [reflexivity|]. now rewrite <- app_assoc.
Qed.
Lemma in_trim_left c s : In c (trim_left s) -> In c s.
Proof. destruct (trim_left_spaces s) as (l & E & _). rewrite E at 2. rewrite in_app_iff. auto. Qed.
Lemma multi_line_no10 p : ~ In 10 p -> ~ In 10 (multi_line p).
Proof.
  intros H. unfold multi_line. cbv zeta. destruct (is_empty (trim_left p)); [cbn; intuition discriminate|].
  destruct (has_suffix [32; 32] (trim_left p)).
  - intros I. now apply in_trim_left in I.
  - rewrite in_app_iff. intros [I|I]; [now apply in_trim_left in I|]. cbn in I. intuition discriminate.
Qed.
Lemma escape_multi_spec s : (exists ps p q, split_on 10 s = ps ++ [q; p] /\ trim_left p <> [] /\
    split_on 10 (escape_multi_line s) = map multi_line (ps ++ [q]) ++ [trim_left p]) \/
  (exists ps p q, split_on 10 s = ps ++ [q; p] /\ trim_left p = []) \/
  (split_on 10 s = [s] /\ escape_multi_line s = s).
Proof.
  unfold escape_multi_line. unfold cNL. pose proof (split_on_ne 10 s) as N. destruct (exists_last N) as (ps & p & E).
  destruct ps as [|q0 ps0].
  - right; right. cbn [app] in E. rewrite E. split; [|reflexivity]. rewrite <- (split_join 10 s). now rewrite E.
  - destruct (exists_last (l := q0 :: ps0) ltac:(easy)) as (ps & q & E2). rewrite E2, <- app_assoc in E. cbn [app] in E.
    destruct (trim_left p) as [|c t] eqn:T.
    + right; left. now exists ps, p, q.
    + left. exists ps, p, q. split; [easy|]. split; [now rewrite T|].
      assert (M : match split_on 10 s with [_] => s | parts => escape_multi_parts parts end = escape_multi_parts ((ps ++ [q]) ++ [p])).
      { rewrite E, <- app_assoc. cbn [app]. destruct ps as [|a ps]; [reflexivity|]. destruct ps; reflexivity. }
      rewrite M, escape_parts_app by (rewrite T; easy). rewrite T. apply join_split.
      * destruct (map multi_line (ps ++ [q])); easy.
      * intros l I. apply in_app_iff in I as [I|[<-|[]]].
        -- apply in_map_iff in I as (x & <- & I). apply multi_line_no10. apply (split_nosep 10 s). rewrite E.
           apply in_app_iff in I. apply in_app_iff. cbn in *. tauto.
        -- intros I. apply (split_nosep 10 s p).
           ++ rewrite E. apply in_app_iff. cbn. tauto.
           ++ apply in_trim_left. now rewrite T.
Qed.
Lemma broken_line_nonblank l o : broken_line l o -> ~ spaces o.
Proof.
  destruct 1 as [l S|l t S N R|l t S R].
  - apply (not_spaces [92]); [easy|reflexivity].
  - intros Sp. apply spaces_start in Sp; [|destruct t; easy]. destruct (decode_rune_prefix t [32; 32] N) as [E|E].
    + rewrite <- E, R in Sp. discriminate.
    + clear E. destruct t as [|c t]; [easy|]. clear N.
      pose proof (decode_rune_spec c t) as H. pose proof (decode_rune_spec c (t ++ [32; 32])) as H2.
      assert (D : decode_rune ((c :: t) ++ [32; 32]) = decode_rune (c :: t)).
      { cbn [app]. unfold decode_rune. destruct (c <? 128); [reflexivity|].
        destruct (in_range 194 223 c); [|destruct (in_range 224 239 c); [|destruct (in_range 240 244 c); [|reflexivity]]].
        - destruct t as [|x1 t]; reflexivity.
        - destruct t as [|x1 [|x2 t]]; cbn [app]; try reflexivity.
          + destruct (c =? 224); reflexivity.
          + cbv zeta. change (is_cont 32) with false. now rewrite andb_false_r.
        - destruct t as [|x1 [|x2 [|x3 t]]]; cbn [app]; try reflexivity.
          + cbv zeta. change (is_cont 32) with false. now rewrite !andb_false_r.
          + cbv zeta. change (is_cont 32) with false. now rewrite !andb_false_r. }
      rewrite D, R in Sp. discriminate.
  - intros Sp. apply spaces_start in Sp; [|destruct t; easy]. rewrite R in Sp. discriminate.
Qed.
Lemma last_app {A} (l : list A) m d : m <> [] -> last (l ++ m) d = last m d.
Proof.
  intros N. induction l as [|x l IH]; [reflexivity|]. cbn [app]. destruct (l ++ m) eqn:E; [destruct l; cbn in E; congruence|]. cbn [last] in *. exact IH.
Qed.
Lemma squeeze_last_line s o : newline_squeeze s o -> last (split_on 10 o) [] = last (split_on 10 s) [].
Proof.
  induction 1 as [|x p q z o H IH]; [reflexivity|]. rewrite IH, !split_on_app10.
  rewrite !last_app; auto using split_on_ne; intros E; apply app_eq_nil in E; destruct E as [E1 E2]; try now apply split_on_ne in E1; try now apply split_on_ne in E2.
Qed.
Lemma trim_newlines_last s : last (split_on 10 (trim_consecutive_newlines s)) [] = last (split_on 10 s) [].
Proof. apply squeeze_last_line, trim_newlines_squeeze. Qed.

(** A text that ends in something visible has a visible last line. *)
Lemma decode_last_valid e r q : decode_rune e = (r, List.length e) -> is_space_rune r = true ->
  decode_last_rune_rev (rev e ++ q) = (r, List.length e).
Proof.
  intros D R. destruct e as [|c t]; [cbn in D; injection D as <-; discriminate|].
  assert (Err : (rune_error, 1%nat) = (r, List.length (c :: t)) -> False) by (intros [= <- _]; discriminate).
  pose proof D as D0. unfold decode_rune in D. destruct (c <? 128) eqn:E1.
  { injection D as <- El. destruct t; [|discriminate]. cbn. now rewrite E1. }
  assert (Rs : forall lo hi, 192 <= lo -> in_range lo hi c = true -> rune_start c = true).
  { intros lo hi Hlo H. unfold rune_start, is_cont, in_range in *. lia. }
  assert (Cs : forall lo hi x, 128 <= lo -> hi <= 191 -> in_range lo hi x = true -> is_cont x = true).
  { intros lo hi x Hlo Hhi H. unfold is_cont, in_range in *. lia. }
  assert (Cl : forall x, is_cont x = true -> (x <? 128) = false /\ rune_start x = false).
  { intros x H. unfold rune_start, is_cont, in_range in *. lia. }
  destruct (in_range 194 223 c) eqn:E2; [|destruct (in_range 224 239 c) eqn:E3; [|destruct (in_range 240 244 c) eqn:E4]].
  - destruct t as [|b1 [|]]; try now destruct (Err D).
    + destruct (is_cont b1) eqn:C1; [|now destruct (Err D)]. destruct (Cl b1 C1) as [L1 S1].
      cbn [rev app]. unfold decode_last_rune_rev. rewrite L1, (Rs 194 223) by (auto; lia). cbv zeta. cbn [firstn rev app].
      rewrite D0. reflexivity.
    + destruct (is_cont b1); [|now destruct (Err D)]. injection D as _ El. discriminate.
  - destruct t as [|b1 [|b2 [|]]]; try now destruct (Err D).
    + cbv zeta in D.
      destruct (in_range (if c =? 224 then 160 else 128) (if c =? 237 then 159 else 191) b1 && is_cont b2) eqn:C; [|now destruct (Err D)].
      apply andb_true_iff in C as [C1 C2]. apply Cs in C1; [|destruct (c =? 224); lia|destruct (c =? 237); lia].
      destruct (Cl b1 C1) as [L1 S1]. destruct (Cl b2 C2) as [L2 S2].
      cbn [rev app]. unfold decode_last_rune_rev. rewrite L2, S1, (Rs 224 239) by (auto; lia). cbv zeta. cbn [firstn rev app].
      rewrite D0. reflexivity.
    + cbv zeta in D. destruct (_ && _); [|now destruct (Err D)]. injection D as _ El. discriminate.
  - destruct t as [|b1 [|b2 [|b3 [|]]]]; try now destruct (Err D).
    + cbv zeta in D.
      destruct (in_range (if c =? 240 then 144 else 128) (if c =? 244 then 143 else 191) b1 && is_cont b2 && is_cont b3) eqn:C; [|now destruct (Err D)].
      apply andb_true_iff in C as [C C3]. apply andb_true_iff in C as [C1 C2]. apply Cs in C1; [|destruct (c =? 240); lia|destruct (c =? 244); lia].
      destruct (Cl b1 C1) as [L1 S1]. destruct (Cl b2 C2) as [L2 S2]. destruct (Cl b3 C3) as [L3 S3].
      cbn [rev app]. unfold decode_last_rune_rev. rewrite L3, S2, S1, (Rs 240 244) by (auto; lia). cbv zeta. cbn [firstn rev app].
      rewrite D0. reflexivity.
    + cbv zeta in D. destruct (_ && _); [|now destruct (Err D)]. injection D as _ El. discriminate.
  - now destruct (Err D).
Qed.
Lemma spaces_end s : spaces s -> s <> [] -> is_space_rune (fst (decode_last_rune s)) = true.
Proof.
  intros S N. assert (H : exists y e r, s = y ++ e /\ decode_rune e = (r, List.length e) /\ is_space_rune r = true).
  { induction S as [|e r s D R S IH]; [easy|]. destruct s as [|c s].
    - exists [], e, r. now rewrite app_nil_r.
    - destruct IH as (y & e' & r' & E & H); [easy|]. exists (e ++ y), e', r'. rewrite E, <- app_assoc. auto. }
  destruct H as (y & e & r & -> & D & R). unfold decode_last_rune. rewrite rev_app_distr, (decode_last_valid e r); auto.
Qed.
Lemma visible_last_line s : s <> [] -> is_space_rune (fst (decode_last_rune s)) = false -> trim_left (last (split_on 10 s) []) <> [].
Proof.
  intros N R T. apply trim_left_nil in T. destruct (exists_last (split_on_ne 10 s)) as (ps & p & E). rewrite E, last_last in T.
  assert (Es : exists x, s = x ++ p /\ (p = [] -> x = [] \/ exists x', x = x' ++ [10])).
  { rewrite <- (split_join 10 s), E. destruct ps as [|q ps].
    - exists []. cbn. auto.
    - rewrite join_app by easy. exists (join [10] (q :: ps) ++ [10]). cbn [join]. split; [now rewrite <- app_assoc|].
      intros _. right. now exists (join [10] (q :: ps)). }
  destruct Es as (x & -> & Hp). destruct p as [|c p].
  - rewrite app_nil_r in *. destruct (Hp eq_refl) as [->|[x' ->]]; [easy|]. unfold decode_last_rune in R. rewrite rev_app_distr in R. cbn in R. discriminate.
  - assert (EN : ends_nonspace (x ++ c :: p)) by (intros _; exact R). apply ends_nonspace_suffix in EN. specialize (EN ltac:(easy)).
    rewrite spaces_end in EN by easy. discriminate.
Qed.
