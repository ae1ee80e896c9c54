(** Lemmas about code blocks and code spans. *)
From Coq Require Import List NArith ZArith Bool Lia ZifyBool ZifyNat ZifyN.
From Verif Require Import Bytes TextUtils RenderText BytesFacts SpecText TextFacts TextFacts2.
Import ListNotations.
Open Scope N_scope.
Open Scope list_scope.

(** ** Runs *)
Lemma run_length_repeat f n s : run_length f (repeat f n ++ s) = (n + run_length f s)%nat.
Proof. induction n as [|n IH]; [reflexivity|]. cbn [repeat app run_length]. rewrite N.eqb_refl, IH. reflexivity. Qed.
Lemma drop_run_repeat f n s : drop_run f (repeat f n ++ s) = drop_run f s.
Proof. induction n as [|n IH]; [reflexivity|]. cbn [repeat app drop_run]. now rewrite N.eqb_refl. Qed.
Lemma run_length_first f s : first_is f s = false -> run_length f s = O.
Proof. destruct s; cbn; [easy|]. now intros ->. Qed.
Lemma drop_run_first f s : first_is f s = false -> drop_run f s = s.
Proof. destruct s; cbn; [easy|]. now intros ->. Qed.
Lemma run_split f s : s = repeat f (run_length f s) ++ drop_run f s.
Proof.
  induction s as [|c s IH]; [reflexivity|]. cbn [run_length drop_run]. destruct (c =? f) eqn:E; [|reflexivity].
  apply N.eqb_eq in E. subst c. cbn [repeat app]. now rewrite <- IH.
Qed.
Lemma has_run_infix f k s : infix (repeat f k) s <-> has_run f k s.
Proof. reflexivity. Qed.
Lemma has_run_le f k j s : (j <= k)%nat -> has_run f k s -> has_run f j s.
Proof.
  intros L (x & y & ->). exists x, (repeat f (k - j) ++ y). replace k with (j + (k - j))%nat at 1 by lia.
  now rewrite repeat_app, <- app_assoc.
Qed.
Lemma has_run_in f k l s x y : s = x ++ l ++ y -> has_run f k l -> has_run f k s.
Proof. intros -> (p & q & ->). exists (x ++ p), (q ++ y). now rewrite !app_assoc. Qed.
Lemma closes_fence_run f n line : closes_fence f n line = true -> has_run f n line.
Proof.
  unfold closes_fence. intros H. apply andb_true_iff in H as [_ H]. apply andb_true_iff in H as [H _]. apply Nat.leb_le in H.
  apply has_run_le with (k := run_length f (drop_run 32 line)); [easy|].
  exists (repeat 32 (run_length 32 line)), (drop_run f (drop_run 32 line)). now rewrite <- run_split, <- run_split.
Qed.

(** ** Code blocks (C21) *)
Lemma fence_body_lines f n ls rest : (forall l, In l ls -> closes_fence f n l = false) -> f <> 32 ->
  fence_body f n (ls ++ repeat f n :: rest) = Some (ls, rest).
Proof.
  intros H F. induction ls as [|l ls IH]; cbn [app fence_body].
  - assert (C : closes_fence f n (repeat f n) = true).
    { unfold closes_fence. assert (first_is 32 (repeat f n) = false) as E.
      { destruct n; [reflexivity|]. cbn. now apply N.eqb_neq. }
      rewrite run_length_first, drop_run_first by easy. pose proof (run_length_repeat f n []) as R1. pose proof (drop_run_repeat f n []) as R2.
      rewrite app_nil_r in R1, R2. rewrite R1, R2. cbn. rewrite Nat.add_0_r, Nat.leb_refl. reflexivity. }
    now rewrite C.
  - rewrite (H l ltac:(now left)). rewrite IH; [reflexivity|]. intros l' I. apply H. now right.
Qed.
Lemma repeat_in {A} (x y : A) n : In y (repeat x n) -> y = x.
Proof. induction n; cbn; [easy|]. intros [->|I]; auto. Qed.
Lemma split_lines f n info code rest : f <> 10 -> ~ In 10 info ->
  split_on 10 (repeat f n ++ info ++ [10] ++ code ++ [10] ++ repeat f n ++ [10] ++ rest) =
  (repeat f n ++ info) :: split_on 10 code ++ repeat f n :: split_on 10 rest.
Proof.
  intros F I. assert (Fn : ~ In 10 (repeat f n)) by (intros H; apply repeat_in in H; congruence).
  assert (S1 : forall x, ~ In 10 x -> split_on 10 x = [x]).
  { intros x Hx. rewrite <- (app_nil_r x) at 1. rewrite split_app_nosep by easy. cbn. now rewrite app_nil_r. }
  rewrite (app_assoc (repeat f n) info), !split_on_app10. rewrite (S1 (repeat f n ++ info)), (S1 (repeat f n)); auto.
  rewrite in_app_iff. tauto.
Qed.
Lemma read_block f info code rest : f = 96 \/ f = 126 -> ~ In 10 info -> first_is f info = false -> (f = 96 -> ~ In 96 info) ->
  read_fenced f (split_on 10 (calculate_code_fence f code ++ info ++ [10] ++ code ++ [10] ++ calculate_code_fence f code ++ [10] ++ rest))
  = Some (info, split_on 10 code, split_on 10 rest).
Proof.
  intros F I Fi B. assert (Hf : f < 128) by (destruct F; subst; reflexivity).
  assert (Hl : forall l, In l (split_on 10 code) -> closes_fence f (List.length (calculate_code_fence f code)) l = false).
  { intros l Il. destruct (closes_fence _ _ _) eqn:C; [|reflexivity]. apply closes_fence_run in C.
    destruct (split_infix _ _ _ Il) as (x & y & E). apply (has_run_in _ _ _ _ _ _ E) in C.
    apply code_fence_longer in C; [lia|easy]. }
  unfold calculate_code_fence in *. rewrite repeat_length in Hl. set (n := Nat.max 3 _) in *.
  assert (3 <= n)%nat by (unfold n; lia). clearbody n.
  rewrite split_lines; [|destruct F; subst; easy|easy].
  unfold read_fenced. rewrite run_length_repeat, drop_run_repeat, run_length_first, drop_run_first, Nat.add_0_r by easy.
  replace (Nat.leb 3 n) with true by (symmetry; apply Nat.leb_le; lia).
  assert (((f =? 96) && existsb (N.eqb 96) info) = false) as ->.
  { destruct (f =? 96) eqn:E; [|reflexivity]. apply N.eqb_eq in E. specialize (B E). cbn.
    destruct (existsb (N.eqb 96) info) eqn:Ex; [|reflexivity]. apply existsb_exists in Ex as (z & Iz & Ez). apply N.eqb_eq in Ez. now subst z. }
  cbn [andb negb]. rewrite fence_body_lines; [reflexivity|easy|]. destruct F; subst; easy.
Qed.
Lemma post_newline_sep x y : post_newline (x ++ [10] ++ y) = post_newline x ++ [10] ++ post_newline y.
Proof. unfold post_newline. apply replace_all_sep; [cbn; intuition discriminate|easy]. Qed.
Lemma no_marker_repeat f n : f = 96 \/ f = 126 -> ~ infix marker_nl (repeat f n).
Proof.
  intros F (x & y & E). assert (I : In 239 (repeat f n)) by (rewrite E; rewrite in_app_iff; right; now left).
  apply repeat_in in I. destruct F; subst; discriminate.
Qed.
Lemma post_newline_id s : ~ infix marker_nl s -> post_newline s = s.
Proof. intros H. now apply replace_none. Qed.
Lemma block_code_final fopt info code rest : hd 96 fopt = 96 \/ hd 96 fopt = 126 -> ~ infix marker_nl info -> ~ infix marker_nl code ->
  let f := hd 96 fopt in let code' := drop_last_newline code in
  post_newline (block_code_text fopt info code ++ rest) =
  [10; 10] ++ calculate_code_fence f code' ++ info ++ [10] ++ code' ++ [10] ++ calculate_code_fence f code' ++ [10; 10] ++ post_newline rest.
Proof.
  intros F Hi Hc f code'. unfold block_code_text. fold f. fold code'. cbv zeta. unfold cNL.
  set (fence := calculate_code_fence f code').
  assert (Hc' : ~ infix marker_nl code').
  { intros (x & y & E). apply Hc. unfold code', drop_last_newline in E. destruct (has_suffix [cNL] code) eqn:Sx.
    - apply has_suffix_iff in Sx as [r ->]. rewrite removelast_last in E. subst r. exists x, (y ++ [10]). now rewrite <- !app_assoc.
    - now exists x, y. }
  change ([10; 10] ++ fence ++ info ++ [10] ++ replace_all [10] marker_nl code' ++ [10] ++ fence ++ [10; 10])
    with ([] ++ [10] ++ ([] ++ [10] ++ (fence ++ info ++ [10] ++ (replace_all [10] marker_nl code' ++ [10] ++ fence ++ [10; 10])))).
  rewrite <- !app_assoc. rewrite !app_nil_l.
  change ([10] ++ [10] ++ fence ++ info ++ [10] ++ replace_all [10] marker_nl code' ++ [10] ++ fence ++ [10; 10] ++ rest)
    with ([] ++ [10] ++ ([] ++ [10] ++ (fence ++ info ++ [10] ++ (replace_all [10] marker_nl code' ++ [10] ++ (fence ++ [10] ++ ([] ++ [10] ++ rest)))))).
  rewrite (post_newline_sep []), (post_newline_sep []), (app_assoc fence info), !post_newline_sep.
  rewrite (post_newline_id (fence ++ info)), (post_newline_id fence).
  - change (post_newline []) with (@nil N). unfold post_newline at 1. rewrite marker_back by easy. rewrite <- !app_assoc. reflexivity.
  - apply no_marker_repeat. exact F.
  - (* a marker in fence ++ info would lie in info *)
    intros (x & y & E). unfold fence, calculate_code_fence in E. set (n := Nat.max 3 _) in E. clearbody n.
    apply Hi. clear - E F. assert (Ff : f = 96 \/ f = 126) by exact F. clearbody f. revert x E. induction n as [|n IH]; intros x E; [now exists x, y|].
    destruct x as [|c x]; cbn [repeat app] in E; injection E as -> E; [destruct Ff; discriminate|]. eauto.
Qed.

(** ** Code spans (C22) *)
Lemma find_close_run n k cur rest : (cur + k = n)%nat -> first_is 96 rest = false -> find_close n cur (repeat 96 k ++ rest) = Some ([], rest).
Proof.
  revert cur. induction k as [|k IH]; intros cur E F; cbn [repeat app].
  - rewrite Nat.add_0_r in E. subst cur. destruct rest as [|c rest]; cbn [find_close].
    + now rewrite Nat.eqb_refl.
    + cbn in F. rewrite F. now rewrite Nat.eqb_refl.
  - cbn [find_close]. change (96 =? 96) with true. cbn iota. apply IH; [lia|easy].
Qed.
Lemma last_is_cons c d s : s <> [] -> last_is c (d :: s) = last_is c s.
Proof.
  intros N. unfold last_is. cbn [rev]. destruct (rev s) as [|e r] eqn:E; [|reflexivity].
  elim N. rewrite <- (rev_involutive s), E. reflexivity.
Qed.
Lemma find_close_spec n s : forall cur rest, (s = [] -> cur = O) -> last_is 96 s = false -> ~ has_run 96 n (repeat 96 cur ++ s) -> (1 <= n)%nat ->
  first_is 96 rest = false -> find_close n cur (s ++ repeat 96 n ++ rest) = Some (repeat 96 cur ++ s, rest).
Proof.
  induction s as [|c s IH]; intros cur rest C L H Hn F.
  - rewrite (C eq_refl). cbn [app repeat]. apply find_close_run; [lia|easy].
  - cbn [app find_close]. destruct (c =? 96) eqn:E.
    + apply N.eqb_eq in E. subst c.
      assert (Sn : s <> []) by (intros ->; discriminate).
      rewrite IH; auto.
      * rewrite <- repeat_snoc, <- app_assoc. reflexivity.
      * easy.
      * now rewrite last_is_cons in L.
      * rewrite <- repeat_snoc, <- app_assoc. exact H.
    + assert (Hc : (cur < n)%nat).
      { destruct (Nat.lt_ge_cases cur n) as [|G]; [easy|]. exfalso. apply H. apply has_run_le with (k := cur); [easy|]. now exists [], (c :: s). }
      replace (Nat.eqb cur n) with false by (symmetry; apply Nat.eqb_neq; lia).
      rewrite IH; auto.
      * destruct s; [reflexivity|]. now rewrite last_is_cons in L.
      * cbn [repeat app]. intros R. apply H. apply (has_run_in 96 n s _ (repeat 96 cur ++ [c]) []); [|easy].
        now rewrite app_nil_r, <- app_assoc.
Qed.

(** Collapsing inline code. *)
Definition to_space (c : N) : N := if (c =? 10) || (c =? 9) then 32 else c.
Lemma collapse_inline_code_eq s : collapse_inline_code s = squeeze_spaces false (trim_space (map to_space s)).
Proof.
  unfold collapse_inline_code. rewrite !replace_one_map, map_map. do 2 f_equal. apply map_ext. intros c.
  unfold to_space, cNL, cTAB, cSP. destruct (c =? 10) eqn:E; cbn; [reflexivity|]. reflexivity.
Qed.
(** Replacing some of the ASCII white space by spaces does not move the boundaries of characters or of white space. *)
Definition blank_map (g : N -> N) : Prop := forall c, g c = c \/ (9 <= c <= 13 /\ g c = 32).
Lemma to_space_map : blank_map to_space.
Proof. intros c. unfold to_space. destruct ((c =? 10) || (c =? 9)) eqn:E; [right; lia|now left]. Qed.
Section BlankMap.
Variable g : N -> N.
Hypothesis Hg : blank_map g.
Lemma bm_id x : 128 <= x -> g x = x.
Proof. intros H. destruct (Hg x) as [E|[E _]]; [easy|lia]. Qed.
Lemma bm_small x : x < 128 -> g x < 128.
Proof. intros H. destruct (Hg x) as [E|[E1 E]]; rewrite E; lia. Qed.
Lemma bm_range lo hi x : 128 <= lo -> in_range lo hi (g x) = in_range lo hi x.
Proof. intros H. destruct (Hg x) as [E|[E1 E]]; rewrite E; [easy|]. unfold in_range. lia. Qed.
Lemma decode_to_space s : decode_rune (map g s) = (g (fst (decode_rune s)), snd (decode_rune s)).
Proof.
  destruct s as [|c t]; [cbn; now rewrite bm_id|]. pose proof (decode_rune_spec c t) as Sp. cbn [map].
  destruct (decode_rune (c :: t)) as [r n] eqn:D. cbn [fst snd]. destruct Sp as [(L & -> & ->)|(L & Lr & Ln & Fn)].
  - unfold decode_rune. replace (g c <? 128) with true; [reflexivity|]. pose proof (bm_small c L). lia.
  - rewrite (bm_id c L), (bm_id r Lr). rewrite <- D.
    assert (Hr : forall lo hi x, 128 <= lo -> in_range lo hi (g x) = in_range lo hi x) by apply bm_range.
    assert (Hi : forall lo hi x, 128 <= lo -> in_range lo hi x = true -> g x = x) by (intros lo hi x Hlo Hx; apply bm_id; unfold in_range in Hx; lia).
    assert (Hc : forall x, is_cont (g x) = is_cont x) by (intros x; apply Hr; lia).
    assert (Hci : forall x, is_cont x = true -> g x = x) by (intros x; apply Hi; lia).
    unfold decode_rune. replace (c <? 128) with false by lia.
    destruct (in_range 194 223 c); [|destruct (in_range 224 239 c); [|destruct (in_range 240 244 c); [|reflexivity]]].
    + destruct t as [|b1 t]; cbn [map]; [reflexivity|]. rewrite Hc. destruct (is_cont b1) eqn:C1; [|reflexivity]. now rewrite (Hci b1 C1).
    + destruct t as [|b1 [|b2 t]]; cbn [map]; try reflexivity. cbv zeta. rewrite Hc, Hr by (destruct (c =? 224); lia).
      destruct (in_range (if c =? 224 then 160 else 128) (if c =? 237 then 159 else 191) b1) eqn:C1; [|reflexivity].
      destruct (is_cont b2) eqn:C2; [|reflexivity]. cbn [andb].
      rewrite (Hi (if c =? 224 then 160 else 128) _ b1 ltac:(destruct (c =? 224); lia) C1), (Hci b2 C2). reflexivity.
    + destruct t as [|b1 [|b2 [|b3 t]]]; cbn [map]; try reflexivity. cbv zeta. rewrite !Hc, Hr by (destruct (c =? 240); lia).
      destruct (in_range (if c =? 240 then 144 else 128) (if c =? 244 then 143 else 191) b1) eqn:C1; [|reflexivity].
      destruct (is_cont b2) eqn:C2; [|reflexivity]. destruct (is_cont b3) eqn:C3; [|reflexivity]. cbn [andb].
      rewrite (Hi (if c =? 240 then 144 else 128) _ b1 ltac:(destruct (c =? 240); lia) C1), (Hci b2 C2), (Hci b3 C3). reflexivity.
Qed.
Lemma is_space_to_space r : is_space_rune (g r) = is_space_rune r.
Proof.
  destruct (Hg r) as [E|[E1 E]]; rewrite E; [easy|]. unfold is_space_rune, in_range. lia.
Qed.
Lemma trim_left_to_space s : forall k, trim_left_from k (map g s) = map g (trim_left_from k s).
Proof.
  induction s as [|c t IH]; intros k; [reflexivity|]. destruct k as [|k]; [|apply IH].
  cbn [map trim_left_from]. pose proof (decode_to_space (c :: t)) as D. cbn [map] in D. rewrite D.
  destruct (decode_rune (c :: t)) as [r n]. cbn [fst snd]. rewrite is_space_to_space. destruct (is_space_rune r); [apply IH|reflexivity].
Qed.
Lemma decode_last_to_space s : decode_last_rune_rev (map g s) = (g (fst (decode_last_rune_rev s)), snd (decode_last_rune_rev s)).
Proof.
  assert (Ee : g rune_error = rune_error) by (apply bm_id; unfold rune_error; lia).
  destruct s as [|c t]; [cbn; now rewrite Ee|]. cbn [map]. unfold decode_last_rune_rev.
  destruct (c <? 128) eqn:E.
  { replace (g c <? 128) with true; [reflexivity|]. pose proof (bm_small c). lia. }
  assert (Ec : g c = c) by (apply bm_id; lia).
  rewrite !Ec, E. cbv zeta.
  assert (Hs : forall x, rune_start (g x) = rune_start x).
  { intros x. unfold rune_start, is_cont. now rewrite bm_range. }
  assert (Try : forall k, (let '(r, n) := decode_rune (rev (firstn k (c :: map g t))) in if Nat.eqb n k then (r, k) else (rune_error, 1%nat)) =
     (let p := (let '(r, n) := decode_rune (rev (firstn k (c :: t))) in if Nat.eqb n k then (r, k) else (rune_error, 1%nat)) in (g (fst p), snd p))).
  { intros k. rewrite <- Ec at 1. change (g c :: map g t) with (map g (c :: t)). rewrite firstn_map, <- map_rev, decode_to_space.
    destruct (decode_rune (rev (firstn k (c :: t)))) as [r n]. cbn [fst snd]. destruct (Nat.eqb n k); cbn [fst snd]; now rewrite ?Ee. }
  destruct t as [|c1 t]; [cbn [map fst snd]; now rewrite Ee|]. cbn [map]. rewrite Hs. destruct (rune_start c1); [apply (Try 2%nat)|].
  destruct t as [|c2 t]; [cbn [map fst snd]; now rewrite Ee|]. cbn [map]. rewrite Hs. destruct (rune_start c2); [apply (Try 3%nat)|].
  destruct t as [|c3 t]; [cbn [map fst snd]; now rewrite Ee|]. cbn [map]. rewrite Hs. destruct (rune_start c3); [apply (Try 4%nat)|cbn [fst snd]; now rewrite Ee].
Qed.
Lemma trim_right_to_space s : forall k, trim_right_rev_from k (map g s) = map g (trim_right_rev_from k s).
Proof.
  induction s as [|c t IH]; intros k; [reflexivity|]. destruct k as [|k]; [|apply IH].
  cbn [map trim_right_rev_from]. pose proof (decode_last_to_space (c :: t)) as D. cbn [map] in D. rewrite D.
  destruct (decode_last_rune_rev (c :: t)) as [r n]. cbn [fst snd]. rewrite is_space_to_space. destruct (is_space_rune r); [apply IH|reflexivity].
Qed.
Lemma trim_space_to_space s : trim_space (map g s) = map g (trim_space s).
Proof.
  unfold trim_space, trim_right, trim_left. rewrite trim_left_to_space, <- map_rev, trim_right_to_space, map_rev. reflexivity.
Qed.
End BlankMap.
Lemma squeeze_in b s c : In c (squeeze_spaces b s) -> In c s.
Proof.
  revert b. induction s as [|d s IH]; intros b0 H; [easy|]. cbn [squeeze_spaces] in H.
  destruct (d =? cSP); [destruct b0|]; cbn [In] in *; try (destruct H as [H|H]; [auto|]); eauto.
Qed.
Lemma squeeze_first s c : first_is 32 s = false -> first_is c (squeeze_spaces false s) = first_is c s.
Proof. destruct s as [|d s]; [easy|]. cbn [squeeze_spaces first_is]. unfold cSP. intros ->. reflexivity. Qed.
Lemma squeeze_snoc s d : d <> 32 -> forall p, squeeze_spaces p (s ++ [d]) = squeeze_spaces p s ++ [d].
Proof.
  intros D. induction s as [|c s IH]; intros p; cbn [app squeeze_spaces].
  - unfold cSP. now replace (d =? 32) with false by lia.
  - destruct (c =? cSP); [destruct p|]; now rewrite IH.
Qed.
Lemma last_is_snoc c s d : last_is c (s ++ [d]) = (d =? c).
Proof. unfold last_is. now rewrite rev_app_distr. Qed.
Lemma squeeze_last s c : last_is 32 s = false -> last_is c (squeeze_spaces false s) = last_is c s.
Proof.
  intros H. destruct s as [|x s] using rev_ind; [reflexivity|]. rewrite last_is_snoc in H. apply N.eqb_neq in H.
  rewrite squeeze_snoc by easy. now rewrite !last_is_snoc.
Qed.
Lemma trim_space_first s : first_is 32 (trim_space s) = false.
Proof.
  pose proof (trim_space_starts s) as H. destruct (trim_space s) as [|c t]; [reflexivity|]. specialize (H ltac:(easy)).
  cbn [first_is]. destruct (c =? 32) eqn:E; [|reflexivity]. apply N.eqb_eq in E. subst c. discriminate.
Qed.
Lemma trim_space_last s : last_is 32 (trim_space s) = false.
Proof.
  pose proof (trim_space_ends s) as H. destruct (trim_space s) as [|c t _] using rev_ind; [reflexivity|].
  specialize (H ltac:(destruct t; discriminate)). rewrite last_is_snoc. unfold decode_last_rune in H. rewrite rev_app_distr in H.
  destruct (c =? 32) eqn:E; [|reflexivity]. apply N.eqb_eq in E. subst c. discriminate.
Qed.
Lemma inline_first s : first_is 32 (collapse_inline_code s) = false.
Proof. rewrite collapse_inline_code_eq, squeeze_first; apply trim_space_first. Qed.
Lemma inline_last s : last_is 32 (collapse_inline_code s) = false.
Proof. rewrite collapse_inline_code_eq, squeeze_last; apply trim_space_last. Qed.
Lemma inline_no_newline s : ~ In 10 (collapse_inline_code s).
Proof.
  rewrite collapse_inline_code_eq. intros H. apply squeeze_in in H. rewrite (trim_space_to_space _ to_space_map) in H.
  apply in_map_iff in H as (x & E & _). unfold to_space in E. destruct (x =? 10) eqn:E1; cbn in E; [discriminate|].
  destruct (x =? 9); [discriminate|]. subst x. discriminate.
Qed.
Lemma inline_nonempty s : trim_space s <> [] -> collapse_inline_code s <> [].
Proof.
  rewrite collapse_inline_code_eq, (trim_space_to_space _ to_space_map). intros N. destruct (trim_space s) as [|c t]; [easy|]. cbn.
  destruct (to_space c =? cSP); discriminate.
Qed.
Lemma has_run_space f k s : f <> 32 -> (1 <= k)%nat -> has_run f k (32 :: s) -> has_run f k s.
Proof.
  intros F K (x & y & E). destruct x as [|c x].
  - destruct k as [|k]; [lia|]. cbn in E. injection E as E _. congruence.
  - cbn [app] in E. injection E as _ E. now exists x, y.
Qed.
Lemma has_run_rev f k s : has_run f k s -> has_run f k (rev s).
Proof.
  intros (x & y & ->). exists (rev y), (rev x). rewrite !rev_app_distr, <- app_assoc. f_equal. f_equal.
  clear. induction k as [|k IH]; [reflexivity|]. cbn [repeat rev]. rewrite IH. apply repeat_snoc.
Qed.
Lemma has_run_space_end f k s : f <> 32 -> (1 <= k)%nat -> has_run f k (s ++ [32]) -> has_run f k s.
Proof.
  intros F K H. apply has_run_rev in H. rewrite rev_app_distr in H. cbn [rev app] in H. apply has_run_space in H; auto.
  apply has_run_rev in H. now rewrite rev_involutive in H.
Qed.
(** What stands between the delimiters. *)
Definition padded (code : bytes) : bytes :=
  (if first_is 96 code then [32] else []) ++ code ++ (if last_is 96 code then [32] else []).
Lemma has_suffix_last c s : has_suffix [c] s = last_is c s.
Proof. unfold has_suffix, last_is. cbn [rev app]. destruct (rev s); cbn; [reflexivity|]. now rewrite andb_true_r, N.eqb_sym. Qed.
Lemma has_prefix_first c s : has_prefix [c] s = first_is c s.
Proof. destruct s; cbn; [reflexivity|]. now rewrite andb_true_r, N.eqb_sym. Qed.
Lemma inline_code_shape code : trim_space code <> [] ->
  let c := collapse_inline_code code in
  inline_code_text code = repeat 96 (S (code_fence_occurrences 96 c)) ++ padded c ++ repeat 96 (S (code_fence_occurrences 96 c)).
Proof.
  intros H c. unfold inline_code_text. destruct (trim_space code) eqn:E; [easy|]. cbn [is_empty]. fold c. cbv zeta.
  rewrite has_suffix_last, has_prefix_first. f_equal. f_equal. unfold padded, cSP.
  assert (N : c <> []) by (apply inline_nonempty; now rewrite E).
  destruct (first_is 96 c); [rewrite last_is_cons by easy|]; destruct (last_is 96 c); cbn [app]; now rewrite ?app_nil_r.
Qed.
Lemma padded_no_run c : ~ has_run 96 (S (code_fence_occurrences 96 c)) (padded c).
Proof.
  intros H. assert (R : has_run 96 (S (code_fence_occurrences 96 c)) c).
  { unfold padded in H. destruct (first_is 96 c), (last_is 96 c); cbn [app] in H; rewrite ?app_nil_r in H; auto.
    - apply has_run_space in H; [|easy|lia]. apply has_run_space_end in H; [easy|easy|lia].
    - apply has_run_space in H; [easy|easy|lia].
    - apply has_run_space_end in H; [easy|easy|lia]. }
  apply occurrences_run in R; [lia|reflexivity].
Qed.
Lemma padded_last c : last_is 96 (padded c) = false.
Proof.
  unfold padded. destruct (last_is 96 c) eqn:E.
  - rewrite app_assoc, last_is_snoc. reflexivity.
  - rewrite app_nil_r. destruct (first_is 96 c); [|exact E]. cbn [app]. destruct c; [reflexivity|]. now rewrite last_is_cons.
Qed.
Lemma padded_first c : first_is 96 (padded c) = false \/ padded c = [].
Proof.
  unfold padded. destruct (first_is 96 c) eqn:E; [now left|]. destruct c as [|d c]; [now right|]. left. exact E.
Qed.
Lemma inline_code_read code rest : trim_space code <> [] -> first_is 96 rest = false ->
  read_code_span (inline_code_text code ++ rest) = Some (span_content (padded (collapse_inline_code code)), rest).
Proof.
  intros H F. rewrite inline_code_shape by easy. cbv zeta. set (c := collapse_inline_code code). set (n := code_fence_occurrences 96 c).
  assert (N : c <> []) by now apply inline_nonempty.
  assert (Pn : padded c <> []) by (unfold padded; destruct (first_is 96 c); destruct c; easy).
  unfold read_code_span. rewrite <- !app_assoc, run_length_repeat, drop_run_repeat.
  assert (first_is 96 (padded c ++ repeat 96 (S n) ++ rest) = false) as F2.
  { destruct (padded_first c) as [P|P]; [|easy]. destruct (padded c); [easy|]. exact P. }
  rewrite run_length_first, drop_run_first, Nat.add_0_r by easy.
  rewrite find_close_spec; [reflexivity|easy|apply padded_last|apply padded_no_run|lia|easy].
Qed.
Lemma span_content_padded c : c <> [] -> ~ In 10 c -> first_is 32 c = false -> last_is 32 c = false ->
  span_content (padded c) = if Bool.eqb (first_is 96 c) (last_is 96 c) then c else padded c.
Proof.
  intros N I F L. assert (M : forall x, ~ In 10 x -> map (fun c => if c =? 10 then 32 else c) x = x).
  { induction x as [|d x IH]; intros Hx; [reflexivity|]. cbn [map]. rewrite IH by (intros G; apply Hx; now right).
    destruct (d =? 10) eqn:E; [|reflexivity]. apply N.eqb_eq in E. elim Hx. now left. }
  unfold span_content. rewrite M by (unfold padded; rewrite !in_app_iff; intros [G|[G|G]]; [destruct (first_is 96 c)|auto|destruct (last_is 96 c)]; cbn in G; intuition discriminate).
  unfold padded. destruct (first_is 96 c) eqn:E1, (last_is 96 c) eqn:E2; cbn [Bool.eqb app].
  - change (32 =? 32) with true. rewrite rev_app_distr. cbn [rev app andb]. change (32 =? 32) with true.
    rewrite removelast_last. destruct c as [|d c]; [easy|]. cbn [first_is] in F. unfold all_spaces. cbn [forallb app].
    assert (F' : (32 =? d) = false) by (rewrite N.eqb_sym; exact F). rewrite F'. cbn [andb]. rewrite andb_false_r. reflexivity.
  - change (32 =? 32) with true. unfold last_is in L. rewrite app_nil_r. unfold first_is in L. rewrite L. reflexivity.
  - destruct c as [|d c]; [easy|]. cbn [first_is app] in *. rewrite F. reflexivity.
  - rewrite app_nil_r. destruct c as [|d c]; [easy|]. cbn [first_is] in F. rewrite F. reflexivity.
Qed.
