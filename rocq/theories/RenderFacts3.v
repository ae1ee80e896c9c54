(** Lemmas about titles, image descriptions, list numbers, list items and headings. *)
From Coq Require Import List NArith ZArith Bool Lia ZifyBool ZifyNat ZifyN.
From Verif Require Import Bytes TextUtils RenderText BytesFacts SpecText TextFacts TextFacts2 RenderFacts RenderFacts2.
Import ListNotations.
Open Scope N_scope.
Open Scope list_scope.

(** ** Titles (C26) *)
Lemma stray_cons c s : stray_backslash s -> stray_backslash (c :: s).
Proof. intros (x & [[y ->]| ->]); exists (c :: x); [left; now exists y|now right]. Qed.
(** The chosen quote does not occur in the title. *)
Lemma until_plain q s rest : q <> 92 -> ~ In q s -> forall esc, (esc = true -> s <> []) -> ~ (exists x, s = x ++ [92]) ->
  until_unescaped q esc (s ++ q :: rest) = Some (s, rest).
Proof.
  intros Q. induction s as [|c s IH]; intros I esc E H; cbn [app until_unescaped].
  - destruct esc; [now elim E|]. rewrite N.eqb_refl. reflexivity.
  - assert (H' : ~ (exists x, s = x ++ [92])) by (intros [x ->]; apply H; now exists (c :: x)).
    assert (I' : ~ In q s) by (intros J; apply I; now right).
    destruct esc.
    + rewrite IH; auto. discriminate.
    + replace (c =? q) with false by (symmetry; apply N.eqb_neq; intros ->; apply I; now left).
      rewrite IH; auto. intros E2. apply N.eqb_eq in E2. subst c. intros ->. apply H. now exists [].
Qed.
(** Both quotes occur: double quotes are escaped. *)
Lemma until_escaped s rest : forall esc, (esc = true -> first_is 34 s = false /\ s <> []) -> ~ stray_backslash s ->
  until_unescaped 34 esc (replace_all [34] [92; 34] s ++ 34 :: rest) = Some (replace_all [34] [92; 34] s, rest).
Proof.
  rewrite replace_all_one. induction s as [|c s IH]; intros esc E H; cbn [flat_map app until_unescaped].
  - destruct esc; [now destruct (E eq_refl)|]. reflexivity.
  - assert (H' : ~ stray_backslash s) by (intros S; apply H; now apply stray_cons).
    destruct (c =? 34) eqn:Ec.
    + apply N.eqb_eq in Ec. subst c. destruct esc; [destruct (E eq_refl); discriminate|]. cbn [app until_unescaped].
      change (92 =? 34) with false. change (92 =? 92) with true. cbn iota. rewrite IH; auto. discriminate.
    + cbn [app until_unescaped]. destruct esc.
      * rewrite IH; auto. discriminate.
      * rewrite Ec, IH; auto. intros E2. apply N.eqb_eq in E2. subst c. split.
        -- destruct s as [|d s]; [reflexivity|]. cbn. destruct (d =? 34) eqn:Ed; [|reflexivity]. apply N.eqb_eq in Ed. subst d.
           elim H. exists []. left. now exists s.
        -- intros ->. apply H. exists []. now right.
Qed.
Lemma strip_escaped s : ~ stray_backslash s -> strip_escapes 34 (replace_all [34] [92; 34] s) = s.
Proof.
  rewrite replace_all_one. intros H.
  assert (L : forall n s, (List.length s <= n)%nat -> ~ stray_backslash s -> strip_escapes 34 (flat_map (fun d => if d =? 34 then [92; 34] else [d]) s) = s).
  { clear. induction n as [|n IH]; intros s L H; [destruct s; [reflexivity|cbn in L; lia]|].
    destruct s as [|c s]; [reflexivity|]. cbn [List.length] in L.
    assert (H' : ~ stray_backslash s) by (intros S; apply H; now apply stray_cons).
    cbn [flat_map]. destruct (c =? 34) eqn:Ec.
    - apply N.eqb_eq in Ec. subst c. cbn [app strip_escapes]. change ((92 =? 92) && (34 =? 34)) with true. cbn iota. f_equal. apply IH; [lia|easy].
    - cbn [app]. destruct s as [|d s]; [reflexivity|].
      pose proof (IH (d :: s) ltac:(lia) H') as IHs. cbn [flat_map] in IHs |- *. destruct (d =? 34) eqn:Ed.
      + cbn [app] in IHs |- *. cbn [strip_escapes] in IHs |- *. change (92 =? 34) with false in *. rewrite andb_false_r. f_equal. exact IHs.
      + cbn [app] in IHs |- *. cbn [strip_escapes] in IHs |- *. rewrite Ed, andb_false_r in *. f_equal. exact IHs. }
  apply L with (n := List.length s); [lia|easy].
Qed.
Lemma strip_none q s : ~ In q s -> strip_escapes q s = s.
Proof.
  assert (L : forall n s, (List.length s <= n)%nat -> ~ In q s -> strip_escapes q s = s).
  { induction n as [|n IH]; intros [|c s0] L H; try reflexivity; [cbn in L; lia|]. cbn [strip_escapes]. destruct s0 as [|d s0]; [reflexivity|].
    replace (d =? q) with false by (symmetry; apply N.eqb_neq; intros ->; apply H; right; now left).
    rewrite andb_false_r. f_equal. apply IH; [cbn in *; lia|]. intros I. apply H. now right. }
  intros H. apply L with (n := List.length s); [lia|easy].
Qed.
Lemma quotes_read s rest : s <> [] -> ~ stray_backslash s ->
  exists q inner, (q = 34 \/ q = 39) /\ surround_by_quotes s = [q] ++ inner ++ [q] /\
  read_title (surround_by_quotes s ++ rest) = Some (inner, rest) /\ strip_escapes q inner = s.
Proof.
  intros N H. assert (NE : ~ exists x, s = x ++ [92]) by (intros [x ->]; apply H; exists x; now right).
  unfold surround_by_quotes, surround_by. destruct s as [|c s]; [easy|]. cbn [is_empty]. set (t := c :: s) in *.
  destruct (contains_byte 34 t) eqn:D; cbn [andb]; [destruct (contains_byte 39 t) eqn:S|].
  - exists 34, (replace_all [34] [92; 34] t). split; [now left|]. split; [reflexivity|]. split; [|now apply strip_escaped].
    rewrite <- !app_assoc. cbn [app read_title]. change ((34 =? 34) || (34 =? 39)) with true. cbn iota. apply until_escaped; easy.
  - exists 39, t. split; [now right|]. split; [reflexivity|]. apply contains_byte_false in S. split; [|now apply strip_none].
    rewrite <- !app_assoc. cbn [app read_title]. change ((39 =? 34) || (39 =? 39)) with true. cbn iota. apply until_plain; easy.
  - exists 34, t. split; [now left|]. split; [reflexivity|]. apply contains_byte_false in D. split; [|now apply strip_none].
    rewrite <- !app_assoc. cbn [app read_title]. change ((34 =? 34) || (34 =? 39)) with true. cbn iota. apply until_plain; easy.
Qed.

(** ** Image descriptions (C29) *)
Lemma alt_preceded s : forall p x c y, escape_alt_from p s = x ++ [c] ++ y -> c = 91 \/ c = 93 ->
  (x = [] /\ p = true) \/ last_is 92 x = true.
Proof.
  induction s as [|d s IH]; intros p x c y E C; [now destruct x|]. cbn [escape_alt_from] in E.
  destruct (((d =? 91) || (d =? 93)) && negb p) eqn:B.
  - cbn [app] in E. destruct x as [|x0 x]; [injection E as <- _; destruct C; discriminate|].
    injection E as <- E. destruct x as [|x1 x]; [right; reflexivity|]. injection E as <- E.
    destruct (IH _ _ _ _ E C) as [[-> F]|F].
    + right. unfold last_is. cbn. exact F.
    + right. rewrite !last_is_cons by (destruct x; easy). exact F.
  - cbn [app] in E. destruct x as [|x0 x].
    + injection E as <- _. left. split; [easy|]. destruct p; [easy|]. destruct C; subst; discriminate.
    + injection E as <- E. destruct (IH _ _ _ _ E C) as [[-> F]|F].
      * right. unfold last_is. cbn. exact F.
      * right. rewrite last_is_cons by (destruct x; easy). exact F.
Qed.
Lemma double_cons c s : double_backslash s -> double_backslash (c :: s).
Proof. intros (x & [[y ->]| ->]); exists (c :: x); [left; now exists y|now right]. Qed.
Lemma alt_read s rest : forall p, (p = true -> s <> [] /\ first_is 92 s = false) -> ~ double_backslash s ->
  until_bracket O p (escape_alt_from p s ++ 93 :: rest) = Some (escape_alt_from p s, rest).
Proof.
  induction s as [|c s IH]; intros p P H; cbn [escape_alt_from app until_bracket].
  - destruct p; [now destruct (P eq_refl)|]. reflexivity.
  - assert (H' : ~ double_backslash s) by (intros S; apply H; now apply double_cons).
    assert (Nx : (c =? 92) = true -> s <> [] /\ first_is 92 s = false).
    { intros E. apply N.eqb_eq in E. subst c. split.
      - intros ->. apply H. exists []. now right.
      - destruct s as [|d s]; [reflexivity|]. cbn. destruct (d =? 92) eqn:Ed; [|reflexivity]. apply N.eqb_eq in Ed. subst d.
        elim H. exists []. left. now exists s. }
    destruct p.
    + rewrite andb_false_r. cbn [app until_bracket]. destruct (P eq_refl) as [_ F]. cbn [first_is] in F. rewrite F.
      rewrite IH; [reflexivity|easy|easy].
    + rewrite andb_true_r. destruct ((c =? 91) || (c =? 93)) eqn:B.
      * cbn [app until_bracket]. change (92 =? 93) with false. change (92 =? 91) with false. change (92 =? 92) with true. cbn iota.
        assert ((c =? 92) = false) as -> by lia. rewrite IH; [reflexivity|easy|easy].
      * cbn [app until_bracket]. replace (c =? 93) with false by lia. replace (c =? 91) with false by lia.
        rewrite IH; auto.
Qed.
Lemma alt_strip s : ~ In 92 s -> strip_escapes 91 (strip_escapes 93 (escape_alt s)) = s.
Proof.
  unfold escape_alt. intros H.
  assert (E1 : forall s, ~ In 92 s -> strip_escapes 93 (escape_alt_from false s) = flat_map (fun c => if c =? 91 then [92; c] else [c]) s).
  { clear. induction s as [|c s IH]; intros H; [reflexivity|].
    assert (H' : ~ In 92 s) by (intros I; apply H; now right). assert (Hc : (c =? 92) = false) by (apply N.eqb_neq; intros ->; apply H; now left).
    cbn [escape_alt_from flat_map]. rewrite Hc, andb_true_r. specialize (IH H').
    destruct (c =? 91) eqn:E91; [|destruct (c =? 93) eqn:E93]; cbn [orb app].
    - apply N.eqb_eq in E91. subst c. cbn [strip_escapes]. change ((92 =? 92) && (91 =? 93)) with false. cbn iota. f_equal.
      destruct (escape_alt_from false s) as [|d t] eqn:Et; [cbn in *; now rewrite <- IH|]. change (91 =? 92) with false. cbn [andb]. f_equal. exact IH.
    - apply N.eqb_eq in E93. subst c. cbn [strip_escapes]. change ((92 =? 92) && (93 =? 93)) with true. cbn iota. f_equal. exact IH.
    - cbn [strip_escapes]. destruct (escape_alt_from false s) as [|d t] eqn:Et; [cbn in *; now rewrite <- IH|]. rewrite Hc. cbn [andb]. f_equal. exact IH. }
  assert (E2 : forall s, ~ In 92 s -> strip_escapes 91 (flat_map (fun c => if c =? 91 then [92; c] else [c]) s) = s).
  { clear. induction s as [|c s IH]; intros H; [reflexivity|].
    assert (H' : ~ In 92 s) by (intros I; apply H; now right). assert (Hc : (c =? 92) = false) by (apply N.eqb_neq; intros ->; apply H; now left).
    cbn [flat_map]. specialize (IH H'). destruct (c =? 91) eqn:E.
    - apply N.eqb_eq in E. subst c. cbn [app strip_escapes]. change ((92 =? 92) && (91 =? 91)) with true. cbn iota. f_equal. exact IH.
    - cbn [app strip_escapes]. destruct (flat_map _ s) as [|d t] eqn:Et; [cbn in *; now rewrite <- IH|]. rewrite Hc. cbn [andb]. f_equal. exact IH. }
  rewrite E1 by easy. now apply E2.
Qed.

(** ** Numbers (C30) *)
Lemma dec_digits_app f : forall n acc, dec_digits f n acc = dec_digits f n [] ++ acc.
Proof.
  induction f as [|f IH]; intros n acc; [reflexivity|]. cbn [dec_digits]. destruct (n <? 10); [reflexivity|].
  rewrite (IH _ (_ :: acc)), (IH _ [_]), <- app_assoc. reflexivity.
Qed.
Lemma digits_value_app x y : forall a, digits_value a (x ++ y) = match digits_value a x with Some v => digits_value v y | None => None end.
Proof. induction x as [|c x IH]; intros a; [reflexivity|]. cbn [app digits_value]. destruct (_ && _); [apply IH|reflexivity]. Qed.
Lemma dec_digits_value f : forall n, n < 10 ^ (N.of_nat f) -> (1 <= f)%nat ->
  digits_value 0 (dec_digits f n []) = Some n /\
  (exists L, List.length (dec_digits f n []) = S L /\ n < 10 ^ (N.of_nat (S L)) /\ (L = O \/ 10 ^ (N.of_nat L) <= n)).
Proof.
  induction f as [|f IH]; intros n H Hf; [lia|]. cbn [dec_digits]. destruct (n <? 10) eqn:E.
  - assert (n mod 10 = n) as -> by (apply N.mod_small; lia). split.
    + cbn [digits_value]. unfold digit_byte. replace ((48 <=? 48 + n) && (48 + n <=? 57)) with true by lia. f_equal. lia.
    + exists O. cbn [List.length]. split; [easy|]. split; [cbn; lia|now left].
  - assert (Hq : n / 10 < 10 ^ N.of_nat f).
    { apply N.div_lt_upper_bound; [lia|]. replace (N.of_nat (S f)) with (N.succ (N.of_nat f)) in H by lia. rewrite N.pow_succ_r' in H. exact H. }
    assert (F1 : (1 <= f)%nat) by (destruct f; [cbn in H; lia|lia]).
    rewrite dec_digits_app. destruct (IH _ Hq F1) as [V (L & HL & HU & HB)]. split.
    + rewrite digits_value_app, V. cbn [digits_value]. unfold digit_byte.
      pose proof (N.mod_upper_bound n 10 ltac:(lia)). pose proof (N.div_mod n 10 ltac:(lia)).
      replace ((48 <=? 48 + n mod 10) && (48 + n mod 10 <=? 57)) with true by lia. f_equal. lia.
    + exists (S L). rewrite app_length, HL. cbn [List.length]. split; [lia|]. pose proof (N.div_mod n 10 ltac:(lia)) as DM.
      pose proof (N.mod_upper_bound n 10 ltac:(lia)) as MU. split.
      * replace (N.of_nat (S (S L))) with (N.succ (N.of_nat (S L))) by lia. rewrite N.pow_succ_r'. lia.
      * right. destruct HB as [->|HB].
        -- cbn. lia.
        -- replace (N.of_nat (S L)) with (N.succ (N.of_nat L)) by lia. rewrite N.pow_succ_r'. lia.
Qed.
Lemma itoa_fuel n : n < 10 ^ N.of_nat (S (N.to_nat (N.log2 n))).
Proof.
  replace (N.of_nat (S (N.to_nat (N.log2 n)))) with (N.succ (N.log2 n)) by lia.
  destruct n as [|p]; [reflexivity|]. destruct (N.log2_spec (Npos p) ltac:(lia)) as [_ H].
  eapply N.lt_le_trans; [exact H|]. apply N.pow_le_mono_l. lia.
Qed.
Lemma itoa_value n : digits_value 0 (itoa_N n) = Some n.
Proof. apply dec_digits_value; [apply itoa_fuel|lia]. Qed.
Lemma itoa_length n : exists L, List.length (itoa_N n) = S L /\ n < 10 ^ (N.of_nat (S L)) /\ (L = O \/ 10 ^ (N.of_nat L) <= n).
Proof. apply dec_digits_value; [apply itoa_fuel|lia]. Qed.
Lemma itoa_length_mono n m : n <= m -> (List.length (itoa_N n) <= List.length (itoa_N m))%nat.
Proof.
  intros H. destruct (itoa_length n) as (L & -> & Un & Bn). destruct (itoa_length m) as (M & -> & Um & Bm).
  destruct (Nat.le_gt_cases L M) as [|G]; [lia|]. exfalso. destruct Bn as [->|Bn]; [lia|].
  assert (10 ^ N.of_nat (S M) <= 10 ^ N.of_nat L) by (apply N.pow_le_mono_r; lia). lia.
Qed.
Lemma digits_zeros k s a : a = 0 -> digits_value a (repeat 48 k ++ s) = digits_value 0 s.
Proof. intros ->. induction k as [|k IH]; [reflexivity|]. exact IH. Qed.
Lemma itoa_nonneg z : (0 <= z)%Z -> itoa z = itoa_N (Z.to_N z).
Proof. destruct z; easy. Qed.
Lemma ordered_prefix_spec start n i : (0 <= start)%Z -> (i < n)%nat ->
  exists ds, ordered_prefix start n i = ds ++ [46; 32] /\ digits_value 0 ds = Some (Z.to_N (start + Z.of_nat i)) /\
  List.length ds = List.length (itoa_N (Z.to_N (start + Z.of_nat n - 1))).
Proof.
  intros Hs Hi. unfold ordered_prefix. cbv zeta. rewrite itoa_nonneg by lia. set (w := List.length (itoa_N (Z.to_N (start + Z.of_nat n - 1)))).
  assert (P : pad_int w (start + Z.of_nat i) = let ds := itoa_N (Z.to_N (start + Z.of_nat i)) in repeat 48 (w - List.length ds) ++ ds).
  { unfold pad_int. destruct (start + Z.of_nat i)%Z eqn:E; [reflexivity|reflexivity|lia]. }
  rewrite P. cbv zeta. eexists. split; [reflexivity|]. split.
  - rewrite digits_zeros by easy. apply itoa_value.
  - rewrite app_length, repeat_length. unfold w.
    pose proof (itoa_length_mono (Z.to_N (start + Z.of_nat i)) (Z.to_N (start + Z.of_nat n - 1)) ltac:(lia)). lia.
Qed.
Lemma digits_ascii s : forall a v, digits_value a s = Some v -> Forall (fun c => c < 128) s.
Proof.
  induction s as [|c s IH]; intros a v H; [constructor|]. cbn [digits_value] in H. destruct ((48 <=? c) && (c <=? 57)) eqn:E; [|discriminate].
  constructor; [lia|eauto].
Qed.
Lemma rune_count_ascii s : Forall (fun c => c < 128) s -> rune_count s = List.length s.
Proof.
  unfold rune_count. induction 1 as [|c s H F IH]; [reflexivity|]. change (c :: s) with ([] ++ c :: s). rewrite runes_ascii by easy. cbn [app].
  change (runes []) with (@nil N). cbn [app List.length]. now rewrite IH.
Qed.
Lemma ordered_prefix_width start n i : (0 <= start)%Z -> (i < n)%nat ->
  rune_count (ordered_prefix start n O) = List.length (ordered_prefix start n i).
Proof.
  intros Hs Hi. destruct (ordered_prefix_spec start n i Hs Hi) as (ds & E & V & L).
  destruct (ordered_prefix_spec start n O Hs ltac:(lia)) as (d0 & E0 & V0 & L0).
  rewrite E, E0, rune_count_ascii.
  - rewrite !app_length, L, L0. reflexivity.
  - apply Forall_app. split; [eapply digits_ascii; eauto|]. repeat apply Forall_cons; try apply Forall_nil; lia.
Qed.

(** ** List items (C31) *)
Definition indent_newlines (k : nat) (s : bytes) : bytes := flat_map (fun c => if c =? 10 then c :: repeat 32 k else [c]) s.
Lemma indent_newlines_app k x y : indent_newlines k (x ++ y) = indent_newlines k x ++ indent_newlines k y.
Proof. apply flat_map_app. Qed.
Lemma indent_newlines_split k s : split_on 10 (indent_newlines k s) =
  match split_on 10 s with h :: t => h :: map (app (repeat 32 k)) t | [] => [] end.
Proof.
  assert (Sp : ~ In 10 (repeat 32 k)) by (intros H; apply repeat_in in H; discriminate).
  pose proof (prefix_lines_split (repeat 32 k) s Sp) as H. unfold prefix_lines, cNL in H. fold (indent_newlines k s) in H.
  rewrite split_app_nosep in H by easy. pose proof (split_on_ne 10 (indent_newlines k s)) as N1. pose proof (split_on_ne 10 s) as N2.
  destruct (split_on 10 (indent_newlines k s)) as [|h t]; [easy|]. destruct (split_on 10 s) as [|h' t']; [easy|]. cbn [map] in H.
  injection H as H1 H2. apply app_inv_head in H1. now subst.
Qed.
Lemma post_newline_spaces k x : post_newline (repeat 32 k ++ x) = repeat 32 k ++ post_newline x.
Proof. induction k as [|k IH]; [reflexivity|]. cbn [repeat app]. unfold post_newline in *. rewrite replace_all_cons. cbn [has_prefix marker_nl]. cbn. f_equal. exact IH. Qed.
Lemma marker_prefix_tail new c t : hd 0 new = 239 -> has_prefix marker_nl (c :: t) = false ->
  has_prefix marker_nl (c :: replace_all marker_nl new t) = false.
Proof.
  intros Hn H. cbn [has_prefix marker_nl] in *. destruct (239 =? c) eqn:E; [|reflexivity]. cbn [andb] in *.
  destruct t as [|d t]; [reflexivity|]. rewrite replace_all_cons. destruct (has_prefix marker_nl (d :: t)) eqn:P1.
  { destruct new as [|n0 new]; [discriminate|]. cbn in Hn. subst n0. reflexivity. }
  destruct (128 =? d) eqn:E1; [|reflexivity]. cbn [andb] in *.
  destruct t as [|e t]; [reflexivity|]. rewrite replace_all_cons. destruct (has_prefix marker_nl (e :: t)) eqn:P2.
  { destruct new as [|n0 new]; [discriminate|]. cbn in Hn. subst n0. reflexivity. }
  exact H.
Qed.
Lemma replace_marker new r : replace_all marker_nl new (marker_nl ++ r) = new ++ replace_all marker_nl new r.
Proof. unfold marker_nl at 2. cbn [app]. rewrite replace_all_cons. reflexivity. Qed.
Lemma indent_line k l : ~ In 10 l ->
  post_newline (replace_all marker_nl (marker_nl ++ repeat 32 k) l) = indent_newlines k (post_newline l).
Proof.
  remember (List.length l) as n eqn:L. revert l L. induction n as [n IH] using lt_wf_ind. intros l L H.
  destruct l as [|c t]; [reflexivity|].
  destruct (has_prefix marker_nl (c :: t)) eqn:P.
  - apply has_prefix_iff in P as [r P]. rewrite P, replace_marker, <- app_assoc. unfold post_newline. rewrite !replace_marker.
    fold (post_newline (repeat 32 k ++ replace_all marker_nl (marker_nl ++ repeat 32 k) r)). fold (post_newline r).
    rewrite post_newline_spaces. rewrite (IH (List.length r)); [reflexivity| |easy|].
    + subst n. rewrite P, app_length. cbn. lia.
    + intros I. apply H. rewrite P, in_app_iff. now right.
  - rewrite (replace_all_cons marker_nl (marker_nl ++ _)), P. unfold post_newline at 2. rewrite replace_all_cons, P. fold (post_newline t).
    unfold post_newline at 1. rewrite replace_all_cons, marker_prefix_tail by easy.
    fold (post_newline (replace_all marker_nl (marker_nl ++ repeat 32 k) t)).
    rewrite (IH (List.length t)); [|subst n; cbn; lia|easy|intros I; apply H; now right].
    unfold indent_newlines at 2. cbn [flat_map]. replace (c =? 10) with false by (symmetry; apply N.eqb_neq; intros ->; apply H; now left). reflexivity.
Qed.
Lemma indent_item_eq content k : post_newline (indent_item content k) = indent_newlines k (post_newline content).
Proof.
  unfold indent_item. cbv zeta. unfold cNL, cSP. rewrite <- (split_join 10 content) at 2.
  assert (H : forall l, In l (split_on 10 content) -> ~ In 10 l) by (intros l; apply split_nosep).
  pose proof (split_on_ne 10 content) as N. induction (split_on 10 content) as [|l ls IH]; [easy|]. destruct ls as [|m ls].
  - cbn [map join]. apply indent_line. apply H. now left.
  - remember (m :: ls) as ms. assert (Nm : ms <> []) by now subst. cbn [map]. rewrite !join_cons by (auto; now destruct ms).
    change ((10 :: repeat 32 k) ++ ?z) with ([10] ++ (repeat 32 k ++ z)). rewrite !post_newline_sep, post_newline_spaces.
    rewrite IH by (auto; intros x I; apply H; now right). rewrite !indent_newlines_app.
    rewrite indent_line by (apply H; now left). f_equal. unfold indent_newlines at 2. cbn [flat_map app]. change (10 =? 10) with true.
    cbn [app]. now rewrite app_nil_r.
Qed.
Lemma indent_item_lines content k : split_on 10 (post_newline (indent_item content k)) =
  match split_on 10 (post_newline content) with h :: t => h :: map (app (repeat 32 k)) t | [] => [] end.
Proof. rewrite indent_item_eq. apply indent_newlines_split. Qed.
