(** Reading the blocks of a page (C64). *)
From Coq Require Import List NArith ZArith Bool String Lia ZifyBool ZifyNat ZifyN.
From Verif Require Import Bytes BytesFacts TextUtils TextFacts TextFacts2 RenderText RenderFacts RenderFacts2 RenderFacts4 RenderFacts5 Escape SpecEscape
  SpecText SpecText2 SpecPlain SpecBlocks BlockFacts0 BlockFacts2 BlockFacts3 BlockFacts5 BlockFacts6.
Import ListNotations.
Open Scope N_scope.
Open Scope list_scope.

Section reader.
Context {TT : Type}.
Notation block := (gblock TT).
Variable decode : bytes -> TT.
Notation read_lines := (SpecBlocks.read_lines decode).
Notation plain_line := (BlockFacts3.plain_line decode).
Notation head_line := (BlockFacts3.head_line decode).
Notation good := (BlockFacts3.good decode).
Notation goods := (BlockFacts3.goods decode).
Notation good_items := (BlockFacts3.good_items decode).
Definition after (fs : list bytes) : list bytes := match fs with [] => [] | _ => [] :: split_on 10 (join [10; 10] fs) end.
Lemma split_join2 w fs : split_on 10 (join [10; 10] (w :: fs)) = split_on 10 w ++ after fs.
Proof.
  destruct fs as [|x fs]; [cbn; now rewrite app_nil_r|]. change (join [10; 10] (w :: x :: fs)) with (w ++ [10] ++ [] ++ [10] ++ join [10; 10] (x :: fs)).
  rewrite !split_on_app10. reflexivity.
Qed.
Lemma first_facts c u : c <> 32 -> c <> 9 -> blank (c :: u) = false /\ indented 0 (c :: u) = false /\ skip_spaces (c :: u) = c :: u.
Proof.
  intros N1 N2. unfold blank. cbn [forallb indented skip_spaces Nat.leb orb]. replace (c =? 32) with false by lia. replace (c =? 9) with false by lia. auto.
Qed.
Lemma tabs_id s : ~ In 9 s -> thematic_break_tabs s = thematic_break s.
Proof. intros N. unfold thematic_break_tabs. f_equal. rewrite <- (map_id s) at 2. apply map_ext_in. intros c I. destruct (c =? 9) eqn:E; auto. apply N.eqb_eq in E. subst. contradiction. Qed.
Lemma keep_last u c : c <> 32 -> c <> 9 -> drop_last_blanks (u ++ [c]) = u ++ [c].
Proof. intros N1 N2. unfold drop_last_blanks. rewrite rev_app_distr. cbn. replace (c =? 32) with false by lia. replace (c =? 9) with false by lia. cbn. now rewrite rev_involutive. Qed.
Lemma comment_not c u : c <> 60 -> comment_line (c :: u) = false.
Proof. intros N. unfold comment_line. change (b "<!--") with [60; 33; 45; 45]. cbn [has_prefix]. replace (60 =? c) with false by lia. reflexivity. Qed.
Lemma digits_run_drop s : s = digits_run s ++ drop_digits s.
Proof. induction s as [|c s IH]; auto. cbn. destruct (is_digit c); auto. cbn [app]. now rewrite <- IH. Qed.
Lemma skip_blank t : (1 <= List.length t - List.length (skip_spaces t))%nat -> exists u, t = 32 :: u.
Proof. destruct t as [|c t]; cbn [skip_spaces]; [cbn; lia|]. destruct (c =? 32) eqn:E; [apply N.eqb_eq in E; subst; eauto|lia]. Qed.
Lemma plain_no_item c t : c <> 32 -> bullet_item (c :: t) = false -> ordered_item (c :: t) = false -> item_start (c :: t) = None.
Proof.
  intros C Bi Oi. unfold item_start. cbn [skip_spaces]. replace (c =? 32) with false by lia. destruct (marker (c :: t)) as [[[n d] r]|] eqn:M; auto. cbv zeta.
  destruct (Nat.leb 1 (List.length r - List.length (skip_spaces r))) eqn:L; [|reflexivity]. apply Nat.leb_le in L. apply skip_blank in L as (u & ->). exfalso.
  cbn [marker] in M. destruct ((c =? 45) || (c =? 43) || (c =? 42)) eqn:Q.
  - injection M as <- <- ->. unfold bullet_item in Bi. rewrite Q in Bi. discriminate Bi.
  - cbv zeta in M. pose proof (digits_run_drop t) as Et. cbn [digits_run] in M. destruct (is_digit c) eqn:Dc; [|cbn [digits_value skipn List.length is_empty negb andb] in M; discriminate].
    destruct (digits_value 0 (c :: digits_run t)); [|discriminate]. cbn [List.length skipn] in M. rewrite Et in M at 2. rewrite skipn_app, skipn_all, Nat.sub_diag in M. cbn [app skipn] in M.
    unfold ordered_item in Oi. rewrite Dc in Oi. destruct (drop_digits t) as [|e r]; [discriminate|]. destruct (_ && _ && _) eqn:K in M; [|discriminate]. injection M as _ -> ->. apply andb_true_iff in K as [_ K].
    unfold item_delimiter in Oi. rewrite K in Oi. discriminate Oi.
Qed.
Lemma read_para f o v r : plain_line o v -> forall u e, continued r = ([], u, e) -> 
  read_lines (S f) (o :: r) = (match u with Some k => Heading k v | None => Paragraph v end) :: read_lines f e.
Proof.
  intros (N10 & (c & t & Eo & C1 & C2) & (t2 & c2 & Eo2 & D1 & D2) & R & _ & N9 & Q1 & Q2 & Q3 & Q4) u e Ec.
  destruct (first_facts c t C1 C2) as (F1 & F2 & F3). cbn [SpecBlocks.read_lines]. rewrite <- Eo in F1, F2, F3. pose proof Q4 as Q5. unfold unread in Q5. rewrite !orb_false_iff in Q5. destruct Q5 as [[[[_ B1] B2] _] B3].
  assert (Cm : comment_line o = false) by (rewrite Eo in *; apply comment_not; intros ->; discriminate B3).
  assert (It : item_start o = None) by (rewrite Eo in *; now apply plain_no_item).
  rewrite F1, F2, F3, tabs_id, Q1, Q2, Q3, Cm, It, Q4, Ec by auto.
  change (join [10] [o]) with (o ++ []) || cbn [join]. rewrite ?app_nil_r. rewrite Eo2, keep_last, <- Eo2, R by auto. reflexivity.
Qed.
Lemma run_rep k z : first_is 35 z = false -> run_length 35 (repeat 35 k ++ z) = k /\ drop_run 35 (repeat 35 k ++ z) = z.
Proof.
  intros F. induction k as [|k [IH1 IH2]]; cbn [repeat app].
  - destruct z as [|c z]; auto. cbn in F |- *. now rewrite F.
  - cbn [run_length drop_run]. change (35 =? 35) with true. cbn iota. now rewrite IH1, IH2.
Qed.
Lemma hashes_ok z : (forall n, hashes n (32 :: z) = true) /\ forall k n, (k <= n)%nat -> hashes n (repeat 35 k ++ 32 :: z) = true.
Proof.
  assert (A : forall n, hashes n (32 :: z) = true) by (intros [|n]; reflexivity). split; auto.
  induction k as [|k IH]; intros n L; cbn [repeat app]; auto. destruct n as [|n]; [lia|]. cbn [hashes]. change (35 =? 35) with true. cbn iota. apply IH. lia.
Qed.
Lemma under_ok c n : underline_rest c (repeat c n) = true.
Proof. induction n as [|n IH]; auto. cbn. now rewrite N.eqb_refl. Qed.
Lemma read_atx f k o v r : (1 <= k <= 6)%nat -> head_line o v -> read_lines (S f) ((repeat 35 k ++ 32 :: o) :: r) = Heading k v :: read_lines f r.
Proof.
  intros K (N10 & (c & t & Eo & C1 & C2) & Ends & R & _ & N9). destruct k as [|k]; [lia|]. 
  assert (F : blank (35 :: repeat 35 k ++ 32 :: o) = false /\ indented 0 (35 :: repeat 35 k ++ 32 :: o) = false /\ skip_spaces (35 :: repeat 35 k ++ 32 :: o) = 35 :: repeat 35 k ++ 32 :: o) by (apply first_facts; discriminate).
  destruct F as (F1 & F2 & F3). cbn [repeat app SpecBlocks.read_lines]. rewrite F1, F2, F3.
  assert (T : thematic_break_tabs (35 :: repeat 35 k ++ 32 :: o) = false) by reflexivity. rewrite T.
  assert (A : atx_heading (35 :: repeat 35 k ++ 32 :: o) = true). { cbn [atx_heading]. change (35 =? 35) with true. cbn [andb]. apply hashes_ok. lia. }
  rewrite A. destruct (run_rep (S k) (32 :: o) eq_refl) as [R1 R2]. change (repeat 35 (S k) ++ 32 :: o) with (35 :: repeat 35 k ++ 32 :: o) in R1, R2. rewrite R1.
  f_equal. f_equal. unfold atx_text. rewrite R2. assert (E1 : drop_blanks (32 :: o) = o).
  { rewrite Eo. cbn. replace (c =? 32) with false by lia. replace (c =? 9) with false by lia. reflexivity. }
  rewrite E1. destruct Ends as [(t2 & c2 & E2 & D1 & D2 & D3)|(t2 & E2)].
  - rewrite E2, keep_last by auto. unfold drop_closing. rewrite rev_app_distr. cbn [rev app drop_run]. replace (c2 =? 35) with false by lia. replace (c2 =? 32) with false by lia. replace (c2 =? 9) with false by lia. cbn [orb]. now rewrite <- E2.
  - rewrite E2. change [92; 35] with ([92] ++ [35]). rewrite app_assoc, keep_last by discriminate. unfold drop_closing. rewrite !rev_app_distr. cbn [rev app drop_run]. change (35 =? 35) with true. change (92 =? 35) with false. cbn iota.
    change ((92 =? 32) || (92 =? 9)) with false. cbn iota. rewrite <- app_assoc. cbn [app]. now rewrite <- E2.
Qed.
Lemma read_rule f r rest : rule_line r = true -> read_lines (S f) (r :: rest) = Rule :: read_lines f rest.
Proof.
  intros R. destruct (rule_chars r R) as (A & (c & t & -> & C) & _). assert (C9 : c <> 9) by (specialize (A c (or_introl eq_refl)); lia).
  destruct (first_facts c t C C9) as (F1 & F2 & F3). cbn [SpecBlocks.read_lines]. rewrite F1, F2, F3, tabs_id; [|intros J; apply A in J; lia].
  unfold rule_line in R. apply andb_true_iff in R as [R _]. apply andb_true_iff in R as [R _]. now rewrite R.
Qed.
Lemma read_code f g i c rest : g = 96 \/ g = 126 -> forallb letter_or_digit i = true ->
  read_lines (S f) ((calculate_code_fence g c ++ i) :: split_on 10 c ++ calculate_code_fence g c :: rest) = Code i c :: read_lines f rest.
Proof.
  intros G I. assert (Hg : g < 128) by (destruct G; subst; reflexivity).
  assert (Hln : forall l, In l (split_on 10 c) -> closes_fence g (List.length (calculate_code_fence g c)) l = false).
  { intros l Il. destruct (closes_fence _ _ _) eqn:C; [|reflexivity]. apply closes_fence_run in C.
    destruct (split_infix _ _ _ Il) as (x & y & E). apply (has_run_in _ _ _ _ _ _ E) in C. apply code_fence_longer in C; [lia|easy]. }
  destruct (fence_of g c G) as (n & En & Ln). rewrite En in *. rewrite repeat_length in Hln.
  assert (Ix : forall y, In y i -> y <> g /\ y <> 96). { intros y J. rewrite forallb_forall in I. apply I in J. unfold letter_or_digit, in_range in J. destruct G; lia. }
  assert (Fi : first_is g i = false) by (destruct i as [|y i]; auto; cbn; destruct (Ix y (or_introl eq_refl)); lia).
  destruct n as [|[|[|n]]]; try lia. cbn [repeat app SpecBlocks.read_lines].
  assert (C1 : g <> 32) by (destruct G; lia). assert (C2 : g <> 9) by (destruct G; lia).
  set (r3 := repeat g n ++ i). destruct (first_facts g (g :: g :: r3) C1 C2) as (F1 & F2 & F3). rewrite F1, F2, F3.
  assert (T : thematic_break_tabs (g :: g :: g :: r3) = false) by (destruct G; subst g; reflexivity). rewrite T.
  assert (T2 : atx_heading (g :: g :: g :: r3) = false) by (destruct G; subst g; reflexivity). rewrite T2.
  assert (T3 : fence_starts (g :: g :: g :: r3) = true).
  { unfold fence_starts. replace (code_fence (g :: g :: g :: r3)) with true by (destruct G; subst g; reflexivity). cbn [andb first_is]. destruct (g =? 96) eqn:Eg; cbn [negb]; auto. apply N.eqb_eq in Eg.
    change (g :: g :: g :: r3) with (repeat g (3 + n) ++ i). rewrite <- Eg, drop_run_repeat, drop_run_first by easy. rewrite Eg. cbn [andb]. apply negb_true_iff.
    destruct (existsb (N.eqb 96) i) eqn:Ex; [|reflexivity]. apply existsb_exists in Ex as (z & Iz & Ez). apply Ix in Iz. lia. }
  rewrite T3. cbn [hd].
  assert (Rf : read_fenced g ((g :: g :: g :: r3) :: split_on 10 c ++ (g :: g :: g :: repeat g n) :: rest) = Some (i, split_on 10 c, rest)).
  { change (g :: g :: g :: r3) with (repeat g (3 + n) ++ i). change (g :: g :: g :: repeat g n) with (repeat g (3 + n)).
    unfold read_fenced. rewrite run_length_repeat, drop_run_repeat, run_length_first, drop_run_first, Nat.add_0_r by easy.
    replace (Nat.leb 3 (3 + n)) with true by (symmetry; apply Nat.leb_le; lia).
    assert (E : ((g =? 96) && existsb (N.eqb 96) i) = false).
    { destruct (existsb (N.eqb 96) i) eqn:Ex; [|apply andb_false_r]. apply existsb_exists in Ex as (z & Iz & Ez). apply Ix in Iz. lia. }
    rewrite E. cbn [andb negb]. rewrite fence_body_lines; [reflexivity|easy|lia]. }
  rewrite Rf. now rewrite split_join.
Qed.
(** ** Blank lines *)
Lemma weight_app x y : weight (x ++ y) = (weight x + weight y)%nat.
Proof. induction x as [|l x IH]; auto. cbn [app weight fold_right]. fold (weight (x ++ y)). fold (weight x). rewrite IH. lia. Qed.
Lemma weight_cons l x : weight (l :: x) = S (List.length l + weight x).
Proof. reflexivity. Qed.
Lemma weight_blanks m : weight (repeat [] m) = m.
Proof. induction m as [|m IH]; auto. cbn [repeat]. rewrite weight_cons, IH. reflexivity. Qed.
Definition reads (R : list bytes) (C : list block) : Prop := forall g, (weight R < g)%nat -> read_lines g R = C.
Lemma reads_nil : reads [] [].
Proof. intros [|g] L; [cbn in L; lia|reflexivity]. Qed.
Lemma reads_blanks m R C : reads R C -> reads (repeat [] m ++ R) C.
Proof.
  intros H. induction m as [|m IH]; auto. intros [|g] L; [lia|]. cbn [repeat app] in *. rewrite weight_cons in L. cbn [List.length] in L. change (read_lines g (repeat [] m ++ R) = C). apply IH. lia.
Qed.
Definition rest_ok (R : list bytes) : Prop := R = [] \/ exists c u R', R = (c :: u) :: R' /\ c <> 32 /\ c <> 9.
Lemma continued_rest m R : (R <> [] -> (1 <= m)%nat) -> continued (repeat [] m ++ R) = ([], None, repeat [] m ++ R).
Proof. intros H. destruct m as [|m]; [|reflexivity]. destruct R; [reflexivity|]. specialize (H ltac:(discriminate)). lia. Qed.
Lemma rest_more w R : (1 <= w)%nat -> rest_ok R -> item_more w R = ([], R).
Proof.
  intros L [-> |(c & u & R' & -> & C1 & C2)]; auto. destruct w; [lia|]. cbn [item_more repeat has_prefix]. replace (32 =? c) with false by lia. cbn [andb].
  destruct (first_facts c u C1 C2) as (F & _). now rewrite F.
Qed.
Lemma has_prefix_app p s : has_prefix p (p ++ s) = true.
Proof. induction p as [|c p IH]; auto. cbn. now rewrite N.eqb_refl. Qed.
Lemma more_blanks w m R : (1 <= w)%nat -> rest_ok R -> item_more w (repeat [] m ++ R) = (repeat [] m, R).
Proof. intros L O. induction m as [|m IH]; [now apply rest_more|]. cbn [repeat app item_more]. destruct w; [lia|]. cbn [repeat has_prefix]. change (blank []) with true. cbn iota. now rewrite IH. Qed.
Lemma more_lines w t m R : (1 <= w)%nat -> rest_ok R -> item_more w (map (app (repeat 32 w)) t ++ repeat [] m ++ R) = (t ++ repeat [] m, R).
Proof.
  intros L O. induction t as [|l t IH]; [now apply more_blanks|]. cbn [map app item_more]. rewrite has_prefix_app, IH. f_equal. f_equal. rewrite skipn_app, repeat_length, Nat.sub_diag.
  rewrite skipn_all2 by (rewrite repeat_length; lia). reflexivity.
Qed.
(** ** Items *)
Lemma prefix_first d num p : prefix_ok d num p -> exists c u, p = c :: u /\ (c = 45 \/ c = 43 \/ c = 42 \/ 48 <= c <= 57) /\ (2 <= List.length p)%nat.
Proof.
  unfold prefix_ok. destruct num as [n|].
  - intros (_ & ds & -> & _ & Ln & F). destruct ds as [|c ds]; [cbn in Ln; lia|]. exists c, (ds ++ [46; 32]). split; auto. cbn [forallb] in F. apply andb_true_iff in F as [F _]. unfold is_digit, in_range in F.
    split; [lia|]. cbn [app List.length]. rewrite app_length. cbn [List.length]. lia.
  - intros (-> & D). exists d, [32]. split; auto. cbn [List.length]. split; lia.
Qed.
Lemma digits_run_all ds z : forallb is_digit ds = true -> digits_run (ds ++ 46 :: z) = ds.
Proof. induction ds as [|c ds IH]; auto. cbn [forallb app digits_run]. intros H. apply andb_true_iff in H as [-> H]. now rewrite IH. Qed.
Lemma prefix_item d num p c u : prefix_ok d num p -> c <> 32 -> c <> 9 -> item_start (p ++ c :: u) = Some (num, d, List.length p, c :: u).
Proof.
  intros P C1 C2. destruct (first_facts c u C1 C2) as (Fb & _ & Fs). unfold item_start.
  assert (M : marker (skip_spaces (p ++ c :: u)) = Some (num, d, 32 :: c :: u)).
  { destruct (prefix_first _ _ _ P) as (e & q & Ep & E & _). assert (Sk : skip_spaces (p ++ c :: u) = p ++ c :: u) by (rewrite Ep; cbn [app skip_spaces]; replace (e =? 32) with false by lia; reflexivity). rewrite Sk.
    unfold prefix_ok in P. destruct num as [n|].
    - destruct P as (-> & ds & -> & V & Ln & F). rewrite <- app_assoc. cbn [app]. destruct ds as [|e' ds]; [cbn in Ln; lia|]. cbn [app marker].
      assert (E' : 48 <= e' <= 57) by (cbn [forallb] in F; apply andb_true_iff in F as [F _]; unfold is_digit, in_range in F; lia).
      replace ((e' =? 45) || (e' =? 43) || (e' =? 42)) with false by lia. cbv zeta. change (e' :: ds ++ 46 :: 32 :: c :: u) with ((e' :: ds) ++ 46 :: 32 :: c :: u). rewrite digits_run_all by auto. rewrite V.
      rewrite skipn_app, skipn_all, Nat.sub_diag. cbn [app skipn is_empty negb andb]. replace (Nat.leb (List.length (e' :: ds)) 9) with true by (symmetry; apply Nat.leb_le; lia). reflexivity.
    - destruct P as (-> & D). cbn [app marker]. replace ((d =? 45) || (d =? 43) || (d =? 42)) with true by lia. reflexivity. }
  rewrite M. cbv zeta. assert (S1 : skip_spaces (32 :: c :: u) = c :: u) by (change (skip_spaces (32 :: c :: u)) with (skip_spaces (c :: u)); auto). rewrite S1.
  assert (K : (List.length (32%N :: c :: u) - List.length (c :: u) = 1)%nat) by (cbn [List.length]; lia). rewrite K, Fb. cbn [Nat.leb andb negb first_is]. replace (c =? 9) with false by lia. cbn [negb].
  repeat f_equal. rewrite app_length. lia.
Qed.
Lemma break_chars c : forall s n, break_rest c n s = true -> ~ In 10 s -> forall x, In x s -> x = c \/ x = 32.
Proof.
  induction s as [|d s IH]; intros n B Q x I; [contradiction|]. cbn [break_rest] in B. destruct (d =? c) eqn:D; [destruct I as [<-|I]; [lia|]|destruct (d =? 32) eqn:D2; [destruct I as [<-|I]; [lia|]|]].
  - eapply IH; eauto. intros J. apply Q. now right.
  - eapply IH; eauto. intros J. apply Q. now right.
  - exfalso. apply andb_true_iff in B as [B _]. apply Q. left. lia.
Qed.
Lemma nb_thematic d num p h : prefix_ok d num p -> nb num d h -> ~ In 10 h -> thematic_break_tabs (p ++ h) = false.
Proof.
  intros P N N10. unfold thematic_break_tabs. unfold prefix_ok in P. destruct num as [n|].
  - destruct P as (_ & ds & -> & _ & Ln & F). destruct ds as [|e ds]; [cbn in Ln; lia|]. cbn [app map forallb] in *. apply andb_true_iff in F as [F _]. unfold is_digit, in_range in F.
    replace (e =? 9) with false by lia. unfold thematic_break. replace ((e =? 45) || (e =? 95) || (e =? 42)) with false by lia. reflexivity.
  - destruct P as (-> & D). cbn [app map]. replace (d =? 9) with false by lia. unfold thematic_break. destruct ((d =? 45) || (d =? 95) || (d =? 42)) eqn:Q; auto. cbn [andb].
    destruct (break_rest _ _ _) eqn:Br; auto. exfalso. destruct N as [N|[-> |(x & I & X1 & X2 & X3)]]; [congruence|discriminate|].
    assert (K : x = d \/ x = 32); [|lia]. apply (break_chars d _ _ Br).
    + intros [J|[J|J]]; [lia|discriminate|]. apply in_map_iff in J as (y & Ey & Iy). destruct (y =? 9); [lia|]. subst. auto.
    + right. right. apply in_map_iff. exists x. split; auto. now replace (x =? 9) with false by lia.
Qed.
Lemma read_item f d num p c u r : prefix_ok d num p -> c <> 32 -> c <> 9 -> nb num d (c :: u) -> ~ In 10 (c :: u) ->
  read_lines (S f) ((p ++ c :: u) :: r) =
    let '(m, rest) := item_more (List.length p) r in
    if lazy ((c :: u) :: m) rest then [Unread]
    else let item := read_lines f ((c :: u) :: m) in
         let others := read_lines f rest in
         match rest, others with
         | l2 :: _, Items n2 items :: bs =>
             match item_start l2 with
             | Some (n', d', _, _) => if same_list num n' d d' then Items num (item :: items) :: bs else Items num [item] :: others
             | None => Items num [item] :: others
             end
         | _, _ => Items num [item] :: others
         end.
Proof.
  intros P C1 C2 N N10. pose proof (prefix_item d num p c u P C1 C2) as It. pose proof (nb_thematic d num p _ P N N10) as Th. destruct (prefix_first _ _ _ P) as (e & q & Ep & E & _).
  set (z := p ++ c :: u) in *. assert (Ez : exists t, z = e :: t) by (unfold z; rewrite Ep; eexists; reflexivity). destruct Ez as (t & Ez). clearbody z. subst z.
  assert (E1 : e <> 32) by lia. assert (E2 : e <> 9) by lia. destruct (first_facts e t E1 E2) as (F1 & F2 & F3).
  assert (A : atx_heading (e :: t) = false) by (cbn [atx_heading]; replace (e =? 35) with false by lia; reflexivity).
  assert (B : fence_starts (e :: t) = false) by (unfold fence_starts, code_fence; cbn [has_prefix]; replace (96 =? e) with false by lia; replace (126 =? e) with false by lia; reflexivity).
  assert (Cm : comment_line (e :: t) = false) by (apply comment_not; lia).
  cbn [SpecBlocks.read_lines]. rewrite F1, F2, F3, Th, A, B, Cm, It. reflexivity.
Qed.
Definition apart_of (R : list bytes) (C : list block) : Prop := R = [] \/ item_start (hd [] R) = None \/ forall n its C', C <> Items n its :: C'.
Section reading.
Variable hr : bytes.
Definition first_ok (ls : list bytes) : Prop := exists c u r, ls = (c :: u) :: r /\ c <> 32 /\ c <> 9.
Lemma good_first : (forall o bs, good hr o bs -> first_ok (split_on 10 o)) /\ (forall al os B, goods hr al os B -> os <> [] -> first_ok (split_on 10 (join [10; 10] os))) /\
  (forall d num ls Bs, good_items hr d num ls Bs -> first_ok ls /\ Forall (fun l => ~ In 10 l) ls).
Proof.
  assert (Fs : forall c t, c <> 10 -> c <> 32 -> c <> 9 -> first_ok (split_on 10 (c :: t))).
  { intros c t N1 N2 N3. cbn [split_on]. replace (c =? 10) with false by lia. destruct (split_on 10 t) as [|y q]; [exists c, [], []|exists c, y, q]; auto. }
  assert (It : forall d num p (fs : list bytes) h t, prefix_ok d num p -> split_on 10 (join [10; 10] fs) = h :: t ->
    first_ok ((p ++ h) :: map (app (repeat 32 (List.length p))) t) /\ Forall (fun l => ~ In 10 l) ((p ++ h) :: map (app (repeat 32 (List.length p))) t)).
  { intros d num p fs h t P E. split.
    - destruct (prefix_first _ _ _ P) as (e & q & -> & D & _). exists e, (q ++ h). eexists. split; [reflexivity|lia].
    - pose proof (split_lines (join [10; 10] fs)) as F. rewrite E in F. inversion F as [|? ? F1 F2]; subst. constructor.
      + rewrite in_app_iff. intros [J|J]; auto. apply (prefix_ascii _ _ _ P) in J. lia.
      + apply Forall_map. eapply Forall_impl; [|exact F2]. intros m M. cbn beta. rewrite in_app_iff. intros [J|J]; auto. apply repeat_spec in J. discriminate. }
  apply good_all.
  - intros o v (N10 & (c & u & -> & C1 & C2) & _). apply Fs; auto. intros ->. apply N10. now left.
  - intros k o v K _. destruct k; [lia|]. cbn [repeat app]. now apply Fs.
  - intros k n o v _ _ (N10 & (c & u & -> & C1 & C2) & _). cbn [app]. apply Fs; auto. intros ->. apply N10. now left.
  - intros R. destruct (rule_chars hr R) as (A & (c & t & -> & C) & _). specialize (A c (or_introl eq_refl)). apply Fs; lia.
  - intros f i c F _ _. destruct (fence_of f c F) as (n & -> & L). destruct n; [lia|]. cbn [repeat app]. apply Fs; destruct F; lia.
  - vm_compute. eexists _, _, _. split; [reflexivity|]. split; discriminate.
  - intros d num ls Bs _ (F & N). destruct F as (c & u & r & -> & C1 & C2). inversion N as [|? ? N1 N2]; subst. 
    assert (E : exists z, join [10] ((c :: u) :: r) = c :: z) by (destruct r; eexists; reflexivity). destruct E as (z & ->). apply Fs; auto. intros ->. apply N1. now left.
  - easy.
  - intros al o bs os B _ F _ _ _ _ _. rewrite split_join2. destruct F as (c & u & r & -> & C). exists c, u. eexists. split; [reflexivity|exact C].
  - intros d num p fs B h t P _ _ _ E _. eauto.
  - intros d num p fs B h t num2 ls Bs P _ _ _ E _ _ _ (_ & N2). destruct (It _ _ _ _ _ _ P E) as ((c & u & r & Er & C) & N1). split; [|apply Forall_app; auto].
    rewrite Er. exists c, u. eexists. split; [reflexivity|exact C].
Qed.
Lemma first_rest ls : first_ok ls -> rest_ok ls.
Proof. intros (c & u & r & -> & C). right. eauto 6. Qed.
Lemma first_app x y : first_ok x -> first_ok (x ++ y).
Proof. intros (c & u & r & -> & C). exists c, u. eexists. split; [reflexivity|exact C]. Qed.
Lemma items_start d num ls Bs : good_items hr d num ls Bs -> exists l r w t, ls = l :: r /\ item_start l = Some (num, d, w, t).
Proof.
  assert (Q : forall al fs B h t, goods hr al fs B -> fs <> [] -> split_on 10 (join [10; 10] fs) = h :: t -> exists c u, h = c :: u /\ c <> 32 /\ c <> 9).
  { intros al fs B h t G N E. apply (proj1 (proj2 good_first)) in G; auto. rewrite E in G. destruct G as (c & u & r & E' & C). injection E' as -> ->. eauto. }
  destruct 1 as [d num p fs B h t P G N E _|d num p fs B h t num2 ls Bs P G N E _ _ _]; destruct (Q _ _ _ _ _ G N E) as (c & u & -> & C1 & C2); eexists _, _, _, _; (split; [reflexivity|]); now apply prefix_item.
Qed.
Lemma item_case d num p fs B h t m R C : prefix_ok d num p -> goods hr false fs B -> fs <> [] -> split_on 10 (join [10; 10] fs) = h :: t -> nb num d h ->
  (forall m, reads (split_on 10 (join [10; 10] fs) ++ repeat [] m) B) -> rest_ok R -> lazy (h :: t ++ repeat [] m) R = false -> reads R C ->
  forall f, (weight (((p ++ h) :: map (app (repeat 32%N (List.length p))) t) ++ repeat [] m ++ R) < f)%nat ->
  read_lines f (((p ++ h) :: map (app (repeat 32 (List.length p))) t) ++ repeat [] m ++ R) =
    match R, C with
    | l2 :: _, Items n2 items :: bs =>
        match item_start l2 with
        | Some (n', d', _, _) => if same_list num n' d d' then Items num (B :: items) :: bs else Items num [B] :: C
        | None => Items num [B] :: C
        end
    | _, _ => Items num [B] :: C
    end.
Proof.
  intros P G Nf E N IH O Lz RC f L. apply (proj1 (proj2 good_first)) in G; auto. pose proof (split_lines (join [10; 10] fs)) as F10. rewrite E in *. destruct G as (c & u & r & E' & C1 & C2). injection E' as -> <-.
  inversion F10 as [|? ? N10 _]; subst. destruct f as [|f]; [lia|]. cbn [app] in *. rewrite (read_item f d num p c u) by auto. destruct (prefix_first _ _ _ P) as (_ & _ & _ & _ & Lp).
  rewrite more_lines by (auto; lia). cbv iota. rewrite Lz. cbv iota zeta.
  rewrite weight_cons, !weight_app, weight_blanks, app_length in L. cbn [List.length] in L.
  assert (Wm : forall k, (weight t <= weight (map (app (repeat 32%N k)) t))%nat) by (intros k; clear; induction t as [|l t IH]; auto; cbn [map]; rewrite !weight_cons, app_length; lia). specialize (Wm (List.length p)).
  assert (R1 : read_lines f ((c :: u) :: t ++ repeat [] m) = B) by (apply (IH m f); cbn [app]; rewrite weight_cons, weight_app, weight_blanks; cbn [List.length]; lia).
  assert (R2 : read_lines f R = C) by (apply RC; lia). rewrite R1, R2. reflexivity.
Qed.
Lemma lazy_end h t m R : (R <> [] -> (1 <= m)%nat) -> lazy (h :: t ++ repeat [] m) R = false.
Proof.
  intros H. unfold lazy. destruct R as [|l R]; [apply andb_false_r|]. specialize (H ltac:(discriminate)). replace m with ((m - 1) + 1)%nat by lia. rewrite repeat_app. cbn [repeat]. rewrite app_comm_cons, app_assoc, last_last. reflexivity.
Qed.
Lemma read_all :
  (forall o bs, good hr o bs -> forall m R C, rest_ok R -> (R <> [] -> (1 <= m)%nat) -> (is_list bs = true -> apart_of R C) -> reads R C -> reads (split_on 10 o ++ repeat [] m ++ R) (bs ++ C)) /\
  (forall al os B, goods hr al os B -> forall m, reads (split_on 10 (join [10; 10] os) ++ repeat [] m) B) /\
  (forall d num ls Bs, good_items hr d num ls Bs -> forall m R C, rest_ok R -> (R <> [] -> (1 <= m)%nat) -> apart_of R C -> reads R C -> reads (ls ++ repeat [] m ++ R) (Items num Bs :: C)).
Proof.
  apply good_all.
  - intros o v P m R C O M _ RC [|f] L; [lia|]. pose proof P as (N10 & _). rewrite single_line in * by auto. cbn [app] in *. rewrite (read_para f o v _ P _ _ (continued_rest m R M)).
    rewrite weight_cons in L. rewrite (reads_blanks m R C RC); auto. lia.
  - intros k o v K P m R C O M _ RC [|f] L; [lia|]. pose proof P as (N10 & _). assert (N : ~ In 10 (repeat 35 k ++ 32 :: o)) by (rewrite in_app_iff; intros [J|[J|J]]; auto; [apply repeat_spec in J|]; discriminate).
    rewrite single_line in * by auto. cbn [app] in *. rewrite read_atx with (v := v) by auto. rewrite weight_cons in L. rewrite (reads_blanks m R C RC); auto. lia.
  - intros k n o v K1 L1 P m R C O M _ RC [|f] L; [lia|]. pose proof P as (N10 & _). set (u := repeat (if Nat.eqb k 1 then 61 else 45) n) in *.
    assert (Nu : ~ In 10 u) by (intros J; apply repeat_spec in J; destruct (Nat.eqb k 1); discriminate).
    rewrite split_nl, (single_line o), (single_line u) in * by auto. cbn [app] in *.
    assert (Cu : continued (u :: repeat [] m ++ R) = ([], Some k, repeat [] m ++ R)).
    { destruct n as [|n]; [lia|]. cbn [continued]. assert (Fu : blank u = false /\ indented 0 u = false /\ skip_spaces u = u) by (unfold u; cbn [repeat]; apply first_facts; destruct (Nat.eqb k 1); discriminate).
      destruct Fu as (F1 & F2 & F3). rewrite F1, F2, F3. assert (Su : setext_underline u = true). { unfold u. cbn [repeat setext_underline]. rewrite under_ok. destruct (Nat.eqb k 1); reflexivity. }
      rewrite Su. cbn [negb andb]. f_equal. f_equal. f_equal. unfold u. cbn [repeat]. destruct K1 as [-> | ->]; reflexivity. }
    rewrite (read_para f o v _ P _ _ Cu). rewrite !weight_cons in L. rewrite (reads_blanks m R C RC); auto. lia.
  - intros Rl m R C O M _ RC [|f] L; [lia|]. assert (N10 : ~ In 10 hr) by (destruct (rule_chars hr Rl) as (A & _); intros J; apply A in J; lia). rewrite single_line in * by auto. cbn [app] in *.
    rewrite read_rule by auto. rewrite weight_cons in L. rewrite (reads_blanks m R C RC); auto. lia.
  - intros g i c Gf I _ m R C O M _ RC [|f] L; [lia|]. destruct (fence_of g c Gf) as (n & En & _). assert (Nf : ~ In 10 (calculate_code_fence g c)) by (rewrite En; intros J; apply repeat_spec in J; destruct Gf; lia).
    assert (Ni : ~ In 10 i) by (intros J; rewrite forallb_forall in I; apply I in J; discriminate).
    assert (Es : split_on 10 (calculate_code_fence g c ++ i ++ 10 :: c ++ 10 :: calculate_code_fence g c) = (calculate_code_fence g c ++ i) :: split_on 10 c ++ [calculate_code_fence g c]).
    { rewrite app_assoc, !split_nl, (single_line (calculate_code_fence g c)), (single_line (calculate_code_fence g c ++ i)) by (auto; rewrite in_app_iff; tauto). reflexivity. }
    rewrite Es in *. cbn [app] in *. rewrite <- app_assoc in *. cbn [app] in *. rewrite read_code by auto. rewrite (reads_blanks m R C RC); auto. rewrite weight_cons, !weight_app, weight_cons, weight_app in L. rewrite weight_app. lia.
  - intros m R C O M _ RC [|f] L; [lia|]. assert (Ec : split_on 10 end_comment_line = [end_comment_line]) by (vm_compute; reflexivity). rewrite Ec in *. cbn [app] in *. rewrite weight_cons in L.
    assert (Rd : read_lines (S f) (end_comment_line :: repeat [] m ++ R) = read_lines f (repeat [] m ++ R)).
    { cbn [SpecBlocks.read_lines]. replace (blank end_comment_line) with false by (vm_compute; reflexivity). replace (indented 0 end_comment_line) with false by (vm_compute; reflexivity).
      replace (skip_spaces end_comment_line) with end_comment_line by (vm_compute; reflexivity). replace (thematic_break_tabs end_comment_line) with false by (vm_compute; reflexivity).
      replace (atx_heading end_comment_line) with false by (vm_compute; reflexivity). replace (fence_starts end_comment_line) with false by (vm_compute; reflexivity).
      replace (comment_line end_comment_line) with true by (vm_compute; reflexivity). reflexivity. }
    rewrite Rd. apply (reads_blanks m R C RC). lia.
  - intros d num ls Bs G IH m R C O M Ap RC. apply (proj2 (proj2 good_first)) in G as ((c & u & r & E & _) & N). assert (Es : split_on 10 (join [10] ls) = ls) by (apply join_split; [rewrite E; discriminate|now apply Forall_forall]).
    rewrite Es. apply IH; auto.
  - intros al m. change (split_on 10 (join [10; 10] [])) with [@nil N]. pose proof (reads_blanks (S m) [] [] reads_nil) as Q. rewrite app_nil_r in Q. exact Q.
  - intros al o bs os B G IHo H1 H2 Gs IHs m. rewrite split_join2. destruct os as [|o2 os].
    + inversion Gs; subst. cbn [after]. rewrite app_nil_r. specialize (IHo m [] []). rewrite !app_nil_r in *. apply IHo; auto using reads_nil; [now left|easy|now left].
    + cbn [after]. set (R := split_on 10 (join [10; 10] (o2 :: os)) ++ repeat [] m). specialize (IHo 1%nat R B). rewrite <- app_assoc. cbn [repeat app] in *. fold R. apply IHo; auto.
      * apply first_rest, first_app. now apply (proj1 (proj2 good_first)) in Gs.
      * intros Lb. unfold apart_of. inversion Gs as [|? ? bs2 ? B2 G2 A1 A2 Gs2]; subst. right. destruct bs2 as [|b2 bs2].
        -- left. unfold R. rewrite split_join2. assert (Eo : o2 = end_comment_line) by (inversion G2; auto). rewrite Eo. vm_compute. reflexivity.
        -- right. intros n its C' EC. cbn [app] in EC. injection EC as -> _. inversion G2; subst. rewrite Lb in A2. discriminate (A2 eq_refl).
      * exact (IHs m).
  - intros d num p fs B h t P G IH Nf E N m R C O M Ap RC f L. rewrite (item_case d num p fs B h t m R C); auto; [|now apply lazy_end].
    destruct Ap as [-> |[Ap|Ap]]; auto.
    + destruct R as [|l2 R]; auto. cbn [hd] in Ap. rewrite Ap. destruct C as [|[] C]; reflexivity.
    + destruct R as [|l2 R]; auto. destruct C as [|[v|k v| |i v|n its|] C]; auto. now elim (Ap n its C).
  - intros d num p fs B h t num2 ls Bs P G IH Nf E N Sk Gi IHi m R C O M Ap RC f L. specialize (IHi m R C O M Ap RC). set (R2 := ls ++ repeat [] m ++ R) in *.
    destruct (items_start _ _ _ _ Gi) as (l2 & r2 & w2 & t2 & El & Is). assert (ER : exists r3, R2 = l2 :: r3) by (unfold R2; rewrite El; eexists; reflexivity).
    assert (O2 : rest_ok R2) by (apply first_rest, first_app; apply (proj2 (proj2 good_first)) in Gi; apply Gi).
    rewrite <- app_assoc in *. fold R2 in L |- *. pose proof (item_case d num p fs B h t 0 R2 (Items num2 Bs :: C) P G Nf E N IH O2) as K. cbn [repeat app] in K. cbn [app] in L |- *. rewrite K; auto.
    + destruct ER as (r3 & ->). rewrite Is. assert (Sl : same_list num num2 d d = true) by (unfold same_kind, same_list in *; destruct num, num2; try contradiction; apply N.eqb_refl). now rewrite Sl.
    + unfold lazy. destruct ER as (r3 & ->). rewrite Is. apply andb_false_r.
Qed.
Lemma read_good al fs B : goods hr al fs B -> read_all_blocks decode (join [10; 10] fs) = B.
Proof. intros G. unfold read_all_blocks. cbv zeta. pose proof (proj1 (proj2 read_all) _ _ _ G 0%nat) as R. cbn [repeat] in R. rewrite app_nil_r in R. apply R. lia. Qed.
End reading.
End reader.
