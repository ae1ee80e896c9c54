(** The reader of formatting on what is written for the parts of a paragraph (C67). *)
From Coq Require Import List NArith ZArith Bool String Lia ZifyBool ZifyNat ZifyN.
From Verif Require Import Bytes BytesFacts Escape SpecEscape Dom SpecDom RenderText RenderFacts SpecText SpecText2 SpecUrl Engine CommonMark SpecPipeline SpecNode SpecPlain SpecBlocks SpecInline.
Import ListNotations.
Open Scope N_scope.
Open Scope list_scope.

(** What is written for a text: some characters have a backslash before them. *)
Inductive shown_as : bytes -> bytes -> Prop :=
| sa_nil : shown_as [] []
| sa_char c t o : quiet_char c = true -> c <> 60 -> shown_as t o -> shown_as (c :: t) (c :: o)
| sa_escape c t o : quiet_char c = true -> ascii_punct c = true -> shown_as t o -> shown_as (c :: t) (92 :: c :: o)
| sa_lt t o : shown_as t o -> shown_as (60 :: t) (38 :: 108 :: 116 :: 59 :: o)
| sa_gt t o : shown_as t o -> shown_as (62 :: t) (38 :: 103 :: 116 :: 59 :: o).
Lemma quiet_not c d : quiet_char c = true -> In d [0; 7; 9; 10; 11; 12; 13; 38; 42; 91; 92; 93; 95; 96] -> c <> d.
Proof.
  unfold quiet_char. intros Q I ->. apply negb_true_iff in Q. assert (E : existsb (N.eqb d) [0; 7; 9; 10; 11; 12; 13; 38; 42; 91; 92; 93; 95; 96] = true).
  { apply existsb_exists. exists d. split; auto. apply N.eqb_refl. }
  rewrite E in Q. discriminate.
Qed.
Lemma shown_nil t : shown_as t [] -> t = [].
Proof. inversion 1. reflexivity. Qed.
Lemma shown_first t c o : shown_as t (c :: o) -> c <> 91 /\ c <> 42 /\ c <> 95 /\ c <> 96 /\ c <> 32 \/ exists u, t = 32 :: u /\ c = 32.
Proof.
  inversion 1 as [|? ? ? Q|? ? ? Q| |]; subst; try (left; repeat split; discriminate).
  destruct (N.eq_dec c 32) as [->|]; [right; eauto|left]. repeat split; auto; eapply quiet_not; eauto; cbn; tauto.
Qed.

(** What is written for a text outside emphasis: a star or underscore without a backslash is followed by a space. *)
Inductive busy_as : bytes -> bytes -> Prop :=
| ba_nil : busy_as [] []
| ba_char c t o : busy_char c = true -> c <> 60 -> c <> 42 -> c <> 91 -> c <> 92 -> c <> 95 -> c <> 96 -> busy_as t o -> busy_as (c :: t) (c :: o)
| ba_escape c t o : busy_char c = true -> ascii_punct c = true -> busy_as t o -> busy_as (c :: t) (92 :: c :: o)
| ba_star c t o : c = 42 \/ c = 95 -> (exists u, drop_run c o = 32 :: u) -> busy_as t o -> busy_as (c :: t) (c :: o)
| ba_lt t o : busy_as t o -> busy_as (60 :: t) (38 :: 108 :: 116 :: 59 :: o)
| ba_gt t o : busy_as t o -> busy_as (62 :: t) (38 :: 103 :: 116 :: 59 :: o).
Lemma busy_not c d : busy_char c = true -> In d [0; 7; 9; 10; 11; 12; 13; 38] -> c <> d.
Proof.
  unfold busy_char. intros Q I ->. apply negb_true_iff in Q. assert (E : existsb (N.eqb d) [0; 7; 9; 10; 11; 12; 13; 38] = true).
  { apply existsb_exists. exists d. split; auto. apply N.eqb_refl. }
  rewrite E in Q. discriminate.
Qed.
Lemma quiet_busy c : quiet_char c = true -> busy_char c = true.
Proof. unfold quiet_char, busy_char. cbn [existsb]. lia. Qed.
Lemma shown_busy t o : shown_as t o -> busy_as t o.
Proof.
  induction 1 as [|c t o Q N S IH|c t o Q P S IH|t o S IH|t o S IH]; [constructor|apply ba_char|apply ba_escape|now apply ba_lt|now apply ba_gt]; auto using quiet_busy;
    apply (quiet_not c); auto; cbn; tauto.
Qed.
Lemma busy_nil t : busy_as t [] -> t = [].
Proof. inversion 1. reflexivity. Qed.
Lemma busy_first t c o : busy_as t (c :: o) -> c <> 91 /\ c <> 96 /\ c <> 9 /\ c <> 10 /\ (c <> 42 /\ c <> 95 \/ exists u, t = c :: u) /\ (c = 32 -> exists u, t = 32 :: u).
Proof.
  intros S. inversion S as [|? u ? Q|? ? ? Q|? u ? C| |]; subst.
  - assert (N9 := busy_not c 9 Q ltac:(cbn; tauto)). assert (N10 := busy_not c 10 Q ltac:(cbn; tauto)). split; [easy|]. split; [easy|]. split; [easy|]. split; [easy|]. split; [now left|]. intros ->. eauto.
  - repeat (split; [discriminate|]). split; [left; split; discriminate|discriminate].
  - destruct C as [-> | ->]; repeat (split; [discriminate|]); (split; [right; eauto|discriminate]).
  - repeat (split; [discriminate|]). split; [left; split; discriminate|discriminate].
  - repeat (split; [discriminate|]). split; [left; split; discriminate|discriminate].
Qed.
Lemma busy_run c k : c = 42 \/ c = 95 -> forall t o, busy_as t (repeat c k ++ o) -> exists u, t = repeat c k ++ u /\ busy_as u o.
Proof.
  intros C. induction k as [|k IH]; intros t o S; [exists t; auto|]. cbn [repeat app] in S.
  inversion S as [|? ? ? ? ? ? ? ? ? ? S1|? ? ? ? ? S1|? ? ? ? ? S1|? ? S1|? ? S1]; subst; try (destruct C; congruence). 
  destruct (IH _ _ S1) as (u & -> & S2). exists u. split; auto.
Qed.

Section tokens.
Variables wb wa : bytes -> class.
Variable edge : class.
Variable link_read : bytes -> option styled.
Notation tokens := (tokens wb wa edge link_read).
Notation before_class := (before_class wb edge).
Notation after_class := (after_class wa edge).
Lemma tokens_skip u : forall done s, tokens (List.length u) done (u ++ s) = tokens 0 (rev u ++ done) s.
Proof.
  induction u as [|c u IH]; intros done s; [reflexivity|]. cbn [List.length app SpecInline.tokens]. rewrite IH. cbn [rev]. now rewrite <- app_assoc.
Qed.
Lemma chars_cons c f s : chars ((c, f) :: s) = Char c f :: chars s.
Proof. reflexivity. Qed.
Lemma tokens_text t o : shown_as t o -> forall done rest, (last t 42 = 33 -> first_is 91 rest = false) ->
  tokens 0 done (o ++ rest) = chars (in_format unformatted t) ++ tokens 0 (rev o ++ done) rest.
Proof.
  induction 1 as [|c t o Q N S IH|c t o Q P S IH|t o S IH|t o S IH]; intros done rest L.
  - reflexivity.
  - cbn [app SpecInline.tokens in_format map]. rewrite chars_cons. cbn [app].
    assert (N1 := quiet_not c 92 Q ltac:(cbn; tauto)). assert (N2 := quiet_not c 96 Q ltac:(cbn; tauto)). assert (N3 := quiet_not c 42 Q ltac:(cbn; tauto)).
    assert (N4 := quiet_not c 95 Q ltac:(cbn; tauto)). assert (N5 := quiet_not c 91 Q ltac:(cbn; tauto)). assert (N6 := quiet_not c 38 Q ltac:(cbn; tauto)).
    replace (c =? 92) with false by lia. replace (c =? 96) with false by lia. replace (c =? 42) with false by lia. replace (c =? 95) with false by lia.
    replace (c =? 91) with false by lia. cbn [andb orb]. change (b "&lt;") with [38; 108; 116; 59]. change (b "&gt;") with [38; 103; 116; 59]. cbn [has_prefix].
    replace (38 =? c) with false by lia. cbn [andb]. replace (c =? 60) with false by lia. replace (c =? 38) with false by lia.
    assert (E : (c =? 33) && first_is 91 (o ++ rest) = false).
    { destruct (c =? 33) eqn:C; auto. apply N.eqb_eq in C. subst c. destruct o as [|d o].
      - apply shown_nil in S. subst t. now apply L.
      - cbn [app first_is]. destruct (shown_first _ _ _ S) as [(A & _)|(u & _ & ->)]; lia. }
    rewrite E. cbn [orb]. rewrite IH; [|intros H; apply L; destruct t; [discriminate|exact H]]. cbn [rev]. now rewrite <- app_assoc.
  - cbn [app SpecInline.tokens in_format map]. rewrite chars_cons. change (92 =? 92) with true. rewrite P. cbn [andb app SpecInline.tokens]. f_equal.
    rewrite IH; [|intros H; apply L; destruct t; [cbn in H |- *; congruence|exact H]]. cbn [rev]. now rewrite <- !app_assoc.
  - assert (E : tokens 0 done (38 :: 108 :: 116 :: 59 :: o ++ rest) = Char 60 unformatted :: tokens 3 (38 :: done) ([108; 116; 59] ++ o ++ rest)) by reflexivity.
    cbn [app]. rewrite E, (tokens_skip [108; 116; 59]). cbn [in_format map]. rewrite chars_cons. cbn [app]. f_equal.
    rewrite IH; [|intros H; apply L; destruct t; [discriminate|exact H]]. cbn [rev]. now rewrite <- !app_assoc.
  - assert (E : tokens 0 done (38 :: 103 :: 116 :: 59 :: o ++ rest) = Char 62 unformatted :: tokens 3 (38 :: done) ([103; 116; 59] ++ o ++ rest)) by reflexivity.
    cbn [app]. rewrite E, (tokens_skip [103; 116; 59]). cbn [in_format map]. rewrite chars_cons. cbn [app]. f_equal.
    rewrite IH; [|intros H; apply L; destruct t; [discriminate|exact H]]. cbn [rev]. now rewrite <- !app_assoc.
Qed.
Lemma run_same c k s : first_is c s = false -> run_length c (repeat c k ++ s) = k /\ drop_run c (repeat c k ++ s) = s.
Proof.
  intros F. induction k as [|k [I1 I2]]; cbn [repeat app].
  - destruct s as [|d s]; auto. cbn in F |- *. now rewrite F.
  - cbn [run_length drop_run]. rewrite N.eqb_refl. now rewrite I1, I2.
Qed.
Lemma tokens_run c k done s : c = 42 \/ c = 95 -> (0 < k)%nat -> first_is c s = false ->
  tokens 0 done (repeat c k ++ s) =
  Delims c k k (can_open c (before_class done) (after_class s)) (can_close c (before_class done) (after_class s)) :: tokens 0 (repeat c k ++ done) s.
Proof.
  intros C K F. destruct k as [|k]; [lia|]. destruct (run_same c (S k) s F) as [R1 R2]. cbn [repeat app] in *. cbn [SpecInline.tokens].
  replace ((c =? 92) && match repeat c k ++ s with d :: _ => ascii_punct d | [] => false end) with false by (destruct C; subst; reflexivity).
  replace (c =? 96) with false by (destruct C; subst; reflexivity). replace ((c =? 42) || (c =? 95)) with true by (destruct C; subst; reflexivity). cbv zeta.
  rewrite R1, R2. f_equal. cbn [pred]. pose proof (tokens_skip (repeat c k) (c :: done) s) as E. rewrite repeat_length in E. rewrite E. f_equal.
  clear. assert (G : forall n, rev (repeat c n) = repeat c n).
  { induction n as [|n IH]; auto. cbn [repeat rev]. rewrite IH. clear. induction n as [|n IH]; auto. cbn [repeat app]. now rewrite IH. }
  rewrite G. clear. induction k as [|k IH]; auto. cbn [repeat app]. now rewrite IH.
Qed.
Lemma run_parts c s : exists k, s = repeat c k ++ drop_run c s /\ first_is c (drop_run c s) = false.
Proof.
  induction s as [|d s (k & E & F)]; [exists O; auto|]. cbn [drop_run]. destruct (d =? c) eqn:D.
  - apply N.eqb_eq in D. subst d. exists (S k). cbn [repeat app]. now rewrite <- E.
  - exists O. cbn [repeat app first_is]. now rewrite D.
Qed.
(** Tokens that are read as a text where nothing is open *)
Definition reads_as (ts : list token) (s : styled) : Prop := forall p r, forallb (fun t => match t with Char _ _ => true | _ => false end) p = true -> resolve p (ts ++ r) = resolve (rev (chars s) ++ p) r.
Lemma reads_nil : reads_as [] [].
Proof. intros p r _. reflexivity. Qed.
Lemma reads_char c f ts s : reads_as ts s -> reads_as (Char c f :: ts) ((c, f) :: s).
Proof. intros R p r P. cbn [app resolve]. rewrite (R (Char c f :: p) r) by (cbn; exact P). rewrite chars_cons. cbn [rev]. now rewrite <- app_assoc. Qed.
Lemma reads_run c k cl ts s : (0 < k)%nat -> reads_as ts s -> reads_as (Delims c k k false cl :: ts) (in_format unformatted (repeat c k) ++ s).
Proof.
  intros K R p r P. cbn [app resolve].
  assert (N : forall bt, find_opener c k false cl bt p = None).
  { clear - P. revert P. induction p as [|x p IH]; intros P bt; auto. cbn [forallb] in P. apply andb_true_iff in P as [P1 P2]. destruct x; try discriminate. cbn [find_opener]. now apply IH. }
  assert (E : close_run k c k k false cl p = rev (literal (Delims c k k false cl)) ++ p). { destruct k as [|k]; [lia|]. cbn [close_run]. destruct cl; [rewrite N|]; reflexivity. }
  rewrite E. cbn [literal]. rewrite R.
  - unfold chars at 3. rewrite map_app, rev_app_distr, <- app_assoc. reflexivity.
  - rewrite forallb_app, P, andb_true_r. apply forallb_forall. intros x I. apply in_rev in I. apply in_map_iff in I as (y & <- & _). reflexivity.
Qed.
Lemma tokens_busy t o : busy_as t o -> forall done rest, (last t 42 = 33 -> first_is 91 rest = false) ->
  exists ts, tokens 0 done (o ++ rest) = ts ++ tokens 0 (rev o ++ done) rest /\ reads_as ts (in_format unformatted t).
Proof.
  remember (List.length o) as m eqn:Lm. assert (Hm : (List.length o <= m)%nat) by lia. clear Lm. revert t o Hm. induction m as [|m IHm]; intros t o Hm S done rest L.
  { destruct o; [|cbn in Hm; lia]. apply busy_nil in S. subst. exists []. split; [reflexivity|apply reads_nil]. }
  assert (Lt : forall c u, t = c :: u -> last u 42 = 33 -> first_is 91 rest = false) by (intros c u -> H; apply L; destruct u; [discriminate|exact H]).
  destruct S as [|c t o Q N N1 N2 N3 N4 N5 S|c t o Q P S|c t o C U S|t o S|t o S].
  - exists []. split; [reflexivity|apply reads_nil].
  - destruct (IHm t o ltac:(cbn in Hm; lia) S (c :: done) rest (Lt c t eq_refl)) as (ts & E & R). exists (Char c unformatted :: ts). split; [|now apply reads_char].
    cbn [app SpecInline.tokens]. assert (N6 := busy_not c 38 Q ltac:(cbn; tauto)).
    replace (c =? 92) with false by lia. replace (c =? 96) with false by lia. replace (c =? 42) with false by lia. replace (c =? 95) with false by lia.
    replace (c =? 91) with false by lia. cbn [andb orb]. change (b "&lt;") with [38; 108; 116; 59]. change (b "&gt;") with [38; 103; 116; 59]. cbn [has_prefix].
    replace (38 =? c) with false by lia. cbn [andb]. replace (c =? 60) with false by lia. replace (c =? 38) with false by lia.
    assert (E0 : (c =? 33) && first_is 91 (o ++ rest) = false).
    { destruct (c =? 33) eqn:C; auto. apply N.eqb_eq in C. subst c. destruct o as [|d o].
      - apply busy_nil in S. subst t. now apply L.
      - cbn [app first_is]. destruct (busy_first _ _ _ S) as (A & _). lia. }
    rewrite E0. cbn [orb]. rewrite E. cbn [rev]. now rewrite <- app_assoc.
  - destruct (IHm t o ltac:(cbn in Hm; lia) S (c :: 92 :: done) rest (Lt c t eq_refl)) as (ts & E & R). exists (Char c unformatted :: ts). split; [|now apply reads_char].
    cbn [app SpecInline.tokens]. change (92 =? 92) with true. rewrite P. cbn [andb app SpecInline.tokens]. f_equal. rewrite E. cbn [rev]. now rewrite <- !app_assoc.
  - destruct U as (u & U). destruct (run_parts c o) as (k & E & F). rewrite U in E. subst o. destruct (busy_run c k C t _ S) as (v & -> & S2).
    destruct (IHm v (32 :: u)) with (done := repeat c (Datatypes.S k) ++ done) (rest := rest) as (ts & E & R); auto.
    { cbn [List.length] in Hm |- *. rewrite app_length in Hm. cbn [List.length] in Hm. lia. }
    { intros H. apply L. destruct v as [|y v]; [discriminate H|]. change (last (repeat c (Datatypes.S k) ++ y :: v) 42 = 33). clear - H. induction (repeat c (Datatypes.S k)) as [|z l IH]; [exact H|]. cbn [app]. destruct l; exact IH. }
    exists (Delims c (Datatypes.S k) (Datatypes.S k) (can_open c (before_class done) (after_class (32 :: u ++ rest))) (can_close c (before_class done) (after_class (32 :: u ++ rest))) :: ts). split.
    + change (c :: repeat c k ++ 32 :: u) with (repeat c (Datatypes.S k) ++ 32 :: u). rewrite <- app_assoc. cbn [app]. rewrite tokens_run; auto; [|lia|destruct C; subst; reflexivity]. cbn [app] in *. f_equal. cbn [app] in E.
      rewrite E. f_equal. f_equal. rewrite rev_app_distr, <- app_assoc. f_equal.
      assert (G : forall n, rev (repeat c n) = repeat c n).
      { induction n as [|n IH]; auto. cbn [repeat rev]. rewrite IH. symmetry. apply repeat_cons. }
      now rewrite G.
    + replace (can_open c (before_class done) (after_class (32 :: u ++ rest))) with false by (unfold can_open; destruct C; subst; reflexivity).
      change (c :: repeat c k ++ v) with (repeat c (Datatypes.S k) ++ v). unfold in_format at 1. rewrite map_app. fold (in_format unformatted (repeat c (Datatypes.S k))). fold (in_format unformatted v). apply reads_run; auto. lia.
  - destruct (IHm t o ltac:(cbn in Hm; lia) S ([59; 116; 108; 38] ++ done) rest (Lt 60 t eq_refl)) as (ts & E & R). exists (Char 60 unformatted :: ts). split; [|now apply reads_char].
    assert (E1 : tokens 0 done (38 :: 108 :: 116 :: 59 :: o ++ rest) = Char 60 unformatted :: tokens 3 (38 :: done) ([108; 116; 59] ++ o ++ rest)) by reflexivity.
    cbn [app]. rewrite E1, (tokens_skip [108; 116; 59]). f_equal. cbn [rev app] in *. rewrite E. now rewrite <- !app_assoc.
  - destruct (IHm t o ltac:(cbn in Hm; lia) S ([59; 116; 103; 38] ++ done) rest (Lt 62 t eq_refl)) as (ts & E & R). exists (Char 62 unformatted :: ts). split; [|now apply reads_char].
    assert (E1 : tokens 0 done (38 :: 103 :: 116 :: 59 :: o ++ rest) = Char 62 unformatted :: tokens 3 (38 :: done) ([103; 116; 59] ++ o ++ rest)) by reflexivity.
    cbn [app]. rewrite E1, (tokens_skip [103; 116; 59]). f_equal. cbn [rev app] in *. rewrite E. now rewrite <- !app_assoc.
Qed.
Lemma tokens_code w d done rest : read_code_span (96 :: w ++ rest) = Some (d, rest) ->
  tokens 0 done (96 :: w ++ rest) = chars (in_format (as_code unformatted) d) ++ tokens 0 (rev (96 :: w) ++ done) rest.
Proof.
  intros R. cbn [SpecInline.tokens]. change (96 =? 92) with false. change (96 =? 96) with true. cbn [andb]. rewrite R. f_equal. rewrite app_length.
  replace (List.length w + List.length rest - List.length rest)%nat with (List.length w) by lia. rewrite tokens_skip. cbn [rev]. now rewrite <- app_assoc.
Qed.
Lemma tokens_link text tail dest o inner done rest : until_bracket O false (text ++ 93 :: tail ++ rest) = Some (text, tail ++ rest) ->
  read_tail (tail ++ rest) = Some (dest, o, rest) -> link_read text = Some inner ->
  tokens 0 done (91 :: text ++ 93 :: tail ++ rest) = chars (restyle (as_link dest) inner) ++ tokens 0 (rev (91 :: text ++ 93 :: tail) ++ done) rest.
Proof.
  intros U R L. cbn [SpecInline.tokens]. change (91 =? 92) with false. change (91 =? 96) with false. change (91 =? 42) with false. change (91 =? 95) with false. change (91 =? 91) with true.
  cbn [andb orb]. rewrite U, R, L. f_equal. replace (text ++ 93 :: tail ++ rest) with ((text ++ 93 :: tail) ++ rest) by now rewrite <- app_assoc.
  set (m := text ++ 93 :: tail). replace (List.length (m ++ rest) - List.length rest)%nat with (List.length m) by (rewrite (app_length _ rest); lia).
  rewrite tokens_skip. cbn [rev]. now rewrite <- (app_assoc _ [91]).
Qed.
End tokens.

(** ** Emphasis *)
Definition is_char (t : token) : bool := match t with Char _ _ => true | _ => false end.
Lemma chars_all s : forallb is_char (chars s) = true.
Proof. induction s as [|p s IH]; auto. Qed.
Lemma all_rev l : forallb is_char l = true -> forallb is_char (rev l) = true.
Proof. intros H. apply forallb_forall. intros x I. apply in_rev in I. rewrite forallb_forall in H. auto. Qed.
Lemma resolve_chars s : forall p r, resolve p (chars s ++ r) = resolve (rev (chars s) ++ p) r.
Proof.
  induction s as [|[c f] s IH]; intros p r; [reflexivity|]. rewrite chars_cons. cbn [app resolve rev]. rewrite IH. now rewrite <- app_assoc.
Qed.
Lemma no_opener c n o cl p : forallb is_char p = true -> forall bt, find_opener c n o cl bt p = None.
Proof. induction p as [|x p IH]; intros H bt; auto. cbn [forallb] in H. apply andb_true_iff in H as [H1 H2]. destruct x; try discriminate. cbn [find_opener]. now apply IH. Qed.
Lemma opener_behind c n o cl q : forallb is_char q = true -> forall bt r, find_opener c n o cl bt (q ++ r) = find_opener c n o cl (rev q ++ bt) r.
Proof.
  induction q as [|x q IH]; intros H bt r; auto. cbn [forallb] in H. apply andb_true_iff in H as [H1 H2]. destruct x; try discriminate. cbn [app find_opener rev].
  rewrite IH by auto. now rewrite <- app_assoc.
Qed.
Lemma literal_chars q : forallb is_char q = true -> flat_map literal q = q.
Proof. induction q as [|x q IH]; intros H; auto. cbn [forallb] in H. apply andb_true_iff in H as [H1 H2]. destruct x; try discriminate. cbn. now rewrite IH. Qed.
Lemma emphasised_chars g s : map (emphasised g) (chars s) = chars (restyle g s).
Proof. induction s as [|[c f] s IH]; auto. cbn [chars restyle map emphasised fst snd]. f_equal. exact IH. Qed.
Lemma resolve_open c k cl p r : k = 1%nat \/ k = 2%nat -> (cl = true -> forall bt, find_opener c k true cl bt p = None) ->
  resolve p (Delims c k k true cl :: r) = resolve (Delims c k k true cl :: p) r.
Proof.
  intros K P. cbn [resolve]. f_equal. destruct K; subst k; cbn [close_run]; (destruct cl; [rewrite P by auto|]; reflexivity).
Qed.
Lemma resolve_close c k s p r cl op : k = 1%nat \/ k = 2%nat ->
  resolve (rev (chars s) ++ Delims c k k true cl :: p) (Delims c k k op true :: r) = resolve (rev (chars (restyle (if Nat.eqb k 2 then as_strong else as_em) s)) ++ p) r.
Proof.
  intros K. cbn [resolve]. f_equal.
  assert (E2 : find_opener c k op true [] (rev (chars s) ++ Delims c k k true cl :: p) = Some (chars s, k, k, cl, p)).
  { rewrite opener_behind by (apply all_rev, chars_all). rewrite rev_involutive, app_nil_r. cbn [find_opener]. rewrite N.eqb_refl. cbn [andb].
    assert (F : fits true cl op true k k = true) by (destruct K; subst k; destruct cl, op; reflexivity). now rewrite F. }
  destruct K; subst k; cbn [close_run]; rewrite E2; cbn [Nat.leb Nat.eqb andb Nat.sub]; rewrite literal_chars by apply chars_all; rewrite emphasised_chars; reflexivity.
Qed.
Lemma styled_chars s : styled_of (chars s) = Some s.
Proof. induction s as [|[c f] s IH]; auto. cbn [chars map styled_of]. fold (chars s). now rewrite IH. Qed.

(** ** The parts of a paragraph *)
Lemma open_ok d outer inner p : recognised d outer inner = true -> (loose outer = true -> p <> Letter) -> can_open d p (class_of inner) = true.
Proof.
  unfold recognised, can_open. intros R L. apply andb_true_iff in R as [_ R]. destruct (class_of inner); try discriminate.
  - apply L in R. destruct p; [| |easy]; cbn; now rewrite ?orb_true_r.
  - apply orb_true_iff in R as [->|R]; [now destruct p|]. apply L in R. destruct p; [| |easy]; cbn; now rewrite ?orb_true_r.
Qed.
Lemma close_ok d outer inner p : recognised d outer inner = true -> (loose outer = true -> p <> Letter) -> can_close d (class_of inner) p = true.
Proof.
  unfold recognised, can_close. intros R L. apply andb_true_iff in R as [_ R]. destruct (class_of inner); try discriminate.
  - apply L in R. destruct p; [| |easy]; cbn; now rewrite ?orb_true_r.
  - apply orb_true_iff in R as [->|R]; [now destruct p|]. apply L in R. destruct p; [| |easy]; cbn; now rewrite ?orb_true_r.
Qed.
Lemma punct_class c : ascii_punct c = true -> class_of c = Punct.
Proof.
  intros P. unfold class_of. rewrite P. replace (existsb (N.eqb c) [9; 10; 12; 13; 32]) with false; auto. symmetry.
  unfold ascii_punct, in_range in P. cbn [existsb]. lia.
Qed.
Section ends.
Variables wb wa : bytes -> class.
Variable edge : class.
Lemma shown_after t o : shown_as t o -> t <> [] -> ascii (hd 32 t) = true -> forall z, after_class wa edge (o ++ z) = class_of (hd 32 t).
Proof.
  unfold ascii. destruct 1 as [|c t o Q N S|c t o Q P S|t o S|t o S]; intros Ne A z; [easy| | | |]; cbn [hd] in *; cbn [app after_class].
  - now rewrite A.
  - rewrite (punct_class c P). reflexivity.
  - reflexivity.
  - reflexivity.
Qed.
Lemma shown_app t o u v : shown_as t o -> shown_as u v -> shown_as (t ++ u) (o ++ v).
Proof. induction 1; intros S; cbn [app]; auto; [apply sa_char|apply sa_escape|apply sa_lt|apply sa_gt]; auto. Qed.
Lemma shown_before t o : shown_as t o -> t <> [] -> forall y, ascii (last t y) = true -> forall z, before_class wb edge (rev o ++ z) = class_of (last t y).
Proof.
  unfold ascii. induction 1 as [|c t o Q N S IH|c t o Q P S IH|t o S IH|t o S IH]; intros Ne y A z; [easy| | | |].
  - destruct t as [|d t]; [inversion S; subst; cbn in A |- *; now rewrite A|]. cbn [rev]. rewrite <- app_assoc. now apply (IH ltac:(discriminate) y).
  - destruct t as [|d t]; [inversion S; subst; cbn in A |- *; now rewrite A|]. cbn [rev]. rewrite <- !app_assoc. now apply (IH ltac:(discriminate) y).
  - destruct t as [|d t]; [inversion S; subst; reflexivity|]. cbn [rev]. rewrite <- !app_assoc. now apply (IH ltac:(discriminate) y).
  - destruct t as [|d t]; [inversion S; subst; reflexivity|]. cbn [rev]. rewrite <- !app_assoc. now apply (IH ltac:(discriminate) y).
Qed.
Lemma busy_after t o : busy_as t o -> t <> [] -> ascii (hd 32 t) = true -> forall z, after_class wa edge (o ++ z) = class_of (hd 32 t).
Proof.
  unfold ascii. destruct 1 as [|c t o Q N N1 N2 N3 N4 N5 S|c t o Q P S|c t o C U S|t o S|t o S]; intros Ne A z; [easy| | | | |]; cbn [hd] in *; cbn [app after_class].
  - now rewrite A.
  - rewrite (punct_class c P). reflexivity.
  - now rewrite A.
  - reflexivity.
  - reflexivity.
Qed.
Lemma busy_before t o : busy_as t o -> t <> [] -> forall y, ascii (last t y) = true -> forall z, before_class wb edge (rev o ++ z) = class_of (last t y).
Proof.
  unfold ascii. induction 1 as [|c t o Q N N1 N2 N3 N4 N5 S IH|c t o Q P S IH|c t o C U S IH|t o S IH|t o S IH]; intros Ne y A z; [easy| | | | |].
  1,3: destruct t as [|d t]; [inversion S; subst; cbn in A |- *; now rewrite A|]; cbn [rev]; rewrite <- app_assoc; now apply (IH ltac:(discriminate) y).
  - destruct t as [|d t]; [inversion S; subst; cbn in A |- *; now rewrite A|]. cbn [rev]. rewrite <- !app_assoc. now apply (IH ltac:(discriminate) y).
  - destruct t as [|d t]; [inversion S; subst; reflexivity|]. cbn [rev]. rewrite <- !app_assoc. now apply (IH ltac:(discriminate) y).
  - destruct t as [|d t]; [inversion S; subst; reflexivity|]. cbn [rev]. rewrite <- !app_assoc. now apply (IH ltac:(discriminate) y).
Qed.
End ends.
