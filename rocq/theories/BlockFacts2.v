(** The text of a page after rendering: blocks with line ends between them, and what trimming makes of them (C64). *)
From Coq Require Import List NArith ZArith Bool String Lia ZifyBool ZifyNat ZifyN.
From Verif Require Import Bytes BytesFacts TextUtils TextFacts TextFacts2 RenderText RenderFacts RenderFacts2 RenderFacts4 RenderFacts5 Escape SpecEscape SpecText SpecText2
  Dom SpecDom CommonMark SpecPipeline SpecPlain SpecNode PanicFacts PlainFacts2 PlainFacts4 SpecBlocks BlockFacts0.
Import ListNotations.
Open Scope N_scope.
Open Scope list_scope.

(** ** White space at the ends *)
Lemma decode_rune_nl w z : w <> [] -> decode_rune (w ++ 10 :: z) = decode_rune w.
Proof.
  destruct w as [|c t]; [easy|]. intros _. cbn [app]. unfold decode_rune. destruct (c <? 128); auto.
  destruct (in_range 194 223 c). { destruct t as [|b1 u]; reflexivity. }
  destruct (in_range 224 239 c) eqn:E3.
  { destruct t as [|b1 [|b2 u]]; auto; cbn [app].
    - destruct z; auto. cbv zeta. destruct (c =? 224), (c =? 237); reflexivity.
    - cbv zeta. change (is_cont 10) with false. now rewrite andb_false_r. }
  destruct (in_range 240 244 c) eqn:E4; auto.
  destruct t as [|b1 [|b2 [|b3 u]]]; auto; cbn [app].
  - destruct z as [|y [|y' z]]; auto. cbv zeta. destruct (c =? 240), (c =? 244); reflexivity.
  - destruct z as [|y z]; auto. cbv zeta. change (is_cont 10) with false. now rewrite andb_false_r.
  - cbv zeta. change (is_cont 10) with false. now rewrite andb_false_r.
Qed.
Lemma decode_last_ascii q w z : q < 128 -> w <> [] -> is_space_rune (fst (decode_last_rune w)) = false -> is_space_rune (fst (decode_last_rune (z ++ q :: w))) = false.
Proof.
  intros Q N H. assert (Qs : rune_start q = true) by (unfold rune_start, is_cont, in_range; lia). unfold decode_last_rune in *. rewrite rev_app_distr. cbn [rev]. rewrite <- app_assoc. cbn [app].
  assert (Nr : rev w <> []) by (intros E; apply N; rewrite <- (rev_involutive w), E; reflexivity).
  destruct (rev w) as [|c t]; [easy|]. clear - H Q Qs. cbn [app] in *.
  destruct (decode_last_rune_rev (c :: t ++ q :: rev z)) as [r n] eqn:D. cbn [fst]. destruct (is_space_rune r) eqn:R; auto. exfalso.
  revert D.
  unfold decode_last_rune_rev in *. destruct (c <? 128) eqn:Ec; [intros [= <- <-]; cbn [fst] in H; congruence|]. cbv zeta in *.
  assert (Er : (rune_error, 1%nat) = (r, n) -> False) by (intros [= <- <-]; discriminate).
  assert (K : forall k (x : bytes), (let '(r0, n0) := decode_rune x in if Nat.eqb n0 k then (r0, k) else (rune_error, 1%nat)) = (r, n) ->
    is_space_rune (fst (let '(r0, n0) := decode_rune x in if Nat.eqb n0 k then (r0, k) else (rune_error, 1%nat))) = false -> False).
  { intros k x E H'. rewrite E in H'. cbn in H'. congruence. }
  destruct t as [|c1 t]; cbn [app] in *.
  - rewrite Qs. cbn iota. cbn [firstn rev app]. unfold decode_rune. replace (q <? 128) with true by lia. cbn. intros E. auto.
  - destruct (rune_start c1); [intros E; cbn [firstn] in *; eauto|].
    destruct t as [|c2 t]; cbn [app] in *.
    + rewrite Qs. cbn iota. cbn [firstn rev app]. unfold decode_rune. replace (q <? 128) with true by lia. cbn. intros E. auto.
    + destruct (rune_start c2); [intros E; cbn [firstn] in *; eauto|].
      destruct t as [|c3 t]; cbn [app] in *.
      * rewrite Qs. cbn iota. cbn [firstn rev app]. unfold decode_rune. replace (q <? 128) with true by lia. cbn. intros E. auto.
      * destruct (rune_start c3); [intros E; cbn [firstn] in *; eauto|]. intros E. auto.
Qed.
Lemma decode_last_nl w z : w <> [] -> is_space_rune (fst (decode_last_rune w)) = false -> is_space_rune (fst (decode_last_rune (z ++ 10 :: w))) = false.
Proof. apply decode_last_ascii. reflexivity. Qed.
Lemma space_prefix l z : spaces l -> l <> [] -> is_space_rune (fst (decode_rune (l ++ z))) = true.
Proof.
  intros S N. pose proof (spaces_start l S N) as H. destruct (decode_rune_prefix l z N) as [E|E]; [now rewrite <- E|]. rewrite E in H. discriminate.
Qed.
Lemma space_suffix l z : spaces l -> l <> [] -> is_space_rune (fst (decode_last_rune (z ++ l))) = true.
Proof.
  intros S N. pose proof (spaces_end l S N) as H. unfold decode_last_rune in *. rewrite rev_app_distr.
  assert (Nr : rev l <> []) by (intros E; apply N; rewrite <- (rev_involutive l), E; reflexivity).
  destruct (decode_last_prefix (rev l) (rev z) Nr) as [E|E]; [now rewrite <- E|]. rewrite E in H. discriminate.
Qed.
Lemma hugs_of t : t <> [] -> trim_space t = t -> hugs t.
Proof. intros N E. split; auto. rewrite <- E. split; [apply trim_space_starts|apply trim_space_ends]; congruence. Qed.
Lemma trim_left_nl s : trim_left (10 :: s) = trim_left s.
Proof. reflexivity. Qed.
Lemma trim_right_nl s : trim_right (s ++ [10]) = trim_right s.
Proof. unfold trim_right. rewrite rev_app_distr. reflexivity. Qed.
Lemma trim_newlines_around n t m : hugs t -> trim_space (repeat 10 n ++ t ++ repeat 10 m) = t.
Proof.
  intros (N & H1 & H2). unfold trim_space.
  assert (E : trim_left (repeat 10 n ++ t ++ repeat 10 m) = t ++ repeat 10 m).
  { induction n as [|n IH]; [|exact IH]. cbn [repeat app]. apply trim_left_id. intros _. destruct m as [|m]; [now rewrite app_nil_r|]. cbn [repeat]. now rewrite decode_rune_nl. }
  rewrite E. clear E. induction m as [|m IH]; [rewrite app_nil_r; apply trim_right_id; now intros _|].
  replace (repeat 10 (S m)) with (repeat 10 m ++ [10]) by (rewrite <- repeat_cons; reflexivity). now rewrite app_assoc, trim_right_nl.
Qed.
Lemma trim_only_newlines n : trim_space (repeat 10 n) = [].
Proof. unfold trim_space. assert (trim_left (repeat 10 n) = []) as -> by (induction n; auto). reflexivity. Qed.
Lemma hugs_join x y n : hugs x -> hugs y -> hugs (x ++ 10 :: repeat 10 n ++ y).
Proof.
  intros (Nx & X1 & X2) (Ny & Y1 & Y2). split; [destruct x; [easy|discriminate]|]. split; [now rewrite decode_rune_nl|].
  replace (x ++ 10 :: repeat 10 n ++ y) with ((x ++ repeat 10 n) ++ 10 :: y); [now apply decode_last_nl|].
  rewrite <- app_assoc. f_equal. change (10 :: repeat 10 n ++ y) with ((10 :: repeat 10 n) ++ y). rewrite repeat_cons, <- app_assoc. reflexivity.
Qed.
Lemma hugs_first t : hugs t -> exists c u, t = c :: u /\ c <> 10 /\ c <> 32 /\ c <> 9 /\ c <> 13.
Proof.
  intros (N & H & _). destruct t as [|c u]; [easy|]. exists c, u. split; auto.
  repeat split; intros ->; discriminate H.
Qed.
Lemma hugs_last t : hugs t -> exists c u, t = u ++ [c] /\ c <> 10 /\ c <> 32 /\ c <> 9 /\ c <> 13.
Proof.
  intros (N & _ & H). destruct t as [|c u _] using rev_ind; [easy|]. exists c, u. split; auto. unfold decode_last_rune in H. rewrite rev_app_distr in H.
  repeat split; intros ->; discriminate H.
Qed.

(** ** Consecutive newlines *)
Lemma triple_no10 w z : ~ In 10 w -> forall k, triple k z = false -> triple k (w ++ z) = false.
Proof.
  induction w as [|c w IH]; intros N k H; auto. cbn [app triple]. destruct (c =? 10) eqn:E; [elim N; left; lia|].
  assert (N' : ~ In 10 w) by (intros I; apply N; now right). destruct (c =? 32); [now apply IH|]. apply IH; auto.
  destruct (triple O z) eqn:T; auto. apply (triple_mono z O k ltac:(lia)) in T. congruence.
Qed.
Lemma tcn_snoc c w z : c <> 10 -> c <> 32 -> forall k sp, tcn k sp (w ++ c :: z) = tcn k sp (w ++ [c]) ++ tcn O O z.
Proof.
  intros N1 N2. induction w as [|d w IH]; intros k sp; cbn [app tcn]; unfold cNL, cSP in *.
  - destruct (c =? 10) eqn:E; [lia|]. destruct (c =? 32) eqn:E2; [lia|]. rewrite <- app_assoc. reflexivity.
  - destruct (d =? 10); [destruct (Nat.leb (S k) 2)|destruct (d =? 32)]; rewrite ?IH, <- ?app_assoc; reflexivity.
Qed.
Lemma tcn_newlines n z : tcn O O (10 :: 10 :: repeat 10 n ++ z) = 10 :: 10 :: tcn (2 + n) O z.
Proof.
  cbn. do 2 f_equal. assert (G : forall k, (2 <= k)%nat -> tcn k O (repeat 10 n ++ z) = tcn (k + n) O z).
  { induction n as [|n IH]; intros k L; cbn [repeat app]; [now rewrite Nat.add_0_r|]. cbn [tcn]. change (10 =? cNL) with true. cbn iota.
    replace (Nat.leb (S k) 2) with false by (symmetry; apply Nat.leb_gt; lia). rewrite IH by lia. f_equal. lia. }
  now rewrite G.
Qed.
Lemma tcn_start c z k : c <> 10 -> c <> 32 -> tcn k O (c :: z) = tcn O O (c :: z).
Proof. intros N1 N2. cbn [tcn]. unfold cNL, cSP. destruct (c =? 10) eqn:E; [lia|]. destruct (c =? 32) eqn:E2; [lia|]. reflexivity. Qed.
Lemma tcn_id s : triple O s = false -> tcn O O s = s.
Proof. intros H. apply trim_newlines_id. intros T. apply three_triple0 in T. congruence. Qed.

(** ** Lines: one that is only of spaces follows one that does not end in a space *)
Definition spaces_line (l : bytes) : bool := forallb (N.eqb 32) l.
Definition solid (l : bytes) : Prop := (exists u c, l = u ++ [c] /\ c <> 32) /\ ~ infix marker_nl l.
Inductive neat : list bytes -> Prop :=
| neat_one l : neat [l]
| neat_cons l m r : (spaces_line m = true -> solid l) -> neat (m :: r) -> neat (l :: m :: r).
Lemma solid_not l : solid l -> spaces_line l = false.
Proof.
  intros ((u & c & -> & C) & _). unfold spaces_line. rewrite forallb_app. cbn [forallb]. replace (32 =? c) with false by lia. now rewrite andb_false_r.
Qed.
Lemma neat_app A B : neat A -> neat B -> (spaces_line (hd [] B) = true -> solid (last A [])) -> neat (A ++ B).
Proof.
  intros HA HB. induction HA as [l|l m r H HA IH]; cbn [last app]; intros S.
  - destruct B as [|m r]; [constructor|]. constructor; auto.
  - constructor; auto.
Qed.
Lemma neat_mid A m C : neat (A ++ m :: C) -> A <> [] -> spaces_line m = true -> solid (last A []).
Proof.
  induction A as [|l A IH]; [easy|]. intros H _ S. destruct A as [|l' A]; cbn [app last] in *; inversion H; subst; auto.
  apply IH; auto. discriminate.
Qed.
Lemma triple_line k l z : ~ In 10 l -> triple k (l ++ 10 :: z) = if spaces_line l then Nat.leb 2 k || triple (S k) z else triple 1 z.
Proof.
  intros N. destruct (spaces_line l) eqn:E.
  - induction l as [|c l IH]; [reflexivity|]. unfold spaces_line in *. cbn [forallb app triple] in *. apply andb_true_iff in E as [E1 E2]. replace (c =? 10) with false by lia. replace (c =? 32) with true by lia.
    apply IH; auto. intros J. apply N. now right.
  - assert (G : forall l, ~ In 10 l -> triple O (l ++ 10 :: z) = triple 1 z).
    { clear. induction l as [|c l IH]; intros N; [reflexivity|]. cbn [app triple]. destruct (c =? 10) eqn:C; [elim N; left; lia|]. rewrite IH by (intros J; apply N; now right). now destruct (c =? 32). }
    induction l as [|c l IH]; [discriminate|]. unfold spaces_line in *. cbn [forallb app triple] in *. destruct (c =? 10) eqn:C; [elim N; left; lia|].
    assert (N' : ~ In 10 l) by (intros J; apply N; now right). destruct (c =? 32) eqn:D; [|now apply G]. apply IH; auto. replace (32 =? c) with true in E by lia. exact E.
Qed.
Lemma triple_end k l : ~ In 10 l -> triple k l = false.
Proof. intros N. rewrite <- (app_nil_r l). now apply triple_no10. Qed.
Lemma neat_triple ls : neat ls -> Forall (fun l => ~ In 10 l) ls -> forall k, (k <= 1)%nat \/ k = 2%nat /\ spaces_line (hd [] ls) = false -> triple k (join [10] ls) = false.
Proof.
  induction 1 as [l|l m r S HA IH]; intros F k K; inversion F as [|? ? F1 F2]; subst.
  - cbn. rewrite ?app_nil_r. now apply triple_end.
  - change (join [10] (l :: m :: r)) with (l ++ 10 :: join [10] (m :: r)). rewrite triple_line by auto. cbn [hd] in *. destruct (spaces_line l) eqn:E.
    + assert (K1 : (k <= 1)%nat) by (destruct K as [K|[_ K]]; [auto|discriminate]). replace (Nat.leb 2 k) with false by (symmetry; apply Nat.leb_gt; lia). cbn [orb].
      apply IH; auto. destruct k as [|k]; [left; lia|right; split; [lia|]]. destruct (spaces_line m) eqn:Em; auto. specialize (S eq_refl). apply solid_not in S. congruence.
    + apply IH; auto.
Qed.
Lemma split_lines w : Forall (fun l => ~ In 10 l) (split_on 10 w).
Proof. apply Forall_forall. intros l I. eapply split_nosep; eauto. Qed.
Lemma single_line w : ~ In 10 w -> split_on 10 w = [w].
Proof. intros N. rewrite <- (app_nil_r w) at 1. rewrite split_on_prefix by auto. cbn. now rewrite app_nil_r. Qed.
Lemma split_nl x y : split_on 10 (x ++ 10 :: y) = split_on 10 x ++ split_on 10 y.
Proof. exact (split_on_app10 x y). Qed.
Lemma last_cases w : exists l, ~ In 10 l /\ (w = l /\ split_on 10 w = [l] \/ exists z, w = z ++ 10 :: l /\ split_on 10 w = split_on 10 z ++ [l]).
Proof.
  induction w as [|c w (l & N & H)] using rev_ind; [exists []; split; [easy|left; auto]|]. destruct (N.eq_dec c 10) as [-> |C].
  - exists []. split; [easy|]. right. exists w. split; auto. now rewrite split_nl.
  - exists (l ++ [c]). assert (N' : ~ In 10 (l ++ [c])) by (rewrite in_app_iff; cbn; intuition). split; auto. destruct H as [[-> _]|(z & -> & _)].
    + left. split; auto. now apply single_line.
    + right. exists z. rewrite <- app_assoc. split; auto. cbn [app]. rewrite split_nl. f_equal. now apply single_line.
Qed.
Lemma last_split w : exists l, ~ In 10 l /\ last (split_on 10 w) [] = l /\ (w = l \/ exists z, w = z ++ 10 :: l).
Proof.
  destruct (last_cases w) as (l & N & [[-> ->]|(z & -> & ->)]); exists l; split; auto; split; eauto. now rewrite last_last.
Qed.
Lemma neat_hard w : neat (split_on 10 w) -> trim_hard_breaks w = w.
Proof.
  intros H. unfold trim_hard_breaks, cSP, cNL. cbv zeta.
  assert (G : forall m, spaces_line m = true -> ~ infix (32 :: 32 :: 10 :: m ++ [10]) w).
  { intros m S (x & y & E). assert (E2 : w = (x ++ [32; 32]) ++ 10 :: m ++ 10 :: y) by (rewrite E, <- !app_assoc; cbn [app]; now rewrite <- app_assoc).
    rewrite E2, !split_nl in H. assert (Nm : ~ In 10 m). { intros J. unfold spaces_line in S. rewrite forallb_forall in S. apply S in J. discriminate. }
    rewrite (single_line m) in H by auto. cbn [app] in H. apply neat_mid in H; auto; [|apply split_on_ne]. destruct H as ((u & c & E3 & C) & _).
    destruct (last_split (x ++ [32; 32])) as (l & Nl & E4 & E5). rewrite E4 in E3. subst l. destruct E5 as [E5|(z & E5)].
    - change [32; 32] with ([32] ++ [32]) in E5. rewrite app_assoc in E5. apply app_inj_tail in E5 as [_ E5]. congruence.
    - change [32; 32] with ([32] ++ [32]) in E5. rewrite app_assoc in E5. rewrite app_comm_cons, app_assoc in E5. apply app_inj_tail in E5 as [_ E5]. congruence. }
  rewrite (PlainFacts2.replace_none _ _ w) by exact (G [] eq_refl).
  rewrite (PlainFacts2.replace_none _ _ w) by exact (G [32; 32] eq_refl).
  rewrite (PlainFacts2.replace_none _ _ w) by exact (G [32] eq_refl). reflexivity.
Qed.
Lemma neat_tcn w : neat (split_on 10 w) -> tcn O O w = w.
Proof. intros H. apply tcn_id. rewrite <- (split_join 10 w). apply neat_triple; auto. apply split_lines. Qed.

(** ** Blocks of text and the line ends between them *)
Definition closed (l : bytes) : Prop := l <> [] /\ is_space_rune (fst (decode_last_rune l)) = false /\ ~ infix marker_nl l.
Definition tidy_block (w : bytes) : Prop :=
  w <> [] /\ is_space_rune (fst (decode_rune w)) = false /\ neat (split_on 10 w) /\ closed (last (split_on 10 w) []).
Lemma closed_last l : closed l -> exists u c, l = u ++ [c] /\ c <> 32 /\ c <> 10.
Proof.
  intros (N & H & _). destruct l as [|c u _] using rev_ind; [easy|]. exists u, c. split; auto. unfold decode_last_rune in H. rewrite rev_app_distr in H.
  split; intros ->; discriminate H.
Qed.
Lemma closed_solid l : closed l -> solid l.
Proof. intros H. pose proof H as (_ & _ & M). destruct (closed_last l H) as (u & c & -> & C & _). split; eauto. Qed.
Lemma tidy_hugs w : tidy_block w -> hugs w.
Proof.
  intros (N & H1 & _ & C). split; auto. split; auto. destruct (last_split w) as (l & _ & E & [-> |(z & ->)]); rewrite E in C; destruct C as (C1 & C2 & _); auto.
  now apply decode_last_nl.
Qed.
Lemma tidy_first w : tidy_block w -> spaces_line (hd [] (split_on 10 w)) = false.
Proof.
  intros T. destruct (hugs_first w (tidy_hugs w T)) as (c & u & -> & C1 & C2 & _). cbn [split_on]. replace (c =? 10) with false by lia.
  destruct (split_on 10 u); cbn [hd]; unfold spaces_line; cbn [forallb]; replace (32 =? c) with false by lia; reflexivity.
Qed.
Definition is_list {A} (bs : list (gblock A)) : bool := match bs with [Items _ _] => true | _ => false end.
Section flows.
Context {A : Type}.
Notation block := (gblock A).
Variable seg : bytes -> list block -> Prop.
Hypothesis Hseg : forall w B, seg w B -> tidy_block w.
(** Before and after: there was a text and no line end yet after it; the last block was a list *)
Inductive flow : bool -> bool -> bytes -> list block -> bool -> bool -> Prop :=
| flow_nil p q al : (p = true -> q = true) -> flow p al [] [] q al
| flow_gap p al s B q al' : flow false al s B q al' -> flow p al (10 :: 10 :: s) B q al'
| flow_nl al s B q al' : flow false al s B q al' -> flow false al (10 :: s) B q al'
| flow_seg w bs al s B q al' : seg w bs -> (bs = [] -> al = true) -> (is_list bs = true -> al = false) -> flow true (is_list bs) s B q al' -> flow false al (w ++ s) (bs ++ B) q al'.
Lemma flow_less p al s B q al' : flow p al s B q al' -> flow false al s B q al'.
Proof. destruct 1; constructor; auto; discriminate. Qed.
Lemma flow_app p al s B q al1 : flow p al s B q al1 -> forall t C r al2, flow q al1 t C r al2 -> flow p al (s ++ t) (B ++ C) r al2.
Proof.
  induction 1 as [p q al H|p al s B q al' F IH|al s B q al' F IH|w bs al s B q al' W H1 H2 F IH]; intros t C r al2 G; cbn [app].
  - destruct p; [rewrite (H eq_refl) in G; auto|now apply flow_less in G].
  - apply flow_gap; auto.
  - apply flow_nl; auto.
  - rewrite <- !app_assoc. apply flow_seg; auto.
Qed.
Lemma flow_end p al s B q al' r : flow p al s B q al' -> flow p al (s ++ [10; 10]) B r al'.
Proof. intros F. rewrite <- (app_nil_r B). eapply flow_app; eauto. apply flow_gap. constructor. discriminate. Qed.
Lemma flow_around p p' al s B q q' al' : flow p al s B q al' -> flow p' al ([10; 10] ++ s ++ [10; 10]) B q' al'.
Proof. intros F. apply flow_gap. apply flow_less in F. eapply flow_end; eauto. Qed.
Lemma flow_one w bs p q al : seg w bs -> (bs = [] -> al = true) -> (is_list bs = true -> al = false) -> flow p al ([10; 10] ++ w ++ [10; 10]) bs q (is_list bs).
Proof. intros W H1 H2. apply flow_gap. rewrite <- (app_nil_r bs) at 1. apply flow_seg; auto. apply flow_gap. constructor. discriminate. Qed.
Inductive pieces : bool -> list bytes -> list block -> Prop :=
| pc_nil al : pieces al [] []
| pc_cons al w bs ws B : seg w bs -> (bs = [] -> al = true) -> (is_list bs = true -> al = false) -> pieces (is_list bs) ws B -> pieces al (w :: ws) (bs ++ B).
Lemma pieces_nil ws B : pieces false ws B -> B = [] -> ws = [].
Proof. destruct ws as [|w ws]; auto. intros P. inversion P as [|? ? bs ? C S H1 H2 P']; subst. intros E. apply app_eq_nil in E as [-> _]. discriminate (H1 eq_refl). Qed.
Inductive gaps : list bytes -> bytes -> Prop :=
| gap_one w : tidy_block w -> gaps [w] w
| gap_cons w n ws J : tidy_block w -> gaps ws J -> gaps (w :: ws) (w ++ 10 :: 10 :: repeat 10 n ++ J).
Lemma flow_gaps p al s B q al' : flow p al s B q al' -> (exists n, B = [] /\ s = repeat 10 n) \/
  exists n m ws J, s = repeat 10 n ++ J ++ repeat 10 m /\ gaps ws J /\ pieces al ws B /\ (p = true -> (2 <= n)%nat).
Proof.
  induction 1 as [p q al H|p al s B q al' F IH|al s B q al' F IH|w bs al s B q al' W H1 H2 F IH].
  - left. now exists O.
  - destruct IH as [(n & -> & ->)|(n & m & ws & J & -> & G & P & _)].
    + left. now exists (S (S n)).
    + right. exists (S (S n)), m, ws, J. repeat split; auto. lia.
  - destruct IH as [(n & -> & ->)|(n & m & ws & J & -> & G & P & _)].
    + left. now exists (S n).
    + right. exists (S n), m, ws, J. repeat split; auto. discriminate.
  - right. destruct IH as [(n & -> & ->)|(n & m & ws & J & -> & G & P & L)].
    + exists O, n, [w], w. split; [reflexivity|]. split; [constructor; eauto|]. split; [|discriminate]. constructor; auto; constructor.
    + specialize (L eq_refl). destruct n as [|[|n]]; try lia. exists O, m, (w :: ws), (w ++ 10 :: 10 :: repeat 10 n ++ J). split; [cbn [repeat app]; rewrite <- app_assoc; cbn [app]; now rewrite <- app_assoc|].
      split; [constructor; eauto|]. split; [|discriminate]. constructor; auto.
Qed.
Lemma gaps_hugs ws J : gaps ws J -> hugs J.
Proof.
  induction 1 as [w H|w n ws J H G IH]; [now apply tidy_hugs|]. change (10 :: repeat 10 n ++ J) with (repeat 10 (S n) ++ J). apply hugs_join; auto. now apply tidy_hugs.
Qed.
Lemma gaps_tcn ws J : gaps ws J -> trim_consecutive_newlines J = join [10; 10] ws /\ neat (split_on 10 (join [10; 10] ws)) /\ spaces_line (hd [] (split_on 10 (join [10; 10] ws))) = false.
Proof.
  unfold trim_consecutive_newlines. induction 1 as [w T|w n ws J T G [IH1 [IH2 IH3]]].
  - pose proof T as (_ & _ & K & _). cbn [join]. rewrite ?app_nil_r. split; [now apply neat_tcn|]. split; auto. now apply tidy_first.
  - pose proof T as (_ & _ & K & C). destruct (hugs_last w (tidy_hugs w T)) as (c & u & -> & Nc1 & Nc2 & _). rewrite <- app_assoc. cbn [app].
    rewrite tcn_snoc by auto. rewrite neat_tcn by auto. rewrite tcn_newlines.
    destruct (hugs_first J (gaps_hugs _ _ G)) as (d & v & EJ & Nd1 & Nd2 & _). rewrite EJ, tcn_start, <- EJ, IH1 by auto.
    destruct ws as [|w' ws]; [inversion G|]. change (join [10; 10] ((u ++ [c]) :: w' :: ws)) with ((u ++ [c]) ++ 10 :: [] ++ 10 :: join [10; 10] (w' :: ws)).
    split; [reflexivity|]. rewrite split_nl. rewrite (split_nl []). change (split_on 10 []) with [@nil N]. split.
    + apply neat_app; auto; [|intros _; now apply closed_solid]. apply neat_app; [constructor|auto|]. congruence.
    + pose proof (tidy_first _ T) as Tf. pose proof (split_on_ne 10 (u ++ [c])) as Ne. destruct (split_on 10 (u ++ [c])); [easy|]. exact Tf.
Qed.
Lemma flow_trim p s B q al' : flow p false s B q al' -> exists ws, post_trim s = join [10; 10] ws /\ pieces false ws B /\ (B = [] <-> trim_space s = []).
Proof.
  intros F. destruct (flow_gaps _ _ _ _ _ _ F) as [(n & -> & ->)|(n & m & ws & J & -> & G & P & _)]; unfold post_trim.
  - exists []. rewrite trim_only_newlines. split; [reflexivity|]. split; [constructor|easy].
  - exists ws. rewrite trim_newlines_around by now apply (gaps_hugs ws). destruct (gaps_tcn _ _ G) as (-> & K & _). rewrite neat_hard by auto. split; auto. split; auto.
    split; intros E; exfalso.
    + rewrite (pieces_nil ws B P E) in G. inversion G.
    + destruct (gaps_hugs _ _ G). contradiction.
Qed.
End flows.
