(** Lemmas about elements kept as HTML (C72). *)
From Coq Require Import List NArith ZArith Bool String Lia Sorting.Permutation Sorting.Sorted.
From Verif Require Import Bytes BytesFacts TextUtils RenderText Escape SpecText SpecText2 TextFacts TextFacts2 RenderFacts RenderFacts2 RenderFacts3
  RenderFacts4 RenderFacts5 EscapeFacts6 Dom DomUtils Engine CommonMark Table SpecEngine EngineFacts RenderInv PanicFacts SpecPipeline PipelineFacts
  SpecTrim EdgeFacts5 DomFacts2 SpecHtml.
Import ListNotations.
Open Scope N_scope.
Open Scope list_scope.

(** ** Blank lines at the ends *)
Lemma sp10_split k : forall l r, repeat 32 k ++ [10] = l ++ r -> r = [] \/ exists j, r = repeat 32 j ++ [10].
Proof.
  induction k as [|k IH]; intros l r E.
  - destruct l as [|c l]; cbn [repeat app] in E; [right; exists O; now rewrite <- E|]. injection E as _ E. symmetry in E. apply app_eq_nil in E as [_ ->]. now left.
  - destruct l as [|c l]; [right; exists (S k); exact (eq_sym E)|]. cbn [repeat app] in E. injection E as _ E. eauto.
Qed.
Lemma blank_split u r a k : u ++ r = a ++ [10] ++ repeat 32 k ++ [10] -> r = [] \/ ends_blank r \/ exists j, r = repeat 32 j ++ [10].
Proof.
  intros E. apply app_eq_app in E as (l & [(-> & E)|(-> & E)]).
  - destruct l as [|c l]; [right; left; exists [], k; exact (eq_sym E)|]. cbn [app] in E. injection E as _ E. apply sp10_split in E as [->|H]; auto.
  - right. left. exists l, k. exact E.
Qed.
Lemma ends_more u r : ends_blank r -> ends_blank (u ++ r).
Proof. intros (a & k & ->). exists (u ++ a), k. now rewrite <- app_assoc. Qed.
Lemma ends_sp10 u j : ends_blank (u ++ [10] ++ repeat 32 j ++ [10]).
Proof. now exists u, j. Qed.

Definition hard_pattern (old : bytes) : Prop := old = [32; 32; 10; 10] \/ old = [32; 32; 10; 32; 32; 10] \/ old = [32; 32; 10; 32; 10].
Lemma hard_not_sp10 old r k : hard_pattern old -> old ++ r <> repeat 32 k ++ [10].
Proof. intros [->|[->| ->]]; destruct k as [|[|[|k]]]; cbn [repeat app]; discriminate. Qed.
Lemma before_replace old : hard_pattern old -> forall s, let o := replace_all old [10; 10] s in
  (ends_blank s -> ends_blank o) /\ (forall k, s = repeat 32 k ++ [10] -> exists j, o = repeat 32 j ++ [10]) /\ (s = [] -> o = []).
Proof.
  intros Ho. cbv zeta. apply (replace_ind old [10; 10] (fun s o =>
    (ends_blank s -> ends_blank o) /\ (forall k, s = repeat 32 k ++ [10] -> exists j, o = repeat 32 j ++ [10]) /\ (s = [] -> o = []))).
  - destruct Ho as [->|[->| ->]]; discriminate.
  - repeat split; auto. intros k E. now destruct k.
  - intros r o (H1 & H2 & H3). split; [|split].
    + intros (a & k & E). apply blank_split in E as [->|[H|(j & ->)]].
      * rewrite H3 by easy. now exists [], O.
      * apply ends_more. auto.
      * destruct (H2 j eq_refl) as (i & ->). now exists [10], i.
    + intros k E. now apply hard_not_sp10 in E.
    + destruct Ho as [->|[->| ->]]; discriminate.
  - intros c t o _ (H1 & H2 & H3). split; [|split].
    + intros (a & k & E). destruct a as [|d a]; cbn [app] in E; injection E as -> E.
      * destruct (H2 k E) as (j & ->). now exists [], j.
      * apply (ends_more [d]). apply H1. now exists a, k.
    + intros [|k] E; cbn [repeat app] in E; injection E as -> E; [exists O; now rewrite H3|]. destruct (H2 k E) as (j & ->). now exists (S j).
    + discriminate.
Qed.
Lemma after_replace old : hard_pattern old -> forall k r, exists j r', replace_all old [10; 10] (repeat 32 k ++ 10 :: r) = repeat 32 j ++ 10 :: r'.
Proof.
  intros Ho. induction k as [|k IH]; intros r; cbn [repeat app]; rewrite replace_all_cons.
  - exists O. destruct Ho as [->|[->| ->]]; cbn [has_prefix N.eqb Pos.eqb andb]; eexists; reflexivity.
  - destruct (has_prefix _ _); [exists O; eexists; reflexivity|]. destruct (IH r) as (j & r' & ->). now exists (S j), r'.
Qed.
Lemma replace_absent old new s : old <> [] -> ~ infix old s -> replace_all old new s = s.
Proof.
  intros N. apply (replace_ind old new (fun s o => ~ infix old s -> o = s)); auto.
  - intros r o _ H. elim H. now exists [], r.
  - intros c t o _ IH H. f_equal. apply IH. intros (x & y & ->). apply H. now exists (c :: x), y.
Qed.

(** ** What the last phase keeps *)
Definition keeps (blk : bool) (h s : bytes) : Prop := exists a z, s = a ++ h ++ z /\ (blk = true -> blank_before a /\ blank_after z).
Section kept.
Variables (blk : bool) (h : bytes).
Hypothesis Ht : tidy_html h.
Lemma tidy_ends : exists m, h = 60 :: m ++ [62]. Proof. exact (proj1 Ht). Qed.
Lemma keeps_hard1 old s : hard_pattern old -> keeps blk h s -> keeps blk h (replace_all old [10; 10] s).
Proof.
  intros Ho (a & z & -> & Hb). destruct tidy_ends as (m & Em).
  assert (No : old <> []) by (destruct Ho as [->|[->| ->]]; discriminate).
  assert (Nm : ~ infix old m).
  { intros (x & y & ->). destruct Ht as (_ & _ & _ & _ & H). destruct Ho as [->|[->| ->]]; [apply (H 0%nat)|apply (H 2%nat)|apply (H 1%nat)];
      rewrite Em; exists (60 :: x), (y ++ [62]); cbn [repeat app]; now rewrite <- app_assoc. }
  assert (Ni : forall c, 60 <= c -> ~ In c old) by (intros c Hc I; destruct Ho as [->|[->| ->]]; cbn in I; lia).
  exists (replace_all old [10; 10] a), (replace_all old [10; 10] z). split.
  - rewrite Em. rewrite <- app_comm_cons. rewrite (replace_all_sep old [10; 10] 60) by (auto; apply Ni; lia).
    rewrite <- app_assoc. cbn [app]. rewrite (replace_all_sep old [10; 10] 62) by (auto; apply Ni; lia).
    rewrite (replace_absent old [10; 10] m No Nm). f_equal. rewrite <- app_assoc. reflexivity.
  - intros B. destruct (Hb B) as [Ha Hz]. split.
    + destruct Ha as [->|Ha]; [left; now apply before_replace|right; now apply before_replace].
    + destruct Hz as [->|(k & z' & ->)]; [left; now apply before_replace|]. right. cbn [app].
      destruct (after_replace old Ho k z') as (j & r' & E). exists j, r'. cbn [app]. rewrite <- E. rewrite replace_all_cons.
      replace (has_prefix old _) with false; [reflexivity|]. destruct Ho as [->|[->| ->]]; reflexivity.
Qed.
Lemma keeps_hard s : keeps blk h s -> keeps blk h (trim_hard_breaks s).
Proof. intros H. unfold trim_hard_breaks. cbv zeta. apply keeps_hard1; [unfold hard_pattern; auto|]. apply keeps_hard1; [unfold hard_pattern; auto|]. apply keeps_hard1; [unfold hard_pattern; auto|]. exact H. Qed.
Lemma keeps_newline s : keeps blk h s -> keeps blk h (post_newline s).
Proof.
  intros (a & z & -> & Hb). destruct tidy_ends as (m & Em). unfold post_newline. set (old := marker_nl).
  assert (No : old <> []) by discriminate.
  assert (Nm : ~ infix old m).
  { intros (x & y & ->). destruct Ht as (_ & _ & H & _). apply H. rewrite Em. exists (60 :: x), (y ++ [62]). cbn [app]. now rewrite <- !app_assoc. }
  assert (Ni : forall c, c < 128 -> ~ In c old) by (intros c Hc I; cbn in I; lia).
  assert (Nr : forall k, ~ infix old (repeat 32 k)).
  { intros k (x & y & E). assert (I : In 239 (repeat 32 k)) by (rewrite E; apply in_app_iff; right; now left). apply repeat_spec in I. discriminate. }
  exists (replace_all old [10] a), (replace_all old [10] z). split.
  - rewrite Em. rewrite <- app_comm_cons. rewrite (replace_all_sep old [10] 60) by (auto; apply Ni; lia).
    rewrite <- app_assoc. cbn [app]. rewrite (replace_all_sep old [10] 62) by (auto; apply Ni; lia).
    rewrite (replace_absent old [10] m No Nm). f_equal. rewrite <- app_assoc. reflexivity.
  - intros B. destruct (Hb B) as [Ha Hz]. split.
    + destruct Ha as [->|(a' & k & ->)]; [now left|]. right. exists (replace_all old [10] a'), k. cbn [app].
      rewrite (replace_all_sep old [10] 10) by (auto; apply Ni; lia). rewrite (replace_all_sep old [10] 10) by (auto; apply Ni; lia).
      rewrite (replace_absent old [10] (repeat 32 k) No (Nr k)). reflexivity.
    + destruct Hz as [->|(k & z' & ->)]; [now left|]. right. exists k, (replace_all old [10] z'). cbn [app].
      rewrite replace_all_cons. replace (has_prefix old _) with false by reflexivity. f_equal.
      rewrite (replace_all_sep old [10] 10) by (auto; apply Ni; lia). rewrite (replace_absent old [10] (repeat 32 k) No (Nr k)). reflexivity.
Qed.
(** newlines *)
Lemma after_change l : forall k z' v, l ++ 10 :: v = repeat 32 k ++ 10 :: z' -> forall v', exists j z'', l ++ 10 :: v' = repeat 32 j ++ 10 :: z''.
Proof.
  induction l as [|c l IH]; intros k z' v E v'; [now exists O, v'|]. destruct k as [|k]; cbn [repeat app] in E; injection E as -> E.
  - now exists O, (l ++ 10 :: v').
  - destruct (IH _ _ _ E v') as (j & z'' & E'). exists (S j), z''. cbn [repeat app]. now rewrite <- E'.
Qed.
Definition window p q : bytes := [10] ++ repeat 32 p ++ [10] ++ repeat 32 q ++ [10].
Lemma window_in p q c : In c (window p q) -> c = 10 \/ c = 32.
Proof. unfold window. rewrite !in_app_iff. cbn [In]. intros [[<-|[]]|[I|[[<-|[]]|[I|[<-|[]]]]]]; auto; apply repeat_spec in I; auto. Qed.
Lemma keeps_squeeze s o : newline_squeeze s o -> keeps blk h s -> keeps blk h o.
Proof.
  induction 1 as [s|x p q y o _ IH]; auto. intros (a & z & E & Hb). apply IH. clear IH.
  assert (E' : x ++ window p q ++ y = a ++ h ++ z) by (rewrite <- E; unfold window; now rewrite <- !app_assoc). clear E. rename E' into E.
  destruct tidy_ends as (m & Em).
  assert (C : (exists l, z = l ++ window p q ++ y /\ x = a ++ h ++ l) \/ (exists l, a = x ++ window p q ++ l /\ y = l ++ h ++ z)).
  { apply app_eq_app in E as (l & [(-> & E)|(-> & E)]).
    - apply app_eq_app in E as (l' & [(El & E2)|(-> & E2)]).
      + destruct l' as [|c l'].
        * left. exists []. cbn [app] in E2 |- *. rewrite E2. split; auto. rewrite app_nil_r. f_equal. rewrite app_nil_r in El. auto.
        * exfalso. assert (L : exists u, c :: l' = u ++ [62]).
          { rewrite Em in El. destruct l as [|d l]; cbn [app] in El; [rewrite <- El; now exists (60 :: m)|]. injection El as _ El.
            destruct (@exists_last _ (c :: l') ltac:(discriminate)) as (u & w & Eu). exists u. rewrite Eu in El |- *. rewrite app_assoc in El.
            apply app_inj_tail in El as [_ <-]. reflexivity. }
          destruct L as (u & Eu). apply app_eq_app in E2 as (l2 & [(W & _)|(W & _)]).
          -- assert (I : In 62 (window p q)) by (rewrite W, Eu, !in_app_iff; left; right; now left). apply window_in in I. lia.
          -- destruct Ht as (_ & _ & _ & T & _). apply T. rewrite El, W. exists l, p, q, l2. unfold window. now rewrite <- !app_assoc.
      + left. exists l'. split; auto.
    - apply app_eq_app in E as (l' & [(W & E2)|(-> & E2)]).
      + destruct l' as [|c l'].
        * right. exists []. rewrite !app_nil_r in W |- *. rewrite W. cbn [app] in E2 |- *. auto.
        * exfalso. assert (c = 60) by (rewrite Em in E2; cbn [app] in E2; now injection E2). subst c.
          assert (I : In 60 (window p q)) by (rewrite W, in_app_iff; right; now left). apply window_in in I. lia.
      + right. exists l'. split; [reflexivity|exact E2]. }
  destruct C as [(l & -> & ->)|(l & -> & ->)].
  - exists a, (l ++ [10] ++ repeat 32 p ++ [10] ++ y). split; [now rewrite <- !app_assoc|]. intros B. destruct (Hb B) as [Ha Hz]. split; auto.
    destruct Hz as [Z|(k & z' & Z)]; [apply app_eq_nil in Z as [_ Z]; discriminate Z|]. right.
    destruct l as [|c l]; [now exists p, y|]. cbn [app] in Z. injection Z as -> Z. unfold window in Z. cbn [app] in Z.
    destruct (after_change l _ _ _ Z (repeat 32 p ++ 10 :: y)) as (j & z'' & E2). exists j, z''. cbn [app]. now rewrite E2.
  - exists (x ++ [10] ++ repeat 32 p ++ [10] ++ l), z. split; [now rewrite <- !app_assoc|]. intros B. destruct (Hb B) as [Ha Hz]. split; auto.
    right. destruct Ha as [A|(a' & k & A)]; [apply app_eq_nil in A as [_ A]; discriminate A|]. rewrite app_assoc in A.
    apply blank_split in A as [->|[H|(j & ->)]].
    + rewrite app_nil_r. apply ends_sp10.
    + rewrite !app_assoc. now apply ends_more.
    + exists (x ++ [10] ++ repeat 32 p), j. now rewrite <- !app_assoc.
Qed.
Lemma keeps_tcn s : keeps blk h s -> keeps blk h (trim_consecutive_newlines s).
Proof. apply keeps_squeeze, trim_newlines_squeeze. Qed.
(** white space at the ends *)
Lemma keeps_trim s : keeps blk h s -> keeps blk h (trim_space s).
Proof.
  intros (a & z & E & Hb). destruct (trim_space_ws s) as (l & r & El & Fl & Fr). pose proof (trim_trimmed s) as T.
  set (t := trim_space s) in *. destruct tidy_ends as (m & Em).
  assert (Ni : forall c u, 60 <= c < 128 -> Forall ws_byte u -> ~ In c u).
  { intros c u Hc F I. rewrite Forall_forall in F. apply F in I. unfold ws_byte in I. lia. }
  rewrite El in E. clear El.
  assert (A : exists a', a = l ++ a' /\ a' ++ h ++ z = t ++ r).
  { apply app_eq_app in E as (d & [(-> & E)|(-> & E)]); [|now exists d]. destruct d as [|c d]; [exists []; rewrite !app_nil_r in *; cbn [app] in *; auto|].
    exfalso. rewrite Em in E. cbn [app] in E. injection E as <- _. apply (Ni 60 (a ++ 60 :: d)); auto; [lia|]. apply in_app_iff. right. now left. }
  destruct A as (a' & -> & E1). clear E.
  assert (Z : exists z', z = z' ++ r /\ t = a' ++ h ++ z').
  { rewrite app_assoc in E1. apply app_eq_app in E1 as (d & [(E2 & ->)|(-> & ->)]).
    - destruct d as [|c d]; [exists []; rewrite !app_nil_r in *; cbn [app]; auto|]. exfalso.
      apply (Ni 62 ((c :: d) ++ z)); auto; [lia|]. apply in_app_iff. left.
      destruct (@exists_last _ (c :: d) ltac:(discriminate)) as (u & w & Eu). rewrite Eu in E2 |- *. rewrite Em in E2. rewrite app_comm_cons, !app_assoc in E2.
      apply app_inj_tail in E2 as [_ ->]. apply in_app_iff. right. now left.
    - exists d. now rewrite <- app_assoc. }
  destruct Z as (z' & -> & Et). exists a', z'. split; auto. intros B. destruct (Hb B) as [Ha Hz].
  assert (W10 : In [10] white_characters) by (vm_compute; tauto). assert (W32 : In [32] white_characters) by (vm_compute; tauto). split.
  - destruct Ha as [A|(a0 & k & A)]; [apply app_eq_nil in A as [_ ->]; now left|].
    apply blank_split in A as [->|[H|(j & ->)]]; [now left|now right|]. exfalso. destruct j as [|j]; cbn [repeat app] in Et.
    + now apply (proj1 (T _ W10) (h ++ z')).
    + apply (proj1 (T _ W32) ((repeat 32 j ++ [10]) ++ h ++ z')). exact Et.
  - destruct z' as [|c y]; [now left|]. destruct Hz as [Z|(k & z0 & Z)]; [discriminate|]. right.
    cbn [app] in Z. injection Z as -> Z.
    assert (Q : forall n u, u ++ r = repeat 32 n ++ 10 :: z0 -> (exists w, u = repeat 32 n ++ 10 :: w) \/ exists i, u = repeat 32 i).
    { clear. induction n as [|n IH]; intros u E; cbn [repeat app] in E.
      - destruct u as [|c u]; [right; now exists O|]. cbn [app] in E. injection E as -> E. left. now exists u.
      - destruct u as [|c u]; [right; now exists O|]. cbn [app] in E. injection E as -> E. destruct (IH _ E) as [(w & ->)|(i & ->)]; [left; now exists w|right; now exists (S i)]. }
    destruct (Q _ _ Z) as [(w & ->)|(i & ->)]; [now exists k, w|]. exfalso. destruct i as [|i].
    + apply (proj2 (T _ W10) (a' ++ h)). rewrite Et. now rewrite <- app_assoc.
    + apply (proj2 (T _ W32) (a' ++ h ++ 10 :: repeat 32 i)). rewrite Et. rewrite <- !app_assoc. do 2 f_equal. cbn [repeat app]. f_equal. 
      clear. induction i as [|i IH]; auto. cbn [repeat app]. now rewrite <- IH.
Qed.
Lemma keeps_post_trim s : keeps blk h s -> keeps blk h (post_trim s).
Proof. intros H. unfold post_trim. now apply keeps_hard, keeps_tcn, keeps_trim. Qed.
(** markers *)
Lemma unescape_free ds g z : ~ In 7 g -> forall k rb, exists k' rb', unescape_from ds k rb (g ++ z) = g ++ unescape_from ds k' rb' z.
Proof.
  induction g as [|c g IH]; intros N k rb; [now exists k, rb|]. cbn [app unescape_from]. destruct (c =? marker_esc) eqn:E.
  - apply N.eqb_eq in E. elim N. left. exact E.
  - destruct (IH (fun I => N (or_intror I)) (pred k) (c :: rb)) as (k' & rb' & ->). now exists k', rb'.
Qed.
Lemma unescape_cut ds t a : forall k rb, exists a' k' rb', unescape_from ds k rb (a ++ t) = a' ++ unescape_from ds k' rb' t /\ (a = [] -> a' = []).
Proof.
  induction a as [|c a IH]; intros k rb; [now exists [], k, rb|]. cbn [app unescape_from]. destruct (c =? marker_esc).
  - destruct k as [|k].
    + destruct (a ++ t) as [|d u] eqn:E.
      * apply app_eq_nil in E as [-> ->]. now exists [], O, [].
      * destruct (first_skip ds (c :: rb) d u) as [n|].
        -- destruct (IH (pred n) (c :: rb)) as (a' & k' & rb' & -> & _). exists (cBSL :: a'), k', rb'. split; [reflexivity|discriminate].
        -- destruct (IH O (c :: rb)) as (a' & k' & rb' & -> & _). exists a', k', rb'. split; [reflexivity|discriminate].
    + destruct (IH k (c :: rb)) as (a' & k' & rb' & -> & _). exists a', k', rb'. split; [reflexivity|discriminate].
  - destruct (IH (pred k) (c :: rb)) as (a' & k' & rb' & -> & _). exists (c :: a'), k', rb'. split; [reflexivity|discriminate].
Qed.
Lemma keeps_unescape m ds s : keeps blk h s -> keeps blk h (unescape_with m ds s).
Proof.
  intros (a & z & -> & Hb). destruct m; [|now exists a, z]. cbn [unescape_with]. unfold unescape_content.
  assert (N7 : ~ In 7 h) by apply Ht.
  assert (Nb : forall k, ~ In 7 ([10] ++ repeat 32 k ++ [10])).
  { intros k I. rewrite !in_app_iff in I. cbn [In] in I. destruct I as [[I|[]]|[I|[I|[]]]]; try discriminate. apply repeat_spec in I. discriminate. }
  assert (A : exists a1 a2, a = a1 ++ a2 /\ ~ In 7 a2 /\ (blk = true -> (a1 = [] /\ a2 = []) \/ exists k, a2 = [10] ++ repeat 32 k ++ [10])).
  { destruct blk; [|exists a, []; rewrite app_nil_r; split; [easy|split; [easy|discriminate]]]. destruct (Hb eq_refl) as [[->|(a' & k & ->)] _].
    - exists [], []. auto.
    - exists a', ([10] ++ repeat 32 k ++ [10]). split; auto. split; eauto. }
  destruct A as (a1 & a2 & -> & Na & Ca).
  assert (Z : exists z1 z2, z = z1 ++ z2 /\ ~ In 7 z1 /\ (blk = true -> (z1 = [] /\ z2 = []) \/ exists k, z1 = [10] ++ repeat 32 k ++ [10])).
  { destruct blk; [|exists [], z; split; [easy|split; [easy|discriminate]]]. destruct (Hb eq_refl) as [_ [->|(k & z' & ->)]].
    - exists [], []. auto.
    - exists ([10] ++ repeat 32 k ++ [10]), z'. split; [now rewrite <- !app_assoc|]. split; eauto. }
  destruct Z as (z1 & z2 & -> & Nz & Cz).
  replace ((a1 ++ a2) ++ h ++ z1 ++ z2) with (a1 ++ (a2 ++ h ++ z1) ++ z2) by now rewrite <- !app_assoc.
  destruct (unescape_cut ds ((a2 ++ h ++ z1) ++ z2) a1 O []) as (a' & k' & rb' & -> & A0).
  destruct (unescape_free ds (a2 ++ h ++ z1) z2) with (k := k') (rb := rb') as (k2 & rb2 & ->).
  { rewrite !in_app_iff. tauto. }
  exists (a' ++ a2), (z1 ++ unescape_from ds k2 rb2 z2). split; [now rewrite <- !app_assoc|]. intros B. split.
  - destruct (Ca B) as [[-> ->]|(k & ->)]; [left; now rewrite A0|right; now exists a', k].
  - destruct (Cz B) as [[-> ->]|(k & ->)]; [now left|]. right. exists k. eexists. rewrite <- !app_assoc. reflexivity.
Qed.
End kept.

(** ** Rendering *)
Definition steps_aside (e : env) (hs : list renderer) (n : node) : Prop :=
  forall h rec c anc, In h hs -> h e rec c anc n = Done (false, []).
Lemma aside_fallback e rec c anc n : forall hs, steps_aside e hs n -> try_renderers e hs rec c anc n = fallback e rec c anc n.
Proof.
  induction hs as [|h hs IH]; intros H; [reflexivity|]. cbn [try_renderers]. rewrite (H h rec c anc (or_introl eq_refl)). cbn [bind fst snd].
  rewrite IH by (intros h' ? ? ? I; apply H; now right). destruct (fallback e rec c anc n); reflexivity.
Qed.
Lemma write_all_in l r out : In r l -> write_all l = Done out -> exists w a z, r = Done w /\ out = a ++ w ++ z.
Proof.
  revert out. induction l as [|r' l IH]; intros out I E; [destruct I|]. cbn [write_all] in E. destruct r' as [w| |]; cbn [bind] in E; try discriminate.
  destruct (write_all l) as [y| |]; cbn [bind] in E; try discriminate. injection E as <-. destruct I as [<-|I].
  - exists w, [], y. auto.
  - destruct (IH _ I eq_refl) as (w' & a & z & -> & ->). exists w', (w ++ a), z. now rewrite <- app_assoc.
Qed.
Lemma stands_render e hs ts n root : stands_in n root ->
  (forall ks, steps_aside e hs (Doc ks)) -> (forall x a ks, In x plain_names -> steps_aside e hs (Elem x a ks)) ->
  forall f c anc out, render e hs ts f c anc root = Done out ->
  exists f' c' anc' w a z, render e hs ts (S f') c' anc' n = Done w /\ out = a ++ w ++ z.
Proof.
  intros St Hd He. induction St as [|ks k I St IH|x a ks k Ix I St IH]; intros f c anc out E.
  - destruct f as [|f]; [discriminate E|]. exists f, c, anc, out, [], []. rewrite app_nil_r. auto.
  - destruct f as [|f]; [discriminate E|]. cbn [render] in E. rewrite aside_fallback in E by apply Hd. unfold fallback, render_kids in E. cbv zeta in E.
    set (q := if is_block_type _ then [cNL; cNL] else []) in E.
    destruct (write_all _) as [y| |] eqn:W; cbn [bind] in E; try discriminate. injection E as <-.
    eapply write_all_in in W as (w & a & z & Ek & ->); [|apply in_map; exact I].
    destruct (IH _ _ _ _ Ek) as (f' & c' & anc' & w' & a' & z' & En & ->). exists f', c', anc', w'. exists (q ++ a ++ a'), (z' ++ z ++ q). split; [exact En|].
    rewrite <- !app_assoc. reflexivity.
  - destruct f as [|f]; [discriminate E|]. cbn [render] in E. rewrite aside_fallback in E by now apply He. unfold fallback, render_kids in E. cbv zeta in E.
    set (q := if is_block_type _ then [cNL; cNL] else []) in E.
    destruct (write_all _) as [y| |] eqn:W; cbn [bind] in E; try discriminate. injection E as <-.
    eapply write_all_in in W as (w & a0 & z & Ek & ->); [|apply in_map; exact I].
    destruct (IH _ _ _ _ Ek) as (f' & c' & anc' & w' & a' & z' & En & ->). exists f', c', anc', w'. exists (q ++ a0 ++ a'), (z' ++ z ++ q). split; [exact En|].
    rewrite <- !app_assoc. reflexivity.
Qed.

Section conversion.
Variable sort : forall A : Type, list (Z * A) -> list (Z * A).
Hypothesis Hsort : sorts sort.
Lemma first_in_order A (p : Z) (x : A) l : (forall q y, In (q, y) l -> (p < q)%Z) -> exists r, in_order sort (l ++ [(p, x)]) = x :: r /\ forall y, In y r -> exists q, In (q, y) l.
Proof.
  intros H. unfold in_order. destruct (Hsort _ (l ++ [(p, x)])) as [P S].
  assert (I : In (p, x) (sort A (l ++ [(p, x)]))).
  { eapply Permutation_in; [apply Permutation_sym; exact P|]. apply in_app_iff. right. now left. }
  apply in_split in I as (l1 & l2 & E). rewrite E in P, S. destruct l1 as [|[q y] l1].
  - exists (map snd l2). rewrite E. split; [reflexivity|]. intros y I. apply in_map_iff in I as ([q y'] & <- & I). exists q.
    assert (P2 : Permutation l2 l).
    { apply (Permutation_cons_inv (a := (p, x))). eapply perm_trans; [exact P|]. apply Permutation_sym, Permutation_cons_append. }
    eapply Permutation_in; eauto.
  - exfalso. assert (Q : In (q, y) (l ++ [(p, x)])) by (eapply Permutation_in; [exact P|]; now left).
    assert (L : (q <= p)%Z). { apply (sorted_after _ [] (l1 ++ (p, x) :: l2) (q, y) S (p, x)). apply in_app_iff. right. now left. }
    apply in_app_iff in Q as [Q|[Q|[]]]; [apply H in Q; lia|]. injection Q as E1 E2; subst q y.
    assert (P3 : Permutation (l1 ++ (p, x) :: l2) l).
    { apply (Permutation_cons_inv (a := (p, x))). eapply perm_trans; [exact P|]. apply Permutation_sym, Permutation_cons_append. }
    assert (I : In (p, x) l) by (eapply Permutation_in; [exact P3|]; apply in_app_iff; right; now left). apply H in I. lia.
Qed.
Variables (m : escape_mode) (us : list use) (x : bytes) (t : tag_type) (R : renderer).
Let cv := do_actions (reg_renderer_for x t R prio_early) (converter_with m us).
Lemma kept_render : exists r, in_order sort (cv_render cv) = renderer_for x R :: r /\ forall h, In h r -> exists u, In u us /\ In h (map snd (use_render u)).
Proof.
  assert (E : cv_render cv = flat_map use_render us ++ [(100%Z, renderer_for x R)]).
  { unfold cv. rewrite cv_render_actions, cw_render. reflexivity. }
  rewrite E. destruct (first_in_order _ 100%Z (renderer_for x R) (flat_map use_render us)) as (r & E2 & H).
  - intros q y I. apply in_flat_map in I as (u & _ & I). destruct u as [|cfg|d|os]; cbn [use_render] in I.
    + destruct I.
    + destruct (valid_cfg cfg); [|destruct I]. destruct I as [[= <- _]|[]]. lia.
    + destruct I as [[= <- _]|[]]. lia.
    + destruct (apply_table_options os table_defaults) as [? [?|]]; [destruct I|]. destruct I as [[= <- _]|[]]. lia.
  - exists r. split; auto. intros h I. apply H in I as (q & I). apply in_flat_map in I as (u & Iu & I). exists u. split; auto. apply in_map_iff. now exists (q, h).
Qed.
Lemma kept_type : get_tag_type sort cv x = Some t.
Proof.
  unfold get_tag_type. assert (E : cv_tags cv = flat_map use_tags us ++ [(x, (100%Z, t))]).
  { unfold cv. rewrite cv_tags_actions, cw_tags. reflexivity. }
  rewrite E. unfold types_for. rewrite filter_app, map_app. cbn [filter fst]. rewrite beqb_refl. cbn [map snd].
  destruct (first_in_order _ 100%Z t (map snd (filter (fun e => beqb (fst e) x) (flat_map use_tags us)))) as (r & -> & _); [|reflexivity].
  intros q y I. apply in_map_iff in I as ((nm & qy) & E2 & I). cbn [snd] in E2. subst qy. apply filter_In in I as [I _].
  apply in_flat_map in I as (u & _ & I). destruct u; cbn [use_tags] in I; try contradiction. apply in_map_iff in I as (n0 & [= _ <- _] & _). reflexivity.
Qed.
Lemma kept_post : cv_post cv = flat_map use_post us.
Proof. unfold cv. rewrite cv_post_actions, cw_post. cbn. apply app_nil_r. Qed.
Lemma aside e n : node_name n <> x ->
  (forall cfg rec c anc, commonmark_render cfg e rec c anc n = Done (false, [])) ->
  (forall d rec c anc, strike_render d e rec c anc n = Done (false, [])) ->
  (forall tc rec c anc, table_render tc e rec c anc n = Done (false, [])) -> steps_aside e (in_order sort (cv_render cv)) n.
Proof.
  intros Nx H1 H2 H3 h rec c anc I. destruct kept_render as (r & E & H). rewrite E in I. destruct I as [<-|I].
  - unfold renderer_for. destruct (beqb (node_name n) x) eqn:B; [apply beqb_eq in B; congruence|reflexivity].
  - apply H in I as (u & _ & I). destruct u as [|cfg|d|os]; cbn [use_render] in I.
    + destruct I.
    + destruct (valid_cfg cfg); [|destruct I]. destruct I as [<-|[]]. apply H1.
    + destruct I as [<-|[]]. apply H2.
    + destruct (apply_table_options os table_defaults) as [? [?|]]; [destruct I|]. destruct I as [<-|[]]. apply H3.
Qed.
Lemma posts_keep e blk h s : tidy_html h -> (exists mo ds, unescape_fn e = unescape_with mo ds) -> keeps blk h s ->
  keeps blk h (fold_left (fun s h => h e s) (in_order sort (cv_post cv)) s).
Proof.
  intros Ht (mo & ds & Eu). rewrite kept_post.
  assert (Q : forall k, In k (in_order sort (flat_map use_post us)) -> k = base_trim \/ k = base_unescape \/ k = commonmark_post).
  { intros k I. apply (in_order_in sort Hsort) in I as (p & I). apply in_flat_map in I as (u & _ & I). destruct u as [|cfg|d|os]; cbn [use_post] in I; try contradiction.
    - destruct I as [[= _ <-]|[[= _ <-]|[]]]; auto.
    - destruct (valid_cfg cfg); [|destruct I]. destruct I as [[= _ <-]|[]]. auto. }
  revert Q s. generalize (in_order sort (flat_map use_post us)) as l. induction l as [|k l IH]; intros Q s K; [exact K|]. cbn [fold_left].
  apply IH; [intros; apply Q; now right|]. destruct (Q k (or_introl eq_refl)) as [->|[->| ->]].
  - now apply keeps_post_trim.
  - unfold base_unescape. rewrite Eu. now apply keeps_unescape.
  - now apply keeps_newline.
Qed.
(** A renderer of one kind of element, among documents and unknown elements *)
Lemma kept_conversion url doc out n : (forall d, n <> Text d) -> node_name n = x -> ~ In x (b "#document" :: plain_names) ->
  stands_in n (prepared sort cv url doc) -> converts (convert_node sort cv url doc) out ->
  exists rec c anc w a z,
    try_renderers (env_of sort cv url) (in_order sort (cv_render cv)) rec c anc n = Done w
    /\ out = fold_left (fun s h => h (env_of sort cv url) s) (in_order sort (cv_post cv)) (a ++ w ++ z).
Proof.
  intros Nt En Nx St C. unfold converts, convert_node in C. destruct (cv_err cv); [discriminate|]. destruct (is_empty _); [discriminate|].
  destruct (_ && _); [discriminate|]. injection C as C. unfold run_conversion in C. cbv zeta in C.
  destruct (render _ _ _ _ _ _ _) as [o| |] eqn:E; cbn [bind] in C; try discriminate. injection C as <-.
  eapply stands_render in E as (f & c & anc & w & a & z & E & ->); [|exact St| |].
  - cbn [render] in E. destruct n as [d| | | |]; [now elim (Nt d)|..]; eexists _, _, _, _, _, _; (split; [exact E|reflexivity]).
  - intros ks. apply aside; try reflexivity. intros E2. apply Nx. left. exact E2.
  - intros y a' ks Iy. apply aside.
    + intros <-. apply Nx. right. exact Iy.
    + intros. destruct Iy as [<-|[<-|[<-|[<-|[<-|[<-|[]]]]]]]; reflexivity.
    + intros. destruct Iy as [<-|[<-|[<-|[<-|[<-|[<-|[]]]]]]]; reflexivity.
    + intros. destruct Iy as [<-|[<-|[<-|[<-|[<-|[<-|[]]]]]]]; reflexivity.
Qed.
Lemma first_wins url rec c anc n w : node_name n = x -> R (env_of sort cv url) rec c anc n = Done (true, w) ->
  try_renderers (env_of sort cv url) (in_order sort (cv_render cv)) rec c anc n = Done w.
Proof.
  intros En E. destruct kept_render as (r & -> & _). cbn [try_renderers]. unfold renderer_for. rewrite En, beqb_refl, E. reflexivity.
Qed.
Lemma env_unescape url : exists mo ds, unescape_fn (env_of sort cv url) = unescape_with mo ds.
Proof. eexists _, _. reflexivity. Qed.
End conversion.

Lemma html_kept sort : sorts sort -> forall m us x t html url doc out n,
  let cv := do_actions (reg_renderer_for x t (render_as_html html) prio_early) (converter_with m us) in
  (forall d, n <> Text d) -> node_name n = x -> ~ In x (b "#document" :: plain_names) -> tidy_html (html n) ->
  stands_in n (prepared sort cv url doc) -> converts (convert_node sort cv url doc) out ->
  infix (html n) out /\ (t = TBlock -> apart (html n) out).
Proof.
  intros Hs m us x t html url doc out n cv Nt En Nx Ht St C.
  destruct (kept_conversion sort Hs m us x t (render_as_html html) url doc out n Nt En Nx St C) as (rec & c & anc & w & a & z & E & ->).
  rewrite (first_wins sort Hs m us x t (render_as_html html) url rec c anc n (block_newlines (env_of sort cv url) n ++ html n ++ block_newlines (env_of sort cv url) n)) in E; [|exact En|reflexivity].
  injection E as <-. fold cv.
  assert (Et : tag_type_of (env_of sort cv url) (node_name n) = Some t) by (rewrite En; apply kept_type; exact Hs).
  unfold block_newlines. rewrite Et.
  assert (K : keeps (is_block_type (Some t)) (html n) (fold_left (fun s h => h (env_of sort cv url) s) (in_order sort (cv_post cv))
    (a ++ ((if is_block_type (Some t) then [cNL; cNL] else []) ++ html n ++ (if is_block_type (Some t) then [cNL; cNL] else [])) ++ z))).
  { apply (posts_keep sort Hs m us x t (render_as_html html)); auto; [apply env_unescape|].
    exists (a ++ (if is_block_type (Some t) then [cNL; cNL] else [])), ((if is_block_type (Some t) then [cNL; cNL] else []) ++ z).
    split; [now rewrite <- !app_assoc|]. intros ->. split; right; [now exists a, O|now exists O, z]. }
  destruct K as (a' & z' & E & H). split; [now exists a', z'|]. intros ->. exists a', z'. split; auto.
Qed.
(** RenderAsHTMLWrapper *)
Lemma tag_tidy pre x : (pre = [60] \/ pre = [60; 47]) -> Forall tag_char x -> tidy_html (pre ++ x ++ [62]).
Proof.
  intros Hp F. rewrite Forall_forall in F.
  assert (I : forall c, In c (pre ++ x ++ [62]) -> c = 60 \/ c = 47 \/ c = 62 \/ tag_char c).
  { intros c I. rewrite !in_app_iff in I. destruct I as [I|[I|[<-|[]]]]; auto. destruct Hp as [->| ->]; cbn in I; intuition auto. }
  assert (N : forall c, c = 7 \/ c = 10 \/ c = 32 \/ c = 239 -> ~ In c (pre ++ x ++ [62])).
  { intros c Hc Ic. apply I in Ic. unfold tag_char in Ic. lia. }
  split; [|split; [|split; [|split]]].
  - destruct Hp as [->| ->]; [now exists x|now exists (47 :: x)].
  - apply N. auto.
  - intros (u & v & E). apply (N 239); [auto|]. rewrite E. apply in_app_iff. right. now left.
  - intros (u & p & q & v & E). apply (N 10); [auto|]. rewrite E. apply in_app_iff. right. now left.
  - intros k (u & v & E). apply (N 32); [auto|]. rewrite E. apply in_app_iff. right. now left.
Qed.
Lemma wrapper_kept sort : sorts sort -> forall m us x t url doc out n,
  let cv := do_actions (reg_renderer_for x t render_as_html_wrapper prio_early) (converter_with m us) in
  (forall d, n <> Text d) -> node_name n = x -> ~ In x (b "#document" :: plain_names) -> Forall tag_char x ->
  stands_in n (prepared sort cv url doc) -> converts (convert_node sort cv url doc) out ->
  infix (b "<" ++ x ++ b ">") out /\ infix (b "</" ++ x ++ b ">") out.
Proof.
  intros Hs m us x t url doc out n cv Nt En Nx Fx St C.
  destruct (kept_conversion sort Hs m us x t render_as_html_wrapper url doc out n Nt En Nx St C) as (rec & c & anc & w & a & z & E & ->).
  fold cv in E |- *.
  assert (Q : exists y, w = [60] ++ x ++ [62; cNL; cNL] ++ y ++ [cNL; cNL; 60; 47] ++ x ++ [62]).
  { destruct (kept_render sort Hs m us x t render_as_html_wrapper) as (r & Er & _). fold cv in Er. 
    assert (Er' : in_order sort (cv_render cv) = renderer_for x render_as_html_wrapper :: r) by exact Er. rewrite Er' in E.
    cbn [try_renderers] in E. unfold renderer_for at 1 in E. rewrite En, beqb_refl in E.
    unfold render_as_html_wrapper in E. destruct (render_kids rec c anc n) as [y| |]; cbn [bind fst snd] in E; try discriminate. injection E as <-. exists y. now rewrite En. }
  destruct Q as (y & ->). split.
  - destruct (posts_keep sort Hs m us x t render_as_html_wrapper (env_of sort cv url) false ([60] ++ x ++ [62]) (a ++ ([60] ++ x ++ [62; cNL; cNL] ++ y ++ [cNL; cNL; 60; 47] ++ x ++ [62]) ++ z))
      as (a' & z' & E' & _).
    + now apply tag_tidy; auto.
    + apply env_unescape.
    + exists a, ([cNL; cNL] ++ y ++ [cNL; cNL; 60; 47] ++ x ++ [62] ++ z). split; [|discriminate]. rewrite <- !app_assoc. reflexivity.
    + exists a', z'. exact E'.
  - destruct (posts_keep sort Hs m us x t render_as_html_wrapper (env_of sort cv url) false ([60; 47] ++ x ++ [62]) (a ++ ([60] ++ x ++ [62; cNL; cNL] ++ y ++ [cNL; cNL; 60; 47] ++ x ++ [62]) ++ z))
      as (a' & z' & E' & _).
    + now apply tag_tidy; auto.
    + apply env_unescape.
    + exists (a ++ [60] ++ x ++ [62; cNL; cNL] ++ y ++ [cNL; cNL]), z. split; [|discriminate]. rewrite <- !app_assoc. reflexivity.
    + exists a', z'. exact E'.
Qed.
(** RenderAsPlaintextWrapper *)
Lemma plain_wrapper e rec c anc n hs : try_renderers e (render_as_plaintext_wrapper :: hs) rec c anc n = try_renderers e [] rec c anc n.
Proof. cbn [try_renderers]. unfold render_as_plaintext_wrapper, fallback, block_newlines. destruct (render_kids rec c anc n); reflexivity. Qed.
