(** Rendered texts as a sequence of visible bytes and code block newlines (C19). *)
From Coq Require Import List NArith ZArith Bool String Lia ZifyBool ZifyNat ZifyN.
From Verif Require Import Bytes BytesFacts TextUtils RenderText Escape SpecEscape EscapeFacts EscapeFacts6 SpecDom SpecText TextFacts TextFacts2 RenderFacts RenderFacts3 RenderFacts4
  SpecPlain SpecTrim PlainFacts2.
Import ListNotations.
Open Scope N_scope.
Open Scope list_scope.

Definition inkb (c : N) : Prop := 33 <= c <= 126.
Definition cont (c : N) : Prop := 128 <= c <= 191.
(** true: a visible ASCII byte, false: a code block newline. A bell is followed by a visible byte. *)
Inductive toks : list bool -> bytes -> Prop :=
| tk_nil : toks [] []
| tk_ink k c s : inkb c -> toks k s -> toks (true :: k) (c :: s)
| tk_bell k c s : c = 7 \/ inkb c -> toks k (c :: s) -> toks k (7 :: c :: s)
| tk_other k c s : ~ inkb c -> c <> 7 -> c <> 239 -> toks k s -> toks k (c :: s)
| tk_mark k s : toks k s -> toks (false :: k) (239 :: 128 :: 130 :: s)
| tk_wide k x y s : cont x -> cont y \/ y = 92 -> x <> 128 \/ y <> 130 -> toks k s -> toks k (239 :: x :: y :: s).
Definition good (k : list bool) : Prop := hd true k = true /\ last k true = true.
Definition inks (k : list bool) : Prop := ~ In false k.

Ltac byte := unfold inkb, cont in *; lia.
(** ** Sequences *)
Inductive grow : list bool -> list bool -> Prop :=
| gr_nil : grow [] []
| gr_same x k l : grow k l -> grow (x :: k) (x :: l)
| gr_ins k l : grow k l -> grow k (true :: l).
Lemma grow_refl k : grow k k. Proof. induction k; constructor; auto. Qed.
Lemma grow_app a c : grow a c -> forall x y, grow x y -> grow (a ++ x) (c ++ y).
Proof. induction 1; intros; cbn [app]; auto; constructor; auto. Qed.
Lemma grow_trans b c : grow b c -> forall a, grow a b -> grow a c.
Proof.
  induction 1 as [|x k l H IH|k l H IH]; intros a G; auto.
  - inversion G; subst; constructor; auto.
  - constructor. auto.
Qed.
Lemma grow_inks k : inks k -> forall a, grow a (k ++ a).
Proof. induction k as [|x k IH]; intros I a; cbn [app]; [apply grow_refl|]. destruct x; [constructor|elim I; now left]. apply IH. intros J. apply I. now right. Qed.
Lemma grow_good k l : grow k l -> good k -> good l.
Proof.
  intros G [H L]. split.
  - destruct G; auto.
  - revert L. clear H. induction G as [|x k l G IH|k l G IH]; intros L; auto.
    + destruct k as [|y k].
      * assert (A : last l true = true) by now apply IH. destruct l; auto.
      * assert (A : last l true = true) by now apply IH. inversion G; subst; exact A.
    + assert (A : last l true = true) by now apply IH. destruct l; auto.
Qed.
Lemma grow_marks k l : grow k l -> inks k -> inks l.
Proof. induction 1; intros I J; auto; destruct J as [J|J]; subst; try discriminate; try (apply I; now left). - apply IHgrow in J; auto. intros Q. apply I. now right. - now apply IHgrow in J. Qed.
Lemma good_app k l : good k -> good l -> good (k ++ l).
Proof.
  intros [A B] [C D]. split; [destruct k; auto|]. destruct l as [|x l]; [now rewrite app_nil_r|].
  assert (E : exists u v, x :: l = u ++ [v]) by (destruct (exists_last (l := x :: l)) as (u & v & E); [discriminate|eauto]). destruct E as (u & v & E).
  rewrite E in D |- *. rewrite app_assoc, last_last. now rewrite last_last in D.
Qed.
Lemma inks_app k l : inks k -> inks l -> inks (k ++ l).
Proof. intros A B I. apply in_app_iff in I as [I|I]; auto. Qed.
Lemma inks_good k : inks k -> good k.
Proof.
  intros I. split; [destruct k as [|[|] k]; auto; elim I; now left|]. destruct (last k true) eqn:E; auto. elim I. rewrite <- E.
  clear - E. induction k as [|x k IH]; [discriminate|]. destruct k as [|y k]; [left; reflexivity|right; apply IH; exact E].
Qed.
Lemma good_nil : good []. Proof. split; reflexivity. Qed.
Lemma good_wrap k : good (true :: k ++ [true]).
Proof. split; [reflexivity|]. change (true :: k ++ [true]) with ((true :: k) ++ [true]). apply last_last. Qed.
Lemma inks_repeat n : inks (repeat true n).
Proof. intros I. apply repeat_spec in I. discriminate. Qed.

(** ** Texts *)
Lemma toks_app k x : toks k x -> forall l y, toks l y -> toks (k ++ l) (x ++ y).
Proof.
  induction 1; intros l z T; cbn [app]; auto; [apply tk_ink|apply tk_bell|apply tk_other|apply tk_mark|apply tk_wide]; auto. exact (IHtoks l z T).
Qed.
Definition end_of (v : bytes) : Prop := match v with [] => True | h :: _ => ~ inkb h /\ ~ cont h /\ h <> 7 end.
Lemma toks_cut v : end_of v -> forall k s, toks k s -> forall x, s = x ++ v -> exists k1 k2, k = k1 ++ k2 /\ toks k1 x /\ toks k2 v.
Proof.
  intros V. induction 1 as [|k c s C T IH|k c s C T IH|k c s C1 C2 C3 T IH|k s T IH|k a y s A Y W T IH]; intros u E.
  - symmetry in E. apply app_eq_nil in E as [-> ->]. exists [], []. repeat split; constructor.
  - destruct u as [|d u]; cbn [app] in E.
    + subst v. exists [], (true :: k). repeat split; constructor; auto.
    + injection E as <- E. destruct (IH u E) as (k1 & k2 & -> & A & B). exists (true :: k1), k2. repeat split; auto. now constructor.
  - destruct u as [|d u]; cbn [app] in E.
    + subst v. exists [], k. repeat split; [constructor|]. now constructor.
    + injection E as <- E. destruct u as [|d u]; cbn [app] in E.
      * subst v. destruct V as (V1 & _ & V2). destruct C; contradiction.
      * injection E as <- E. destruct (IH (c :: u)) as (k1 & k2 & -> & A & B); [cbn [app]; now f_equal|]. exists k1, k2. repeat split; auto. now constructor.
  - destruct u as [|d u]; cbn [app] in E.
    + subst v. exists [], k. repeat split; constructor; auto.
    + injection E as <- E. destruct (IH u E) as (k1 & k2 & -> & A & B). exists k1, k2. repeat split; auto. now constructor.
  - destruct u as [|d u]; cbn [app] in E; [subst v; exists [], (false :: k); repeat split; [constructor|now apply tk_mark]|]. injection E as <- E.
    destruct u as [|d u]; cbn [app] in E; [subst v; cbn in V; exfalso; byte|]. injection E as <- E.
    destruct u as [|d u]; cbn [app] in E; [subst v; cbn in V; exfalso; byte|]. injection E as <- E.
    destruct (IH u E) as (k1 & k2 & -> & A & B). exists (false :: k1), k2. repeat split; auto. now apply tk_mark.
  - destruct u as [|d u]; cbn [app] in E; [subst v; exists [], k; repeat split; [constructor|now apply tk_wide]|]. injection E as <- E.
    destruct u as [|d u]; cbn [app] in E; [subst v; cbn in V; exfalso; tauto|]. injection E as <- E.
    destruct u as [|d u]; cbn [app] in E; [subst v; cbn in V; exfalso; destruct Y; byte|]. injection E as <- E.
    destruct (IH u E) as (k1 & k2 & -> & B & D). exists k1, k2. repeat split; auto. now apply tk_wide.
Qed.
Lemma toks_front k x v : end_of v -> toks k (x ++ v) -> exists k1 k2, k = k1 ++ k2 /\ toks k1 x /\ toks k2 v.
Proof. intros V T. eapply toks_cut; eauto. Qed.
(** bytes that are nothing here *)
Definition still (c : N) : Prop := ~ inkb c /\ c <> 7 /\ c <> 239.
Lemma still_head c k s : still c -> toks k (c :: s) -> toks k s.
Proof. intros (A & B & C) T. inversion T; subst; try contradiction; auto. Qed.
Lemma still_front u : Forall still u -> forall k s, toks k (u ++ s) -> toks k s.
Proof. induction 1; intros k s T; auto. cbn [app] in T. apply still_head in T; auto. Qed.
Lemma still_toks u : Forall still u -> toks [] u.
Proof. induction 1 as [|c u (A & B & C) F IH]; constructor; auto. Qed.
Lemma still_nil k u : Forall still u -> toks k u -> k = [].
Proof. intros F T. rewrite <- (app_nil_r u) in T. apply still_front in T; auto. now inversion T. Qed.
Lemma space_bytes e r : decode_rune e = (r, List.length e) -> is_space_rune r = true -> Forall still e.
Proof.
  intros D S. destruct e as [|c e]; [constructor|]. unfold decode_rune in D. unfold is_space_rune, rune_error in *.
  destruct (c <? 128) eqn:L.
  - inversion D as [[D1 D2]]; subst r. destruct e; [|discriminate]. unfold in_range in S. constructor; [|constructor]. split; [|split]; byte.
  - destruct (in_range 194 223 c) eqn:R2.
    { destruct e as [|d e]; [inversion D; subst r; discriminate|]. destruct (is_cont d) eqn:Rd; [|inversion D; subst r; discriminate].
      inversion D as [[D1 D2]]. destruct e; [|discriminate]. unfold is_cont, in_range in *. repeat constructor; byte. }
    destruct (in_range 224 239 c) eqn:R3.
    { destruct e as [|d [|f e]]; [inversion D; subst r; discriminate|inversion D; subst r; discriminate|]. cbv zeta in D.
      destruct (_ && _) eqn:Rd; [|inversion D; subst r; discriminate].
      inversion D as [[D1 D2]]. destruct e; [|discriminate]. unfold is_cont, in_range in *. apply andb_true_iff in Rd as [Rd Rf].
      assert (Rd' : 128 <= d <= 191). { revert Rd. clear. destruct (c =? 224), (c =? 237); lia. }
      assert (c <> 239) by lia. repeat constructor; byte. }
    destruct (in_range 240 244 c) eqn:R4; [|inversion D; subst r; discriminate].
    destruct e as [|d [|f [|g e]]]; try (inversion D; subst r; discriminate). cbv zeta in D.
    destruct (_ && _) eqn:Rd; [|inversion D; subst r; discriminate]. exfalso. inversion D as [[D1 D2]]. unfold is_cont, in_range in *.
    apply andb_true_iff in Rd as [Rd Rg]. apply andb_true_iff in Rd as [Rd Rf].
    assert (Rd' : 128 <= d <= 191 /\ (c = 240 -> 144 <= d)). { revert Rd. clear. destruct (c =? 240) eqn:E, (c =? 244); lia. }
    lia.
Qed.
Lemma spaces_still u : spaces u -> Forall still u.
Proof. induction 1 as [|e r s D S _ IH]; [constructor|]. apply Forall_app. split; auto. eapply space_bytes; eauto. Qed.
Lemma spaces_end u : spaces u -> end_of u.
Proof.
  intros S. pose proof (spaces_first u S) as F. pose proof (spaces_still u S) as St. destruct u as [|h u]; [exact I|]. inversion St as [|? ? (A & B & _) _]; subst.
  cbn. repeat split; auto. unfold continuation in F. byte.
Qed.
Lemma toks_left k l t : spaces l -> toks k (l ++ t) -> toks k t.
Proof. intros S. now apply still_front, spaces_still. Qed.
Lemma toks_right k t r : spaces r -> toks k (t ++ r) -> toks k t.
Proof.
  intros S T. apply toks_front in T as (k1 & k2 & -> & A & B); [|now apply spaces_end]. apply still_nil in B; [|now apply spaces_still].
  subst k2. now rewrite app_nil_r.
Qed.
Lemma toks_trim k s : toks k s -> toks k (trim_space s).
Proof. destruct (trim_space_spaces s) as (l & r & E & L & R). rewrite E at 1. intros T. apply toks_left in T; auto. now apply toks_right in T. Qed.
Lemma toks_trim_left k s : toks k s -> toks k (trim_left s).
Proof. destruct (trim_left_spaces s) as (l & E & L). rewrite E at 1. intros T. now apply toks_left in T. Qed.
Lemma toks_thin k s : toks k s -> forall o, thin s o -> toks k o.
Proof.
  induction 1 as [|k c s C T IH|k c s C T IH|k c s C1 C2 C3 T IH|k s T IH|k a y s A Y W T IH]; intros o H.
  - inversion H. constructor.
  - inversion H as [|? ? o1 H1|? ? ? D1 H1]; subst; [apply tk_ink; auto|exfalso; byte].
  - inversion H as [|? ? o1 H1|? ? ? D1 H1]; subst; [|exfalso; byte]. specialize (IH _ H1). inversion H1 as [|? ? o2 H2|? ? ? D2 H2]; subst; [|exfalso; byte]. apply tk_bell; auto.
  - inversion H as [|? ? o1 H1|? ? ? D1 H1]; subst; [apply tk_other; auto|auto].
  - inversion H as [|? ? o1 H1|? ? ? D1 H1]; subst; [|lia]. inversion H1 as [|? ? o2 H2|? ? ? D2 H2]; subst; [|lia]. inversion H2 as [|? ? o3 H3|? ? ? D3 H3]; subst; [|lia].
    apply tk_mark; auto.
  - inversion H as [|? ? o1 H1|? ? ? D1 H1]; subst; [|lia]. inversion H1 as [|? ? o2 H2|? ? ? D2 H2]; subst; [|byte]. inversion H2 as [|? ? o3 H3|? ? ? D3 H3]; subst; [|destruct Y; byte].
    apply tk_wide; auto.
Qed.
(** a byte that is nothing replaced by a text *)
Definition swap (p : N) (new s : bytes) : bytes := flat_map (fun d => if d =? p then new else [d]) s.
Lemma swap_app p new x y : swap p new (x ++ y) = swap p new x ++ swap p new y.
Proof. apply flat_map_app. Qed.
Lemma swap_step p new c s : c <> p -> swap p new (c :: s) = c :: swap p new s.
Proof. intros N. unfold swap. cbn [flat_map]. replace (c =? p) with false by lia. reflexivity. Qed.
Lemma toks_swap p new kn : p < 33 -> p <> 7 -> toks kn new -> forall k s, toks k s ->
  exists k', toks k' (swap p new s) /\ (inks kn -> grow k k').
Proof.
  intros P1 P2 Tn. induction 1 as [|k c s C T IH|k c s C T IH|k c s C1 C2 C3 T IH|k s T IH|k a y s A Y W T IH].
  - exists []. split; [constructor|intros; constructor].
  - destruct IH as (k' & A & B). exists (true :: k'). split; [|intros; constructor; auto]. rewrite swap_step by byte. constructor; auto.
  - destruct IH as (k' & A & B). exists k'. split; auto. rewrite swap_step by byte. assert (N : c <> p) by byte. rewrite (swap_step p new c s N) in *. constructor; auto.
  - destruct IH as (k' & A & B). destruct (N.eq_dec c p) as [->|N].
    + exists (kn ++ k'). split.
      * unfold swap. cbn [flat_map]. rewrite N.eqb_refl. now apply toks_app.
      * intros I. eapply grow_trans; [|exact (B I)]. now apply grow_inks.
    + exists k'. split; auto. rewrite swap_step by auto. constructor; auto.
  - destruct IH as (k' & A & B). exists (false :: k'). split; [|intros; constructor; auto]. rewrite !swap_step by lia. apply tk_mark; auto.
  - destruct IH as (k' & B & D). exists k'. split; auto. rewrite !swap_step by (try byte; destruct Y; byte). apply tk_wide; auto.
Qed.
Lemma swap_back p new s : replace_all [p] new s = swap p new s.
Proof. apply replace_all_one. Qed.
(** backslashes before visible bytes *)
Inductive slashed : bytes -> bytes -> Prop :=
| sl_nil : slashed [] []
| sl_same c s o : slashed s o -> slashed (c :: s) (c :: o)
| sl_ins c s o : inkb c -> slashed s o -> slashed (c :: s) (92 :: c :: o).
Lemma toks_slashed k s : toks k s -> forall o, slashed s o -> exists k', toks k' o /\ grow k k'.
Proof.
  assert (I92 : inkb 92) by byte.
  induction 1 as [|k c s C T IH|k c s C T IH|k c s C1 C2 C3 T IH|k s T IH|k a y s A Y W T IH]; intros o H.
  - inversion H. exists []. split; constructor.
  - inversion H as [|? ? o' H'|? ? o' C' H']; subst; destruct (IH _ H') as (k' & B & D).
    + exists (true :: k'). split; constructor; auto.
    + exists (true :: true :: k'). split; [apply tk_ink; auto; apply tk_ink; auto|]. apply (gr_same true). now apply gr_ins.
  - inversion H as [|? ? o' H'|? ? o' C' H']; subst; [|byte]. destruct (IH _ H') as (k' & B & D). exists k'. split; auto.
    inversion H' as [|? ? o2 H2|? ? o2 C2 H2]; subst; apply tk_bell; auto.
  - inversion H as [|? ? o' H'|? ? o' C' H']; subst; [|contradiction]. destruct (IH _ H') as (k' & B & D). exists k'. split; auto. constructor; auto.
  - inversion H as [|? ? o' H'|? ? o' C' H']; subst; [|byte]. inversion H' as [|? ? o2 H2|? ? o2 C2 H2]; subst; [|byte].
    inversion H2 as [|? ? o3 H3|? ? o3 C3 H3]; subst; [|byte]. destruct (IH _ H3) as (k' & B & D). exists (false :: k'). split; [apply tk_mark; auto|constructor; auto].
  - inversion H as [|? ? o' H'|? ? o' C' H']; subst; [|byte]. inversion H' as [|? ? o2 H2|? ? o2 C2 H2]; subst; [|byte].
    inversion H2 as [|? ? o3 H3|? ? o3 C3 H3]; subst.
    + destruct (IH _ H3) as (k' & B & D). exists k'. split; auto. apply tk_wide; auto.
    + destruct (IH _ H3) as (k' & B & D). destruct Y as [Y| ->]; [byte|]. exists (true :: k'). split; [|now constructor].
      apply tk_wide; auto. constructor; auto.
Qed.
(** bells dropped or turned into backslashes *)
Inductive unbelled : bytes -> bytes -> Prop :=
| ub_nil : unbelled [] []
| ub_keep c s o : c <> 7 -> unbelled s o -> unbelled (c :: s) (c :: o)
| ub_drop s o : unbelled s o -> unbelled (7 :: s) o
| ub_slash s o : unbelled s o -> unbelled (7 :: s) (92 :: o).
Lemma unescape_unbelled ds s : unbelled s (unescape_content ds s).
Proof.
  unfold unescape_content. generalize (@nil N) as rb, O as skip. induction s as [|c s IH]; intros rb skip; cbn [unescape_from]; [constructor|].
  unfold marker_esc. destruct (c =? 7) eqn:E.
  - apply N.eqb_eq in E. subst c. destruct skip; [|now constructor]. destruct s as [|d s]; [repeat constructor|].
    destruct (first_skip _ _ _ _); constructor; apply IH.
  - constructor; [lia|apply IH].
Qed.
Lemma filter_unbelled s : unbelled s (filter (fun c => negb (c =? 7)) s).
Proof. induction s as [|c s IH]; [constructor|]. cbn [filter]. destruct (c =? 7) eqn:E; cbn [negb]; [apply N.eqb_eq in E; subst c|]; constructor; auto. lia. Qed.
Lemma toks_unbelled k s : toks k s -> forall o, unbelled s o -> exists k', toks k' o /\ grow k k'.
Proof.
  induction 1 as [|k c s C T IH|k c s C T IH|k c s C1 C2 C3 T IH|k s T IH|k a y s A Y W T IH]; intros o H.
  - inversion H. exists []. split; constructor.
  - inversion H as [|? ? o' N H'|? ? H'|? ? H']; subst; try byte. destruct (IH _ H') as (k' & B & D). exists (true :: k'). split; constructor; auto.
  - inversion H as [|? ? o' N H'|? ? H'|? ? H']; subst; [congruence| |]; destruct (IH _ H') as (k' & B & D); [eauto|].
    exists (true :: k'). split; [constructor; auto; byte|now constructor].
  - inversion H as [|? ? o' N H'|? ? H'|? ? H']; subst; try congruence. destruct (IH _ H') as (k' & B & D). exists k'. split; auto. constructor; auto.
  - inversion H as [|? ? o' N H'|? ? H'|? ? H']; subst. inversion H' as [|? ? o2 N2 H2|? ? H2|? ? H2]; subst. inversion H2 as [|? ? o3 N3 H3|? ? H3|? ? H3]; subst.
    destruct (IH _ H3) as (k' & B & D). exists (false :: k'). split; [apply tk_mark; auto|constructor; auto].
  - inversion H as [|? ? o' N H'|? ? H'|? ? H']; subst. inversion H' as [|? ? o2 N2 H2|? ? H2|? ? H2]; subst; try byte.
    inversion H2 as [|? ? o3 N3 H3|? ? H3|? ? H3]; subst; try (destruct Y; byte).
    destruct (IH _ H3) as (k' & B & D). exists k'. split; auto. apply tk_wide; auto.
Qed.
(** the code block newlines replaced *)
Lemma mark_step c s new : c <> 239 -> replace_all marker_nl new (c :: s) = c :: replace_all marker_nl new s.
Proof. intros N. rewrite replace_all_cons. unfold marker_nl at 1. cbn [has_prefix]. replace (239 =? c) with false by lia. reflexivity. Qed.
Lemma toks_marks new kn : toks kn new -> forall k s, toks k s ->
  toks (flat_map (fun t : bool => if t then [true] else kn) k) (replace_all marker_nl new s).
Proof.
  intros Tn. induction 1 as [|k c s C T IH|k c s C T IH|k c s C1 C2 C3 T IH|k s T IH|k a y s A Y W T IH].
  - constructor.
  - rewrite mark_step by byte. cbn [flat_map app]. constructor; auto.
  - assert (N : c <> 239) by byte. rewrite mark_step by lia. rewrite (mark_step _ _ _ N) in *. constructor; auto.
  - rewrite mark_step by auto. constructor; auto.
  - rewrite replace_all_cons. change (has_prefix marker_nl (239 :: 128 :: 130 :: s)) with true. cbv iota. cbn [flat_map]. apply toks_app; auto.
  - rewrite replace_all_cons. assert (P : has_prefix marker_nl (239 :: a :: y :: s) = false).
    { unfold marker_nl. cbn [has_prefix]. destruct (239 =? 239), (128 =? a) eqn:E1, (130 =? y) eqn:E2; auto; lia. }
    rewrite P. assert (y <> 239) by (destruct Y; byte). rewrite !mark_step by byte. apply tk_wide; auto.
Qed.
Lemma marks_back k : flat_map (fun t : bool => if t then [true] else [false]) k = k.
Proof. induction k as [|[|] k IH]; cbn; congruence. Qed.
Lemma marks_gone k : inks (flat_map (fun t : bool => if t then [true] else []) k).
Proof. intros I. apply in_flat_map in I as ([|] & _ & I); [destruct I as [I|[]]; discriminate|destruct I]. Qed.
Lemma toks_no_mark k s : toks k s -> inks k -> ~ infix marker_nl s.
Proof.
  intros T I (x & y & E). assert (V : end_of (marker_nl ++ y)) by (cbn; byte). subst s. apply toks_front in T as (k1 & k2 & -> & _ & B); auto.
  inversion B; subst; try (byte || congruence). apply I. apply in_app_iff. right. now left.
Qed.
