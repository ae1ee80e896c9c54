(** Every textual step of the renderers keeps visible bytes around the code block newlines (C19). *)
From Coq Require Import List NArith ZArith Bool String Lia ZifyBool ZifyNat ZifyN.
From Verif Require Import Bytes BytesFacts TextUtils RenderText Escape SpecEscape EscapeFacts EscapeFacts6 SpecDom SpecText TextFacts TextFacts2 RenderFacts RenderFacts3 RenderFacts4
  Dom DomUtils Engine CommonMark Table RenderInv LetterFacts SpecPlain SpecTrim PlainFacts2 EdgeFacts.
Import ListNotations.
Open Scope N_scope.
Open Scope list_scope.

(** texts of visible bytes only *)
Definition calm (s : bytes) : Prop := exists k, toks k s /\ inks k.
Lemma calm_nil : calm []. Proof. exists []. split; [constructor|now intros []]. Qed.
Lemma calm_app x y : calm x -> calm y -> calm (x ++ y).
Proof. intros (k & A & B) (l & C & D). exists (k ++ l). split; [now apply toks_app|now apply inks_app]. Qed.
Lemma calm_ascii s : Forall (fun c => c < 128 /\ c <> 7) s -> calm s.
Proof.
  induction 1 as [|c s [L N] F (k & A & B)]; [apply calm_nil|]. destruct (N.lt_ge_cases c 33) as [G|G].
  - exists k. split; auto. apply tk_other; auto; byte.
  - destruct (N.eq_dec c 127) as [->|]; [exists k; split; auto; apply tk_other; auto; byte|]. exists (true :: k). split; [apply tk_ink; auto; byte|].
    intros [J|J]; [discriminate|auto].
Qed.
Ltac ascii := apply calm_ascii; repeat constructor; try lia; discriminate.
Lemma calm_repeat c n : c < 128 -> c <> 7 -> calm (repeat c n).
Proof. intros A B. apply calm_ascii. apply Forall_forall. intros x I. apply repeat_spec in I. now subst. Qed.
Lemma calm_same x y : calm x -> (forall k, toks k x -> toks k y) -> calm y.
Proof. intros (k & A & B) H. exists k. auto. Qed.
Lemma calm_grow x y : calm x -> (forall k, toks k x -> exists k', toks k' y /\ grow k k') -> calm y.
Proof. intros (k & A & B) H. destruct (H k A) as (k' & C & D). exists k'. split; auto. eapply grow_marks; eauto. Qed.
(** texts without bell and without U+F002 *)
Lemma unmarked_app x y : unmarked x = true -> unmarked y = true -> unmarked (x ++ y) = true.
Proof.
  unfold unmarked. intros A B. apply andb_true_iff in A as [A1 A2]. apply andb_true_iff in B as [B1 B2]. rewrite forallb_app, A1, B1. cbn [andb]. now apply nm_app.
Qed.
Lemma unmarked_suffix x y : unmarked (x ++ y) = true -> unmarked y = true.
Proof. unfold unmarked. rewrite forallb_app. intros A. apply andb_true_iff in A as [A B]. apply andb_true_iff in A as [_ A]. rewrite A. now apply nm_suffix in B. Qed.
Lemma unmarked_prefix x y : match y with [] => True | c :: _ => continuation c = false end -> unmarked (x ++ y) = true -> unmarked x = true.
Proof. unfold unmarked. rewrite forallb_app. intros Y A. apply andb_true_iff in A as [A B]. apply andb_true_iff in A as [A _]. rewrite A. now apply nm_prefix in B. Qed.
Lemma unmarked_calm s : unmarked s = true -> calm s.
Proof.
  remember (List.length s) as n eqn:L. revert s L. induction n as [n IH] using lt_wf_ind. intros s L H. destruct s as [|c s]; [apply calm_nil|].
  assert (Hs : unmarked s = true) by (apply (unmarked_suffix [c]); exact H).
  pose proof H as H'. unfold unmarked in H'. cbn [forallb] in H'. apply andb_true_iff in H' as [H1 H2]. apply andb_true_iff in H1 as [H1 _].
  assert (c <> 7) by lia. rewrite nm_cons in H2. apply andb_true_iff in H2 as [H2 _].
  destruct (N.eq_dec c 239) as [->|N].
  - rewrite N.eqb_refl in H2. destruct s as [|x [|y s]]; try discriminate.
    apply andb_true_iff in H2 as [H2 H3]. apply andb_true_iff in H2 as [H2 H4].
    destruct (IH (List.length s)) with (s := s) as (k & A & B); [cbn [List.length] in L; lia|reflexivity|exact (unmarked_suffix [x; y] s Hs)|].
    exists k. split; auto. unfold continuation in *. apply tk_wide; auto; try byte.
  - destruct (IH (List.length s)) with (s := s) as (k & A & B); [cbn [List.length] in L; lia|reflexivity|auto|].
    destruct (N.le_gt_cases 33 c) as [G|G]; [destruct (N.le_gt_cases c 126) as [G'|G']|].
    + exists (true :: k). split; [apply tk_ink; auto; byte|]. intros [J|J]; [discriminate|auto].
    + exists k. split; auto. apply tk_other; auto; byte.
    + exists k. split; auto. apply tk_other; auto; byte.
Qed.
Lemma unmarked_trim s : unmarked s = true -> unmarked (trim_space s) = true.
Proof.
  intros H. destruct (trim_space_spaces s) as (u & v & E & _ & Sv). rewrite E in H. apply unmarked_suffix in H. apply unmarked_prefix in H; auto. now apply spaces_first.
Qed.

(** ** Lines *)
Lemma toks_lines ls : forall k, toks k (join [10] ls) -> exists ks, Forall2 toks ks ls /\ k = List.concat ks.
Proof.
  induction ls as [|x [|y ls] IH]; intros k T.
  - inversion T. exists []. split; [constructor|reflexivity].
  - exists [k]. split; [constructor; auto|]. cbn. now rewrite app_nil_r.
  - rewrite join_cons in T by easy. apply toks_front in T as (k1 & k2 & -> & A & B); [|cbn; byte]. cbn [app] in B. apply still_head in B; [|repeat split; byte].
    destruct (IH _ B) as (ks & F & ->). exists (k1 :: ks). split; [constructor; auto|reflexivity].
Qed.
Lemma toks_join sep ks ls : toks [] sep -> Forall2 toks ks ls -> toks (List.concat ks) (join sep ls).
Proof.
  intros Sp. induction 1 as [|k x ks ls T F IH]; [constructor|]. destruct ls as [|y ls].
  - inversion F; subst. cbn. now rewrite app_nil_r.
  - rewrite join_cons by easy. cbn [List.concat]. apply toks_app; auto. change (List.concat ks) with ([] ++ List.concat ks). now apply toks_app.
Qed.
Lemma lines_map f ks ls : (forall k x, toks k x -> exists k', toks k' (f x) /\ grow k k') -> Forall2 toks ks ls ->
  exists ks', Forall2 toks ks' (map f ls) /\ grow (List.concat ks) (List.concat ks').
Proof.
  intros H. induction 1 as [|k x ks ls T F (ks' & A & B)]; [exists []; split; constructor|]. destruct (H k x T) as (k' & C & D).
  exists (k' :: ks'). split; [constructor; auto|]. cbn [List.concat]. now apply grow_app.
Qed.
Lemma grow_around a k c : inks a -> inks c -> grow k (a ++ k ++ c).
Proof.
  intros A C. eapply grow_trans; [apply grow_inks; exact A|]. rewrite <- (app_nil_r k) at 1. apply grow_app; [apply grow_refl|]. rewrite <- (app_nil_r c). now apply grow_inks.
Qed.
Lemma toks_empty k : toks k [] -> k = []. Proof. intros T. now inversion T. Qed.
Lemma toks_spaces s : spaces s -> toks [] s. Proof. intros S. now apply still_toks, spaces_still. Qed.
Lemma delimit_toks d kd : toks kd d -> inks kd -> forall k x, toks k x -> exists k', toks k' (delimit_line d x) /\ grow k k'.
Proof.
  intros D I k x T. unfold delimit_line. pose proof (surrounding_spaces_spec x) as S. destruct (surrounding_spaces x) as [[l t] r]. destruct S as (-> & Sl & Sr & _).
  apply toks_left in T; auto. apply toks_right in T; auto. apply toks_spaces in Sl, Sr. destruct t as [|c t]; cbn [is_empty].
  - apply toks_empty in T. subst k. exists []. split; [|constructor]. exact (toks_app [] l Sl [] r Sr).
  - exists (kd ++ k ++ kd). split; [|now apply grow_around]. apply (toks_app [] l Sl). apply toks_app; auto. apply toks_app; auto.
    rewrite <- (app_nil_r kd). now apply toks_app.
Qed.
Lemma emphasis_toks d kd : toks kd d -> inks kd -> forall k x, toks k x -> exists k', toks k' (emphasis_text d x) /\ grow k k'.
Proof.
  intros D I k x T. unfold emphasis_text, delimiter_for_every_line. unfold cNL. rewrite <- (split_join 10 x) in T. apply toks_lines in T as (ks & F & ->).
  destruct (lines_map _ _ _ (delimit_toks d kd D I) F) as (ks' & A & B). exists (List.concat ks'). split; auto. apply toks_join; auto. apply tk_other; try byte. constructor.
Qed.
Lemma calm_toks s : calm s -> forall k x, toks k x -> exists k', toks k' (x ++ s) /\ grow k k'.
Proof.
  intros (l & A & B) k x T. exists (k ++ l). split; [now apply toks_app|]. rewrite <- (app_nil_r k) at 1. apply grow_app; [apply grow_refl|].
  rewrite <- (app_nil_r l). now apply grow_inks.
Qed.
Lemma multi_parts_toks ls : forall ks, Forall2 toks ks ls -> exists k', toks k' (escape_multi_parts ls) /\ grow (List.concat ks) k'.
Proof.
  induction ls as [|p ls IH]; intros ks F; inversion F as [|k ? ks' ? T F']; subst; [exists []; split; constructor|]. destruct (IH _ F') as (k2 & A & B).
  cbn [escape_multi_parts List.concat]. cbv zeta. apply toks_trim_left in T. set (t := trim_left p) in *. clearbody t.
  assert (K : exists k1, toks k1 (if is_empty t then [cBSL; cNL] else if is_empty ls then t else if has_suffix [cSP; cSP] t then t ++ [cNL] else t ++ [cSP; cSP; cNL]) /\ grow k k1).
  { destruct t as [|c t]; cbn [is_empty].
    - apply toks_empty in T. subst k. exists [true]. split; [|repeat constructor]. apply tk_ink; [vm_compute; split; discriminate|]. apply tk_other; try byte; try constructor; unfold cNL; byte.
    - destruct (is_empty ls); [exists k; split; auto; apply grow_refl|]. destruct (has_suffix _ _); (apply calm_toks; auto; ascii). }
  destruct K as (k1 & C & D). exists (k1 ++ k2). split; [now apply toks_app|now apply grow_app].
Qed.
Lemma multi_toks k x : toks k x -> exists k', toks k' (escape_multi_line x) /\ grow k k'.
Proof.
  intros T. unfold escape_multi_line, cNL. assert (E : toks k (join [10] (split_on 10 x))) by now rewrite split_join. apply toks_lines in E as (ks & F & E).
  apply multi_parts_toks in F. rewrite <- E in F. destruct (split_on 10 x) as [|p [|q l]]; auto. exists k. split; auto. apply grow_refl.
Qed.
Lemma tcn_toks k x : toks k x -> toks k (trim_consecutive_newlines x).
Proof. intros T. eapply toks_thin; [exact T|apply thin_tcn]. Qed.
Lemma hard_toks k x : toks k x -> toks k (trim_hard_breaks x).
Proof. intros T. eapply toks_thin; [exact T|apply thin_hard]. Qed.
Lemma calm_swap p new : p < 33 -> p <> 7 -> calm new -> forall k s, toks k s -> exists k', toks k' (replace_all [p] new s) /\ grow k k'.
Proof. intros P1 P2 (kn & A & B) k s T. rewrite swap_back. destruct (toks_swap p new kn P1 P2 A k s T) as (k' & C & D). eauto. Qed.
Lemma prefix_toks repl : calm repl -> forall k x, toks k x -> exists k', toks k' (prefix_lines x repl) /\ grow k k'.
Proof.
  intros (kr & A & B) k x T. unfold prefix_lines. change (flat_map _ x) with (flat_map (fun c => if c =? 10 then c :: repl else [c]) x).
  assert (E : flat_map (fun c => if c =? 10 then c :: repl else [c]) x = swap 10 (10 :: repl) x).
  { unfold swap. clear. induction x as [|c x IH]; auto. cbn [flat_map]. rewrite IH. destruct (c =? 10) eqn:E; auto. apply N.eqb_eq in E. now subst. }
  rewrite E. destruct (toks_swap 10 (10 :: repl) kr) with (k := k) (s := x) as (k' & C & D); auto; try lia; [apply tk_other; auto; try byte|].
  exists (kr ++ k'). split; [now apply toks_app|]. eapply grow_trans; [now apply grow_inks|]. auto.
Qed.
Lemma squeeze_thin s : forall p, thin s (squeeze_spaces p s).
Proof.
  induction s as [|c s IH]; intros p; cbn [squeeze_spaces]; [constructor|]. unfold cSP. destruct (c =? 32) eqn:E; [apply N.eqb_eq in E; subst c; destruct p|]; constructor; auto; lia.
Qed.
Lemma slashed_refl s : slashed s s. Proof. induction s; constructor; auto. Qed.
Lemma alt_slashed s : forall p, slashed s (escape_alt_from p s).
Proof.
  induction s as [|c s IH]; intros p; cbn [escape_alt_from]; [constructor|]. destruct (_ && _) eqn:E; cbn [app]; constructor; auto. byte.
Qed.
Lemma quote_slashed s : slashed s (replace_all [34] [92; 34] s).
Proof. rewrite replace_all_one. induction s as [|c s IH]; [constructor|]. cbn [flat_map]. destruct (c =? 34) eqn:E; cbn [app]; [apply N.eqb_eq in E; subst c|]; constructor; auto. byte. Qed.
(** bells turned into backslashes *)
Inductive rebelled : bytes -> bytes -> Prop :=
| rb_nil : rebelled [] []
| rb_keep c s o : rebelled s o -> rebelled (c :: s) (c :: o)
| rb_slash s o : rebelled s o -> rebelled (7 :: s) (92 :: o).
Lemma replace_rebelled c s : rebelled s (replace_all [7; c] [92; c] s).
Proof.
  remember (List.length s) as n eqn:L. revert s L. induction n as [n IH] using lt_wf_ind. intros s L. destruct s as [|x s]; [constructor|].
  rewrite replace_all_cons. destruct (has_prefix [7; c] (x :: s)) eqn:E.
  - destruct s as [|y s]; cbn [has_prefix] in E; [now rewrite andb_false_r in E|]. apply andb_true_iff in E as [E1 E2]. rewrite andb_true_r in E2. apply N.eqb_eq in E1, E2. subst x y.
    cbn [app List.length skipn Nat.pred]. apply rb_slash, rb_keep. eapply IH; [|reflexivity]. cbn [List.length] in L. lia.
  - apply rb_keep. eapply IH; [|reflexivity]. cbn [List.length] in L. lia.
Qed.
Lemma toks_rebelled k s : toks k s -> forall o, rebelled s o -> exists k', toks k' o /\ grow k k'.
Proof.
  assert (I92 : inkb 92) by byte.
  induction 1 as [|k c s C T IH|k c s C T IH|k c s C1 C2 C3 T IH|k s T IH|k a y s A Y W T IH]; intros o H.
  - inversion H. exists []. split; constructor.
  - inversion H as [|? ? o' H'|? ? H']; subst; [|byte]. destruct (IH _ H') as (k' & B & D). exists (true :: k'). split; [now apply tk_ink|now constructor].
  - inversion H as [|? ? o' H'|? ? H']; subst; destruct (IH _ H') as (k' & B & D).
    + exists k'. split; auto. inversion H' as [|? ? o2 H2|? ? H2]; subst; apply tk_bell; auto.
    + exists (true :: k'). split; [now apply tk_ink|now constructor].
  - inversion H as [|? ? o' H'|? ? H']; subst; [|congruence]. destruct (IH _ H') as (k' & B & D). exists k'. split; auto. now apply tk_other.
  - inversion H as [|? ? o' H'|? ? H']; subst. inversion H' as [|? ? o2 H2|? ? H2]; subst. inversion H2 as [|? ? o3 H3|? ? H3]; subst.
    destruct (IH _ H3) as (k' & B & D). exists (false :: k'). split; [now apply tk_mark|now constructor].
  - inversion H as [|? ? o' H'|? ? H']; subst. inversion H' as [|? ? o2 H2|? ? H2]; subst; [|byte]. inversion H2 as [|? ? o3 H3|? ? H3]; subst; [|destruct Y; byte].
    destruct (IH _ H3) as (k' & B & D). exists k'. split; auto. now apply tk_wide.
Qed.
(** the byte before a final number sign overwritten *)
Lemma toks_pound k s : toks k s -> forall z y, s = z ++ [y; 35] -> exists a c d, k = a ++ c /\ toks (a ++ true :: d) (z ++ [92; 35]) /\ inks d.
Proof.
  assert (I92 : inkb 92) by byte. assert (I35 : inkb 35) by byte. assert (I1 : inks [true]) by (intros [J|[]]; discriminate). assert (I0 : inks []) by intros [].
  assert (T0 : toks [true; true] [92; 35]) by (apply tk_ink; auto; apply tk_ink; auto; constructor).
  induction 1 as [|k c s C T IH|k c s C T IH|k c s C1 C2 C3 T IH|k s T IH|k a y s A Y W T IH]; intros z w E.
  - destruct z; discriminate.
  - destruct z as [|h z]; cbn [app] in E; [exists [], (true :: k), [true]; auto|]. injection E as <- E. destruct (IH z w E) as (a & d & f & -> & B & D).
    exists (true :: a), d, f. repeat split; auto. cbn [app]. now apply tk_ink.
  - destruct z as [|h z]; cbn [app] in E; [exists [], k, [true]; auto|]. injection E as <- E. destruct z as [|h z].
    + exists [], k, [true]. split; auto. split; auto. cbn [app]. apply tk_bell; auto.
    + cbn [app] in E. injection E as <- E. destruct (IH (c :: z) w) as (a & d & f & -> & B & D); [cbn [app]; now f_equal|]. exists a, d, f. repeat split; auto. cbn [app] in *. apply tk_bell; auto.
  - destruct z as [|h z]; cbn [app] in E; [exists [], k, [true]; auto|]. injection E as <- E. destruct (IH z w E) as (a & d & f & -> & B & D).
    exists a, d, f. repeat split; auto. cbn [app]. now apply tk_other.
  - destruct z as [|h z]; cbn [app] in E; [exists [], (false :: k), [true]; auto|]. injection E as <- E. destruct z as [|h z]; cbn [app] in E; [discriminate|]. injection E as <- E.
    destruct z as [|h z]; cbn [app] in E.
    + injection E as <- ->. exists [], (false :: k), []. split; auto. split; auto. cbn [app]. apply tk_wide; auto; try byte. apply tk_ink; auto. constructor.
    + injection E as <- E. destruct (IH z w E) as (a & d & f & -> & B & D). exists (false :: a), d, f. repeat split; auto. cbn [app]. now apply tk_mark.
  - destruct z as [|h z]; cbn [app] in E; [exists [], k, [true]; auto|]. injection E as <- E. destruct z as [|h z]; cbn [app] in E.
    { injection E as E1 E2 E3. destruct Y; byte. }
    injection E as <- E. destruct z as [|h z]; cbn [app] in E.
    + injection E as <- ->. exists [], k, []. split; auto. split; auto. cbn [app]. apply tk_wide; auto; try byte. apply tk_ink; auto. constructor.
    + injection E as <- E. destruct (IH z w E) as (a' & d & f & -> & B & D). exists a', d, f. repeat split; auto. cbn [app]. now apply tk_wide.
Qed.
