(** The characters of a text survive rendering (C44). *)
From Coq Require Import List NArith ZArith Bool String Lia ZifyBool ZifyNat ZifyN.
From Verif Require Import Bytes BytesFacts TextUtils RenderText Escape SpecEscape SpecText TextFacts TextFacts2 RenderFacts RenderFacts2
  RenderFacts3 RenderFacts4 RenderFacts5 EscapeFacts EscapeFacts4 EscapeFacts6 Dom DomUtils SpecDom Engine CommonMark Table RenderInv PanicFacts StrikeFacts.
Import ListNotations.
Open Scope N_scope.
Open Scope list_scope.

Lemma sub_refl x : subsequence x x.
Proof. induction x; constructor; auto. Qed.
Lemma sub_trans x y z : subsequence x y -> subsequence y z -> subsequence x z.
Proof.
  intros H K. revert x H. induction K as [z|c y z K IH|c y z K IH]; intros x H.
  - inversion H; subst. constructor.
  - inversion H; subst; [constructor|now constructor; apply IH|constructor; now apply IH].
  - constructor. now apply IH.
Qed.
Lemma sub_app a c x y : subsequence a c -> subsequence x y -> subsequence (a ++ x) (c ++ y).
Proof.
  intros H K. induction H as [c|d a c H IH|d a c H IH]; cbn [app].
  - induction c; cbn [app]; auto. now constructor.
  - now constructor.
  - now constructor.
Qed.
Lemma sub_left a x y : subsequence a y -> subsequence a (x ++ y).
Proof. intros H. apply (sub_app [] x a y); auto. constructor. Qed.
Lemma sub_right a x y : subsequence a x -> subsequence a (x ++ y).
Proof. intros H. rewrite <- (app_nil_r a). apply sub_app; auto. constructor. Qed.
Lemma sub_filter f x y : subsequence x y -> subsequence (filter f x) (filter f y).
Proof.
  intros H. induction H; cbn [filter]; [constructor| |]; destruct (f c); auto; now constructor.
Qed.
Lemma sub_of_filter f x : subsequence (filter f x) x.
Proof. induction x as [|c x IH]; cbn [filter]; [constructor|]. destruct (f c); now constructor. Qed.
Lemma sub_concat ls ms : Forall2 subsequence ls ms -> subsequence (List.concat ls) (List.concat ms).
Proof. induction 1; cbn [List.concat]; [constructor|now apply sub_app]. Qed.
Lemma sub_eq x y : x = y -> subsequence x y.
Proof. intros ->. apply sub_refl. Qed.
Lemma filter_filter {A} (f g : A -> bool) l : (forall c, f c = true -> g c = true) -> filter f (filter g l) = filter f l.
Proof.
  intros H. induction l as [|c l IH]; [reflexivity|]. cbn [filter]. destruct (g c) eqn:G; cbn [filter]; rewrite IH; [reflexivity|].
  destruct (f c) eqn:E; [|reflexivity]. apply H in E. congruence.
Qed.
Lemma filter_none {A} (f : A -> bool) l : Forall (fun c => f c = false) l -> filter f l = [].
Proof. induction 1 as [|c l H F IH]; [reflexivity|]. cbn [filter]. now rewrite H. Qed.

Section keep.
Variable keep : N -> bool.
Hypothesis Hws : forall c, ws_byte c -> keep c = false.
Notation F := (filter keep).
Lemma F_ws l : Forall ws_byte l -> F l = [].
Proof. intros H. apply filter_none. eapply Forall_impl; [|exact H]. exact Hws. Qed.
Lemma F_spaces l : spaces l -> F l = [].
Proof. intros H. now apply F_ws, spaces_ws. Qed.
Lemma k32 : keep 32 = false. Proof. apply Hws. unfold ws_byte. lia. Qed.
Lemma k10 : keep 10 = false. Proof. apply Hws. unfold ws_byte. lia. Qed.
Lemma k13 : keep 13 = false. Proof. apply Hws. unfold ws_byte. lia. Qed.
Lemma F_trim s : F (trim_space s) = F s.
Proof.
  destruct (trim_space_ws s) as (l & r & E & Fl & Fr). rewrite E at 2. now rewrite !filter_app, (F_ws l), (F_ws r), app_nil_r.
Qed.
Lemma F_left s : F (trim_left s) = F s.
Proof. destruct (trim_left_spaces s) as (l & E & S). rewrite E at 2. now rewrite filter_app, (F_spaces _ S). Qed.
Lemma F_squeeze s : forall p, F (squeeze_spaces p s) = F s.
Proof.
  induction s as [|c s IH]; intros p; [reflexivity|]. cbn [squeeze_spaces]. destruct (c =? cSP) eqn:E.
  - apply N.eqb_eq in E. subst c. unfold cSP. cbn [filter]. rewrite k32. destruct p; cbn [filter]; rewrite ?k32; apply IH.
  - cbn [filter]. now rewrite IH.
Qed.
Lemma F_one_line s : F (map one_line s) = F s.
Proof.
  induction s as [|c s IH]; [reflexivity|]. cbn [map filter]. rewrite IH. unfold one_line.
  destruct ((c =? 10) || (c =? 13)) eqn:E; [|reflexivity]. rewrite k32.
  assert (c = 10 \/ c = 13) as [-> | ->] by lia; now rewrite ?k10, ?k13.
Qed.
Lemma F_replace old new s : old <> [] -> F old = [] -> F new = [] -> F (replace_all old new s) = F s.
Proof.
  intros N Ho Hn. apply (replace_ind old new (fun s o => F o = F s)); auto.
  - intros r o E. now rewrite !filter_app, Ho, Hn, E.
  - intros c t o _ E. cbn [filter]. now rewrite E.
Qed.
Lemma F_repeat32 k : F (repeat 32 k) = [].
Proof. apply filter_none, Forall_forall. intros x I. apply repeat_spec in I. subst. apply k32. Qed.
Lemma F_hard s : F (trim_hard_breaks s) = F s.
Proof.
  unfold trim_hard_breaks, cSP, cNL. cbv zeta. rewrite !F_replace; auto; try discriminate; cbn [filter]; now rewrite ?k32, ?k10.
Qed.
Lemma F_tcn s : F (trim_consecutive_newlines s) = F s.
Proof.
  pose proof (trim_newlines_squeeze s) as H. induction H as [|x p q z o H IH]; [reflexivity|]. rewrite IH, !filter_app, !F_repeat32. cbn [filter].
  now rewrite k10.
Qed.
Lemma F_split s : List.concat (map F (split_on 10 s)) = F s.
Proof.
  induction s as [|c s IH]; [reflexivity|]. cbn [split_on]. destruct (c =? 10) eqn:E.
  - apply N.eqb_eq in E. subst c. cbn [map List.concat filter]. rewrite k10. now rewrite <- IH.
  - pose proof (split_on_ne 10 s) as N. destruct (split_on 10 s) as [|h t]; [easy|]. cbn [map List.concat] in *.
    cbn [filter]. destruct (keep c); cbn [app]; now rewrite IH.
Qed.
Lemma F_join sep ls : F sep = [] -> F (join sep ls) = List.concat (map F ls).
Proof.
  intros E. induction ls as [|l ls IH]; [reflexivity|]. destruct ls as [|m ls]; [cbn; now rewrite app_nil_r|].
  rewrite join_cons by discriminate. rewrite !filter_app, E, IH. reflexivity.
Qed.
Lemma F_parts ps : subsequence (List.concat (map F ps)) (F (escape_multi_parts ps)).
Proof.
  induction ps as [|p ps IH]; [constructor|]. cbn [escape_multi_parts map List.concat]. cbv zeta. rewrite filter_app. apply sub_app; auto.
  pose proof (F_left p) as L. destruct (trim_left p) as [|c t]; cbn [is_empty]; [rewrite <- L; constructor|].
  destruct (is_empty ps); [now apply sub_eq|]. rewrite <- L. destruct (has_suffix _ _); rewrite filter_app; apply sub_right, sub_refl.
Qed.
Lemma F_multi s : subsequence (F s) (F (escape_multi_line s)).
Proof.
  unfold escape_multi_line, cNL. pose proof (F_split s) as E. pose proof (F_parts (split_on 10 s)) as P. rewrite E in P.
  destruct (split_on 10 s) as [|p [|q ps]]; auto. apply sub_refl.
Qed.
Lemma F_delimit d l : subsequence (F l) (F (delimit_line d l)).
Proof.
  unfold delimit_line. pose proof (surrounding_spaces_spec l) as S. destruct (surrounding_spaces l) as [[x t] y]. destruct S as (-> & Sx & Sy & _).
  rewrite !filter_app, (F_spaces x), (F_spaces y) by easy. destruct t; cbn [is_empty].
  - constructor.
  - rewrite !filter_app, (F_spaces x), (F_spaces y) by easy. cbn [app]. rewrite app_nil_r. apply sub_left, sub_right, sub_refl.
Qed.
Lemma F_emphasis d x : subsequence (F x) (F (emphasis_text d x)).
Proof.
  unfold emphasis_text, delimiter_for_every_line. unfold cNL. rewrite F_join by (cbn [filter]; now rewrite k10). rewrite <- (F_split x), map_map.
  apply sub_concat. induction (split_on 10 x); cbn [map]; constructor; auto. apply F_delimit.
Qed.
Lemma F_prefix_lines p s : subsequence (F s) (F (prefix_lines s p)).
Proof.
  unfold prefix_lines. rewrite filter_app. apply sub_left. induction s as [|c s IH]; cbn [flat_map]; [constructor|].
  rewrite filter_app. change (c :: s) with ([c] ++ s). rewrite filter_app. apply sub_app; auto. destruct (c =? cNL); [|apply sub_refl].
  apply sub_filter. constructor. constructor.
Qed.
Lemma F_quote x : subsequence (F x) (F (blockquote_text x)).
Proof.
  unfold blockquote_text. cbv zeta. pose proof (F_trim x) as T. destruct (trim_space x) as [|c t]; cbn [is_empty].
  - rewrite <- T. constructor.
  - rewrite !filter_app. rewrite <- T. apply sub_left, sub_right. eapply sub_trans; [|apply F_prefix_lines]. now rewrite F_hard, F_tcn by auto; apply sub_refl.
Qed.
Lemma F_drop_nl s : F (drop_last_newline s) = F s.
Proof.
  unfold drop_last_newline. destruct (has_suffix [cNL] s) eqn:E; [|reflexivity]. apply has_suffix_iff in E as (x & ->). rewrite removelast_last, filter_app.
  unfold cNL. cbn [filter]. now rewrite k10, app_nil_r.
Qed.
Lemma F_marker : F marker_nl = [].
Proof. apply F_ws. unfold marker_nl, ws_byte. repeat constructor; lia. Qed.
Lemma F_post_newline s : F (post_newline s) = F s.
Proof. unfold post_newline, cNL. apply F_replace; [discriminate|apply F_marker|cbn [filter]; now rewrite k10]. Qed.
Lemma F_block_code fence info code : subsequence (F code) (F (block_code_text fence info code)).
Proof.
  unfold block_code_text. cbv zeta. rewrite !filter_app, F_replace; [|discriminate|unfold cNL; cbn [filter]; now rewrite k10|apply F_marker].
  rewrite F_drop_nl. do 4 apply sub_left. apply sub_right, sub_refl.
Qed.
Lemma F_inline_code code : subsequence (F code) (F (inline_code_text code)).
Proof.
  unfold inline_code_text. destruct (is_empty _).
  - rewrite !filter_app. apply sub_left, sub_right, sub_refl.
  - cbv zeta. set (c := collapse_inline_code code).
    assert (E : F c = F code).
    { unfold c, collapse_inline_code. cbv zeta. rewrite F_squeeze, F_trim, !F_replace; auto; try discriminate; unfold cNL, cTAB, cSP; cbn [filter];
        rewrite ?k32, ?k10; auto. now rewrite (Hws 9) by (unfold ws_byte; lia). }
    rewrite <- E. rewrite !filter_app. apply sub_left, sub_right. clearbody c.
    eapply sub_trans; [|apply sub_filter]. apply sub_refl.
    assert (P : subsequence c (if has_prefix [96] c then cSP :: c else c)) by (destruct (has_prefix [96] c); [apply Sub_skip|]; apply sub_refl).
    eapply sub_trans; [exact P|]. destruct (has_suffix _ _); [apply sub_right|]; apply sub_refl.
Qed.
Lemma F_indent c k : F (indent_item c k) = F c.
Proof.
  unfold indent_item, cNL, cSP. cbv zeta. rewrite F_join.
  - rewrite map_map. rewrite <- (F_split c). f_equal. apply map_ext. intros l. apply F_replace; [discriminate|apply F_marker|].
    now rewrite filter_app, F_marker, F_repeat32.
  - cbn [filter]. now rewrite k10, F_repeat32.
Qed.
Section unescape.
Variable un : bytes -> bytes.
Hypothesis Hun : forall s, subsequence (F s) (F (un s)).
Lemma F_list_items prefix k items : forall i, subsequence (List.concat (map F items)) (F (list_items un prefix k i items)).
Proof.
  induction items as [|it items IH]; intros i; cbn [list_items map List.concat]; [constructor|].
  rewrite !filter_app. apply sub_left. rewrite F_indent. apply sub_app; [|apply sub_left, IH].
  eapply sub_trans; [|apply Hun]. now rewrite F_hard, F_tcn by auto; apply sub_refl.
Qed.
Lemma F_list_text ul marker start items : subsequence (List.concat (map F items)) (F (list_text un ul marker start items)).
Proof.
  unfold list_text. set (its := filter (fun x => negb (is_empty x)) (map trim_space items)).
  assert (E : List.concat (map F items) = List.concat (map F its)).
  { unfold its. clear its. induction items as [|x items IH]; [reflexivity|]. cbn [map filter List.concat]. rewrite IH, <- (F_trim x).
    destruct (trim_space x); reflexivity. }
  rewrite E. clearbody its. destruct its as [|it rest]; [constructor|]. cbn [is_empty]. cbv zeta. rewrite !filter_app.
  apply sub_left, sub_right, F_list_items.
Qed.
End unescape.
Lemma F_link cfg href title x t : link_text cfg href title x = Some t -> subsequence (F x) (F t).
Proof.
  unfold link_text. destruct (_ && _); [discriminate|]. cbv zeta. destruct (_ && _); [discriminate|].
  pose proof (surrounding_spaces_spec x) as S. destruct (surrounding_spaces x) as [[l c] r]. destruct S as (-> & Sl & Sr & _).
  destruct (beqb _ _); [|discriminate]. intros [= <-]. rewrite !filter_app, (F_spaces l), (F_spaces r) by easy. cbn [app]. rewrite app_nil_r.
  eapply sub_trans; [|apply sub_filter, Sub_skip, sub_refl]. rewrite filter_app. apply sub_right.
  eapply sub_trans; [|apply F_multi]. rewrite F_tcn by auto. apply sub_refl.
Qed.
End keep.

(** ** The number sign at the end of a heading *)
Definition inky (c : N) : bool := graphic c || (c =? 7).
Lemma inky_ws c : ws_byte c -> inky c = false.
Proof. unfold ws_byte, inky, graphic. lia. Qed.
Notation Q := (filter inky).
(** what the heading must know of its content: a number sign at the end is marked *)
Definition hash_ok (x : bytes) : Prop := forall u, Q x = u ++ [35] -> exists u', u = u' ++ [7].
Definition ends_other (l : bytes) : Prop := l = [] \/ exists z c, l = z ++ [c] /\ c <> 35.
Lemma snoc_cases {A} (l : list A) : l = [] \/ exists z c, l = z ++ [c].
Proof. induction l as [|c z _] using rev_ind; [now left|]. right. now exists z, c. Qed.
Lemma ends_other_ok x : ends_other (Q x) -> hash_ok x.
Proof.
  intros [E|(z & c & E & N)] u H; rewrite E in H.
  - destruct u; discriminate.
  - apply app_inj_tail in H as [_ H]. congruence.
Qed.
Lemma ends_other_app a c : ends_other a -> ends_other c -> ends_other (a ++ c).
Proof.
  intros Ha [->|(z & d & -> & N)]; [now rewrite app_nil_r|]. right. exists (a ++ z), d. now rewrite app_assoc.
Qed.
Lemma ends_last x z c : x = z ++ [c] -> graphic c = true -> c <> 35 -> hash_ok x.
Proof.
  intros -> G N. apply ends_other_ok. right. exists (Q z), c. split; auto. rewrite filter_app. cbn [filter]. unfold inky at 2. now rewrite G.
Qed.
Lemma hash_ok_nil x : Q x = [] -> hash_ok x.
Proof. intros E. apply ends_other_ok. now left. Qed.
Lemma hash_ok_app x y : hash_ok x -> hash_ok y -> hash_ok (x ++ y).
Proof.
  intros X Y u E. rewrite filter_app in E. destruct (snoc_cases (Q y)) as [Ey|(z & c & Ey)]; rewrite Ey in E.
  - rewrite app_nil_r in E. auto.
  - rewrite app_assoc in E. apply app_inj_tail in E as [<- ->]. destruct (Y z Ey) as (z' & ->). exists (Q x ++ z'). now rewrite app_assoc.
Qed.
Definition plain_delim (d : bytes) : Prop := ~ In 35 d /\ exists c, In c d /\ graphic c = true.
Lemma Q_delim d : plain_delim d -> exists z c, Q d = z ++ [c] /\ c <> 35.
Proof.
  intros (N & c & I & G). destruct (snoc_cases (Q d)) as [E|(z & k & E)].
  - assert (J : In c (Q d)) by (apply filter_In; split; auto; unfold inky; now rewrite G). now rewrite E in J.
  - exists z, k. split; auto. intros ->. apply N. assert (J : In 35 (Q d)) by (rewrite E, in_app_iff; right; now left). now apply filter_In in J.
Qed.
Lemma hash_emphasis d x : plain_delim d -> hash_ok (emphasis_text d x).
Proof.
  intros P. apply ends_other_ok. unfold emphasis_text, delimiter_for_every_line. rewrite (F_join inky) by reflexivity.
  induction (split_on cNL x) as [|l ls IH]; cbn [map List.concat]; [now left|]. apply ends_other_app; auto.
  unfold delimit_line. pose proof (surrounding_spaces_spec l) as S. destruct (surrounding_spaces l) as [[a t] y]. destruct S as (_ & Sx & Sy & _).
  destruct (is_empty t); rewrite !filter_app, (F_spaces inky inky_ws a), (F_spaces inky inky_ws y) by easy; [now left|].
  destruct (Q_delim d P) as (z & c & E & N). right. exists (Q d ++ Q t ++ z), c. split; auto. rewrite E. cbn [app]. now rewrite app_nil_r, <- !app_assoc.
Qed.
Lemma hash_inline code : hash_ok (inline_code_text code).
Proof.
  unfold inline_code_text. destruct (is_empty _).
  - apply (ends_last _ ([96] ++ code) 96); auto; try discriminate.
  - cbv zeta. set (c := if has_suffix _ _ then _ else _). clearbody c. set (k := code_fence_occurrences _ _). clearbody k.
    apply (ends_last _ (repeat 96 (S k) ++ c ++ repeat 96 k) 96); auto; try discriminate.
    rewrite <- !app_assoc. do 2 f_equal. symmetry. apply repeat_snoc.
Qed.
Lemma dest_title_last href title : exists z, dest_and_title href title = z ++ [41].
Proof. unfold dest_and_title. rewrite !app_assoc. eexists. reflexivity. Qed.
Lemma hash_image src title alt : hash_ok (image_text src title alt).
Proof.
  unfold image_text. cbv zeta. destruct (dest_title_last src (replace_all [cNL] [cSP] title)) as (z & ->). rewrite !app_assoc.
  eapply ends_last; [reflexivity|reflexivity|discriminate].
Qed.
Lemma hash_link cfg href title x t : link_text cfg href title x = Some t -> hash_ok t.
Proof.
  unfold link_text. destruct (_ && _); [discriminate|]. cbv zeta. destruct (_ && _); [discriminate|].
  pose proof (surrounding_spaces_spec x) as S. destruct (surrounding_spaces x) as [[l c] r]. destruct S as (_ & _ & Sr & _).
  destruct (beqb _ _); [|discriminate]. intros [= <-]. destruct (dest_title_last href (if is_empty href then [] else replace_all [cNL] [cSP] title)) as (z & E).
  apply ends_other_ok. set (M := escape_multi_line _). clearbody M.
  match goal with |- ends_other (Q (l ++ 91 :: M ++ 93 :: ?d)) => assert (Ed : d = (z ++ [41]) ++ r) end.
  { rewrite <- E. unfold dest_and_title. cbn [app]. reflexivity. }
  rewrite Ed. right. exists (Q (l ++ 91 :: M ++ 93 :: z)), 41. split; [|discriminate].
  change (91 :: M ++ 93 :: (z ++ [41]) ++ r) with ([91] ++ M ++ [93] ++ (z ++ [41]) ++ r). change (91 :: M ++ 93 :: z) with ([91] ++ M ++ [93] ++ z).
  rewrite !filter_app, (F_spaces inky inky_ws r) by easy. rewrite app_nil_r, <- !app_assoc. reflexivity.
Qed.
(** every number sign of a text is marked; p is the byte before *)
Fixpoint marked (p : N) (s : bytes) : bool :=
  match s with [] => true | c :: t => (negb (c =? 35) || (p =? 7)) && marked c t end.
Lemma marked_escape (esc : N -> bool) s : esc 35 = true -> forall p, marked p (escape_content esc s) = true.
Proof.
  intros E. induction s as [|c s IH]; intros p; [reflexivity|]. cbn [escape_content]. destruct (c =? cNUL) eqn:Z.
  - cbn. apply IH.
  - destruct (esc (fst (decode_rune (c :: s)))) eqn:D.
    + cbn [marked]. unfold marker_esc. cbn. rewrite orb_true_r. apply IH.
    + cbn [marked]. rewrite IH, andb_true_r. destruct (c =? 35) eqn:C; [|reflexivity]. apply N.eqb_eq in C. subst c.
      assert (R : fst (decode_rune (35 :: s)) = 35) by reflexivity. rewrite R in D. congruence.
Qed.
Lemma marked_link s p : marked p s = true -> marked p (replace_all [marker_esc; 93] [92; 93] s) = true.
Proof.
  intros H. assert (G : forall p p', marked p s = true -> (hd 0 s = 35 -> p = 7 -> p' = 7) -> marked p' (replace_all [marker_esc; 93] [92; 93] s) = true).
  { clear. apply (replace_ind [marker_esc; 93] [92; 93] (fun s o => forall p p', marked p s = true -> (hd 0 s = 35 -> p = 7 -> p' = 7) -> marked p' o = true));
      [discriminate|reflexivity| |].
    - intros r o IH p p' H _. cbn in *. apply (IH 93); auto.
    - intros c t o _ IH p p' H K. cbn [marked hd] in *. apply andb_true_iff in H as [H1 H2]. rewrite (IH c c); auto. rewrite andb_true_r.
      destruct (c =? 35) eqn:C; [|reflexivity]. cbn [negb orb] in *. apply N.eqb_eq in C, H1. now rewrite (K C H1). }
  eauto.
Qed.
Lemma marked_before x : forall p w, marked p (x ++ 35 :: w) = true -> (x = [] /\ p = 7) \/ exists z, x = z ++ [7].
Proof.
  induction x as [|c x IH]; intros p w H.
  - left. split; auto. cbn [app marked] in H. change (negb (35 =? 35)) with false in H. cbn [orb] in H. apply andb_true_iff in H as [H _]. now apply N.eqb_eq.
  - right. cbn [app marked] in H. apply andb_true_iff in H as [_ H]. apply IH in H as [[-> ->]|(z & ->)]; [now exists []|now exists (c :: z)].
Qed.
Lemma Q_split x : forall u c, Q x = u ++ [c] -> exists a w, x = a ++ c :: w /\ Q a = u /\ Q w = [].
Proof.
  induction x as [|d x IH]; intros u c E; [destruct u; discriminate|]. cbn [filter] in E. destruct (inky d) eqn:D.
  - destruct u as [|e u].
    + injection E as -> E. exists [], x. auto.
    + injection E as -> E. destruct (IH _ _ E) as (a & w & -> & <- & W). exists (e :: a), w. cbn [filter]. rewrite D. auto.
  - destruct (IH _ _ E) as (a & w & -> & <- & W). exists (d :: a), w. cbn [filter]. rewrite D. auto.
Qed.
Lemma marked_ok s : marked 0 s = true -> hash_ok s.
Proof.
  intros M u E. apply Q_split in E as (a & w & -> & <- & _). apply marked_before in M as [[_ M]|(z & ->)]; [discriminate|].
  exists (Q z). now rewrite filter_app.
Qed.

(** ** Letters *)
Section letters.
Variable keep : N -> bool.
Hypothesis Hkeep : forall c, keep c = true -> spelled c = true.
Notation F := (filter keep).
Lemma keep_graphic c : keep c = true -> graphic c = true.
Proof. intros H. apply Hkeep in H. unfold spelled in H. destruct (graphic c); auto. Qed.
Lemma keep_ws c : ws_byte c -> keep c = false.
Proof. intros H. destruct (keep c) eqn:E; auto. apply keep_graphic in E. unfold ws_byte, graphic in *. lia. Qed.
Lemma keep_not c : spelled c = false -> keep c = false.
Proof. intros H. destruct (keep c) eqn:E; auto. apply Hkeep in E. congruence. Qed.
Lemma heading_letters setext level x t : hash_ok x -> heading_text setext level x = Some t -> subsequence (F x) (F t).
Proof.
  intros H. unfold heading_text. pose proof (F_trim keep keep_ws x) as T. destruct (is_empty (trim_space x)) eqn:Em.
  - intros [= <-]. rewrite <- T. destruct (trim_space x); [constructor|discriminate].
  - clear T Em. destruct (setext && Nat.ltb level 3).
    + cbv zeta. intros [= <-]. cbn [app]. do 2 (eapply sub_trans; [|apply sub_filter, Sub_skip, sub_refl]). rewrite filter_app. apply sub_right.
      eapply sub_trans; [|apply (F_multi keep keep_ws)]. rewrite (F_tcn keep keep_ws). apply sub_refl.
    + rewrite atx_content_eq. set (T := trim_space _).
      assert (ET : F T = F x) by (unfold T; now rewrite (F_trim keep keep_ws), (F_squeeze keep keep_ws), (F_one_line keep keep_ws)).
      assert (EQ : Q T = Q x) by (unfold T; now rewrite (F_trim inky inky_ws), (F_squeeze inky inky_ws), (F_one_line inky inky_ws)).
      clearbody T. destruct (escape_pound T) as [c|] eqn:Ec; [|discriminate]. cbn [option_map]. intros [= <-].
      do 2 (eapply sub_trans; [|apply sub_filter, Sub_skip, sub_refl]). rewrite filter_app. apply sub_left.
      eapply sub_trans; [|apply sub_filter, Sub_skip, sub_refl]. rewrite filter_app. apply sub_right. rewrite <- ET.
      unfold escape_pound in Ec. destruct (escape_pound_rev (rev T)) as [r|] eqn:Er; [|discriminate]. cbn [option_map] in Ec. injection Ec as <-.
      unfold escape_pound_rev in Er. destruct (rev T) as [|k w] eqn:Ev; [discriminate|].
      assert (Et : T = rev (k :: w)) by (rewrite <- Ev; now rewrite rev_involutive).
      destruct (negb (k =? 35)) eqn:Ek; [injection Er as <-; rewrite <- Et; apply sub_refl|]. apply negb_false_iff, N.eqb_eq in Ek. subst k.
      assert (L : forall d u, w = d :: u -> keep d = false).
      { intros d u ->. destruct (keep d) eqn:Kd; auto. exfalso. pose proof (keep_graphic d Kd) as G. rewrite Et in EQ. cbn [rev] in EQ.
        rewrite !filter_app in EQ. cbn [filter] in EQ. unfold inky in EQ at 2 4. rewrite G in EQ. cbn in EQ.
        symmetry in EQ. destruct (H (Q (rev u) ++ [d])) as (u' & Eu); [exact EQ|]. apply app_inj_tail in Eu as [_ ->].
        rewrite keep_not in Kd; [discriminate|reflexivity]. }
      destruct w as [|d [|d2 u]]; [discriminate| |].
      * injection Er as <-. rewrite Et. cbn [rev app filter]. rewrite (L d [] eq_refl). destruct (keep 92); [apply Sub_skip|]; apply sub_refl.
      * destruct (d2 =? 92); injection Er as <-; [rewrite <- Et; apply sub_refl|]. rewrite Et. cbn [rev].
        rewrite !filter_app. apply sub_app; [|apply sub_refl]. apply sub_app; [apply sub_refl|]. cbn [filter]. rewrite (L d _ eq_refl). constructor.
Qed.
Lemma inserts_sub t u : inserts t u -> subsequence t u.
Proof. induction 1; [constructor|now apply Sub_take|now apply Sub_skip, Sub_take]. Qed.
Lemma unescape_letters ds s : Forall well_behaved ds -> subsequence (F s) (F (unescape_content ds s)).
Proof.
  intros W. pose proof (content_inserts ds s W) as I.
  assert (E : F (filter (fun c => negb (c =? 7)) s) = F s).
  { apply filter_filter. intros c K. destruct (c =? 7) eqn:C; [|reflexivity]. apply N.eqb_eq in C. subst c. rewrite keep_not in K; [discriminate|reflexivity]. }
  rewrite <- E. apply sub_filter. now apply inserts_sub.
Qed.
Lemma entity_letters s : subsequence (F s) (F (entity_replace s)).
Proof.
  induction s as [|c s IH]; [constructor|]. cbn [entity_replace]. change (c :: s) with ([c] ++ s). rewrite !filter_app. apply sub_app; auto.
  destruct (c =? 60) eqn:E1; [|destruct (c =? 62) eqn:E2; [|apply sub_refl]].
  - apply N.eqb_eq in E1. subst c. cbn [filter]. rewrite keep_not by reflexivity. constructor.
  - apply N.eqb_eq in E2. subst c. cbn [filter]. rewrite keep_not by reflexivity. constructor.
Qed.
Lemma escape_letters esc s : F (escape_content esc s) = F s.
Proof.
  induction s as [|c s IH]; [reflexivity|]. cbn [escape_content]. destruct (c =? cNUL) eqn:Z; [|destruct (esc _)].
  - apply N.eqb_eq in Z. subst c. unfold cNUL. rewrite filter_app, IH. cbn [filter]. rewrite (keep_not 0) by reflexivity.
    unfold rune_error_bytes. cbn [filter]. now rewrite !keep_not by reflexivity.
  - cbn [filter]. unfold marker_esc. rewrite (keep_not 7) by reflexivity. now rewrite IH.
  - cbn [filter]. now rewrite IH.
Qed.
Lemma link_mark_letters s : subsequence (F s) (F (replace_all [marker_esc; 93] [92; 93] s)).
Proof.
  apply (replace_ind [marker_esc; 93] [92; 93] (fun s o => subsequence (F s) (F o))); [discriminate|constructor| |].
  - intros r o H. rewrite !filter_app. apply sub_app; auto. unfold marker_esc. cbn [filter]. rewrite (keep_not 7) by reflexivity.
    destruct (keep 92); [apply Sub_skip|]; apply sub_refl.
  - intros c t o _ H. cbn [filter]. destruct (keep c); auto. now constructor.
Qed.

(** ** The instance *)
Definition tok : N := 1000.
Definition block_names : list bytes := [b "ul"; b "ol"; b "h1"; b "h2"; b "h3"; b "h4"; b "h5"; b "h6"; b "blockquote"; b "hr"; b "pre"].
Definition block_tok (x : bytes) : bytes := if name_in block_names x then [tok] else [].
Lemma block_tok_name x : In tok (block_tok x) -> name_in block_like x = true /\ name_in strike_names x = false.
Proof.
  unfold block_tok. destruct (name_in block_names x) eqn:B; [intros _|intros []].
  assert (S : forallb (fun y => name_in block_like y && negb (name_in strike_names y)) block_names = true) by reflexivity. rewrite forallb_forall in S.
  unfold name_in at 1 in B. apply existsb_exists in B as (y & Iy & Ey). apply beqb_eq in Ey. subst y. apply S in Iy. apply andb_true_iff in Iy as [-> Iy]. now apply negb_true_iff in Iy.
Qed.
Lemma sealed_no_tok strikes letter own n : letter tok = false -> (forall x, In tok (own x) -> name_in block_like x = true /\ name_in strike_names x = false) ->
  sealed strikes n = true -> ~ In tok (vis strikes letter own n).
Proof.
  intros Lt Ho. assert (Nf : forall l, ~ In tok (filter letter l)) by (intros l I; apply filter_In in I as [_ I]; congruence).
  assert (K : forall ks, Forall (fun n => sealed strikes n = true -> ~ In tok (vis strikes letter own n)) ks -> sealeds strikes ks = true -> ~ In tok (flat_map (vis strikes letter own) ks)).
  { intros ks H E I. apply in_flat_map in I as (k & Ik & I). rewrite Forall_forall in H. unfold sealeds in E. rewrite forallb_forall in E. exact (H k Ik (E k Ik) I). }
  induction n using node_induction; auto; intros E.
  - cbn [vis]. apply Nf.
  - rewrite sealed_elem in E. cbn [vis]. rewrite in_app_iff. change (shielded strikes x) with (shield strikes x). destruct (shield strikes x) eqn:Sh; cbn [orb] in E.
    + intros [I|I]; [|now apply Nf in I]. apply Ho in I as [_ I]. unfold shield in Sh. apply andb_true_iff in Sh as [_ Sh]. congruence.
    + apply andb_true_iff in E as [E1 E2]. apply negb_true_iff in E1. intros [I|I]; [apply Ho in I as [I _]; congruence|now apply (K ks) in I].
  - cbn [vis]. cbn [sealed] in E. now apply K.
Qed.
Definition related (l x : bytes) : Prop := subsequence (F l) (F x) /\ (~ In tok l -> hash_ok x).
Lemma keep_tok : keep tok = false.
Proof. apply keep_not. reflexivity. Qed.
Lemma F_block_tok x : F (block_tok x) = [].
Proof. unfold block_tok. destruct (name_in _ _); [|reflexivity]. cbn [filter]. now rewrite keep_tok. Qed.
Definition no_verbatim_junk : node -> bool := free_of code_skipped.
Variable strikes : bool.
Definition letter_node (n : node) : Prop := tidy n = true /\ headed strikes n = true /\ no_verbatim_junk n = true.
Definition letter_cfg (cfg : config) : Prop := plain_delim (em_delimiter cfg) /\ plain_delim (strong_delimiter cfg).
Lemma vis_letters n : F (vis strikes keep block_tok n) = chars keep n.
Proof.
  assert (K : forall ks, Forall (fun n => F (vis strikes keep block_tok n) = chars keep n) ks ->
    F (flat_map (vis strikes keep block_tok) ks) = F (flat_map text_of ks)).
  { intros ks H. induction H as [|k ks Hk H IH]; [reflexivity|]. cbn [flat_map]. rewrite !filter_app, Hk, IH. reflexivity. }
  induction n using node_induction; cbn [vis]; unfold chars; cbn [text_of]; auto.
  - now apply filter_filter.
  - rewrite filter_app, F_block_tok. cbn [app]. destruct (shielded strikes x); [|now apply K]. rewrite filter_filter by auto. now apply K.
Qed.
Lemma code_text_letters n : no_verbatim_junk n = true -> F (code_text n) = chars keep n.
Proof.
  assert (K : forall ks, Forall (fun n => no_verbatim_junk n = true -> F (code_text n) = chars keep n) ks -> forallb no_verbatim_junk ks = true ->
    F (flat_map code_text ks) = F (flat_map text_of ks)).
  { intros ks H. induction H as [|k ks Hk H IH]; [reflexivity|]. cbn [forallb]. intros E. apply andb_true_iff in E as [E1 E2].
    cbn [flat_map]. rewrite !filter_app, Hk, IH; auto. }
  induction n using node_induction; unfold no_verbatim_junk; cbn [free_of code_text]; unfold chars; cbn [text_of]; auto.
  intros E. apply andb_true_iff in E as [E1 E2]. apply negb_true_iff in E1. rewrite E1. rewrite filter_app.
  assert (B : F (if name_in [b "br"; b "div"] x then [cNL] else []) = []).
  { clear E1 E2. destruct (name_in [b "br"; b "div"] x); [|reflexivity]. unfold cNL. cbn [filter]. now rewrite keep_not by reflexivity. }
  rewrite B. now apply K.
Qed.
Lemma letters_closed e ts : (forall s, subsequence (F s) (F (unescape_fn e s))) ->
  (forall d c, subsequence (F d) (F (fold_left (fun s t => t e c s) ts d)) /\ hash_ok (fold_left (fun s t => t e c s) ts d)) ->
  closed e ts strikes keep block_tok related (fun _ => True) (fun _ => True) True letter_node letter_cfg plain_delim False.
Proof.
  intros Hun Ht.
  assert (Own : forall x l t, In tok (block_tok x) -> subsequence (F l) (F t) -> related (block_tok x ++ l) t).
  { intros x l t I H. split. rewrite filter_app, F_block_tok; auto. intros N. exfalso. apply N. apply in_app_iff. auto. }
  split; try contradiction; auto.
  - intros n (T & P & J). destruct n as [d|x a ks|d|ks|d]; cbn [kids]; try constructor; apply Forall_forall; intros k I; split.
    + cbn [tidy] in T. apply andb_true_iff in T as [_ T]. rewrite forallb_forall in T. apply T in I. now apply andb_true_iff in I.
    + unfold headed in *. cbn [everywhere] in P. apply andb_true_iff in P as [_ P]. rewrite forallb_forall in P.
      unfold no_verbatim_junk in *. cbn [free_of] in J. apply andb_true_iff in J as [_ J]. rewrite forallb_forall in J. auto.
    + cbn [tidy] in T. rewrite forallb_forall in T. apply T in I. now apply andb_true_iff in I.
    + unfold headed in *. cbn [everywhere] in P. apply andb_true_iff in P as [_ P]. rewrite forallb_forall in P.
      unfold no_verbatim_junk in *. cbn [free_of] in J. rewrite forallb_forall in J. auto.
  - intros n (T & _ & _) N. destruct n as [d|x a ks|d|ks|d]; try reflexivity; try discriminate. cbn [tidy] in T. cbn [node_name] in N. unfold below_vis. cbn [kids].
    change (name_in childless x = true) in N. rewrite N in T. cbn [negb orb] in T. destruct ks; [reflexivity|discriminate].
  - intros x l t [H1 H2]. split. rewrite filter_app, F_block_tok; auto. intros N. apply H2. intros I. apply N, in_app_iff. auto.
  - split; [constructor|]. intros _. now apply hash_ok_nil.
  - intros l1 l2 x y [A1 A2] [B1 B2]. split. rewrite !filter_app. now apply sub_app. intros N. rewrite in_app_iff in N. apply hash_ok_app; auto.
  - split; [constructor|]. intros _. now apply hash_ok_nil.
  - intros d c _. destruct (Ht d c) as [A B]. split; auto. rewrite vis_letters. exact A.
  - intros cfg l x [_ P] [A _]. split. eapply sub_trans; [exact A|apply (F_emphasis keep keep_ws)]. intros _. now apply hash_emphasis.
  - intros cfg l x [P _] [A _]. split. eapply sub_trans; [exact A|apply (F_emphasis keep keep_ws)]. intros _. now apply hash_emphasis.
  - intros d l x P [A _]. split. eapply sub_trans; [exact A|apply (F_emphasis keep keep_ws)]. intros _. now apply hash_emphasis.
  - intros cfg _. apply Own; [now left|constructor].
  - split; [constructor|]. intros _. now apply hash_ok_nil.
  - intros cfg n ul start ls items _ _ N H. apply Own.
    + unfold is_list_name in N. apply orb_true_iff in N as [N|N]; apply beqb_eq in N; rewrite N; now left.
    + eapply sub_trans; [|apply (F_list_text keep keep_ws); exact Hun]. rewrite <- (concat_filter_map keep ls). apply sub_concat.
      induction H as [|l i ls items [H _] F2 IH]; cbn [map]; constructor; auto.
  - intros cfg n _ (_ & _ & J) N. split; [|intros T; exfalso; apply T].
    + rewrite vis_letters, <- code_text_letters by auto. apply (F_block_code keep keep_ws).
    + destruct n as [d|x a ks|d|ks|d]; try discriminate. cbn [node_name] in N. subst. cbn [vis]. now left.
  - intros n (_ & _ & J) _. split; [|intros _; apply hash_inline]. rewrite vis_letters, <- code_text_letters by auto. apply (F_inline_code keep keep_ws).
  - intros l x [A _]. apply Own; [now left|]. eapply sub_trans; [exact A|apply (F_quote keep keep_ws)].
  - intros setext level n x _ _ (_ & P & _) N [A B]. destruct (heading_text setext level x) as [t|] eqn:E; [|exact I]. apply Own.
    + unfold block_tok.
      assert (S : forallb (fun y => name_in block_names y) heading_names = true) by reflexivity. rewrite forallb_forall in S.
      unfold name_in at 1 in N. apply existsb_exists in N as (y & Iy & Ey). apply beqb_eq in Ey. subst y. apply S in Iy. rewrite Iy. now left.
    + eapply sub_trans; [exact A|]. eapply heading_letters; [|exact E]. apply B. unfold below_vis. intros I.
      destruct n as [d|nm a ks|d|ks|d]; try discriminate. cbn [node_name kids] in *. rewrite headed_elem, N in P. cbn [negb orb] in P. apply andb_true_iff in P as [P _].
      apply in_flat_map in I as (k & Ik & I). unfold sealeds in P. rewrite forallb_forall in P. apply (sealed_no_tok strikes keep block_tok k keep_tok block_tok_name (P k Ik) I).
  - intros n _. split; [constructor|]. intros _. apply hash_image.
  - intros cfg n l x t _ _ [A _] E. split. eapply sub_trans; [exact A|]. eapply (F_link keep keep_ws); eauto. intros _. eapply hash_link; eauto.
  - split; [constructor|]. intros _. apply ends_other_ok. right. exists (b "<!--THEEND--"), 62. split; [vm_compute; reflexivity|discriminate].
  - intros _ d nm l x P [A _]. split; [|intros _; now apply hash_emphasis]. rewrite filter_app, F_block_tok, filter_filter by auto. eapply sub_trans; [exact A|apply (F_emphasis keep keep_ws)].
Qed.
End letters.
