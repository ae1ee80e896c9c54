(** Every textual step of the renderers keeps UTF-8 valid (C62). *)
From Coq Require Import List NArith ZArith Bool String Lia ZifyBool ZifyNat ZifyN.
From Verif Require Import Bytes BytesFacts TextUtils RenderText Escape SpecEscape EscapeFacts EscapeFacts6 SpecDom SpecText TextFacts TextFacts2 RenderFacts RenderFacts3 RenderFacts4 PanicFacts
  Dom DomUtils Engine CommonMark Table RenderInv LetterFacts SpecPlain PlainFacts2 EdgeFacts EdgeFacts2 EdgeFacts3 SpecUtf8 Utf8Facts.
Import ListNotations.
Open Scope N_scope.
Open Scope list_scope.
Ltac asc := apply valid_ascii; repeat constructor; try lia; discriminate.

(** ** The number sign at the end of a heading has an ASCII byte before it *)
Definition low_end (u : bytes) : Prop := exists z c, u = z ++ [c] /\ c < 128.
Definition hash8 (x : bytes) : Prop := forall u w, x = u ++ 35 :: w -> Forall ws_byte w -> low_end u.
Lemma app_hash x : forall y u w, x ++ y = u ++ 35 :: w -> (exists w', x = u ++ 35 :: w' /\ w = w' ++ y) \/ exists u', u = x ++ u' /\ y = u' ++ 35 :: w.
Proof.
  induction x as [|c x IH]; intros y u w E; [right; exists u; auto|]. destruct u as [|d u]; cbn [app] in E.
  - injection E as -> <-. left. exists x. auto.
  - injection E as -> E. apply IH in E as [(w' & -> & ->)|(u' & -> & ->)]; [left; exists w'; auto|right; exists u'; auto].
Qed.
Lemma hash8_app x y : hash8 x -> hash8 y -> hash8 (x ++ y).
Proof.
  intros X Y u w E W. apply app_hash in E as [(w' & -> & ->)|(u' & -> & ->)].
  - apply (X u w'); auto. now apply Forall_app in W.
  - destruct (Y u' w) as (z & c & -> & L); auto. exists (x ++ z), c. now rewrite app_assoc.
Qed.
Lemma hash8_none y : ~ In 35 y -> hash8 y.
Proof. intros N u w -> _. exfalso. apply N, in_app_iff. right. now left. Qed.
Lemma hash8_tail x y c : ~ In 35 y -> In c y -> ~ ws_byte c -> hash8 (x ++ y).
Proof.
  intros N I C u w E W. apply app_hash in E as [(w' & -> & ->)|(u' & -> & ->)].
  - exfalso. apply C. rewrite Forall_forall in W. apply W, in_app_iff. now right.
  - exfalso. apply N, in_app_iff. right. now left.
Qed.
Lemma ws_no35 l : Forall ws_byte l -> ~ In 35 l.
Proof. intros F I. rewrite Forall_forall in F. apply F in I. unfold ws_byte in I. lia. Qed.
Lemma spaces_no35 l : spaces l -> ~ In 35 l.
Proof. intros S. now apply ws_no35, spaces_ws. Qed.
Lemma hash8_join ls : Forall hash8 ls -> hash8 (join [10] ls).
Proof.
  induction 1 as [|x ls H F IH]; [apply hash8_none; now intros []|]. destruct ls as [|y ls]; [exact H|]. rewrite join_cons by easy. apply hash8_app; auto.
  apply hash8_app; auto. apply hash8_none. intros [J|[]]; discriminate.
Qed.
Lemma hash8_emphasis d x : plain_delim d -> hash8 (emphasis_text d x).
Proof.
  intros (N & c & I & G). unfold emphasis_text, delimiter_for_every_line, cNL. apply hash8_join. apply Forall_forall. intros y J. apply in_map_iff in J as (l & <- & _).
  unfold delimit_line. pose proof (surrounding_spaces_spec l) as S. destruct (surrounding_spaces l) as [[a t] r]. destruct S as (_ & Sx & Sy & _). destruct (is_empty t).
  - apply hash8_none. rewrite in_app_iff. intros [J|J]; [now apply spaces_no35 in Sx|now apply spaces_no35 in Sy].
  - rewrite !app_assoc, <- app_assoc. apply (hash8_tail _ (d ++ r) c).
    + rewrite in_app_iff. intros [J|J]; [auto|now apply spaces_no35 in Sy].
    + apply in_app_iff. now left.
    + unfold graphic, ws_byte in *. lia.
Qed.
Lemma hash8_last z c : c <> 35 -> ~ ws_byte c -> hash8 (z ++ [c]).
Proof. intros N W. apply (hash8_tail z [c] c); auto; [intros [J|[]]; auto|now left]. Qed.
Ltac visible := try discriminate; unfold ws_byte; lia.
Lemma hash8_inline code : hash8 (inline_code_text code).
Proof.
  unfold inline_code_text. destruct (is_empty _).
  - rewrite app_assoc. apply hash8_last; visible.
  - cbv zeta. set (c := if has_suffix _ _ then _ else _). clearbody c. set (k := code_fence_occurrences _ _). clearbody k.
    replace (repeat 96 (S k) ++ c ++ repeat 96 (S k)) with ((repeat 96 (S k) ++ c ++ repeat 96 k) ++ [96]); [apply hash8_last; visible|].
    rewrite <- !app_assoc. do 2 f_equal. apply repeat_snoc.
Qed.
Lemma hash8_image src title alt : hash8 (image_text src title alt).
Proof. unfold image_text. cbv zeta. destruct (dest_title_last src (replace_all [cNL] [cSP] title)) as (z & ->). rewrite !app_assoc. apply hash8_last; visible. Qed.
Lemma hash8_link cfg href title x t : link_text cfg href title x = Some t -> hash8 t.
Proof.
  unfold link_text. destruct (_ && _); [discriminate|]. cbv zeta. destruct (_ && _); [discriminate|].
  pose proof (surrounding_spaces_spec x) as S. destruct (surrounding_spaces x) as [[l c] r]. destruct S as (_ & _ & Sr & _).
  destruct (beqb _ _); [|discriminate]. intros [= <-]. destruct (dest_title_last href (if is_empty href then [] else replace_all [cNL] [cSP] title)) as (z & E).
  set (M := escape_multi_line _). clearbody M.
  match goal with |- hash8 (l ++ 91 :: M ++ 93 :: ?d) => assert (Ed : d = (z ++ [41]) ++ r) end.
  { rewrite <- E. unfold dest_and_title. cbn [app]. reflexivity. }
  rewrite Ed. replace (l ++ 91 :: M ++ 93 :: (z ++ [41]) ++ r) with ((l ++ 91 :: M ++ 93 :: z) ++ (41 :: r)).
  - apply (hash8_tail _ _ 41); [|now left|visible]. intros [J|J]; [discriminate|now apply spaces_no35 in Sr].
  - change (91 :: M ++ 93 :: (z ++ [41]) ++ r) with ([91] ++ M ++ [93] ++ (z ++ [41]) ++ r). change (91 :: M ++ 93 :: z) with ([91] ++ M ++ [93] ++ z). now rewrite <- !app_assoc.
Qed.
Lemma marked_hash8 s : marked 0 s = true -> hash8 s.
Proof. intros M u w -> _. apply marked_before in M as [[_ M]|(z & ->)]; [discriminate|]. exists z, 7. split; [auto|lia]. Qed.
Lemma hash8_one_line x : hash8 x -> hash8 (map one_line x).
Proof.
  intros H u w E W. apply map_eq_app in E as (u' & r & -> & <- & E). destruct r as [|c w']; [discriminate|]. cbn [map] in E. injection E as E1 <-.
  assert (c = 35) by (unfold one_line in E1; destruct (_ || _); [discriminate|auto]). subst c. destruct (H u' w' eq_refl) as (z & c & -> & L).
  - clear - W. induction w' as [|c w IH]; constructor; inversion W as [|? ? A B]; subst; auto. unfold one_line in A. destruct ((c =? 10) || (c =? 13)) eqn:Q; [unfold ws_byte; lia|auto].
  - exists (map one_line z), (one_line c). rewrite map_app. split; [reflexivity|]. unfold one_line. destruct (_ || _); lia.
Qed.
Lemma squeeze_hash s : forall p u w, squeeze_spaces p s = u ++ 35 :: w -> Forall ws_byte w ->
  exists u' w', s = u' ++ 35 :: w' /\ Forall ws_byte w' /\ (low_end u' -> low_end u \/ (p = true /\ u = [])).
Proof.
  induction s as [|c s IH]; intros p u w E W; [destruct u; discriminate|]. cbn [squeeze_spaces] in E. unfold cSP in E. destruct (c =? 32) eqn:C; [apply N.eqb_eq in C; subst c; destruct p|].
  - destruct (IH true u w E W) as (u' & w' & -> & W' & L). exists (32 :: u'), w'. repeat split; auto. intros (z & c & E' & Lc). destruct (snoc_cases u') as [->|(z' & c' & ->)].
    + destruct (snoc_cases u) as [->|(z1 & c1 & ->)]; [now right|]. exfalso.
      (* the rest begins with the number sign *)
      cbn [app squeeze_spaces] in E. change (35 =? cSP) with false in E. cbv iota in E. destruct (z1 ++ [c1]) as [|d q] eqn:Q; [destruct z1; discriminate|]. cbn [app] in E. injection E as <- E.
      assert (J : In 35 (squeeze_spaces false w')) by (rewrite E; apply in_app_iff; right; now left).
      assert (K : forall v p, In 35 (squeeze_spaces p v) -> In 35 v).
      { clear. induction v as [|c v IH]; intros p; cbn [squeeze_spaces]; auto. destruct (c =? cSP); [destruct p; [right; eauto|]|]; (intros [J|J]; [now left|right; eauto]). }
      apply K in J. now apply ws_no35 in W'.
    + apply L. exists z', c'. split; auto. change (32 :: z' ++ [c']) with ((32 :: z') ++ [c']) in E'. apply app_inj_tail in E' as [_ <-]. auto.
  - destruct u as [|d u]; cbn [app] in E; [discriminate|]. injection E as <- E. destruct (IH true u w E W) as (u' & w' & -> & W' & L). exists (32 :: u'), w'. repeat split; auto.
    intros (z & c & E' & Lc). left. destruct (snoc_cases u') as [->|(z' & c' & ->)].
    + destruct (snoc_cases u) as [->|(z1 & c1 & ->)]; [exists [], 32; split; [reflexivity|lia]|]. exfalso.
      cbn [app squeeze_spaces] in E. change (35 =? cSP) with false in E. cbv iota in E. destruct (z1 ++ [c1]) as [|d q] eqn:Q; [destruct z1; discriminate|]. cbn [app] in E. injection E as <- E.
      assert (J : In 35 (squeeze_spaces false w')) by (rewrite E; apply in_app_iff; right; now left).
      assert (K : forall v p, In 35 (squeeze_spaces p v) -> In 35 v).
      { clear. induction v as [|c v IH]; intros p; cbn [squeeze_spaces]; auto. destruct (c =? cSP); [destruct p; [right; eauto|]|]; (intros [J|J]; [now left|right; eauto]). }
      apply K in J. now apply ws_no35 in W'.
    + destruct L as [(z1 & c1 & -> & L1)|[_ ->]].
      * exists z', c'. split; auto. change (32 :: z' ++ [c']) with ((32 :: z') ++ [c']) in E'. apply app_inj_tail in E' as [_ <-]. auto.
      * exists (32 :: z1), c1. auto.
      * exists [], 32. split; [reflexivity|lia].
  - destruct u as [|d u]; cbn [app] in E.
    + injection E as -> <-. exists [], s. split; [reflexivity|]. split; [|intros (z & c & Q & _); destruct z; discriminate].
      clear - W. revert W. generalize false as p. induction s as [|c s IH]; intros p W; [constructor|]. cbn [squeeze_spaces] in W. unfold cSP in W. destruct (c =? 32) eqn:C.
      * constructor; [unfold ws_byte; lia|]. destruct p; [eauto|]. inversion W; subst. eauto.
      * inversion W; subst. constructor; auto. eauto.
    + injection E as <- E. destruct (IH false u w E W) as (u' & w' & -> & W' & L). exists (c :: u'), w'. repeat split; auto. intros (z & e & E' & Le). left.
      destruct (snoc_cases u') as [->|(z' & c' & ->)].
      * destruct z as [|? z]; [|destruct z; discriminate]. injection E' as ->. destruct (snoc_cases u) as [->|(z1 & c1 & ->)]; [exists [], e; auto|]. exfalso.
        cbn [app squeeze_spaces] in E. change (35 =? cSP) with false in E. cbv iota in E. destruct (z1 ++ [c1]) as [|d q] eqn:Q; [destruct z1; discriminate|]. cbn [app] in E. injection E as <- E.
        assert (J : In 35 (squeeze_spaces false w')) by (rewrite E; apply in_app_iff; right; now left).
        assert (K : forall v p, In 35 (squeeze_spaces p v) -> In 35 v).
        { clear. induction v as [|c v IH]; intros p; cbn [squeeze_spaces]; auto. destruct (c =? cSP); [destruct p; [right; eauto|]|]; (intros [J|J]; [now left|right; eauto]). }
        apply K in J. now apply ws_no35 in W'.
      * destruct L as [(z1 & c1 & -> & L1)|[Q _]]; [|exists (c :: z1), c1; auto|discriminate]. exists z', c'. split; auto.
        change (c :: z' ++ [c']) with ((c :: z') ++ [c']) in E'. apply app_inj_tail in E' as [_ <-]. auto.
Qed.
Lemma hash8_squeeze s : hash8 s -> hash8 (squeeze_spaces false s).
Proof. intros H u w E W. destruct (squeeze_hash s false u w E W) as (u' & w' & -> & W' & L). destruct (L (H u' w' eq_refl W')) as [K|[Q _]]; [auto|discriminate]. Qed.
Lemma pound_low s z y : hash8 s -> trim_space s = z ++ [y; 35] -> y < 128.
Proof.
  intros H E. destruct (trim_space_ws s) as (l & r & Es & _ & Fr). rewrite E in Es. destruct (H (l ++ z ++ [y]) r) as (z' & c & Q & L); auto.
  - rewrite Es. rewrite <- !app_assoc. reflexivity.
  - rewrite app_assoc in Q. apply app_inj_tail in Q as [_ ->]. exact L.
Qed.
Lemma valid_low_sub z y r : y < 128 -> valid (z ++ y :: r) -> valid (z ++ 92 :: r).
Proof.
  intros L. apply valid_edits. induction z as [|c z IH]; cbn [app]; [|now constructor]. apply (ed_sub y [92]); auto; [asc|apply edits_refl].
Qed.
Lemma valid_atx x t : valid x -> hash8 x -> atx_content x = Some t -> valid t.
Proof.
  intros V H. rewrite atx_content_eq. assert (Vs : valid (trim_space (squeeze_spaces false (map one_line x)))).
  { apply valid_trim, valid_squeeze. eapply valid_edits; [|exact V]. clear. induction x as [|c x IH]; [constructor|]. cbn [map]. unfold one_line at 1. destruct ((c =? 10) || (c =? 13)) eqn:Q; [|now constructor].
    apply (ed_sub c [32]); auto; [lia|asc]. }
  apply hash8_one_line, hash8_squeeze in H. set (s := squeeze_spaces false (map one_line x)) in *. clearbody s. pose proof (pound_low s) as P. set (T := trim_space s) in *. clearbody T.
  unfold escape_pound. intros E. destruct (snoc_cases T) as [->|(z & c & ->)]; [discriminate|]. rewrite rev_app_distr in E. cbn [rev app escape_pound_rev] in E.
  destruct (c =? 35) eqn:C; cbn [negb] in E.
  - apply N.eqb_eq in C. subst c. destruct (snoc_cases z) as [->|(z' & y & ->)]; [discriminate|]. rewrite rev_app_distr in E. cbn [rev app] in E.
    assert (L : y < 128) by (apply (P z' y); auto; now rewrite <- app_assoc).
    assert (K : valid (z' ++ [92; 35])) by (apply (valid_low_sub z' y); auto; now rewrite <- app_assoc in Vs).
    destruct (snoc_cases z') as [->|(z2 & d & ->)]; cbn [rev app] in E.
    + injection E as <-. exact K.
    + rewrite rev_app_distr in E. cbn [rev app] in E. destruct (d =? 92).
      * injection E as <-. cbn [rev]. rewrite rev_involutive. exact Vs.
      * cbn [option_map rev] in E. injection E as <-. rewrite rev_involutive. rewrite <- !app_assoc in *. exact K.
  - cbn [option_map rev] in E. injection E as <-. rewrite rev_involutive. exact Vs.
Qed.
Lemma valid_heading setext level x : valid x -> hash8 x -> match heading_text setext level x with Some t => valid t | None => True end.
Proof.
  intros V H. unfold heading_text. destruct (is_empty _); [apply valid_nil|]. destruct (_ && _).
  - cbv zeta. set (w := underline_width _ _). clearbody w. apply (valid_app [cNL; cNL]); [asc|]. apply valid_app; [now apply valid_multi, valid_tcn|].
    apply (valid_app [cNL]); [asc|]. apply valid_app; [|asc]. unfold setext_line. destruct (Nat.eqb _ _); apply valid_repeat; lia.
  - destruct (atx_content x) as [t|] eqn:E; cbn [option_map]; auto. apply valid_atx in E; auto.
    apply (valid_app [cNL; cNL]); [asc|]. apply valid_app; [apply valid_repeat; lia|]. apply (valid_app [cSP]); [asc|]. apply valid_app; [auto|asc].
Qed.

(** ** The other renderers *)
Lemma valid_quote x : valid x -> valid (blockquote_text x).
Proof.
  intros H. unfold blockquote_text. cbv zeta. destruct (is_empty _); [apply valid_nil|]. apply (valid_app [cNL; cNL]); [asc|]. apply valid_app; [|asc].
  apply valid_prefix_lines; [asc|]. now apply valid_hard, valid_tcn, valid_trim.
Qed.
Lemma valid_quotes s : valid s -> valid (surround_by_quotes s).
Proof.
  intros H. unfold surround_by_quotes, surround_by. destruct (is_empty s); [apply valid_nil|]. destruct (_ && _); [|destruct (contains_byte _ _)].
  - apply (valid_app [34]); [asc|]. apply valid_app; [|asc]. apply valid_swap; [lia|asc|auto].
  - apply (valid_app [39]); [asc|]. apply valid_app; [auto|asc].
  - apply (valid_app [34]); [asc|]. apply valid_app; [auto|asc].
Qed.
Lemma valid_dest d t : valid d -> valid t -> valid (dest_and_title d t).
Proof.
  intros H1 H2. unfold dest_and_title. apply (valid_app [40]); [asc|]. apply valid_app; auto. apply valid_app; [|asc]. destruct (is_empty t); [apply valid_nil|].
  apply (valid_app [cSP]); [asc|now apply valid_quotes].
Qed.
Lemma valid_image src title alt : valid src -> valid title -> valid alt -> valid (image_text src title alt).
Proof.
  intros H1 H2 H3. unfold image_text. cbv zeta. apply (valid_app [33; 91]); [asc|]. apply valid_app; [|apply (valid_app [93]); [asc|]].
  - eapply valid_edits; [apply slashed_edits, alt_slashed|]. apply valid_swap; auto; [unfold cNL; lia|asc].
  - apply valid_dest; auto. apply valid_swap; auto; [unfold cNL; lia|asc].
Qed.
Lemma valid_link cfg href title x t : valid href -> valid title -> valid x -> link_text cfg href title x = Some t -> valid t.
Proof.
  intros H1 H2 H3. unfold link_text. destruct (_ && _); [discriminate|]. cbv zeta. destruct (_ && _); [discriminate|].
  pose proof (surrounding_spaces_spec x) as S. destruct (surrounding_spaces x) as [[l y] r]. destruct S as (E & Sl & Sr & _).
  destruct (beqb _ _); [|discriminate]. intros Q. apply (f_equal (fun o => match o with Some x => x | None => [] end)) in Q. cbv beta iota in Q. subst t.
  assert (Y : valid y). { subst x. apply valid_left in H3; auto. now apply valid_right in H3. }
  apply spaces_valid in Sl, Sr.
  apply valid_app; auto. apply (valid_app [91]); [asc|]. apply valid_app; [now apply valid_multi, valid_tcn|]. apply (valid_app [93]); [asc|].
  apply valid_app; auto. apply valid_dest; auto. destruct (is_empty href); [apply valid_nil|]. apply valid_swap; auto; [unfold cNL; lia|asc].
Qed.
Lemma valid_inline s : valid s -> valid (inline_code_text s).
Proof.
  intros H. unfold inline_code_text. destruct (is_empty _); [apply (valid_app [96]); [asc|]; apply valid_app; [auto|asc]|]. cbv zeta.
  assert (K : valid (collapse_inline_code s)).
  { unfold collapse_inline_code. cbv zeta. apply valid_squeeze, valid_trim. unfold cNL, cTAB. apply valid_swap; [lia|asc|]. apply valid_swap; [lia|asc|auto]. }
  set (code := collapse_inline_code s) in *. clearbody code.
  assert (K1 : valid (if has_prefix [96] code then cSP :: code else code)) by (destruct (has_prefix _ _); auto).
  set (code1 := if has_prefix [96] code then _ else _) in *. clearbody code1. set (n := code_fence_occurrences _ _). clearbody n.
  apply valid_app; [apply valid_repeat; lia|]. apply valid_app; [|apply valid_repeat; lia]. destruct (has_suffix _ _); auto. apply valid_app; [auto|asc].
Qed.
Lemma valid_drop s : valid s -> valid (drop_last_newline s).
Proof.
  intros H. unfold drop_last_newline. destruct (has_suffix [cNL] s) eqn:E; auto. apply has_suffix_iff in E as (z & ->). rewrite removelast_last.
  apply valid_cut in H as [H _]; auto. cbn. unfold cNL. lia.
Qed.
Lemma valid_block f info code : hd 96 f < 128 -> valid info -> valid code -> valid (block_code_text f info code).
Proof.
  intros Hf Hi Hc. unfold block_code_text. cbv zeta. apply valid_drop in Hc. set (c := drop_last_newline code) in *. clearbody c.
  assert (W : valid (calculate_code_fence (hd 96 f) c)) by (unfold calculate_code_fence; now apply valid_repeat).
  apply (valid_app [cNL; cNL]); [asc|]. apply valid_app; auto. apply valid_app; auto. apply (valid_app [cNL]); [asc|]. apply valid_app; [apply valid_swap; [unfold cNL; lia|apply marker_valid|auto]|].
  apply (valid_app [cNL]); [asc|]. apply valid_app; [auto|asc].
Qed.
Lemma valid_itoa_N n : valid (itoa_N n).
Proof. apply valid_ascii. eapply Forall_impl; [|apply digits_ascii; constructor]. now intros c []. Qed.
Lemma valid_itoa z : valid (itoa z).
Proof. destruct z; cbn [itoa]; [asc|apply valid_itoa_N|apply (valid_app [45]); [asc|apply valid_itoa_N]]. Qed.
Lemma valid_prefix ul marker start n i : valid marker -> valid (list_prefix ul marker start n i).
Proof.
  intros M. unfold list_prefix. destruct ul; [apply valid_app; [auto|asc]|]. unfold ordered_prefix. cbv zeta. apply valid_app; [|asc].
  unfold pad_int. destruct (_ + _)%Z; (try (apply (valid_app [45]); [asc|])); apply valid_app; try (apply valid_repeat; lia); auto using valid_itoa_N, valid_itoa.
Qed.
Lemma valid_indent x m : valid x -> valid (indent_item x m).
Proof.
  intros H. unfold indent_item. cbv zeta. unfold cNL, cSP. apply valid_join; [apply (valid_app [10]); [asc|apply valid_repeat; lia]|].
  apply valid_map; [|apply valid_split; auto; lia]. intros y. apply valid_marks. apply valid_app; [apply marker_valid|apply valid_repeat; lia].
Qed.
Lemma valid_items un prefix m items : (forall x, valid x -> valid (un x)) -> (forall i, valid (prefix i)) -> Forall valid items ->
  forall i, valid (list_items un prefix m i items).
Proof.
  intros U Pr. induction 1 as [|x items Hx F IH]; intros i; cbn [list_items]; [apply valid_nil|]. apply valid_app; auto.
  apply valid_app; [now apply valid_indent, U, valid_hard, valid_tcn|]. apply valid_app; auto. destruct (is_empty items); [apply valid_nil|asc].
Qed.
Lemma valid_list un ul marker start items : (forall x, valid x -> valid (un x)) -> valid marker -> Forall valid items -> valid (list_text un ul marker start items).
Proof.
  intros U M F. unfold list_text. cbv zeta. set (l := filter _ _). assert (Fl : Forall valid l).
  { apply Forall_forall. intros x I. apply filter_In in I as [I _]. apply in_map_iff in I as (y & <- & I). rewrite Forall_forall in F. now apply valid_trim, F. }
  clearbody l. destruct (is_empty l); [apply valid_nil|]. set (m := rune_count _). clearbody m. apply (valid_app [cNL; cNL]); [asc|]. apply valid_app; [|asc].
  apply valid_items; auto. intros i. now apply valid_prefix.
Qed.
Lemma valid_row tcfg counts cells : Forall valid cells -> valid (row_text tcfg counts cells).
Proof.
  intros F. unfold row_text. apply valid_app; [destruct (is_empty cells); [apply valid_nil|asc]|].
  assert (G : Forall (fun p => valid (snd p)) (combine counts cells)). { apply Forall_forall. intros (i & x) I. apply in_combine_r in I. rewrite Forall_forall in F. now apply F. }
  induction G as [|[i x] l Hx G IH]; [apply valid_nil|]. cbn [map List.concat fst snd]. apply valid_app; auto. unfold row_cell, pad_space.
  assert (Pd : valid (if aligned tcfg || beqb (cell_padding tcfg) (b "minimal") then [cSP] else [])) by (destruct (_ || _); [asc|apply valid_nil]).
  apply valid_app; auto. apply valid_app; auto. apply valid_app; [destruct (aligned tcfg); [apply valid_repeat; unfold cSP; lia|apply valid_nil]|].
  apply valid_app; auto. asc.
Qed.
Lemma valid_underline tcfg aligns counts : valid (underline_text tcfg aligns counts).
Proof.
  unfold underline_text. apply valid_app; [destruct (is_empty counts); [apply valid_nil|asc]|]. induction (combine _ _) as [|[i m] l IH]; [apply valid_nil|].
  cbn [map List.concat fst snd]. apply valid_app; auto. unfold underline_cell. apply valid_app; [destruct (one_of _ _); asc|]. apply valid_app; [destruct (aligned tcfg); [apply valid_repeat; lia|asc]|].
  apply valid_app; [destruct (one_of _ _); asc|asc].
Qed.
Lemma valid_table tcfg aligns rows cap : Forall (Forall valid) rows -> match cap with Some s => valid s | None => True end -> valid (table_text tcfg aligns rows cap).
Proof.
  intros F C. unfold table_text. cbv zeta. set (counts := max_counts rows). clearbody counts.
  assert (G : Forall (Forall valid) (map (fill_row (List.length counts)) rows)).
  { apply Forall_forall. intros r I. apply in_map_iff in I as (r0 & <- & I). rewrite Forall_forall in F. specialize (F r0 I). unfold fill_row, Table.grow. apply Forall_app. split; auto.
    apply Forall_forall. intros x J. apply repeat_spec in J. subst. apply valid_nil. }
  set (rs := map _ rows) in *. clearbody rs. apply (valid_app [cNL; cNL]); [asc|].
  assert (Gh : Forall valid (hd [] rs)) by (destruct G; [constructor|auto]). apply valid_app; [now apply valid_row|]. apply (valid_app [cNL]); [asc|].
  apply valid_app; [apply valid_underline|]. apply (valid_app [cNL]); [asc|]. apply valid_app.
  - assert (Gt : Forall (Forall valid) (tl rs)) by (destruct G; [constructor|auto]). induction Gt as [|r l Hr Gt IH]; [apply valid_nil|]. cbn [map List.concat]. apply valid_app; auto.
    apply valid_app; [now apply valid_row|asc].
  - apply valid_app; [|asc]. destruct cap; [apply (valid_app [cNL; cNL]); [asc|auto]|apply valid_nil].
Qed.
