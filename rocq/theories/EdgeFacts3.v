(** Rendered texts have visible bytes around the code block newlines (C19). *)
From Coq Require Import List NArith ZArith Bool String Lia ZifyBool ZifyNat ZifyN.
From Verif Require Import Bytes BytesFacts TextUtils RenderText Escape SpecEscape EscapeFacts EscapeFacts6 SpecDom SpecText TextFacts TextFacts2 RenderFacts RenderFacts3 RenderFacts4
  Dom DomUtils Engine CommonMark Table RenderInv LetterFacts SpecPlain SpecTrim PlainFacts2 EdgeFacts EdgeFacts2.
Import ListNotations.
Open Scope N_scope.
Open Scope list_scope.

(** Texts and elements of a prepared tree *)
Fixpoint tree_ok (tok : bytes -> bool) (eok : bytes -> attrs -> bool) (n : node) : bool :=
  match n with
  | Text d => tok d
  | Elem x a ks => eok x a && forallb (tree_ok tok eok) ks
  | Doc ks => forallb (tree_ok tok eok) ks
  | _ => true
  end.

Lemma last_app_cons {A} (a : list A) x d t : last (a ++ x :: d) t = last (x :: d) t.
Proof. induction a as [|y a IH]; auto. cbn [app]. rewrite <- IH. destruct (a ++ x :: d) eqn:E; [destruct a; discriminate|reflexivity]. Qed.

Section edge.
Variable strict : bool.
Definition edge_elem (x : bytes) (a : attrs) : bool := forallb (fun kv => unmarked (snd kv)) a && negb (strict && beqb x (b "pre")).
Definition edge_node (n : node) : Prop := tree_ok unmarked edge_elem n = true.
Definition edge_cfg (c : config) : Prop :=
  calm (em_delimiter c) /\ calm (strong_delimiter c) /\ calm (horizontal_rule c) /\ calm (bullet_marker c) /\ inkb (hd 96 (code_fence_opt c)).
Definition edged (x : bytes) : Prop := exists k, toks k x /\ good k /\ (strict = true -> inks k).
Lemma edged_calm x : calm x -> edged x.
Proof. intros (k & A & B). exists k. repeat split; auto; now apply inks_good. Qed.
Lemma edged_app x y : edged x -> edged y -> edged (x ++ y).
Proof. intros (k & A & B & C) (l & D & E & F). exists (k ++ l). split; [now apply toks_app|]. split; [now apply good_app|]. intros Q. apply inks_app; auto. Qed.
Lemma edged_nil : edged []. Proof. apply edged_calm, calm_nil. Qed.
Lemma edged_same x y : edged x -> (forall k, toks k x -> toks k y) -> edged y.
Proof. intros (k & A & B & C) H. exists k. auto. Qed.
Lemma edged_grow x y : edged x -> (forall k, toks k x -> exists k', toks k' y /\ grow k k') -> edged y.
Proof.
  intros (k & A & B & C) H. destruct (H k A) as (k' & D & E). exists k'. split; auto. split; [eapply grow_good; eauto|]. intros Q. eapply grow_marks; eauto.
Qed.
Ltac plain := apply edged_calm; ascii.
Lemma edged_trim x : edged x -> edged (trim_space x). Proof. intros H. eapply edged_same; [exact H|]. intros k. apply toks_trim. Qed.
Lemma edged_tcn x : edged x -> edged (trim_consecutive_newlines x). Proof. intros H. eapply edged_same; [exact H|]. intros k. apply tcn_toks. Qed.
Lemma edged_hard x : edged x -> edged (trim_hard_breaks x). Proof. intros H. eapply edged_same; [exact H|]. intros k. apply hard_toks. Qed.
Lemma edged_multi x : edged x -> edged (escape_multi_line x). Proof. intros H. eapply edged_grow; [exact H|]. intros k. apply multi_toks. Qed.
Lemma edged_swap p new x : p < 33 -> p <> 7 -> calm new -> edged x -> edged (replace_all [p] new x).
Proof. intros A B C H. eapply edged_grow; [exact H|]. intros k. now apply calm_swap. Qed.
Lemma edged_emphasis d x : calm d -> edged x -> edged (emphasis_text d x).
Proof. intros (kd & A & B) H. eapply edged_grow; [exact H|]. intros k. now apply (emphasis_toks d kd). Qed.
Lemma edged_quote x : edged x -> edged (blockquote_text x).
Proof.
  intros H. unfold blockquote_text. cbv zeta. destruct (is_empty _); [apply edged_nil|]. apply (edged_app [cNL; cNL]); [plain|]. apply edged_app; [|plain].
  eapply edged_grow; [apply edged_hard, edged_tcn, edged_trim, H|]. intros k. apply prefix_toks. ascii.
Qed.
Lemma edged_pound x t : edged x -> escape_pound x = Some t -> edged t.
Proof.
  intros H E. unfold escape_pound in E. destruct (snoc_cases x) as [->|(z & c & ->)]; [discriminate|]. rewrite rev_app_distr in E. cbn [rev app escape_pound_rev] in E.
  destruct (c =? 35) eqn:C; cbn [negb] in E.
  - apply N.eqb_eq in C. subst c. destruct (snoc_cases z) as [->|(z' & y & ->)]; [discriminate|]. rewrite rev_app_distr in E. cbn [rev app] in E.
    assert (K : edged (z' ++ [92; 35])).
    { destruct H as (k & A & B & D). destruct (toks_pound k _ A z' y) as (a & c & d & -> & F & G); [now rewrite <- app_assoc|]. exists (a ++ true :: d).
      assert (Q : inks (true :: d)) by (intros [J|J]; [discriminate|auto]). split; auto. split.
      - destruct B as [B1 _]. split; [destruct a; auto|]. destruct (inks_good _ Q) as [_ L]. now rewrite last_app_cons.
      - intros St. specialize (D St). apply inks_app; auto. intros J. apply D, in_app_iff. now left. }
    destruct (snoc_cases z') as [->|(z2 & d & ->)]; cbn [rev app] in E.
    + injection E as <-. exact K.
    + rewrite rev_app_distr in E. cbn [rev app] in E. destruct (d =? 92).
      * injection E as <-. cbn [rev]. rewrite rev_involutive. exact H.
      * cbn [option_map rev] in E. injection E as <-. rewrite rev_involutive. rewrite <- app_assoc. exact K.
  - cbn [option_map rev] in E. injection E as <-. rewrite rev_involutive. exact H.
Qed.
Lemma edged_heading setext level x : edged x -> match heading_text setext level x with Some t => edged t | None => True end.
Proof.
  intros H. unfold heading_text. destruct (is_empty _); [apply edged_nil|]. destruct (_ && _).
  - cbv zeta. set (w := underline_width _ _). clearbody w. apply (edged_app [cNL; cNL]); [plain|]. apply edged_app; [now apply edged_multi, edged_tcn|].
    apply (edged_app [cNL]); [plain|]. apply edged_app; [|plain]. apply edged_calm. unfold setext_line. destruct (Nat.eqb _ _); apply calm_repeat; lia.
  - unfold atx_content. cbv zeta. destruct (escape_pound _) as [t|] eqn:E; cbn [option_map]; auto. apply edged_pound in E.
    + apply (edged_app [cNL; cNL]); [plain|]. apply edged_app; [apply edged_calm, calm_repeat; lia|]. apply (edged_app [cSP]); [plain|]. apply edged_app; [auto|plain].
    + apply edged_trim. eapply edged_same; [|intros k T; eapply toks_thin; [exact T|apply squeeze_thin]]. unfold cNL, cCR. apply edged_swap; try lia; [ascii|]. apply edged_swap; try lia; [ascii|auto].
Qed.
Lemma calm_swap' p new x : p < 33 -> p <> 7 -> calm new -> calm x -> calm (replace_all [p] new x).
Proof. intros A B C H. eapply calm_grow; [exact H|]. intros k. now apply calm_swap. Qed.
Lemma calm_slashed x y : calm x -> slashed x y -> calm y.
Proof. intros H S. eapply calm_grow; [exact H|]. intros k T. eapply toks_slashed; eauto. Qed.
Lemma calm_quotes s : calm s -> calm (surround_by_quotes s).
Proof.
  intros H. unfold surround_by_quotes, surround_by. destruct (is_empty s); [apply calm_nil|]. destruct (_ && _); [|destruct (contains_byte _ _)].
  - apply (calm_app [34]); [ascii|]. apply calm_app; [|ascii]. eapply calm_slashed; [exact H|apply quote_slashed].
  - apply (calm_app [39]); [ascii|]. apply calm_app; [auto|ascii].
  - apply (calm_app [34]); [ascii|]. apply calm_app; [auto|ascii].
Qed.
Lemma calm_dest d t : calm d -> calm t -> calm (dest_and_title d t).
Proof.
  intros H1 H2. unfold dest_and_title. apply (calm_app [40]); [ascii|]. apply calm_app; auto. apply calm_app; [|ascii]. destruct (is_empty t); [apply calm_nil|].
  apply (calm_app [cSP]); [ascii|now apply calm_quotes].
Qed.
Lemma calm_image src title alt : calm src -> calm title -> calm alt -> calm (image_text src title alt).
Proof.
  intros H1 H2 H3. unfold image_text. cbv zeta. apply (calm_app [33; 91]); [ascii|]. apply calm_app; [|apply (calm_app [93]); [ascii|]].
  - eapply calm_slashed; [|apply alt_slashed]. apply calm_swap'; auto; try (unfold cNL; lia). ascii.
  - apply calm_dest; auto. apply calm_swap'; auto; try (unfold cNL; lia). ascii.
Qed.
Lemma edged_link cfg href title x t : calm href -> calm title -> edged x -> link_text cfg href title x = Some t -> edged t.
Proof.
  intros H1 H2 H3. unfold link_text. destruct (_ && _); [discriminate|]. cbv zeta. destruct (_ && _); [discriminate|].
  pose proof (surrounding_spaces_spec x) as S. destruct (surrounding_spaces x) as [[l y] r]. destruct S as (E & Sl & Sr & _).
  destruct (beqb _ _); [|discriminate]. intros Q. apply (f_equal (fun o => match o with Some x => x | None => [] end)) in Q. cbv beta iota in Q. subst t.
  assert (Y : edged y). { eapply edged_same; [exact H3|]. intros k T. subst x. apply toks_left in T; auto. now apply toks_right in T. }
  assert (Ls : forall u, spaces u -> edged u) by (intros u Su; apply edged_calm; exists []; split; [now apply toks_spaces|intros []]).
  apply edged_app; auto. apply (edged_app [91]); [plain|]. apply edged_app; [now apply edged_multi, edged_tcn|]. apply (edged_app [93]); [plain|].
  apply edged_app; auto. apply edged_calm, calm_dest; auto. destruct (is_empty href); [apply calm_nil|]. apply calm_swap'; auto; try (unfold cNL; lia). ascii.
Qed.
Lemma calm_thin x y : calm x -> thin x y -> calm y.
Proof. intros H T. eapply calm_same; [exact H|]. intros k Q. eapply toks_thin; eauto. Qed.
Lemma calm_inline s : calm s -> calm (inline_code_text s).
Proof.
  intros H. unfold inline_code_text. destruct (is_empty _); [apply (calm_app [96]); [ascii|]; apply calm_app; [auto|ascii]|]. cbv zeta.
  assert (K : calm (collapse_inline_code s)).
  { unfold collapse_inline_code. cbv zeta. eapply calm_thin; [|apply squeeze_thin]. eapply calm_same; [|intros k; apply toks_trim]. unfold cNL, cTAB. apply calm_swap'; try lia; [ascii|].
    apply calm_swap'; try lia; [ascii|auto]. }
  set (code := collapse_inline_code s) in *. clearbody code.
  assert (K1 : calm (if has_prefix [96] code then cSP :: code else code)) by (destruct (has_prefix _ _); auto; apply (calm_app [cSP]); [ascii|auto]).
  set (code1 := if has_prefix [96] code then _ else _) in *. clearbody code1. set (n := code_fence_occurrences _ _). clearbody n.
  apply calm_app; [apply calm_repeat; lia|]. apply calm_app; [|apply calm_repeat; lia]. destruct (has_suffix _ _); auto. apply calm_app; [auto|ascii].
Qed.
Lemma calm_drop s : calm s -> calm (drop_last_newline s).
Proof.
  intros H. unfold drop_last_newline. destruct (has_suffix [cNL] s) eqn:E; auto. apply has_suffix_iff in E as (z & ->). rewrite removelast_last.
  eapply calm_same; [exact H|]. intros k T. apply toks_front in T as (k1 & k2 & -> & A & B); [|cbn; unfold cNL; byte].
  assert (k2 = []) by (eapply still_nil; [|exact B]; repeat constructor; unfold cNL; byte). subst k2. now rewrite app_nil_r.
Qed.
Lemma edged_block f info code : inkb (hd 96 f) -> calm info -> calm code -> strict = false -> edged (block_code_text f info code).
Proof.
  intros Hf Hi Hc St. unfold block_code_text. cbv zeta. apply calm_drop in Hc. set (c := drop_last_newline code) in *. clearbody c.
  assert (W : exists n, calculate_code_fence (hd 96 f) c = hd 96 f :: repeat (hd 96 f) n). { unfold calculate_code_fence. exists (Nat.max 2 (code_fence_occurrences (hd 96 f) c)). reflexivity. }
  destruct W as (n & ->). set (h := hd 96 f) in *. clearbody h. apply (edged_app [cNL; cNL]); [plain|].
  assert (Rn : toks (repeat true n) (repeat h n)) by (induction n; cbn [repeat]; constructor; auto).
  assert (Rf : toks (true :: repeat true n) (h :: repeat h n)) by (now apply tk_ink).
  destruct Hi as (ki & Ti & Ii). destruct Hc as (kc & Tc & Ic). rewrite swap_back.
  destruct (toks_swap cNL marker_nl [false]) with (k := kc) (s := c) as (k' & T' & _); auto; try (unfold cNL; lia). { apply tk_mark. constructor. }
  assert (TNL : toks [] [cNL]) by (apply tk_other; try (unfold cNL; byte); constructor).
  exists ((true :: repeat true n) ++ ki ++ [] ++ k' ++ [] ++ (true :: repeat true n) ++ []). split.
  - apply toks_app; auto. apply toks_app; auto. apply (toks_app [] [cNL]); auto. apply toks_app; auto. apply (toks_app [] [cNL]); auto. apply toks_app; auto.
    apply tk_other; try (unfold cNL; byte). exact TNL.
  - split; [|intros Q; congruence]. cbn [app]. rewrite app_nil_r. split; [reflexivity|].
    change (last (((true :: repeat true n) ++ ki ++ k' ++ true :: repeat true n)) true = true). rewrite !app_assoc, last_app_cons.
    apply (inks_good (repeat true (S n))), inks_repeat.
Qed.

(** ** Lists and tables *)
Lemma digits_ascii f : forall n acc, Forall (fun c => c < 128 /\ c <> 7) acc -> Forall (fun c => c < 128 /\ c <> 7) (dec_digits f n acc).
Proof.
  induction f as [|f IH]; intros n acc F; cbn [dec_digits]; auto. assert (n mod 10 < 10) by now apply N.mod_lt.
  destruct (n <? 10) eqn:E; [constructor; auto; unfold digit_byte; lia|]. apply IH. constructor; auto. unfold digit_byte; lia.
Qed.
Lemma calm_itoa_N n : calm (itoa_N n).
Proof. apply calm_ascii. apply digits_ascii. constructor. Qed.
Lemma calm_itoa z : calm (itoa z).
Proof. destruct z; cbn [itoa]; try apply calm_itoa_N; try ascii. apply (calm_app [45]); [ascii|apply calm_itoa_N]. Qed.
Lemma calm_prefix ul marker start n i : calm marker -> calm (list_prefix ul marker start n i).
Proof.
  intros M. unfold list_prefix. destruct ul; [apply calm_app; [auto|ascii]|]. unfold ordered_prefix. cbv zeta. apply calm_app; [|ascii].
  unfold pad_int. destruct (_ + _)%Z; (try (apply (calm_app [45]); [ascii|])); apply calm_app; try (apply calm_repeat; lia); auto using calm_itoa_N, calm_itoa.
Qed.
Lemma edged_indent x m : edged x -> edged (indent_item x m).
Proof.
  intros H. eapply edged_same; [exact H|]. intros k T. unfold indent_item. cbv zeta. unfold cNL. rewrite <- (split_join 10 x) in T. apply toks_lines in T as (ks & F & ->).
  assert (Sp : toks [] (repeat cSP m)) by (apply still_toks, Forall_forall; intros c I; apply repeat_spec in I; subst; unfold cSP; repeat split; byte).
  apply toks_join; [apply tk_other; try byte; exact Sp|]. induction F as [|q y ks ls T F IH]; constructor; auto.
  rewrite <- (marks_back q). apply toks_marks; auto. apply (toks_app [false] marker_nl); auto. apply tk_mark. constructor.
Qed.
Lemma edged_items un prefix m items : (forall x, edged x -> edged (un x)) -> (forall i, calm (prefix i)) -> Forall edged items ->
  forall i, edged (list_items un prefix m i items).
Proof.
  intros U Pr. induction 1 as [|x items Hx F IH]; intros i; cbn [list_items]; [apply edged_nil|]. apply edged_app; [now apply edged_calm|].
  apply edged_app; [now apply edged_indent, U, edged_hard, edged_tcn|]. apply edged_app; auto. destruct (is_empty items); [apply edged_nil|plain].
Qed.
Lemma edged_list un ul marker start items : (forall x, edged x -> edged (un x)) -> calm marker -> Forall edged items -> edged (list_text un ul marker start items).
Proof.
  intros U M F. unfold list_text. cbv zeta. set (l := filter _ _). assert (Fl : Forall edged l).
  { apply Forall_forall. intros x I. apply filter_In in I as [I _]. apply in_map_iff in I as (y & <- & I). rewrite Forall_forall in F. now apply edged_trim, F. }
  clearbody l. destruct (is_empty l); [apply edged_nil|]. set (m := rune_count _). clearbody m. apply (edged_app [cNL; cNL]); [plain|]. apply edged_app; [|plain].
  apply edged_items; auto. intros i. now apply calm_prefix.
Qed.
Lemma edged_row tcfg counts cells : Forall edged cells -> edged (row_text tcfg counts cells).
Proof.
  intros F. unfold row_text. apply edged_app; [destruct (is_empty cells); [apply edged_nil|plain]|].
  assert (G : Forall (fun p => edged (snd p)) (combine counts cells)). { apply Forall_forall. intros (i & x) I. apply in_combine_r in I. rewrite Forall_forall in F. now apply F. }
  induction G as [|[i x] l Hx G IH]; [apply edged_nil|]. cbn [map List.concat fst snd]. apply edged_app; auto. unfold row_cell, pad_space.
  assert (Pd : edged (if aligned tcfg || beqb (cell_padding tcfg) (b "minimal") then [cSP] else [])) by (destruct (_ || _); [plain|apply edged_nil]).
  apply edged_app; auto. apply edged_app; auto. apply edged_app; [destruct (aligned tcfg); [apply edged_calm, calm_repeat; unfold cSP; lia|apply edged_nil]|].
  apply edged_app; auto. plain.
Qed.
Lemma calm_underline tcfg aligns counts : calm (underline_text tcfg aligns counts).
Proof.
  unfold underline_text. apply calm_app; [destruct (is_empty counts); [apply calm_nil|ascii]|]. induction (combine _ _) as [|[i m] l IH]; [apply calm_nil|].
  cbn [map List.concat fst snd]. apply calm_app; auto. unfold underline_cell. apply calm_app; [destruct (one_of _ _); ascii|]. apply calm_app; [destruct (aligned tcfg); [apply calm_repeat; lia|ascii]|].
  apply calm_app; [destruct (one_of _ _); ascii|ascii].
Qed.
Lemma edged_table tcfg aligns rows cap : Forall (Forall edged) rows -> match cap with Some s => edged s | None => True end -> edged (table_text tcfg aligns rows cap).
Proof.
  intros F C. unfold table_text. cbv zeta. set (counts := max_counts rows). clearbody counts.
  assert (G : Forall (Forall edged) (map (fill_row (List.length counts)) rows)).
  { apply Forall_forall. intros r I. apply in_map_iff in I as (r0 & <- & I). rewrite Forall_forall in F. specialize (F r0 I). unfold fill_row, Table.grow. apply Forall_app. split; auto.
    apply Forall_forall. intros x J. apply repeat_spec in J. subst. apply edged_nil. }
  set (rs := map _ rows) in *. clearbody rs. apply (edged_app [cNL; cNL]); [plain|].
  assert (Gh : Forall edged (hd [] rs)) by (destruct G; [constructor|auto]). apply edged_app; [now apply edged_row|]. apply (edged_app [cNL]); [plain|].
  apply edged_app; [apply edged_calm, calm_underline|]. apply (edged_app [cNL]); [plain|]. apply edged_app.
  - assert (Gt : Forall (Forall edged) (tl rs)) by (destruct G; [constructor|auto]). induction Gt as [|r l Hr Gt IH]; [apply edged_nil|]. cbn [map List.concat]. apply edged_app; auto.
    apply edged_app; [now apply edged_row|plain].
  - apply edged_app; [|plain]. destruct cap; [apply (edged_app [cNL; cNL]); [plain|auto]|apply edged_nil].
Qed.
End edge.
