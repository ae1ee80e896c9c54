(** Rendering a page gives the blocks of text, with line ends around them (C64). *)
From Coq Require Import List NArith ZArith Bool String Lia ZifyBool ZifyNat ZifyN.
From Verif Require Import Bytes BytesFacts TextUtils TextFacts TextFacts2 RenderText RenderFacts RenderFacts2 RenderFacts4 RenderFacts5 Escape SpecEscape SpecText SpecText2
  Dom DomUtils SpecDom Engine CommonMark SpecEngine EngineFacts SpecPipeline PipelineFacts SpecPlain SpecNode NodeFacts PanicFacts PlainFacts2 PlainFacts3 PlainFacts4 SpecBlocks BlockFacts0 BlockFacts BlockFacts1 BlockFacts2 BlockFacts3
  RenderFacts3 EscapeFacts EscapeFacts4 EscapeFacts6 DomFacts4 BlockFacts5 BlockFacts6 BlockFacts9.
From Verif Require UrlFacts.
Import ListNotations.
Open Scope N_scope.
Open Scope list_scope.

Section rendering.
Variable x : setting.
Hypothesis Hsort : sorts (st_sort x).
Hypothesis Hmode : st_mode x = Smart.
Hypothesis Hone : exists A B, st_uses x = A ++ UseBase :: B /\ ~ In UseBase (A ++ B).
Variable cfg : config.
Hypothesis Hopt : options x cfg.
Notation us := (st_uses x).
Notation l := (cv_chars (converter_with Smart us)).
Let Hl := chars_ok Smart us.
Let Hp : forall c, In c l -> ascii_punct c = true /\ c <> 38 /\ c <> 59.
Proof. destruct Hopt as (cfg0 & _ & _ & V & _). apply (chars_punct us (st_url x) cfg0). unfold valid_cfg. now rewrite V. Qed.
Lemma base_used : In UseBase us.
Proof. destruct Hone as (A & B & -> & _). apply in_app_iff. right. now left. Qed.
Notation hr := (horizontal_rule cfg).
Lemma one_text_rendered f name anc a ks t s : one_text final ks t -> readable_block (one_spaced t) = true ->
  forall parts, inside x f [] anc (Elem name a ks) parts -> s = List.concat parts ->
  one_spaced t = [] /\ s = [] \/ one_spaced t = t /\ t <> [] /\ squeeze_spaces false s = s /\ line_text l s (plain t).
Proof.
  intros [(-> & ->)|(-> & F)] R parts I ->.
  - inversion I; subst. left. auto.
  - right. pose proof F as [N O]. rewrite O in R. unfold inside in I. cbn [kids] in I. inversion I as [|? p ? ? P Q]; subst. inversion Q; subst. cbn [List.concat]. rewrite app_nil_r.
    assert (E : p = escape_content (is_escaped_in l) (entity_replace t)).
    { destruct f as [|f]; [discriminate|]. unfold rendered in P. rewrite Hmode in P. cbn [render] in P. cbv zeta in P.
      rewrite (text_once (st_sort x) Hsort us) in P by auto. now injection P as <-. }
    subst p. split; auto. split; auto. split.
    + pose proof (line_text_of l t Hl Hp F R) as (_ & _ & _ & H & _). destruct (hugs_first _ H) as (c & u & E & C1 & C2 & _). rewrite E.
      rewrite (squeeze_start l) by auto. rewrite <- E. apply (squeeze_written l Hl); auto. now apply one_squeeze.
    + apply (line_text_of l t Hl Hp F R).
Qed.

Lemma no_cr_map w : (forall c, In c w -> c <> 9 /\ c <> 10 /\ c <> 13) -> map one_line w = w.
Proof.
  induction w as [|c w IH]; intros H; auto. cbn [map]. rewrite IH by (intros; apply H; now right). specialize (H c (or_introl eq_refl)).
  unfold one_line. replace ((c =? 10) || (c =? 13)) with false by lia. reflexivity.
Qed.
Notation cv := (converter_with Smart us).
Notation e := (env_of (st_sort x) cv (st_url x)).
Section any_texts.
Context {TT : Type}.
Notation block := (gblock TT).
Variable decode : bytes -> TT.
Variable para atx : bytes -> TT -> Prop.
Notation segment := (seg decode para atx hr).
Notation flow_of := (flow segment).
Lemma heading_flow setext k w v s : (1 <= k <= 6)%nat -> hugs w -> (forall c, In c w -> c <> 9 /\ c <> 10 /\ c <> 13) -> squeeze_spaces false w = w -> para w v -> (forall w', escape_pound w = Some w' -> atx w' v) ->
  heading_text setext k w = Some s -> forall p al q, flow_of p al s [Heading k v] q false.
Proof.
  intros K H C Q T T' E p al q. assert (Tr : trim_space w = w) by (change w with (repeat 10 0 ++ w) at 1; rewrite <- (app_nil_r w) at 1; now apply (trim_newlines_around 0 w 0)).
  unfold heading_text in E. rewrite Tr in E. destruct (is_empty w) eqn:Ew; [destruct w; [destruct H; easy|discriminate]|].
  assert (N10 : ~ In 10 w) by (intros J; now apply C in J).
  destruct (setext && Nat.ltb k 3) eqn:S0.
  - apply andb_true_iff in S0 as [_ L]. apply Nat.ltb_lt in L.
    assert (E1 : trim_consecutive_newlines w = w).
    { unfold trim_consecutive_newlines. apply tcn_id. rewrite <- (app_nil_r w). now apply triple_no10. }
    rewrite E1 in E. assert (E2 : escape_multi_line w = w).
    { unfold escape_multi_line, cNL. rewrite <- (app_nil_r w) at 1. rewrite split_on_prefix by auto. reflexivity. }
    rewrite E2 in E. injection E as <-. unfold setext_line.
    set (n := underline_width w 3). assert (Ln : (3 <= n)%nat) by (unfold n, underline_width; lia). clearbody n.
    assert (Sg : segment (w ++ 10 :: repeat (if Nat.eqb k 1 then 61 else 45) n) [Heading k v]) by (apply seg_setext; auto; lia).
    pose proof (flow_one (segment) _ _ p q al Sg ltac:(discriminate) ltac:(discriminate)) as Sf. clear Sg. rename Sf into Sg. rewrite <- app_assoc in Sg. exact Sg.
  - rewrite atx_content_eq in E. rewrite no_cr_map, Q, Tr in E by auto. destruct (escape_pound w) as [w'|] eqn:P; [|discriminate]. injection E as <-.
    pose proof (flow_one (segment) _ _ p q al (seg_atx decode para atx hr k w' v K (T' _ eq_refl)) ltac:(discriminate) ltac:(discriminate)) as G'. rewrite <- app_assoc in G'. exact G'.
Qed.
(** The language of a code block *)
Lemma language_code n i : language n i = true -> code_language (attribute n (b "class")) = i.
Proof.
  unfold language. destruct n as [|y a ks| | |]; try discriminate. set (class := attribute _ _). clearbody class. cbv zeta. intros H. apply orb_true_iff in H as [H|H].
  - apply andb_true_iff in H as [H1 H2]. destruct class; [|discriminate]. destruct i; [|discriminate]. reflexivity.
  - apply andb_true_iff in H as [H H3]. apply andb_true_iff in H as [H1 H2]. apply beqb_eq in H1. subst class. apply language_of_eq. left.
    rewrite forallb_forall in H3. assert (D : forall z, In z i -> z <> 32 /\ z <> 45) by (intros z J; apply H3 in J; split; intros ->; discriminate).
    exists [], (b "language-" ++ i), []. repeat split; auto.
    + constructor; auto. rewrite in_app_iff. intros [J|J]; [vm_compute in J; intuition discriminate|now apply D in J].
    + left. reflexivity.
    + intros (p & q & ->). apply (D 45); auto. rewrite !in_app_iff. right. left. vm_compute. tauto.
    + intros (p & q & ->). apply (D 45); auto. rewrite !in_app_iff. right. left. vm_compute. tauto.
Qed.
Lemma group_names y : groups y = true -> ~ In y rendered_names /\ ~ In y hidden_names.
Proof.
  intros G. assert (A : forall q, forallb (fun z => negb (groups z)) q = true -> ~ In y q).
  { intros q Hq I. pose proof (groups_none q y G Hq) as E. unfold name_in in E. assert (existsb (beqb y) q = true); [|congruence]. apply existsb_exists. exists y. split; auto. now apply beqb_eq. }
  split; apply A; vm_compute; reflexivity.
Qed.
Lemma code_flow f anc a ks i d s : code_in (Elem (b "pre") a ks) = Some (i, d) -> readable_code d = true -> rendered x (S f) [] anc (Elem (b "pre") a ks) s ->
  forall p al q, flow_of p al s [Code i (without_final_newline d)] q false.
Proof.
  intros E R Rn p al q. destruct (dispatch_elem x Hsort cfg f [] anc (b "pre") a ks s Hopt eq_refl Rn) as [H|[H _]]; [|discriminate H].
  set (n := Elem (b "pre") a ks) in *.
  assert (Es : s = block_code_text (code_fence_opt cfg) (code_info n) (code_text n)).
  { assert (H' : Done (true, block_code_text (code_fence_opt cfg) (code_info n) (code_text n)) = Done (true, s)) by exact H.
    remember (block_code_text (code_fence_opt cfg) (code_info n) (code_text n)) as w. congruence. }
  assert (Ei : code_info n = i /\ code_text n = d /\ forallb letter_or_digit i = true).
  { assert (A : forall m j, language m j = true -> code_language (attr_or (b "class") [] (match m with Elem _ c _ => c | _ => [] end)) = j).
    { intros m j Lm. rewrite <- (language_code m j Lm). rewrite attribute_eq. now destruct m. }
    assert (A2 : forall m j, language m j = true -> forallb letter_or_digit j = true).
    { intros m j Lm. unfold language in Lm. destruct m as [|y c gs| | |]; try discriminate. cbv zeta in Lm. apply orb_true_iff in Lm as [Lm|Lm]; apply andb_true_iff in Lm as [L1 L2]; auto. destruct j; [reflexivity|discriminate]. }
    apply code_in_cases in E as [(Ek & -> & L1)|(c & Ek & Nd & _ & L1 & L2)].
    - apply A in L1. unfold n. rewrite Ek. split; [|split]; auto.
      + unfold code_info. cbn [code_languages flat_map]. change (name_in [b "code"; b "pre"] (b "pre")) with true. change (name_in code_skipped (b "pre")) with false. cbn iota. rewrite L1. reflexivity.
      + cbn [code_text flat_map]. change (name_in code_skipped (b "pre")) with false. change (name_in [b "br"; b "div"] (b "pre")) with false. cbn iota. cbn [app]. apply app_nil_r.
    - pose proof (A2 _ _ L2) as L3. apply A in L1. apply A in L2. unfold n. rewrite Ek. split; [|split]; auto.
      + unfold code_info. cbn [code_languages flat_map]. change (name_in [b "code"; b "pre"] (b "pre")) with true. change (name_in code_skipped (b "pre")) with false. cbn iota. rewrite L1.
        change (name_in [b "code"; b "pre"] (b "code")) with true. change (name_in code_skipped (b "code")) with false. cbn iota. rewrite L2. cbn [app filter is_empty negb]. now destruct i.
      + cbn [code_text flat_map]. change (name_in code_skipped (b "pre")) with false. change (name_in [b "br"; b "div"] (b "pre")) with false. cbn iota. cbn [app].
        change (name_in code_skipped (b "code")) with false. change (name_in [b "br"; b "div"] (b "code")) with false. cbn iota. cbn [app]. now rewrite !app_nil_r. }
  destruct Ei as (Ei & Ec & Li). rewrite Ei, Ec in Es. clear H. subst s. unfold block_code_text. cbv zeta.
  assert (Ed : drop_last_newline d = without_final_newline d).
  { unfold drop_last_newline, without_final_newline, has_suffix, last_is, cNL. cbn [rev app]. destruct (rev d) as [|z r]; cbn; auto. rewrite andb_true_r. now rewrite N.eqb_sym. }
  rewrite Ed. set (fo := hd 96 (code_fence_opt cfg)). assert (F : fo = 96 \/ fo = 126).
  { destruct Hopt as (cfg0 & _ & _ & V & ->). destruct (validate_spec cfg0 V) as (_ & F & _). unfold fo. cbn [In] in F. decompose [or] F; try contradiction; match goal with Q : _ = code_fence_opt _ |- _ => rewrite <- Q end; auto. }
  pose proof (flow_one segment _ _ p q al (seg_code decode para atx hr fo i d F Li R) ltac:(discriminate) ltac:(discriminate)) as G. rewrite <- !app_assoc in G. cbn [app] in G. rewrite <- !app_assoc in G. cbn [app] in G. exact G.
Qed.
(** ** Lists *)
Lemma inline_group y : groups y = true -> holds_text y = false -> is_block_name y = false.
Proof.
  intros G H. unfold is_block_name. destruct (name_in block_names y) eqn:E; auto. exfalso. unfold name_in in E. apply existsb_exists in E as (z & I & E). apply beqb_eq in E. subst z.
  assert (A : forallb (fun z => negb (groups z) || holds_text z) block_names = true) by (vm_compute; reflexivity). rewrite forallb_forall in A. apply A in I. rewrite G, H in I. discriminate.
Qed.
Hypothesis Hsh : shaped_texts para atx.
Hypothesis Hex : explained decode para atx (in_order (st_sort x) (cv_unescape cv)).
Lemma item_content p s B q al : flow_of p false s B q al -> B <> [] ->
  item_ok decode hr (unescape_fn e (trim_hard_breaks (trim_consecutive_newlines (trim_space s)))) B.
Proof.
  intros F N. pose proof Hopt as (cfg0 & Ic & _ & V & _). assert (Vc : valid_cfg cfg0 = true) by (unfold valid_cfg; now rewrite V).
  destruct (flow_trim segment (seg_tidy decode para atx Hsh hr) p s B q al F) as (ws & Et & Fw & _). unfold post_trim in Et. rewrite Et.
  set (ds := in_order (st_sort x) (cv_unescape cv)). pose proof (unescapers_bundled (st_sort x) Hsort Smart us cfg0 Ic Vc) as Bd. fold ds in Bd.
  assert (Eu : unescape_fn e (join [10; 10] ws) = unescape_content ds (join [10; 10] ws)). { unfold env_of. cbn [unescape_fn]. now rewrite cw_mode. }
  rewrite Eu.
  destruct (unescape_pieces decode para atx Hsh ds Hex (join [10; 10] ws) hr false ws B Fw [] (the_ann ds (join [10; 10] ws))) as (os & Eo & Fo & _); auto.
  { apply ann_explains. now apply bundled_wb. } { now left. }
  rewrite the_ann_out in Eo. assert (No : os <> []) by (intros ->; inversion Fo; subst; easy).
  destruct (mids_joined decode hr false os B Fo No) as (fs & Ef & G & Nf & M1 & _ & M2). exists fs. pose proof (unescape_no7 ds (join [10; 10] ws)) as N7. rewrite Eo in *. tauto.
Qed.
Lemma items_content parts its : Forall2 (fun s B => exists q al, flow_of false false s B q al) parts its ->
  Forall2 (fun it B => item_ok decode hr (unescape_fn e (trim_hard_breaks (trim_consecutive_newlines it))) B) (filter (fun w => negb (is_empty w)) (map trim_space parts)) (nonempty_items its).
Proof.
  induction 1 as [|s B parts its (q & al & F) _ IH]; [constructor|]. unfold nonempty_items in *. cbn [map filter]. destruct (flow_trim segment (seg_tidy decode para atx Hsh hr) _ s B q al F) as (_ & _ & _ & Ee).
  destruct B as [|bk B].
  - rewrite (proj1 Ee eq_refl). exact IH.
  - assert (Nt : trim_space s <> []) by (intros Z; apply Ee in Z; discriminate). destruct (trim_space s) as [|c t] eqn:Et; [easy|]. cbn [is_empty negb]. constructor; [|exact IH]. rewrite <- Et. eapply item_content; [exact F|discriminate].
Qed.
Lemma digits_start v n : digits_value 0 v = Some n -> v <> [] -> (List.length v <= 9)%nat -> forallb is_digit v = true -> start_at (Some v) = Z.of_N n.
Proof.
  intros D N L F. unfold start_at, atoi. assert (P : forall s acc, parse_digits acc s = digits_value acc s).
  { intros s acc. reflexivity. }
  destruct v as [|c v]; [easy|]. assert (C : 48 <= c <= 57) by (cbn [forallb] in F; apply andb_true_iff in F as [F _]; unfold is_digit, in_range in F; lia).
  assert (M : match c with 45 => option_map (fun n => Z.opp (Z.of_N n)) (match v with [] => None | _ => parse_digits 0 v end) | 43 => option_map Z.of_N (match v with [] => None | _ => parse_digits 0 v end) | _ => option_map Z.of_N (parse_digits 0 (c :: v)) end
     = option_map Z.of_N (parse_digits 0 (c :: v))).
  { assert (H : c = 48 \/ c = 49 \/ c = 50 \/ c = 51 \/ c = 52 \/ c = 53 \/ c = 54 \/ c = 55 \/ c = 56 \/ c = 57) by lia. decompose [or] H; subst; reflexivity. }
  cbv zeta. rewrite M. clear M. rewrite P, D. cbn [option_map].
  assert (B0 : forall s acc m, digits_value acc s = Some m -> m < (acc + 1) * 10 ^ N.of_nat (List.length s)).
  { induction s as [|d s IH]; intros acc m E; cbn [digits_value] in E; [injection E as <-; cbn; lia|]. destruct ((48 <=? d) && (d <=? 57)) eqn:Dd; [|discriminate]. apply IH in E. cbn [List.length]. rewrite Nat2N.inj_succ, N.pow_succ_r'.
    eapply N.lt_le_trans; [exact E|]. nia. }
  apply B0 in D. assert (10 ^ N.of_nat (List.length (c :: v)) <= 10 ^ 9) by (apply N.pow_le_mono_r; lia). change (10 ^ 9) with 1000000000 in *.
  replace ((-9223372036854775808 <=? Z.of_N n)%Z && (Z.of_N n <=? 9223372036854775807)%Z) with true by lia. reflexivity.
Qed.
Lemma digits_all s : forall acc n, digits_value acc s = Some n -> forallb is_digit s = true.
Proof. induction s as [|c s IH]; intros acc n E; auto. cbn [digits_value] in E. cbn [forallb]. unfold is_digit at 1, in_range. destruct ((48 <=? c) && (c <=? 57)); [|discriminate]. cbn [andb]. eauto. Qed.
Lemma all_digits s : forallb is_digit s = true -> forall acc, exists n, digits_value acc s = Some n.
Proof. induction s as [|c s IH]; intros E acc; [now exists acc|]. cbn [forallb] in E. apply andb_true_iff in E as [E1 E2]. cbn [digits_value]. unfold is_digit, in_range in E1. rewrite E1. auto. Qed.
Lemma start_number y a k : beqb y (b "ul") = false -> forallb is_digit (attribute (Elem y a []) (b "start")) = true -> (List.length (attribute (Elem y a []) (b "start")) <= 9)%nat ->
  list_number (Elem y a []) = Some k -> start_at (Some (attr_or (b "start") (b "1") a)) = Z.of_N k.
Proof.
  intros Y.
  assert (A : attribute (Elem y a []) (b "start") = [] /\ (attr_or (b "start") (b "1") a = b "1" \/ attr_or (b "start") (b "1") a = []) \/ attr_or (b "start") (b "1") a = attribute (Elem y a []) (b "start")).
  { cbn [attribute]. clear. induction a as [|(kk, v) a IH]; cbn [find attr_or fst]; [left; auto|]. destruct (beqb kk (b "start")); auto. }
  unfold list_number. cbn [node_name]. rewrite Y. cbv zeta. revert A. generalize (attribute (Elem y a []) (b "start")) as v. intros v A F L E.
  destruct A as [(A1 & A2)|A].
  - subst v. cbn [is_empty] in E. injection E as <-. destruct A2 as [->| ->]; reflexivity.
  - rewrite A. destruct v as [|c v]; [cbn [is_empty] in E; injection E as <-; reflexivity|]. cbn [is_empty] in E.
    destruct (all_digits (c :: v) F 0) as (n & D). rewrite D in E. injection E as <-. apply digits_start; auto. discriminate.
Qed.
Lemma forall2_len {A C} (P : A -> C -> Prop) u v : Forall2 P u v -> List.length u = List.length v.
Proof. induction 1; cbn [List.length]; congruence. Qed.
Variable two : N -> TT -> bool.
Hypothesis Htwo : forall d, d = 45 \/ d = 42 -> two d (decode [d; d]) = true.
Lemma list_flow f anc y a ks s its : list_name y = true -> list_ok two cfg (Elem y a []) (nonempty_items its) = true -> rendered x (S f) [] anc (Elem y a ks) s ->
  (forall parts, inside x f [] anc (Elem y a ks) parts -> Forall2 (fun s B => exists q al, flow_of false false s B q al) parts its) ->
  forall p q, flow_of p false s [Items (list_number (Elem y a [])) (nonempty_items its)] q true.
Proof.
  intros Ln Lo Rn Hin p q. apply list_cases in Ln. destruct (list_content x Hsort cfg f [] anc y a ks s Hopt Ln Rn) as (parts & Ip & ->). apply Hin in Ip. apply items_content in Ip. rewrite Hmode.
  unfold list_text. set (items := filter (fun w => negb (is_empty w)) (map trim_space parts)) in *. unfold list_ok in Lo. apply andb_true_iff in Lo as [Ne Lo]. set (Bs := nonempty_items its) in *.
  assert (Ni : items <> []) by (intros Z; rewrite Z in Ip; apply forall2_len in Ip; destruct Bs; discriminate). destruct (is_empty items) eqn:Ei; [destruct items; [easy|discriminate]|]. clear Ei.
  assert (LB : List.length items = List.length Bs) by (eapply forall2_len; eauto).
  assert (G : segment (list_items (unescape_fn e) (list_prefix (beqb y (b "ul")) (bullet_marker cfg) (start_at (Some (attr_or (b "start") (b "1") a))) (List.length items))
      (rune_count (list_prefix (beqb y (b "ul")) (bullet_marker cfg) (start_at (Some (attr_or (b "start") (b "1") a))) (List.length items) 0)) 0 items) [Items (list_number (Elem y a [])) Bs]).
  { destruct Ln as [->| ->]; cbn [node_name] in Lo.
    - change (beqb (b "ul") (b "ul")) with true in *. cbn iota in Lo. assert (Hb : exists d, bullet_marker cfg = [d] /\ (d = 45 \/ d = 43 \/ d = 42)).
      { destruct Hopt as (cfg0 & _ & _ & V & ->). destruct (validate_spec cfg0 V) as (F & _). cbn [In] in F. decompose [or] F; try contradiction; match goal with Q : _ = bullet_marker _ |- _ => rewrite <- Q end; eexists; (split; [reflexivity|]); auto. }
      destruct Hb as (d & Eb & Hd). rewrite Eb in *. cbn [hd] in Lo. change (list_number (Elem (b "ul") a [])) with (@None N).
      apply (list_seg decode hr (unescape_fn e) _ (fun _ => None) d _ (fun _ _ => I) para atx items Bs Ip Ni).
      + intros j Hj. unfold list_prefix. split; [split; auto|]. rewrite rune_count_ascii; [reflexivity|]. cbn [app]. repeat constructor; lia.
      + intros B fs h t j IB Gf Nf Es. rewrite forallb_forall in Lo. eapply (nb_first decode two Htwo); eauto.
    - change (beqb (b "ol") (b "ul")) with false in *. cbn iota in Lo. cbv zeta in Lo. rewrite !andb_true_iff in Lo. destruct Lo as [[L1 L2] L3]. apply Nat.leb_le in L2.
      destruct (list_number (Elem (b "ol") a [])) as [k|] eqn:Ek; [|discriminate]. pose proof (start_number (b "ol") a k eq_refl L1 L2 Ek) as Es. rewrite Es in *. unfold list_prefix.
      replace (Some k) with (Some (k + N.of_nat 0)) by (f_equal; lia).
      apply (list_seg decode hr (unescape_fn e) (ordered_prefix (Z.of_N k) (List.length items)) (fun i => Some (k + N.of_nat i)) 46 _ (fun _ _ => I) para atx items Bs Ip Ni).
      + intros j Hj. rewrite (ordered_prefix_width _ _ j) by lia. split; auto. destruct (ordered_prefix_spec (Z.of_N k) (List.length items) j ltac:(lia) Hj) as (dg & -> & D & Lg).
        split; auto. exists dg. split; auto. split; [rewrite D; f_equal; lia|]. split; [|eapply digits_all; eauto]. rewrite Lg. destruct (itoa_length (Z.to_N (Z.of_N k + Z.of_nat (List.length items) - 1))) as (L & E1 & _). split; [lia|].
        assert (Z.to_N (Z.of_N k + Z.of_nat (List.length items) - 1) <= 999999999) by lia. etransitivity; [apply itoa_length_mono; eauto|]. vm_compute. lia.
      + intros B fs h t j _ _ _ _. left. discriminate. }
  pose proof (flow_one segment _ _ p q false G ltac:(discriminate) ltac:(reflexivity)) as Fl. exact Fl.
Qed.
End any_texts.
Hypothesis Hrule : rule_line hr = true.

(** ** Pages *)
Definition pre (al : bool) : list event := if al then [EvClose] else [].
Definition lastc (al : bool) (es : list event) : bool := fold_left (fun _ ev => match ev with EvClose => true | _ => false end) es al.
Lemma lastc_app al es fs : lastc al (es ++ fs) = lastc (lastc al es) fs.
Proof. unfold lastc. apply fold_left_app. Qed.
Lemma pre_lastc al es : exists z, pre al ++ es = z ++ pre (lastc al es).
Proof.
  destruct es as [|ev es _] using rev_ind; [exists []; unfold lastc; cbn; apply app_nil_r|]. rewrite lastc_app. unfold lastc at 1. cbn [fold_left]. destruct ev.
  all: try (exists (pre al ++ es ++ [ev]); cbn [pre]; rewrite app_nil_r; reflexivity).
  all: first [exists (pre al ++ es); cbn [pre]; now rewrite app_assoc | eexists; cbn [pre]; rewrite app_nil_r; reflexivity].
Qed.
Lemma apart_last z w : apart (z ++ w) = true -> apart w = true.
Proof. induction z as [|ev z IH]; auto. cbn [app]. intros A. apply apart_cons in A as [A _]. auto. Qed.
Lemma apart_first z w : apart (z ++ w) = true -> apart z = true.
Proof. induction z as [|ev z IH]; auto. cbn [app]. intros A. apply apart_cons in A as [A H]. apply apart_cons. split; auto. intros Q. apply H in Q. destruct z; [discriminate|exact Q]. Qed.
Lemma apart_both al es fs : apart (pre al ++ es ++ fs) = true -> apart (pre al ++ es) = true /\ apart (pre (lastc al es) ++ fs) = true.
Proof.
  rewrite app_assoc. intros A. split; [eapply apart_first; eauto|]. destruct (pre_lastc al es) as (z & E). rewrite E, <- app_assoc in A. eapply apart_last; eauto.
Qed.
Lemma events_group y a ks : groups y = true -> events (Elem y a ks) = flat_map events ks.
Proof. intros G. cbn [events]. rewrite !(groups_none _ y G) by (vm_compute; reflexivity). reflexivity. Qed.
Notation segment := (seg (read_text 0) (line_text l) (head_text l) hr).
Notation flow_of := (flow segment).
Lemma plain_sh : shaped_texts (line_text l) (head_text l).
Proof. pose proof Hopt as (cfg0 & Ic & _ & V & _). assert (Vc : valid_cfg cfg0 = true) by (unfold valid_cfg; now rewrite V). exact (plain_shaped l Hl Hp (protects_uses Smart us cfg0 Ic Vc)). Qed.
Lemma plain_ex : explained (read_text 0) (line_text l) (head_text l) (in_order (st_sort x) (cv_unescape cv)).
Proof.
  pose proof Hopt as (cfg0 & Ic & _ & V & _). assert (Vc : valid_cfg cfg0 = true) by (unfold valid_cfg; now rewrite V).
  exact (plain_explained l Hl Hp (protects_uses Smart us cfg0 Ic Vc) _ (unescapers_bundled (st_sort x) Hsort Smart us cfg0 Ic Vc)).
Qed.
Lemma page_flow :
  (forall p n B q, qpage cfg false true final p n B q -> forall f anc s al, apart (pre al ++ events n) = true -> rendered x f [] anc n s -> flow_of p al s B q (lastc al (events n))) /\
  (forall p ns B q, qpages cfg false true final p ns B q -> forall f anc parts al, apart (pre al ++ flat_map events ns) = true -> Forall2 (rendered x f [] anc) ns parts -> flow_of p al (List.concat parts) B q (lastc al (flat_map events ns))) /\
  (forall ks its, qitems cfg false true final ks its -> forall f anc parts, apart (flat_map events ks) = true -> Forall2 (rendered x f [] anc) ks parts -> Forall2 (fun s B => exists q al, flow_of false false s B q al) parts its).
Proof.
  apply qpage_all; try discriminate.
  - intros d [N O] _ R f anc s al A Rn. destruct f as [|f]; [discriminate|]. rewrite O in R.
    assert (E : s = escape_content (is_escaped_in l) (entity_replace d)).
    { unfold rendered in Rn. rewrite Hmode in Rn. cbn [render] in Rn. cbv zeta in Rn. rewrite (text_once (st_sort x) Hsort us) in Rn by auto. now injection Rn as <-. }
    subst s. rewrite O. rewrite <- (app_nil_r (escape_content _ _)). change [Paragraph (plain d)] with ([Paragraph (plain d)] ++ []). apply flow_seg; try discriminate; [|constructor; auto].
    constructor. apply (line_text_of l d Hl Hp); auto. now split.
  - intros y a k ks t p L T R Hne f anc s al A Rn. destruct f as [|f]; [discriminate|]. apply level_cases in L.
    assert (Ev : events (Elem y a ks) = flat_map events ks).
    { unfold heading_names_of in L. cbn [In] in L. decompose [or] L; try contradiction; match goal with H : _ = (y, k) |- _ => injection H as <- <- end; reflexivity. }
    destruct (heading_content x Hsort cfg f [] anc y k a ks s Hopt L Rn) as (parts & Ip & E). rewrite Ev.
    destruct (one_text_rendered f y anc a ks t _ T R parts Ip eq_refl) as [(Z0 & Z)|(Z0 & N & Q & Lt)].
    + rewrite Z in E. injection E as <-. rewrite Z0. destruct p; [elim (Hne eq_refl); exact Z0|]. destruct T as [(-> & _)|(-> & F1 & F2)]; [|congruence]. constructor; auto.
    + rewrite Z0. unfold some_text. destruct t; [easy|]. cbn [is_empty]. destruct T as [(-> & T)|(-> & _)]; [discriminate|]. cbn [flat_map events app]. cbn [lastc fold_left]. pose proof Lt as (_ & _ & _ & Hh & Hcr & _). eapply (heading_flow (read_text 0) (line_text l) (head_text l)); eauto; [|intros w' Ew; eexists; eauto]. unfold heading_names_of in L. cbn [In] in L. intuition (match goal with H : _ = _ |- _ => injection H as <- <- end; lia).
  - intros a p f anc s al A Rn. destruct f as [|f]; [discriminate|]. rewrite (node_rule x Hsort cfg f [] anc a [] s Hopt Rn). apply (flow_one segment hr [Rule]); try discriminate. now constructor.
  - intros a ks i d p E R f anc s al A Rn. destruct f as [|f]; [discriminate|].
    assert (Ev : lastc al (events (Elem (b "pre") a ks)) = false). { apply code_in_cases in E as [(Ek & _)|(c & Ek & _)]; cbn [kids] in Ek; subst ks; reflexivity. }
    rewrite Ev. eapply code_flow; eauto.
  - intros y a ks its p Ln Q IH Lo f anc s al A Rn. destruct f as [|f]; [discriminate|].
    assert (Ev : events (Elem y a ks) = EvOpen :: flat_map events ks ++ [EvClose]) by (apply list_cases in Ln as [->| ->]; reflexivity). rewrite Ev in *.
    assert (al = false) by (destruct al; auto; discriminate). subst al. rewrite app_comm_cons, lastc_app. cbn [lastc fold_left]. eapply (list_flow (read_text 0) (line_text l) (head_text l)); eauto using plain_sh, plain_ex; [intros d [->| ->]; reflexivity|]. intros parts Ip. eapply IH; [|exact Ip].
    cbn [pre app] in A. apply apart_cons in A as [A _]. eapply apart_first; eauto.
  - intros y a ks B p q G Ht Q IH f anc s al A Rn. destruct f as [|f]; [discriminate|]. pose proof (group_names y G) as Hn.
    destruct (node_other x Hsort cfg f [] anc y a ks s Hopt base_used (proj1 Hn) (proj2 Hn) Rn) as (parts & Ip & E). rewrite (holds_block y Ht) in E. subst s.
    rewrite (events_group y a ks G) in *. eapply flow_around. eapply IH; eauto.
  - intros y a ks B p q G Ht Q IH f anc s al A Rn. destruct f as [|f]; [discriminate|]. pose proof (group_names y G) as Hn.
    destruct (node_other x Hsort cfg f [] anc y a ks s Hopt base_used (proj1 Hn) (proj2 Hn) Rn) as (parts & Ip & E). rewrite (inline_group y G Ht) in E. subst s.
    rewrite (events_group y a ks G) in *. eapply IH; eauto.
  - intros p f anc parts al A F. inversion F; subst. constructor; auto.
  - intros n ns B C p q r Q IH Qs IHs f anc parts al A F. inversion F as [|? s ? ps P1 P2]; subst. cbn [List.concat flat_map] in *. apply apart_both in A as [A1 A2]. rewrite lastc_app. eapply flow_app; eauto.
  - intros y a ks ns B C p q r _ Ln Q IH Qs IHs f anc parts al A F. inversion F as [|? s ? ps P1 P2]; subst. inversion P2 as [|? s2 ? ps2 P3 P4]; subst. cbn [List.concat flat_map] in *. apply apart_both in A as [A1 A2]. apply apart_both in A2 as [A2 A3].
    rewrite !lastc_app. eapply flow_app; [eapply IH; eauto|]. change C with ([] ++ C).
    assert (Lc : lastc al (events (Elem y a ks)) = true) by (apply list_cases in Ln as [->| ->]; cbn [events]; change (name_in [b "ul"; b "ol"] (b "ul")) with true; change (name_in [b "ul"; b "ol"] (b "ol")) with true; cbn iota; rewrite app_comm_cons, lastc_app; reflexivity).
    rewrite Lc in *. assert (Lq : lastc true (events (Comment end_comment_data)) = false) by reflexivity. rewrite Lq in *.
    eapply flow_app; [|eapply IHs; eauto]. destruct f as [|f]; [discriminate|]. rewrite (node_comment x Hsort cfg f [] anc _ s2 Hopt base_used P3). change (beqb end_comment_data (b "THE END")) with true. cbn iota.
    apply (flow_one segment end_comment_line []); [constructor|auto|discriminate].
  - intros f anc parts A F. inversion F; subst. constructor.
  - intros a js B q ks its Q IH Qs IHs f anc parts A F. inversion F as [|? s ? ps P1 P2]; subst. cbn [flat_map] in A.
    assert (Ev : events (Elem (b "li") a js) = EvStop :: flat_map events js) by reflexivity. rewrite Ev in A. cbn [app] in A. apply apart_cons in A as [A _]. constructor; [|eapply IHs; eauto; eapply apart_last; eauto].
    destruct f as [|f]; [discriminate|].
    destruct (node_other x Hsort cfg f [] anc (b "li") a js s Hopt base_used) as (parts' & Ip & E); auto; [vm_compute; intuition discriminate|vm_compute; intuition discriminate|].
    change (is_block_name (b "li")) with true in E. cbn iota in E. subst s. exists false. eexists. eapply flow_around. eapply (IH f _ parts' false); eauto. eapply apart_first; eauto.
Qed.
End rendering.
