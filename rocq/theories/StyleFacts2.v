(** The whole preparation and the formatting of the characters (C63). *)
From Coq Require Import List NArith ZArith Bool String Lia.
From Verif Require Import Bytes BytesFacts TextUtils TextFacts2 RenderText Escape Dom DomUtils Collapse SpecDom Engine CommonMark Table SpecEngine
  EngineFacts RenderInv SpecPipeline PipelineFacts DomFacts DomFacts2 DomFacts3 SpecStyle StyleFacts.
Import ListNotations.
Open Scope N_scope.
Open Scope list_scope.

Section steps.
Variable keep : N -> bool.
Hypothesis Hkeep : forall c, keep c = true -> unquoted c = true.
Variable p ok : bytes -> bool.
Variable gain : bool.
Notation finer := (StyleFacts.finer keep p ok gain).
Notation up := (StyleFacts.up gain).
(** what the steps need of the class *)
Record suits : Prop := {
  su_box : forall x, is_container x = true -> p x = false;
  su_span : p (b "span") = false;
  su_names : forall x, In x (map b ["span"; "div"; "br"; "li"]%string) -> ok x = true;
  su_div : up (p (b "span")) (p (b "div"));
  su_merge : forall g, In g [bold_names ++ italic_names; inline_code_names; strike_names] ->
    (forall x, name_in g x = true -> ok x = true -> p x = true) \/ (gain = true /\ forall x, name_in g x = true -> p x = false);
  su_same : forall g, In g [bold_names ++ italic_names; strike_names] -> forall x y, name_in g x = true -> name_in g y = true -> p x = p y;
  su_head : forall x, is_heading_name x = true -> ok x = true -> ok (b "strong") = true /\ up (p x) (p (b "strong"));
  su_pre : ok (b "pre") = true -> ok (b "code") = true /\ up (p (b "pre")) (p (b "code")) }.
Hypothesis S : suits.
Lemma solid l : forallb (fun x => negb (name_in childless x)) l = true -> forall x, name_in l x = true -> name_in childless x = false.
Proof. intros H x E. apply in_names in E. rewrite forallb_forall in H. apply H in E. now apply negb_true_iff. Qed.
Lemma class_emphasis x y c : class_bold_italic x = Some c -> class_bold_italic y = Some c -> p x = p y.
Proof.
  intros A B. apply (su_same S (bold_names ++ italic_names)). now left.
  - unfold class_bold_italic in A. unfold name_in in *. rewrite existsb_app. destruct (existsb (beqb x) bold_names); auto.
    destruct (existsb (beqb x) italic_names); auto. discriminate.
  - unfold class_bold_italic in B. unfold name_in in *. rewrite existsb_app. destruct (existsb (beqb y) bold_names); auto.
    destruct (existsb (beqb y) italic_names); auto. discriminate.
Qed.
Lemma class_links x y c : class_link x = Some c -> class_link y = Some c -> p x = p y.
Proof.
  unfold class_link. destruct (beqb x _) eqn:A, (beqb y _) eqn:B; try discriminate. apply beqb_eq in A, B. now subst.
Qed.
Lemma class_strikes x y c : class_strike x = Some c -> class_strike y = Some c -> p x = p y.
Proof.
  unfold class_strike. destruct (name_in _ x) eqn:A, (name_in _ y) eqn:B; try discriminate. intros _ _.
  apply (su_same S strike_names); auto. now right; left.
Qed.
Lemma merge_root g n : In g [bold_names ++ italic_names; inline_code_names; strike_names] -> finer n (merge_adjacent (named g) n).
Proof.
  intros I. apply StyleFacts.merge_adjacent_root; auto using su_span, su_merge. apply solid. now destruct I as [<- | [<- | [<- | []]]].
Qed.
Lemma commonmark_pre_fin e n : finer n (commonmark_pre e n).
Proof.
  unfold commonmark_pre. cbv zeta.
  eapply StyleFacts.finer_trans; [|apply StyleFacts.items_root; [apply blank_keep, Hkeep | split; [now apply (su_box S) | apply (su_names S); simpl; tauto]]].
  eapply StyleFacts.finer_trans; [|apply StyleFacts.leaf_root; try (apply (keep_no keep Hkeep); reflexivity);
    [apply (su_box S) | split; [apply (su_span S) | split; apply (su_names S); simpl; tauto] | apply (su_head S) | apply (su_pre S)]].
  eapply StyleFacts.finer_trans; [|apply StyleFacts.swap_root; [apply blank_keep, Hkeep | apply named_swappable; reflexivity | apply named_swappable; reflexivity]].
  eapply StyleFacts.finer_trans; [|apply StyleFacts.swap_root; [apply blank_keep, Hkeep | apply named_swappable; reflexivity | apply named_swappable; reflexivity]].
  eapply StyleFacts.finer_trans; [|apply StyleFacts.redundant_root, class_links].
  eapply StyleFacts.finer_trans; [|apply StyleFacts.add_space_finer; apply (keep_no keep Hkeep); reflexivity].
  eapply StyleFacts.finer_trans; [|apply merge_root; simpl; tauto].
  eapply StyleFacts.finer_trans; [|apply StyleFacts.swap_root; [apply blank_keep, Hkeep | apply named_swappable; reflexivity | apply named_swappable; reflexivity]].
  eapply StyleFacts.finer_trans; [|apply StyleFacts.empty_code_root].
  eapply StyleFacts.finer_trans; [|apply merge_root; simpl; tauto].
  eapply StyleFacts.finer_trans; [|apply StyleFacts.redundant_root, class_emphasis].
  apply StyleFacts.rename_root. apply (su_names S). simpl; tauto. apply (su_div S).
Qed.
Lemma strike_pre_fin e n : finer n (strike_pre e n).
Proof.
  unfold strike_pre. eapply StyleFacts.finer_trans; [|apply merge_root; simpl; tauto]. apply StyleFacts.redundant_root, class_strikes.
Qed.
Lemma end_comments_fin cfg e n : finer n (commonmark_end_comments cfg e n).
Proof. unfold commonmark_end_comments. destruct (disable_end_comment cfg). apply StyleFacts.finer_refl. apply StyleFacts.comments_root. Qed.
Lemma pre_collapse_fin e n : finer n (pre_collapse e n).
Proof.
  apply StyleFacts.collapse_root. intros c H. apply (keep_no keep Hkeep). unfold is_ws in H. unfold unquoted, graphic.
  destruct (33 <=? c) eqn:E1, (c <=? 126) eqn:E2; auto. exfalso.
  repeat (apply orb_true_iff in H as [H | H]); apply N.eqb_eq in H; subst c; discriminate.
Qed.

(** removing the hidden elements *)
Fixpoint okn (n : node) : bool :=
  match n with
  | Elem x _ ks => name_in hidden_names x || (ok x && forallb okn ks)
  | Doc ks => forallb okn ks
  | _ => true
  end.
Variable names : list bytes.
Hypothesis Hp : forall x, p x = name_in names x.
Section removing.
Variable rm : bytes -> bool.
Hypothesis Hrm : forall x, rm x = name_in hidden_names x.
Lemma remove_list_sx ks : Forall (fun n => tidy n = true -> is_doc n = false -> okn n = true -> invisible n = false ->
    (forall i, sx keep p i (remove_in rm n) = inside hidden_names names keep i n) /\ gt ok (remove_in rm n) = true) ks ->
  tks ks = true -> forallb okn ks = true ->
  (forall i, sxs keep p i (flat_map (fun k => if rm (node_name k) then [] else [remove_in rm k]) ks) = flat_map (inside hidden_names names keep i) ks) /\
  gts ok (flat_map (fun k => if rm (node_name k) then [] else [remove_in rm k]) ks) = true.
Proof.
  intros F. induction F as [|k ks Hk F IH]; intros T O; auto. rewrite tks_cons in T. apply andb_true_iff in T as [T1 T2].
  cbn [forallb] in O. apply andb_true_iff in O as [O1 O2]. destruct (IH T2 O2) as [I1 I2]. cbn [flat_map].
  rewrite (rm_invisible rm Hrm). destruct (invisible k) eqn:Ei.
  - cbn [app]. split; auto. intros i. rewrite I1. destruct k; try discriminate; auto. cbn [inside]. cbn [invisible] in Ei. now rewrite Ei.
  - unfold tk in T1. apply andb_true_iff in T1 as [T0 T1]. apply negb_true_iff in T0. destruct (Hk T1 T0 O1 eq_refl) as (A & B). cbn [app]. split.
    + intros i. now rewrite sxs_cons, A, I1.
    + now rewrite gts_cons, B, I2.
Qed.
Lemma remove_sx n : tidy n = true -> is_doc n = false -> okn n = true -> invisible n = false ->
  (forall i, sx keep p i (remove_in rm n) = inside hidden_names names keep i n) /\ gt ok (remove_in rm n) = true.
Proof.
  induction n using node_induction; intros T D O I; cbn [remove_in]; auto; try discriminate.
  cbn [invisible] in I. cbn [okn] in O. rewrite I in O. cbn [orb] in O. apply andb_true_iff in O as [O1 O2].
  change (tk (Elem x a ks) = true) in T. rewrite tk_elem in T. apply andb_true_iff in T as [T1 T2].
  destruct (remove_list_sx ks H T2 O2) as [A B]. split.
  - intros i. rewrite sx_elem, A. cbn [inside]. now rewrite I, Hp.
  - apply gt_elem. repeat split; auto. intros V. rewrite V in T1. destruct ks; auto. discriminate.
Qed.
Lemma remove_root_sx n : tidy n = true -> okn n = true -> invisible n = false ->
  (forall i, sx keep p i (remove_in rm n) = inside hidden_names names keep i n) /\ gr ok (remove_in rm n) = true.
Proof.
  intros T O I. destruct (is_doc n) eqn:D.
  - destruct n; try discriminate. cbn [remove_in gr]. apply remove_list_sx; auto. apply Forall_forall. intros k _. apply remove_sx.
  - destruct (remove_sx n T D O I) as [A B]. split; auto. destruct n; auto; discriminate.
Qed.
Lemma clean_same n : clean n = true -> remove_in rm n = n.
Proof.
  assert (K : forall ks, Forall (fun n => clean n = true -> remove_in rm n = n) ks -> forallb (fun k => negb (invisible k) && clean k) ks = true ->
    flat_map (fun k => if rm (node_name k) then [] else [remove_in rm k]) ks = ks).
  { intros ks F. induction F as [|k ks Hk F IH]; intros T; auto. cbn [forallb] in T. apply andb_true_iff in T as [T1 T2].
    apply andb_true_iff in T1 as [T0 T1]. apply negb_true_iff in T0. cbn [flat_map]. rewrite (rm_invisible rm Hrm), T0, Hk, IH; auto. }
  induction n using node_induction; intros T; cbn [remove_in]; auto; now rewrite K.
Qed.
End removing.

Lemma prepared_more sort : sorts sort -> forall m us url doc, In UseBase us -> tidy doc = true -> invisible doc = false -> okn doc = true ->
  more gain (inside hidden_names names keep false doc) (sx keep p false (prepared sort (converter_with m us) url doc)).
Proof.
  intros Hs m us url doc Ib T I O. set (e := env_of sort (converter_with m us) url).
  assert (Rm : forall x, is_remove_type (tag_type_of e x) = name_in hidden_names x) by (intros; now apply removes_hidden).
  pose (G := fun d => more gain (inside hidden_names names keep false doc) (sx keep p false d) /\ gr ok d = true).
  assert (Step : forall d d', finer d d' -> G d -> G d').
  { intros d d' F [A B]. destruct (F B) as [C D]. split; auto. eapply more_trans; eauto. }
  assert (Re : forall d, clean d = true -> invisible d = false -> merge_text (remove_root (fun name => is_remove_type (tag_type_of e name)) d) = merge_text d).
  { intros d C V. unfold remove_root. rewrite (rm_invisible _ Rm), V. now rewrite (clean_same _ Rm). }
  apply (prepared_inv sort Hs m us url doc (fun d => G d /\ clean d = true /\ invisible d = false) G); auto; fold e.
  - unfold pre_remove, remove_root. rewrite (rm_invisible _ Rm), I. destruct (remove_root_sx _ Rm doc T O I) as [A B].
    split; [|split; [apply clean_merge; apply clean_remove, Rm | now rewrite invisible_merge, invisible_remove]].
    apply (Step (remove_in (fun name => is_remove_type (tag_type_of e name)) doc)). apply StyleFacts.merge_text_root. split; auto. rewrite A. apply more_refl.
  - intros d (A & B & C). unfold pre_remove. rewrite Re by auto. split; [|split; [now apply clean_merge | now rewrite invisible_merge]].
    apply (Step d); auto. apply StyleFacts.merge_text_root.
  - tauto.
  - intros q k J Q d A. apply (Step d); auto.
    apply use_pre_cases in J as [(-> & -> & _) | [(-> & -> & _) | [(-> & -> & _) | [(-> & cfg & ->) | (-> & -> & _)]]]].
    lia. apply pre_collapse_fin. apply commonmark_pre_fin. apply end_comments_fin. apply strike_pre_fin.
Qed.
End steps.

Lemma inside_sx keep names n : forall i, inside [] names keep i n = sx keep (name_in names) i n.
Proof.
  induction n using node_induction; intros i; cbn [inside sx]; auto.
  - change (name_in [] x) with false. cbv iota. generalize (i || name_in names x). intros j. induction H; simpl; auto. now rewrite H, IHForall.
  - induction H; simpl; auto. now rewrite H, IHForall.
Qed.

(** the class of the first theorem *)
Lemma none_in g names x : none_of g names = true -> name_in g x = true -> name_in names x = false.
Proof. intros H E. apply in_names in E. unfold none_of in H. rewrite forallb_forall in H. apply H in E. now apply negb_true_iff. Qed.
Lemma all_in g names x : all_of g names = true -> name_in g x = true -> name_in names x = true.
Proof. intros H E. apply in_names in E. unfold all_of in H. rewrite forallb_forall in H. auto. Qed.
Lemma name_incl g h x : incl g h -> name_in g x = true -> name_in h x = true.
Proof. rewrite !in_names. auto. Qed.
Ltac in_list := let x := fresh in let I := fresh in intros x I; simpl in I |- *; tauto.
Lemma suits_formatting names : formatting names = true -> suits (name_in names) (fun _ => true) true.
Proof.
  unfold formatting. rewrite !andb_true_iff. intros [[[A B] C] D].
  cbn [forallb] in B. rewrite !andb_true_iff in B. destruct B as (B1 & B2 & B3 & _).
  assert (G : forall g, In g [bold_names ++ italic_names; inline_code_names; strike_names] -> all_of g names || none_of g names = true).
  { intros g [<- | [<- | [<- | []]]]; assumption. }
  constructor; auto.
  - intros x E. apply (none_in structure_names); auto. unfold is_container in E. eapply name_incl; [|exact E]. in_list.
  - apply (none_in structure_names); auto.
  - destruct (name_in names (b "div")). now right. left. apply (none_in structure_names); auto.
  - intros g Ig. apply G in Ig. apply orb_true_iff in Ig as [H | H]; [left | right; split; auto]; intros x E; eauto using all_in, none_in.
  - intros g Ig x y Ex Ey. assert (H : all_of g names || none_of g names = true) by (apply G; simpl in *; tauto).
    apply orb_true_iff in H as [H | H]. now rewrite !(all_in g). now rewrite !(none_in g).
  - intros x E _. split; auto. apply orb_true_iff in C as [C | C]. rewrite C. now right.
    rewrite (none_in heading_group names x C E). destruct (name_in names (b "strong")); [now right | now left].
  - intros _. split; auto. apply orb_true_iff in D as [D | D]. rewrite D. now right.
    apply negb_true_iff in D. rewrite D. destruct (name_in names (b "code")); [now right | now left].
Qed.
Lemma okn_all n : okn (fun _ => true) n = true.
Proof.
  induction n using node_induction; cbn [okn]; auto.
  - apply orb_true_iff. right. cbn [andb]. apply forallb_forall. now apply Forall_forall.
  - apply forallb_forall. now apply Forall_forall.
Qed.
Lemma more_lost a c : more true a c -> nothing_lost a c.
Proof. intros H. induction H as [|u v a c [E [F | [_ F]]] H IH]; constructor; auto; split; auto; congruence. Qed.
Lemma formatting_is_kept : forall sort, sorts sort -> forall names, formatting names = true -> forall m us url doc, In UseBase us -> tidy doc = true ->
  invisible doc = false -> nothing_lost (seen_inside names doc) (now_inside names (prepared sort (converter_with m us) url doc)).
Proof.
  intros sort Hs names F m us url doc Ib T I. apply more_lost. unfold seen_inside, now_inside. rewrite inside_sx.
  apply (prepared_more unquoted (fun _ H => H) (name_in names) (fun _ => true) true (suits_formatting names F) names); auto using okn_all.
Qed.

(** the class of the second theorem *)
Definition groups : list (list bytes) := [emphasis_group ++ heading_group; code_group ++ [b "pre"]; strike_group].
Definition present (names : list bytes) (x : bytes) : bool := forallb (fun g => all_of g names || negb (name_in g x)) groups.
Lemma present_in names g x : In g groups -> name_in g x = true -> present names x = true -> all_of g names = true.
Proof.
  intros I E P. unfold present in P. rewrite forallb_forall in P. apply P in I. rewrite E in I. cbn [negb] in I. now rewrite orb_false_r in I.
Qed.
Lemma present_not names x : forallb (fun g => negb (name_in g x)) groups = true -> present names x = true.
Proof.
  intros H. unfold present. apply forallb_forall. intros g I. rewrite forallb_forall in H. apply orb_true_iff. right. auto.
Qed.
Lemma present_group names g x : In g groups -> all_of g names = true -> forallb (fun h => beqb (List.concat h) (List.concat g) || negb (name_in h x)) groups = true ->
  present names x = true.
Proof.
  intros I A H. unfold present. apply forallb_forall. intros h J. rewrite forallb_forall in H. specialize (H h J). apply orb_true_iff in H as [H | H].
  - apply orb_true_iff. left. destruct I as [<- | [<- | [<- | []]]], J as [<- | [<- | [<- | []]]]; auto; discriminate.
  - apply orb_true_iff. now right.
Qed.
Lemma suits_alone names doc : alone names doc = true -> suits (name_in names) (present names) false.
Proof.
  unfold alone. rewrite andb_true_iff. intros [A B]. rewrite forallb_forall in B. fold groups in B.
  assert (Sub : forall g, In g [bold_names ++ italic_names; inline_code_names; strike_names] -> exists h, In h groups /\ incl g h).
  { intros g [<- | [<- | [<- | []]]]; [exists (emphasis_group ++ heading_group) | exists (code_group ++ [b "pre"]) | exists strike_group]; (split; [simpl; tauto | in_list]). }
  constructor.
  - intros x E. apply (none_in (b "div" :: structure_names)); auto. unfold is_container in E. eapply name_incl; [|exact E]. in_list.
  - apply (none_in (b "div" :: structure_names)); auto.
  - intros x [<- | [<- | [<- | [<- | []]]]]; apply present_not; reflexivity.
  - left. rewrite !(none_in (b "div" :: structure_names)); auto.
  - intros g Ig. left. destruct (Sub g Ig) as (h & J & Q). intros x E P. apply (all_in h). eapply present_in; eauto using name_incl. eauto using name_incl.
  - intros g Ig x y Ex Ey. destruct (Sub g) as (h & J & Q). { simpl in *. tauto. } specialize (B h J).
    apply orb_true_iff in B as [B | B]. rewrite !(all_in h); eauto using name_incl. apply andb_true_iff in B as [B _]. rewrite !(none_in h); eauto using name_incl.
  - intros x E P. assert (J : In (emphasis_group ++ heading_group) groups) by now left.
    assert (X : name_in (emphasis_group ++ heading_group) x = true). { eapply name_incl; [|exact E]. in_list. }
    pose proof (present_in names _ x J X P) as Q. split. apply (present_group names _ _ J Q). reflexivity.
    left. rewrite !(all_in (emphasis_group ++ heading_group)); auto.
  - intros P. assert (J : In (code_group ++ [b "pre"]) groups) by now right; left.
    pose proof (present_in names _ (b "pre") J eq_refl P) as Q. split. apply (present_group names _ _ J Q). reflexivity.
    left. rewrite !(all_in (code_group ++ [b "pre"])); auto.
Qed.
Lemma okn_alone names n : (forall g, In g groups -> all_of g names = true \/ has_none g n = true) -> okn (present names) n = true.
Proof.
  assert (K : forall ks, Forall (fun n => (forall g, In g groups -> all_of g names = true \/ has_none g n = true) -> okn (present names) n = true) ks ->
    (forall g, In g groups -> all_of g names = true \/ forallb (has_none g) ks = true) -> forallb (okn (present names)) ks = true).
  { intros ks F H. apply forallb_forall. intros k I. rewrite Forall_forall in F. apply F; auto. intros g J. destruct (H g J) as [A | A]; auto.
    right. rewrite forallb_forall in A. auto. }
  induction n using node_induction; intros O; cbn [okn]; auto.
  - destruct (name_in hidden_names x) eqn:E; auto. cbn [orb]. apply andb_true_iff. split.
    + apply forallb_forall. intros g J. destruct (O g J) as [A | A]. now rewrite A. cbn [has_none] in A. rewrite E in A. cbn [orb] in A.
      apply andb_true_iff in A as [A _]. rewrite A. apply orb_true_r.
    + apply K; auto. intros g J. destruct (O g J) as [A | A]; auto. right. cbn [has_none] in A. rewrite E in A. cbn [orb] in A. now apply andb_true_iff in A.
Qed.
Lemma more_same a c : more false a c -> a = c.
Proof.
  intros H. induction H as [|[u1 u2] [v1 v2] a c [E [F | [F _]]] H IH]; auto; try discriminate. cbn in *. congruence.
Qed.
Lemma formatting_is_exact : forall sort, sorts sort -> forall names m us url doc, alone names doc = true -> In UseBase us -> tidy doc = true ->
  invisible doc = false -> now_inside names (prepared sort (converter_with m us) url doc) = seen_inside names doc.
Proof.
  intros sort Hs names m us url doc F Ib T I. symmetry. apply more_same. unfold seen_inside, now_inside. rewrite inside_sx.
  apply (prepared_more unquoted (fun _ H => H) (name_in names) (present names) false (suits_alone names doc F) names); auto.
  apply okn_alone. intros g J. unfold alone in F. apply andb_true_iff in F as [_ F]. rewrite forallb_forall in F. apply F in J.
  apply orb_true_iff in J as [J | J]; auto. apply andb_true_iff in J as [_ J]. auto.
Qed.

(** merging neighbours alone *)
Lemma merge_exact : forall names, name_in names (b "span") = false -> forallb (fun x => negb (name_in childless x)) names = true ->
  forall doc, tidy doc = true -> now_inside names (merge_adjacent (named names) doc) = now_inside names doc.
Proof.
  intros names Sp So doc T. unfold now_inside. rewrite !inside_sx. symmetry. apply more_same.
  destruct (StyleFacts.merge_adjacent_root unquoted (name_in names) (fun _ => true) false names (solid names So) Sp (or_introl (fun _ E _ => E)) doc) as [A _]; auto.
  assert (K : forall n, tidy n = true -> is_doc n = false -> gt (fun _ => true) n = true).
  { induction n using node_induction; intros T' D; auto; try discriminate. change (tk (Elem x a ks) = true) in T'. rewrite tk_elem in T'.
    apply andb_true_iff in T' as [T1 T2]. apply gt_elem. repeat split; auto. intros V. rewrite V in T1. destruct ks; auto. discriminate.
    apply forallb_forall. intros k I. rewrite Forall_forall in H. unfold tks in T2. rewrite forallb_forall in T2. apply T2 in I as J. unfold tk in J.
    apply andb_true_iff in J as [J1 J2]. apply H; auto. now apply negb_true_iff. }
  destruct (is_doc doc) eqn:D. 2: { destruct doc; try (apply K; auto); discriminate. }
  destruct doc; try discriminate. cbn [gr]. apply forallb_forall. intros k I. change (tks kids = true) in T. unfold tks in T. rewrite forallb_forall in T.
  apply T in I. unfold tk in I. apply andb_true_iff in I as [J1 J2]. apply K; auto. now apply negb_true_iff.
Qed.
