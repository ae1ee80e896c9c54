(** The preparation of documents with formatted paragraphs (C67): the passes that do nothing. *)
From Coq Require Import List NArith ZArith Bool String Lia ZifyBool ZifyNat ZifyN Permutation Sorted.
From Verif Require Import Bytes BytesFacts TextUtils RenderText Escape SpecEscape Dom DomUtils Collapse SpecDom SpecText SpecPlain Engine CommonMark Table SpecEngine
  EngineFacts RenderInv SpecPipeline SpecNode PipelineFacts DomFacts DomFacts2 DomFacts3 SpecBlocks BlockFacts0 BlockFacts BlockFacts1 SpecInline InlineFacts2.
Import ListNotations.
Open Scope N_scope.
Open Scope list_scope.

(** ** The shape of paragraphs *)
Definition emphasis (n : node) : bool := match n with Elem x _ _ => strong_element x || em_element x | _ => false end.
Definition coded (n : node) : bool := match n with Elem x _ _ => code_element x | _ => false end.
Fixpoint spaced (ks : list node) : bool :=
  match ks with
  | n :: r => (match r with m :: _ => negb (emphasis n && emphasis m) && negb (coded n && coded m) | [] => true end) && spaced r
  | [] => true
  end.
Inductive leaf : node -> Prop :=
| leaf_text d : leaf (Text d)
| leaf_emphasis x a d : strong_element x || em_element x = true -> leaf (Elem x a [Text d])
| leaf_code x a d : strong_element x || em_element x = false -> code_element x = true -> d <> [] -> leaf (Elem x a [Text d]).
Inductive piece : node -> Prop :=
| piece_leaf n : leaf n -> piece n
| piece_emphasis x a ks : strong_element x || em_element x = true -> emphasis_content x ks = true -> Forall leaf ks -> spaced ks = true -> piece (Elem x a ks)
| piece_link a ks : Forall leaf ks -> spaced ks = true -> piece (Elem (b "a") a ks).
Lemma kind_emphasis n k : kind_of n = Some k -> emphasis n = true -> k = KEmphasis.
Proof. destruct n as [d|x a ks|d|ks|d]; try discriminate. cbn [kind_of emphasis]. intros H E. rewrite E in H. congruence. Qed.
Lemma strong_not_code x : code_element x = true -> strong_element x || em_element x = false.
Proof.
  unfold code_element, name_in. intros H. apply existsb_exists in H as (y & I & E). apply beqb_eq in E. subst y. cbn [map In] in I. repeat (destruct I as [<-|I]; [reflexivity|]). destruct I.
Qed.
Lemma kind_code n k : kind_of n = Some k -> coded n = true -> k = KCode.
Proof. destruct n as [d|x a ks|d|ks|d]; try discriminate. cbn [kind_of coded]. intros H E. rewrite (strong_not_code x E), E in H. congruence. Qed.
Section shapes.
Variable url : bytes -> bytes.
Variable cfg : config.
Lemma runs_spaced inner ks : forall prev before, runs url cfg inner prev before ks = true -> spaced ks = true.
Proof.
  induction ks as [|n r IH]; intros prev before R; auto. cbn [runs spaced] in *. apply andb_true_iff in R as [_ R]. destruct (kind_of n) as [k|] eqn:K; [|discriminate]. apply andb_true_iff in R as [_ R].
  rewrite (IH _ _ R), andb_true_r. destruct r as [|m r]; auto. cbn [runs] in R. apply andb_true_iff in R as [_ R]. destruct (kind_of m) as [j|] eqn:J; [|discriminate]. apply andb_true_iff in R as [R _].
  apply andb_true_iff. split; apply negb_true_iff; apply not_true_iff_false; intros E; apply andb_true_iff in E as [E1 E2].
  - rewrite (kind_emphasis n k K E1), (kind_emphasis m j J E2) in R. discriminate.
  - rewrite (kind_code n k K E1), (kind_code m j J E2) in R. discriminate.
Qed.
Lemma run_emphasis inner before after x a ks : run url cfg inner before after (Elem x a ks) = true -> strong_element x || em_element x = true ->
  match inner with Some p => p ks = true /\ emphasis_content x ks = true | None => exists d, ks = [Text d] /\ quiet_text d = true end.
Proof.
  intros R E. assert (R' : match inner with Some p => p ks && emphasis_content x ks | None => match ks with [Text d] => quiet_text d | _ => false end end = true).
  { destruct ks as [|[d|y c gs|d|gs|d] [|k2 r2]]; unfold run in R; cbn [kind_of] in R; rewrite E in R; rewrite !andb_true_iff in R; tauto. }
  destruct inner as [q|]; [now apply andb_true_iff in R'|]. destruct ks as [|[d|y c gs|d|gs|d] [|k2 r2]]; try discriminate. eauto.
Qed.
Lemma run_leaf inner before after n : run url cfg inner before after n = true -> kind_of n <> Some KLink -> inner = None \/ kind_of n <> Some KEmphasis -> leaf n.
Proof.
  intros R K H. destruct n as [d|x a ks|d|ks|d]; [constructor| |discriminate R|discriminate R|discriminate R].
  destruct (strong_element x || em_element x) eqn:E.
  - assert (Ek : kind_of (Elem x a ks) = Some KEmphasis) by (cbn [kind_of]; now rewrite E). destruct H as [->|H]; [|congruence]. apply run_emphasis in R as (d & -> & _); auto. now constructor.
  - unfold run in R. cbn [kind_of] in *. rewrite E in *. destruct (code_element x) eqn:C.
    + destruct ks as [|[e|y c gs|e|gs|e] [|k2 r2]]; try discriminate. apply leaf_code; auto. apply andb_true_iff in R as [R _]. unfold quiet_code in R. intros ->. discriminate.
    + destruct (beqb x (b "a")); [congruence|]. destruct ks as [|[e|y c gs|e|gs|e] [|k2 r2]]; discriminate.
Qed.
Lemma runs_leaves ks : forall prev before, runs url cfg None prev before ks = true -> Forall leaf ks.
Proof.
  induction ks as [|n r IH]; intros prev before R; constructor; cbn [runs] in R; apply andb_true_iff in R as [R1 R].
  - eapply run_leaf; [exact R1| |now left]. intros K. destruct (run_link _ _ _ _ _ _ R1 K) as (_ & _ & _ & _ & _ & _ & [=] & _).
  - destruct (kind_of n) as [k|] eqn:K; [|discriminate]. apply andb_true_iff in R as [_ R]. eauto.
Qed.
Lemma filled_runs p ks : filled p ks = true -> p KLink 32 ks = true.
Proof. destruct ks as [|n ks]; [discriminate|]. cbn [filled]. intros H. now apply andb_true_iff in H as [_ H]. Qed.
Lemma runs_pieces ks : forall prev before, runs url cfg (Some (link_content url cfg)) prev before ks = true -> Forall piece ks.
Proof.
  induction ks as [|n r IH]; intros prev before R; constructor; cbn [runs] in R; apply andb_true_iff in R as [R1 R].
  - destruct (kind_of n) as [[]|] eqn:K; try discriminate; try (constructor; eapply run_leaf; [exact R1|congruence|right; congruence]).
    { destruct n as [d|x a ks|d|ks|d]; try discriminate K. assert (E : strong_element x || em_element x = true) by (cbn [kind_of] in K; destruct (strong_element x || em_element x); [reflexivity|]; destruct (code_element x); [discriminate|]; destruct (beqb x (b "a")); discriminate).
      destruct (run_emphasis _ _ _ _ _ _ R1 E) as [L C]. apply filled_runs in L. apply piece_emphasis; auto; [eapply runs_leaves|eapply runs_spaced]; eauto. }
    destruct (run_link _ _ _ _ _ _ R1 K) as (x & a & ks & q & -> & -> & [= <-] & _ & L & _). apply filled_runs in L. apply piece_link; [eapply runs_leaves|eapply runs_spaced]; eauto.
  - destruct (kind_of n) as [k|] eqn:K; [|discriminate]. apply andb_true_iff in R as [_ R]. eauto.
Qed.
Lemma paragraph_pieces ks : paragraph url cfg ks = true -> Forall piece ks /\ spaced ks = true.
Proof. intros P. apply filled_runs in P. split; [eapply runs_pieces|eapply runs_spaced]; eauto. Qed.
Definition part_block (k : nat) (ks : list node) : gblock (option styled) :=
  match k with O => Paragraph (Some (flat_map (formatted url) ks)) | _ => Heading k (Some (flat_map (formatted url) ks)) end.
(** How far the document is prepared: before white space is collapsed, between the two halves of it, and behind it; [ended]: the comments behind
    lists are there. *)
Inductive stage := Fresh | Halfway | Tidy.
Definition fits (st : stage) (ks ps : list node) : Prop :=
  match st with
  | Fresh => ps = line ks
  | Halfway => ks = ps \/ ks = ps ++ [Text [32]] \/ exists qs d, ps = qs ++ [Text d] /\ ks = qs ++ [Text (d ++ [32])]
  | Tidy => ks = ps \/ ks = ps ++ [Text []]
  end.
Section pages.
Variable loose : stage.
Variable ended : bool.
Inductive apage : node -> list (gblock (option styled)) -> Prop :=
| a_blank d : loose = Fresh -> forallb separates d = true -> apage (Text d) []
| a_other d : loose = Fresh -> apage (Other d) []
| a_part x k a ks ps : part_level x = Some k -> fits loose ks ps -> titled k ps = true -> paragraph url cfg ps = true -> apage (Elem x a ks) [part_block k ps]
| a_rule a : rule_line (horizontal_rule cfg) = true -> apage (Elem (b "hr") a []) [Rule]
| a_pre a ks i d : code_in (Elem (b "pre") a ks) = Some (i, d) -> readable_code d = true -> apage (Elem (b "pre") a ks) [Code i (without_final_newline d)]
| a_list x a ks its : list_name x = true -> aitems ks its -> list_ok two_styled cfg (Elem x a []) (nonempty_items its) = true ->
    apage (Elem x a ks) [Items (list_number (Elem x a [])) (nonempty_items its)]
| a_block x a ks B : groups x = true -> holds_text x = true -> acontent ks B -> apage (Elem x a ks) B
| a_inline x a ks B : groups x = true -> holds_text x = false -> apages ks B -> apage (Elem x a ks) B
with apages : list node -> list (gblock (option styled)) -> Prop :=
| as_nil : apages [] []
| as_cons n ns B C : apage n B -> apages ns C -> apages (n :: ns) (B ++ C)
| as_ended x a ks ns B C : ended = true -> list_name x = true -> apage (Elem x a ks) B -> apages ns C -> apages (Elem x a ks :: Comment end_comment_data :: ns) (B ++ C)
with acontent : list node -> list (gblock (option styled)) -> Prop :=
| ac_pages ks B : apages ks B -> acontent ks B
| ac_text qs ps ks B : fits loose qs ps -> paragraph url cfg ps = true -> (match ks with m :: _ => breaks m | [] => true end) = true -> apages ks B -> acontent (qs ++ ks) (part_block 0 ps :: B)
with aitems : list node -> list (list (gblock (option styled))) -> Prop :=
| ai_nil : aitems [] []
| ai_blank d ks its : loose = Fresh -> forallb separates d = true -> aitems ks its -> aitems (Text d :: ks) ([] :: its)
| ai_item a js B ks its : acontent js B -> aitems ks its -> aitems (Elem (b "li") a js :: ks) (B :: its).
Scheme apage_mind := Minimality for apage Sort Prop with apages_mind := Minimality for apages Sort Prop with acontent_mind := Minimality for acontent Sort Prop with aitems_mind := Minimality for aitems Sort Prop.
Combined Scheme apage_all from apage_mind, apages_mind, acontent_mind, aitems_mind.
Lemma apages_app ns ms B C : apages ns B -> apages ms C -> apages (ns ++ ms) (B ++ C).
Proof.
  intros H M. induction H as [|n ns B C' H _ IH|x a ks ns B C' E L H _ IH]; auto; cbn [app]; rewrite <- app_assoc.
  - now apply as_cons.
  - now apply as_ended.
Qed.
Lemma apages_one n B : apage n B -> apages [n] B.
Proof. intros H. rewrite <- (app_nil_r B). apply as_cons; auto. constructor. Qed.
End pages.
Lemma article_kind n : article url cfg n = true -> match n with Text d => forallb separates d = true | _ => kind_of n = None end.
Proof.
  destruct n as [d|x a ks|d|ks|d]; auto. cbn [article kind_of]. intros A.
  assert (N : forall y, In y (map b ["strong"; "b"; "em"; "i"; "a"]%string ++ inline_code_names) -> beqb x y = false).
  { intros y I. destruct (beqb x y) eqn:E; auto. apply beqb_eq in E. subst y. exfalso. revert A. cbn in I. decompose [or] I; try contradiction; subst x; vm_compute; discriminate. }
  assert (E : strong_element x || em_element x = false /\ code_element x = false /\ beqb x (b "a") = false).
  { unfold strong_element, em_element, code_element, name_in. cbn [map existsb]. change inline_code_names with [b "code"; b "var"; b "samp"; b "kbd"; b "tt"]. cbn [existsb]. rewrite !N by (cbn; tauto). auto. }
  destruct E as (-> & -> & ->). reflexivity.
Qed.
Lemma article_lead ks : forallb (article url cfg) ks = true -> lead_in ks = [].
Proof.
  intros A. unfold lead_in. cbv zeta. replace (forallb blank_text (inline_run ks)) with true; auto. symmetry. induction ks as [|n ks IH]; auto. cbn [forallb] in A. apply andb_true_iff in A as [A1 A2]. apply article_kind in A1.
  destruct n as [d|x a js|d|js|d]; cbn [inline_run]; try (now rewrite A1). cbn [kind_of forallb blank_text]. rewrite A1. auto.
Qed.
Lemma inline_run_app ks : exists r, ks = inline_run ks ++ r.
Proof. induction ks as [|n ks (r & IH)]; [now exists []|]. cbn [inline_run]. destruct (kind_of n); [|now exists (n :: ks)]. exists r. cbn [app]. now f_equal. Qed.
Lemma lead_app ks : exists r, ks = lead_in ks ++ r.
Proof. unfold lead_in. cbv zeta. destruct (forallb blank_text (inline_run ks)); [now exists ks|apply inline_run_app]. Qed.
Lemma behind_app {A} (ps : list node) (l r : list A) : List.length l = List.length ps -> behind ps (l ++ r) = r.
Proof. intros E. unfold behind. rewrite <- E. rewrite skipn_app, skipn_all, Nat.sub_diag. reflexivity. Qed.
Lemma article_apages ks : Forall (fun n => article url cfg n = true -> apage Fresh false n (article_blocks url n)) ks -> forallb (article url cfg) ks = true -> apages Fresh false ks (flat_map (article_blocks url) ks).
Proof.
  induction 1 as [|n ks H _ IH]; intros A; [constructor|]. cbn [forallb flat_map] in *. apply andb_true_iff in A as [A1 A2]. apply as_cons; auto.
Qed.
Lemma content_apage js : Forall (fun n => article url cfg n = true -> apage Fresh false n (article_blocks url n)) js ->
  (let ps := lead_in js in (is_empty ps || paragraph url cfg (line ps) && match behind ps js with m :: _ => breaks m | [] => true end) && forallb (fun ok => ok) (behind ps (map (article url cfg) js))) = true ->
  acontent Fresh false js (let ps := lead_in js in (if is_empty ps then [] else [Paragraph (Some (flat_map (formatted url) (line ps)))]) ++ List.concat (behind ps (map (article_blocks url) js))).
Proof.
  intros F. cbv zeta. destruct (lead_app js) as (r & E). remember (lead_in js) as ps eqn:Ep. clear Ep. subst js. rewrite !map_app, !behind_app by (now rewrite ?map_length). intros A. apply andb_true_iff in A as [A1 A2].
  assert (P : apages Fresh false r (flat_map (article_blocks url) r)).
  { apply article_apages; [now apply Forall_app in F as [_ F]|]. clear - A2. induction r as [|n r IH]; auto. cbn [map forallb] in *. apply andb_true_iff in A2 as [-> A2]. now rewrite IH. }
  rewrite flat_map_concat_map in P. destruct ps as [|n ps].
  - cbn [app is_empty]. now apply ac_pages.
  - cbn [is_empty orb] in *. apply andb_true_iff in A1 as [A0 A1]. apply (ac_text Fresh false (n :: ps) (line (n :: ps)) r); auto. reflexivity.
Qed.
Lemma article_apage n : article url cfg n = true -> apage Fresh false n (article_blocks url n).
Proof.
  enough (H : (article url cfg n = true -> apage Fresh false n (article_blocks url n)) /\ (forall x a ks, n = Elem x a ks -> Forall (fun n => article url cfg n = true -> apage Fresh false n (article_blocks url n)) ks)) by tauto.
  induction n as [d|x a ks IH|d|ks IH|d] using node_induction; try (split; [|discriminate]); try discriminate; try (intros; now constructor).
  assert (K : Forall (fun n => article url cfg n = true -> apage Fresh false n (article_blocks url n)) ks) by (eapply Forall_impl; [|exact IH]; cbn; tauto).
  split; [|intros x' a' ks' [= <- <- <-]; exact K]. cbn [article article_blocks]. destruct (part_level x) as [k|] eqn:L.
  - intros A. apply andb_true_iff in A as [A T]. pose proof (a_part Fresh false x k a ks (line ks) L eq_refl T A) as H. now destruct k.
  - destruct (beqb x (b "hr")) eqn:E1.
    + apply beqb_eq in E1. subst x. intros A. apply andb_true_iff in A as [A R]. destruct ks; [|discriminate]. now apply a_rule.
    + destruct (beqb x (b "pre")) eqn:E2.
      * apply beqb_eq in E2. subst x. destruct (code_in _) as [[i d]|] eqn:C; [|discriminate]. intros R. now apply a_pre.
      * destruct (name_in [b "ul"; b "ol"] x) eqn:E3.
        { intros A. apply andb_true_iff in A as [A O]. change (list_number (Elem x a ks)) with (list_number (Elem x a [])).
          apply a_list; [exact E3| |exact O]. clear - IH A. induction IH as [|k ks H _ IH]; [constructor|]. cbn [forallb map] in *. apply andb_true_iff in A as [A1 A2]. destruct k as [d|y c js|d|js|d]; try discriminate; [now apply ai_blank; auto|].
          apply andb_true_iff in A1 as [Y A1]. apply beqb_eq in Y. subst y. destruct H as [_ H]. specialize (H _ _ _ eq_refl). cbn [article_blocks]. change (part_level (b "li")) with (@None nat). change (beqb (b "li") (b "hr")) with false. change (beqb (b "li") (b "pre")) with false. change (name_in [b "ul"; b "ol"] (b "li")) with false. cbv iota.
          apply ai_item; auto. now apply content_apage. }
        { intros A. apply andb_true_iff in A as [G A]. destruct (holds_text x) eqn:Ht.
          - apply a_block; auto. now apply content_apage.
          - apply a_inline; auto. rewrite (article_lead ks A). cbn [is_empty app]. unfold behind. cbn [List.length skipn]. rewrite <- flat_map_concat_map. now apply article_apages. }
Qed.
Lemma articles_apages ks : forallb (article url cfg) ks = true -> apages Fresh false ks (flat_map (article_blocks url) ks).
Proof. apply article_apages. apply Forall_forall. intros n _. apply article_apage. Qed.
End shapes.

(** ** White space does not change the shape *)
Definition same_shape (n m : node) : Prop := match n, m with Text _, Text _ => True | Elem x _ _, Elem y _ _ => x = y | _, _ => n = m end.
Lemma flowed_elem sp x a ks : flowed sp (Elem x a ks) = if code_element x then (false, Elem x a ks) else (fst (flowed_list sp ks), Elem x a (snd (flowed_list sp ks))).
Proof.
  cbn [flowed]. destruct (code_element x); auto. match goal with |- context [?f sp ks] => assert (E : f sp ks = flowed_list sp ks) end.
  { revert sp. induction ks as [|k ks IH]; intros sp; auto. }
  rewrite E. now destruct (flowed_list sp ks).
Qed.
Lemma flowed_cons sp k ks : flowed_list sp (k :: ks) = (fst (flowed_list (fst (flowed sp k)) ks), snd (flowed sp k) :: snd (flowed_list (fst (flowed sp k)) ks)).
Proof. cbn [flowed_list]. destruct (flowed sp k) as [s1 k']. cbn [fst snd]. now destruct (flowed_list s1 ks). Qed.
Lemma flowed_app sp ks ms : flowed_list sp (ks ++ ms) = (fst (flowed_list (fst (flowed_list sp ks)) ms), snd (flowed_list sp ks) ++ snd (flowed_list (fst (flowed_list sp ks)) ms)).
Proof. revert sp. induction ks as [|k ks IH]; intros sp; [cbn [app flowed_list fst snd]; now destruct (flowed_list sp ms)|]. cbn [app]. rewrite !flowed_cons, IH. reflexivity. Qed.
Lemma flowed_shape n sp : same_shape n (snd (flowed sp n)).
Proof. destruct n as [d|x a ks|d|ks|d]; cbn; auto. change (same_shape (Elem x a ks) (snd (flowed sp (Elem x a ks)))). rewrite flowed_elem. destruct (code_element x); cbn; auto. Qed.
Lemma flowed_shapes ks : forall sp, Forall2 same_shape ks (snd (flowed_list sp ks)).
Proof. induction ks as [|k ks IH]; intros sp; [constructor|]. rewrite flowed_cons. cbn [snd]. constructor; auto. apply flowed_shape. Qed.
Lemma shape_emphasis n m : same_shape n m -> emphasis n = emphasis m /\ coded n = coded m /\ is_text n = is_text m.
Proof. destruct n, m; cbn; try discriminate; try contradiction; auto; intros [= <-]; auto. Qed.
Lemma shape_spaced ks ms : Forall2 same_shape ks ms -> spaced ks = spaced ms.
Proof.
  induction 1 as [|n m ks ms H F IH]; auto. cbn [spaced]. rewrite IH. f_equal. destruct F as [|n2 m2 ks ms H2 _]; auto. apply shape_emphasis in H as (-> & -> & _). apply shape_emphasis in H2 as (-> & -> & _). reflexivity.
Qed.
Lemma shape_content x ks ms : Forall2 same_shape ks ms -> emphasis_content x ks = emphasis_content x ms.
Proof.
  intros F. unfold emphasis_content. f_equal; [f_equal|].
  - destruct F as [|n m ks ms H _]; auto. now apply shape_emphasis in H as (_ & _ & H).
  - induction F as [|n m ks ms H F IH]; auto. destruct F as [|n2 m2 ks ms H2 F]; [now apply shape_emphasis in H as (_ & _ & H)|]. exact IH.
  - induction F as [|n m ks ms H F IH]; auto. cbn [forallb]. rewrite IH. f_equal. destruct n, m; cbn in H; try discriminate; try contradiction; auto. now subst.
Qed.
Lemma flowed_one sp ks d : snd (flowed_list sp ks) = [Text d] -> exists t, ks = [Text t].
Proof.
  intros E. pose proof (flowed_shapes ks sp) as F. rewrite E in F. inversion F as [|n m ? ? H F2]; subst. inversion F2; subst. destruct n; cbn in H; try discriminate; try contradiction. eauto.
Qed.
Lemma flowed_leaf sp n : leaf (snd (flowed sp n)) -> leaf n.
Proof.
  destruct n as [d|x a ks|d|ks|d]; try (cbn; auto; fail); [intros _; constructor|]. rewrite flowed_elem. destruct (code_element x) eqn:C; auto. cbn [snd]. intros L. inversion L; subst; [|congruence].
  match goal with Ed : [Text _] = snd _ |- _ => symmetry in Ed; apply flowed_one in Ed as (t & ->) | Ed : snd _ = [Text _] |- _ => apply flowed_one in Ed as (t & ->) end. now constructor.
Qed.
Lemma flowed_leaves ks : forall sp, Forall leaf (snd (flowed_list sp ks)) -> Forall leaf ks.
Proof. induction ks as [|k ks IH]; intros sp F; [constructor|]. rewrite flowed_cons in F. cbn [snd] in F. inversion F; subst. constructor; eauto using flowed_leaf. Qed.
Lemma flowed_piece sp n : piece (snd (flowed sp n)) -> piece n.
Proof.
  intros P. destruct n as [d|x a ks|d|ks|d]; try exact P; [apply piece_leaf; constructor|]. rewrite flowed_elem in P. destruct (code_element x) eqn:C; [exact P|]. cbn [snd] in P. inversion P as [m L|? ? ? E Ec F S|? ? F S]; subst.
  - apply piece_leaf. apply (flowed_leaf sp). rewrite flowed_elem, C. exact L.
  - apply piece_emphasis; auto; [now rewrite (shape_content x ks _ (flowed_shapes ks sp))|now apply (flowed_leaves ks sp)|now rewrite (shape_spaced ks _ (flowed_shapes ks sp))].
  - apply piece_link; [now apply (flowed_leaves ks sp)|now rewrite (shape_spaced ks _ (flowed_shapes ks sp))].
Qed.
Lemma flowed_pieces ks : forall sp, Forall piece (snd (flowed_list sp ks)) -> Forall piece ks.
Proof. induction ks as [|k ks IH]; intros sp F; [constructor|]. rewrite flowed_cons in F. cbn [snd] in F. inversion F; subst. constructor; eauto using flowed_piece. Qed.
Lemma spaced_text d ks : spaced (Text d :: ks) = spaced ks.
Proof. cbn [spaced emphasis coded andb negb]. now destruct ks. Qed.
Lemma spaced_snoc d ks : spaced (ks ++ [Text d]) = spaced ks.
Proof.
  induction ks as [|n ks IH]; auto. cbn [app spaced]. rewrite IH. f_equal. destruct ks as [|m ks]; auto. cbn [app emphasis coded]. now rewrite !andb_false_r.
Qed.
Lemma strip_cases d : exists w, d = w ++ strip_start d /\ forallb separates w = true /\ (match strip_start d with c :: _ => separates c = false | [] => True end).
Proof.
  induction d as [|c d (w & E & W & H)]; [now exists []|]. cbn [strip_start]. destruct (separates c) eqn:C; [|now exists []]. exists (c :: w). cbn [app forallb]. rewrite C, W. split; [now f_equal|]. auto.
Qed.
Lemma cut_end_cases ks : cut_end ks = ks \/ exists q e w, ks = q ++ [Text (e ++ w)] /\ forallb separates w = true /\
  ((e = [] /\ cut_end ks = q) \/ (e <> [] /\ separates (last e 0) = false /\ cut_end ks = q ++ [Text e])).
Proof.
  unfold cut_end. destruct (rev ks) as [|[d|x a js|d|js|d] q] eqn:E; auto. right. apply (f_equal (@rev node)) in E. rewrite rev_involutive in E. cbn [rev] in E.
  destruct (strip_cases (rev d)) as (w & Ed & W & H). set (s := strip_start (rev d)) in *. exists (rev q), (rev s), (rev w). apply (f_equal (@rev N)) in Ed. rewrite rev_involutive, rev_app_distr in Ed. rewrite <- Ed. split; auto. split.
  - rewrite forallb_forall in *. intros c I. apply W. now apply in_rev.
  - cbv zeta. destruct s as [|c s]; [now left|right]. cbn [rev]. split; [now destruct (rev s)|]. split; [now rewrite last_last|]. now destruct (rev s).
Qed.
Lemma cut_start_cases ks : cut_start ks = ks \/ exists d, forallb separates d = true /\ ks = Text d :: cut_start ks.
Proof. unfold cut_start. destruct ks as [|n ks]; auto. destruct (blank_text n) eqn:B; auto. right. destruct n; try discriminate. eauto. Qed.
Lemma line_pieces ks : Forall piece (line ks) -> spaced (line ks) = true -> Forall piece ks /\ spaced ks = true.
Proof.
  unfold line. intros F S. apply flowed_pieces in F. rewrite <- (shape_spaced _ _ (flowed_shapes _ true)) in S.
  assert (A : Forall piece (cut_end ks) /\ spaced (cut_end ks) = true).
  { destruct (cut_start_cases (cut_end ks)) as [E|(d & _ & E)]; [rewrite E in *; auto|]. rewrite E, spaced_text. split; auto. constructor; auto. apply piece_leaf. constructor. }
  destruct A as [A1 A2]. destruct (cut_end_cases ks) as [E|(q & e & w & -> & _ & [(_ & E)|(_ & _ & E)])]; rewrite E in *; auto.
  - rewrite spaced_snoc. split; auto. apply Forall_app. split; auto. constructor; [apply piece_leaf; constructor|constructor].
  - rewrite spaced_snoc in *. split; auto. apply Forall_app in A1 as [A1 _]. apply Forall_app. split; auto. constructor; [apply piece_leaf; constructor|constructor].
Qed.
Lemma fits_pieces url cfg st ks ps : fits st ks ps -> paragraph url cfg ps = true -> Forall piece ks /\ spaced ks = true.
Proof.
  intros F P. destruct (paragraph_pieces url cfg ps P) as [A S]. assert (T : forall d, Forall piece [Text d]) by (intros d; constructor; [apply piece_leaf; constructor|constructor]). destruct st; cbn in F.
  - subst ps. now apply line_pieces.
  - destruct F as [->|[->|(qs & d & -> & ->)]]; rewrite ?spaced_snoc in *; auto; split; auto; apply Forall_app; auto. apply Forall_app in A as [A _]. auto.
  - destruct F as [->| ->]; rewrite ?spaced_snoc in *; auto; split; auto; apply Forall_app; auto.
Qed.

(** ** Passes that do nothing *)
Definition outer_name (x : bytes) : bool := groups x || name_in (map fst heading_names_of ++ [b "hr"; b "pre"; b "ul"; b "ol"; b "li"]) x.
Lemma part_outer x k : part_level x = Some k -> outer_name x = true.
Proof.
  unfold part_level, outer_name. destruct (beqb x (b "p")) eqn:E; [apply beqb_eq in E; now subst|]. intros L. apply level_cases in L. apply orb_true_iff. right. unfold name_in. apply existsb_exists. exists x. split; [apply in_app_iff; left; now apply (in_map fst) in L|now apply beqb_eq].
Qed.
Lemma group_outer x : groups x = true -> outer_name x = true.
Proof. unfold outer_name. now intros ->. Qed.
Lemma outer_not x y : outer_name x = true -> outer_name y = false -> beqb x y = false.
Proof. intros A B. destruct (beqb x y) eqn:E; auto. apply beqb_eq in E. congruence. Qed.
Lemma outer_none l x : outer_name x = true -> forallb (fun y => negb (outer_name y)) l = true -> name_in l x = false.
Proof.
  intros G. unfold name_in. induction l as [|y l IH]; auto. cbn [forallb existsb]. intros H. apply andb_true_iff in H as [H1 H2].
  apply negb_true_iff in H1. now rewrite (outer_not x y), IH.
Qed.
Lemma strong_names x : strong_element x || em_element x = name_in (bold_names ++ italic_names) x.
Proof. unfold strong_element, em_element, name_in. cbn [map]. change (bold_names ++ italic_names) with ([b "strong"; b "b"] ++ [b "em"; b "i"]). now rewrite existsb_app. Qed.
Lemma code_names x : code_element x = name_in inline_code_names x.
Proof. reflexivity. Qed.
Lemma emphasis_named n : is_bold_or_italic n = emphasis n.
Proof. destruct n; try reflexivity. cbn [is_bold_or_italic named emphasis]. now rewrite strong_names. Qed.
Lemma coded_named n : is_inline_code_node n = coded n.
Proof. now destruct n. Qed.
Lemma emphasis_cases x : strong_element x || em_element x = true -> In x (bold_names ++ italic_names).
Proof. rewrite strong_names. unfold name_in. intros H. apply existsb_exists in H as (y & I & E). apply beqb_eq in E. now subst. Qed.
Lemma code_cases x : code_element x = true -> In x inline_code_names.
Proof. unfold code_element, name_in. intros H. apply existsb_exists in H as (y & I & E). apply beqb_eq in E. now subst. Qed.
Definition inline_names : list bytes := bold_names ++ italic_names ++ inline_code_names ++ [b "a"].
Definition article_name (x : bytes) : bool := outer_name x || name_in inline_names x.
Lemma in_name l x : In x l -> name_in l x = true.
Proof. intros I. unfold name_in. apply existsb_exists. exists x. split; auto. now apply beqb_eq. Qed.
Lemma name_of_in l x : name_in l x = true -> In x l.
Proof. unfold name_in. intros H. apply existsb_exists in H as (y & I & E). apply beqb_eq in E. now subst. Qed.
Lemma article_name_not x y : article_name x = true -> article_name y = false -> beqb x y = false.
Proof. intros A B. destruct (beqb x y) eqn:E; auto. apply beqb_eq in E. congruence. Qed.
Lemma article_name_none l x : article_name x = true -> forallb (fun y => negb (article_name y)) l = true -> name_in l x = false.
Proof.
  intros G. unfold name_in. induction l as [|y l IH]; auto. cbn [forallb existsb]. intros H. apply andb_true_iff in H as [H1 H2]. apply negb_true_iff in H1. now rewrite (article_name_not x y), IH.
Qed.
Lemma emphasis_article x : strong_element x || em_element x = true -> article_name x = true.
Proof. intros H. unfold article_name. apply orb_true_iff. right. apply in_name. unfold inline_names. rewrite app_assoc, in_app_iff. left. now apply emphasis_cases. Qed.
Lemma code_article x : code_element x = true -> article_name x = true.
Proof. intros H. unfold article_name. apply orb_true_iff. right. apply in_name. unfold inline_names. rewrite !in_app_iff. right. right. left. now apply code_cases. Qed.
Lemma link_article : article_name (b "a") = true.
Proof. reflexivity. Qed.
Lemma p_article : article_name (b "p") = true.
Proof. reflexivity. Qed.
Lemma leaf_names p n : (forall x, article_name x = true -> p x = true) -> leaf n -> all_names p n = true.
Proof. intros H [d|x a d E|x a d _ E _]; auto; cbn [all_names forallb]; rewrite H; auto using emphasis_article, code_article. Qed.
Lemma leaves_names p ks : (forall x, article_name x = true -> p x = true) -> Forall leaf ks -> forallb (all_names p) ks = true.
Proof. intros H. induction 1; auto. cbn [forallb]. now rewrite leaf_names. Qed.
Lemma piece_names p n : (forall x, article_name x = true -> p x = true) -> piece n -> all_names p n = true.
Proof. intros H [m L|x a ks E _ L _|a ks L _]; [now apply leaf_names| |]; cbn [all_names]; rewrite H by auto using emphasis_article; now apply leaves_names. Qed.
Lemma forall_list (f : node -> bool) ks : Forall (fun k => f k = true) ks -> forallb f ks = true.
Proof. induction 1; auto. cbn [forallb]. now rewrite H, IHForall. Qed.
Lemma map_same (f : node -> node) ks : Forall (fun k => f k = k) ks -> map f ks = ks.
Proof. induction 1; auto. cbn [map]. congruence. Qed.
Lemma flat_same (f : node -> list node) ks : Forall (fun k => f k = [k]) ks -> flat_map f ks = ks.
Proof. induction 1; auto. cbn [flat_map]. rewrite H, IHForall. reflexivity. Qed.
(** ** Trees on which the steps of handlePreRender do nothing *)
Inductive form : node -> Prop :=
| form_text d : form (Text d)
| form_other d : form (Other d)
| form_elem x a ps ks : outer_name x = true -> Forall piece ps -> spaced ps = true -> Forall form ks -> (list_name x = true -> ps = [] /\ forallb item_kid ks = true) ->
    (ks <> [] -> is_leaf_block x = false /\ is_inline_name x = false) -> form (Elem x a (ps ++ ks)).
Lemma form_induction (P : node -> Prop) : (forall d, P (Text d)) -> (forall d, P (Other d)) ->
  (forall x a ps ks, outer_name x = true -> Forall piece ps -> spaced ps = true -> Forall form ks -> Forall P ks -> (list_name x = true -> ps = [] /\ forallb item_kid ks = true) ->
    (ks <> [] -> is_leaf_block x = false /\ is_inline_name x = false) -> P (Elem x a (ps ++ ks))) -> forall n, form n -> P n.
Proof.
  intros H1 H2 H3. fix IH 2. intros n [d|d|x a ps ks O Fp Sp Fk Hl Hi]; [apply H1|apply H2|]. apply H3; auto. clear - IH Fk. induction Fk as [|k ks Hk Fk' IHk]; constructor; auto.
Qed.
Lemma paragraph_form x a url cfg st qs ps ks : outer_name x = true -> fits st qs ps -> paragraph url cfg ps = true -> list_name x = false -> Forall form ks -> (ks <> [] -> is_leaf_block x = false /\ is_inline_name x = false) -> form (Elem x a (qs ++ ks)).
Proof. intros O Ft P L F Hi. destruct (fits_pieces url cfg st qs ps Ft P). apply form_elem; auto. intros; congruence. Qed.
Lemma group_form x a ks : outer_name x = true -> list_name x = false -> is_leaf_block x = false -> is_inline_name x = false -> Forall form ks -> form (Elem x a ks).
Proof. intros O L H1 H2 F. apply (form_elem x a [] ks); auto; intros; congruence. Qed.
Lemma apage_form url cfg lo : (forall n B, apage url cfg lo false n B -> form n) /\ (forall ns B, apages url cfg lo false ns B -> Forall form ns) /\
  (forall js B, acontent url cfg lo false js B -> forall x a, outer_name x = true -> list_name x = false -> is_leaf_block x = false -> is_inline_name x = false -> form (Elem x a js)) /\
  (forall ks its, aitems url cfg lo false ks its -> Forall form ks /\ forallb item_kid ks = true).
Proof.
  apply apage_all; try discriminate; try (intros; now constructor).
  - intros x k a ks ps L Ft _ P. rewrite <- (app_nil_r ks). eapply paragraph_form; eauto using part_outer; [|easy]. destruct (list_name x) eqn:E; auto. apply list_cases in E as [->| ->]; discriminate.
  - intros a _. apply (form_elem _ a [] []); auto; try discriminate. easy.
  - intros a ks i d C _. rewrite <- (app_nil_r ks). apply form_elem; auto; try discriminate; try easy.
    + apply code_in_cases in C as [(-> & _)|(c & -> & D & _)]; (constructor; [apply piece_leaf|constructor]); [constructor|now apply leaf_code].
    + apply code_in_cases in C as [(-> & _)|(c & -> & D & _)]; reflexivity.
  - intros x a ks its L _ [F I] _. apply (form_elem x a [] ks); auto; apply list_cases in L as [->| ->]; auto.
  - intros x a ks B G _ _ IH. apply IH; auto using group_outer; apply groups_none; auto.
  - intros x a ks B G _ _ IH. apply group_form; auto using group_outer; apply groups_none; auto.
  - intros ks B _ F x a O L H1 H2. now apply group_form.
  - intros qs ps ks B Ft P _ _ F x a O L H1 H2. eapply paragraph_form; eauto.
  - intros d ks its _ D _ [F I]. split; [constructor; auto; constructor|]. cbn [forallb item_kid]. now rewrite D.
  - intros a js B ks its _ IH _ [F I]. split; [constructor; auto|]. cbn [forallb]. now rewrite I.
Qed.
Section passes.
Lemma article_names p n : (forall x, article_name x = true -> p x = true) -> form n -> all_names p n = true.
Proof.
  intros H. revert n. apply form_induction; auto.
  intros x a ps ks O P _ _ F _ _. cbn [all_names]. rewrite H by (unfold article_name; now rewrite O). cbn [andb]. rewrite forallb_app. apply andb_true_iff. split; apply forall_list; auto. eapply Forall_impl; [|exact P]. intros. now apply piece_names.
Qed.
Lemma articles_none l ns : forallb (fun y => negb (article_name y)) l = true -> Forall form ns -> none_of l (Doc ns) = true.
Proof.
  intros Hl A. unfold none_of. cbn [all_names]. rewrite forallb_forall. rewrite Forall_forall in A. intros n I. apply article_names; auto. intros x X. now rewrite article_name_none by auto.
Qed.
(** A pass that keeps the pieces keeps the document. *)
Lemma keeps_map (f : node -> node) : (forall d, f (Text d) = Text d) -> (forall d, f (Other d) = Other d) -> (forall n, piece n -> f n = n) ->
  (forall x a ks, outer_name x = true -> map f ks = ks -> f (Elem x a ks) = Elem x a ks) -> forall n, form n -> f n = n.
Proof.
  intros H1 H2 H3 H4. apply form_induction; auto.
  intros x a ps ks O P _ _ F _ _. apply H4; auto. rewrite map_app. f_equal; apply map_same; auto. eapply Forall_impl; [|exact P]. auto.
Qed.
Lemma keeps_flat (f : node -> list node) : (forall d, f (Text d) = [Text d]) -> (forall d, f (Other d) = [Other d]) -> (forall n, piece n -> f n = [n]) ->
  (forall x a ks, outer_name x = true -> flat_map f ks = ks -> f (Elem x a ks) = [Elem x a ks]) -> forall n, form n -> f n = [n].
Proof.
  intros H1 H2 H3 H4. apply form_induction; auto.
  intros x a ps ks O P _ _ F _ _. apply H4; auto. rewrite flat_map_app. f_equal; apply flat_same; auto. eapply Forall_impl; [|exact P]. auto.
Qed.
Lemma redundant_emphasis n : form n -> redundant class_bold_italic [] n = [n].
Proof.
  assert (Cn : forall x, name_in (bold_names ++ italic_names) x = false -> class_bold_italic x = None).
  { intros x H. unfold class_bold_italic, name_in in *. rewrite existsb_app in H. apply orb_false_iff in H as [-> ->]. reflexivity. }
  assert (L : forall m, leaf m -> redundant class_bold_italic [] m = [m]).
  { intros m [d|x a d E|x a d E1 E2 _]; auto; cbn [redundant].
    - destruct (class_bold_italic x); reflexivity.
    - rewrite Cn by now rewrite <- strong_names. reflexivity. }
  apply keeps_flat; auto.
  - intros m [k Lk|x a ks E C F _|a ks F _]; auto; cbn [redundant].
    + destruct (class_bold_italic x) as [c|] eqn:Ec; [|rewrite flat_same; auto; eapply Forall_impl; [|exact F]; auto]. cbn [existsb]. rewrite flat_same; auto.
      unfold emphasis_content in C. apply andb_true_iff in C as [_ C]. rewrite forallb_forall in C. rewrite Forall_forall in *. intros w I. specialize (C w I). destruct (F w I) as [d|y g d Y|y g d Y1 Y2 _]; auto; cbn [redundant].
      * assert (Dif : forall c', class_bold_italic y = Some c' -> (c' =? c) = false).
        { clear - E Y C Ec. intros c' Ec'. apply emphasis_cases in E, Y. cbn in E, Y. decompose [or] E; try contradiction; decompose [or] Y; try contradiction; subst; try discriminate C; injection Ec as <-; injection Ec' as <-; reflexivity. }
        destruct (class_bold_italic y) as [c'|]; [|reflexivity]. cbn [existsb]. now rewrite Dif.
      * rewrite Cn by now rewrite <- strong_names. reflexivity.
    + rewrite Cn by reflexivity. rewrite flat_same; auto. eapply Forall_impl; [|exact F]. auto.
  - intros x a ks G F. cbn [redundant]. rewrite Cn by now apply outer_none. now rewrite F.
Qed.
Lemma redundant_link n : form n -> redundant class_link [] n = [n].
Proof.
  assert (Cn : forall x, beqb x (b "a") = false -> class_link x = None) by (intros x H; unfold class_link; now rewrite H).
  assert (L : forall anc m, leaf m -> redundant class_link anc m = [m]).
  { intros anc m [d|x a d E|x a d E1 E2 _]; auto; cbn [redundant].
    - rewrite Cn; auto. apply emphasis_cases in E. repeat (destruct E as [<-|E]; [reflexivity|]). destruct E.
    - rewrite Cn; auto. apply code_cases in E2. repeat (destruct E2 as [<-|E2]; [reflexivity|]). destruct E2. }
  apply keeps_flat; auto.
  - intros m [k Lk|x a ks E _ F _|a ks F _]; auto; cbn [redundant].
    + rewrite Cn; [rewrite flat_same; auto; eapply Forall_impl; [|exact F]; auto|]. apply emphasis_cases in E. repeat (destruct E as [<-|E]; [reflexivity|]). destruct E.
    + change (class_link (b "a")) with (Some 1). cbn [existsb]. rewrite flat_same; auto. eapply Forall_impl; [|exact F]. auto.
  - intros x a ks G F. cbn [redundant]. rewrite Cn by now apply outer_not. now rewrite F.
Qed.
Lemma empty_code_article n : form n -> remove_empty_code n = n /\ is_empty_code n = false.
Proof.
  assert (Nc : forall x a ks, beqb x (b "code") = false -> is_empty_code (Elem x a ks) = false).
  { intros x a ks E. unfold is_empty_code. cbn [named name_in existsb]. now rewrite E. }
  assert (Nt : forall x a d, d <> [] -> is_empty_code (Elem x a [Text d]) = false).
  { intros x a d D. unfold is_empty_code. cbn [has_text existsb]. destruct d; [easy|]. cbn [is_empty negb orb]. now rewrite andb_false_r. }
  assert (L : forall m, leaf m -> drop_code m = [m]).
  { intros m [d|x a d E|x a d E1 E2 D]; auto; unfold drop_code; cbn [remove_empty_code].
    - rewrite Nc; [reflexivity|]. apply emphasis_cases in E. repeat (destruct E as [<-|E]; [reflexivity|]). destruct E.
    - now rewrite Nt. }
  intros A. enough (E : drop_code n = [n]). { unfold drop_code in E. destruct (is_empty_code n); [discriminate|]. now injection E. }
  revert n A. apply keeps_flat; auto.
  - assert (K : forall x a ks, beqb x (b "code") = false -> Forall leaf ks -> drop_code (Elem x a ks) = [Elem x a ks]).
    { intros x a ks X F. unfold drop_code. rewrite Nc by auto. cbn [remove_empty_code]. rewrite Nc by auto. fold drop_code. rewrite flat_same; auto. eapply Forall_impl; [|exact F]. auto. }
    intros m [k Lk|x a ks E _ F _|a ks F _]; auto. apply K; auto. apply emphasis_cases in E. repeat (destruct E as [<-|E]; [reflexivity|]). destruct E.
  - intros x a ks G F. unfold drop_code at 1. cbn [remove_empty_code]. rewrite Nc by now apply outer_not. fold drop_code. now rewrite F.
Qed.
Lemma swap_text outer inner x a d : swap_tags outer inner (Elem x a [Text d]) = Elem x a [Text d].
Proof. cbn [swap_tags filter map]. destruct (outer _); auto. destruct (is_blank_text (Text d)); reflexivity. Qed.
Lemma swap_leaf outer inner n : leaf n -> swap_tags outer inner n = n.
Proof. intros [d|x a d E|x a d E1 E2 D]; auto; apply swap_text. Qed.
Lemma swap_leaves outer inner ks : Forall leaf ks -> map (swap_tags outer inner) ks = ks.
Proof. intros F. apply map_same. eapply Forall_impl; [|exact F]. intros. now apply swap_leaf. Qed.
Lemma swap_article outer inner n : (forall x a ks, outer_name x = true -> outer (Elem x a ks) = false) ->
  (forall x a ks, outer (Elem x a ks) = true -> Forall leaf ks -> forall k, In k ks -> inner k = false) -> form n -> swap_tags outer inner n = n.
Proof.
  intros H1 H2. revert n. apply keeps_map; auto.
  - assert (K : forall x a ks, Forall leaf ks -> swap_tags outer inner (Elem x a ks) = Elem x a ks).
    { intros x a ks F. cbn [swap_tags]. rewrite (swap_leaves outer inner ks F). destruct (outer (Elem x a ks)) eqn:O; auto. pose proof (H2 x a ks O F) as N. destruct (filter _ ks) as [|y [|z r]] eqn:Fl; auto; [|now destruct y].
      destruct y as [d|x2 a2 k2|d|k2|d]; auto. assert (I : In (Elem x2 a2 k2) ks) by (eapply proj1, filter_In; rewrite Fl; now left). now rewrite (N _ I). }
    intros m [k L|x a ks E _ F _|a ks F _]; [now apply swap_leaf|auto|auto].
  - intros x a ks G F. apply swap_plain; auto.
Qed.
Lemma collect_stop mt m r up : is_span m = false -> mt m = false -> collect_stack mt ((m :: r) :: up) = ([], (m :: r) :: up).
Proof. intros S M. cbn [collect_stack collect_list]. destruct m as [d|x a ks|d|ks|d]; auto. cbn [collect_node]. rewrite S, M. reflexivity. Qed.
Definition lone (mt : node -> bool) (n : node) (st : list (list node)) : Prop := mt n = true -> match st with (m :: _) :: _ => is_span m = false /\ mt m = false | _ => True end.
Lemma collect_lone mt n st : lone mt n st -> mt n = true -> collect_adjacent mt st = ([], st).
Proof. intros L M. destruct st as [|[|m r] up]; auto. unfold collect_adjacent. destruct (L M). now apply collect_stop. Qed.
Fixpoint alone (mt : node -> bool) (ks : list node) : bool :=
  match ks with n :: r => (match r with m :: _ => negb (mt n && mt m) | [] => true end) && alone mt r | [] => true end.
Definition no_span (n : node) : bool := negb (is_span n).
Fixpoint sparse (mt : node -> bool) (n : node) : bool :=
  match n with Elem _ _ ks | Doc ks => alone mt ks && forallb no_span ks && forallb (sparse mt) ks | _ => true end.
Lemma merge_sparse mt f : (forall n st, sparse mt n = true -> lone mt n st -> merge_adj mt f n st = (n, st)) /\
  (forall ks st, alone mt ks = true -> forallb no_span ks = true -> forallb (sparse mt) ks = true -> merge_adj_list mt f ks st = (ks, st)).
Proof.
  induction f as [|f [IH1 IH2]]; [split; auto|]. split.
  - intros n st S L. cbn [merge_adj]. assert (E : (if mt n then collect_adjacent mt st else ([], st)) = ([], st)).
    { destruct (mt n) eqn:M; auto. eapply collect_lone; eauto. }
    rewrite E, app_nil_r. rewrite IH2, with_kids_id; auto; destruct n; auto; cbn [sparse] in S; rewrite !andb_true_iff in S; tauto.
  - intros ks st A N S. cbn [merge_adj_list]. destruct ks as [|k r]; auto. cbn [alone forallb] in *. rewrite andb_true_iff in A, N, S. destruct A as [A1 A2], N as [N1 N2], S as [S1 S2].
    rewrite IH1; auto.
    + cbn [hd tl]. now rewrite IH2.
    + intros M. destruct r as [|m r]; auto. rewrite M in A1. cbn [andb forallb] in *. apply andb_true_iff in N2 as [N2 _]. unfold no_span in N2. split; now apply negb_true_iff.
Qed.
Lemma span_not n x : node_name n = x -> article_name x = true -> is_span n = false.
Proof. intros <- A. destruct n as [d|y a ks|d|ks|d]; auto. cbn [node_name] in A. unfold is_span. cbn [named]. now apply article_name_none. Qed.
Lemma spaced_alone ks : spaced ks = true -> alone is_bold_or_italic ks = true /\ alone is_inline_code_node ks = true.
Proof.
  induction ks as [|n r IH]; intros S; auto. cbn [spaced alone] in *. apply andb_true_iff in S as [S1 S2]. destruct (IH S2) as [-> ->]. rewrite !andb_true_r. destruct r as [|m r]; auto.
  apply andb_true_iff in S1. now rewrite !emphasis_named, !coded_named.
Qed.
Lemma leaf_no_span n : leaf n -> no_span n = true.
Proof. intros [d|x a d E|x a d E1 E2 D]; auto; unfold no_span; rewrite (span_not _ x); auto using emphasis_article, code_article. Qed.
Lemma piece_no_span n : piece n -> no_span n = true.
Proof. intros [m L|x a ks E _ F _|a ks F _]; auto using leaf_no_span. unfold no_span. rewrite (span_not _ x); auto using emphasis_article. Qed.
Lemma article_no_span n : form n -> no_span n = true.
Proof. intros [d|d|x a ps ks O _ _ _ _ _]; auto. unfold no_span. rewrite (span_not _ x); auto. unfold article_name. now rewrite O. Qed.
Section merging.
Variable mt : node -> bool.
Hypothesis Hmt : forall ks, spaced ks = true -> alone mt ks = true.
Hypothesis Hg : forall x a ks, outer_name x = true -> mt (Elem x a ks) = false.
Hypothesis Ho : forall d, mt (Text d) = false /\ mt (Other d) = false.
Lemma leaf_sparse n : leaf n -> sparse mt n = true.
Proof. intros [d|x a d E|x a d E1 E2 D]; auto. Qed.
Lemma pieces_sparse n : piece n -> sparse mt n = true.
Proof.
  intros [m L|x a ks E _ F S|a ks F S]; [now apply leaf_sparse| |]; cbn [sparse]; rewrite Hmt by auto; cbn [andb]; apply andb_true_iff; split; apply forall_list; (eapply Forall_impl; [|exact F]); auto using leaf_no_span, leaf_sparse.
Qed.
Lemma article_off n : form n -> mt n = false.
Proof. intros [d|d|x a ps ks O _ _ _ _ _]; try apply Ho. now apply Hg. Qed.
Lemma articles_alone ks : Forall form ks -> alone mt ks = true /\ forallb no_span ks = true.
Proof.
  induction 1 as [|n r A1 _ [IH1 IH2]]; auto. cbn [forallb alone]. rewrite IH1, IH2, (article_off n A1), (article_no_span n A1). cbn [andb negb]. destruct r; auto.
Qed.
Lemma mixed_alone ps ks : spaced ps = true -> Forall form ks -> alone mt (ps ++ ks) = true.
Proof.
  intros S F. apply Hmt in S. induction ps as [|n r IH]; [now apply articles_alone|]. cbn [app alone] in *. apply andb_true_iff in S as [S1 S2]. rewrite (IH S2), andb_true_r. destruct r as [|m r]; [|exact S1].
  destruct F as [|k ks A1 _]; auto. cbn [app]. rewrite (article_off k A1). now rewrite andb_false_r.
Qed.
Lemma article_sparse n : form n -> sparse mt n = true.
Proof.
  revert n. apply form_induction; auto.
  intros x a ps ks _ P S A F _ _. cbn [sparse]. rewrite mixed_alone by auto. cbn [andb]. rewrite !forallb_app. destruct (articles_alone ks A) as [_ ->]. rewrite (forall_list _ ks F), !andb_true_r.
  apply andb_true_iff. split; apply forall_list; (eapply Forall_impl; [|exact P]); auto using piece_no_span, pieces_sparse.
Qed.
Lemma merge_articles ns : mt (Doc ns) = false -> Forall form ns -> merge_adjacent mt (Doc ns) = Doc ns.
Proof.
  intros D A. unfold merge_adjacent. destruct (articles_alone ns A) as [A1 A2]. rewrite (proj1 (merge_sparse mt _)); auto.
  - cbn [sparse]. rewrite A1, A2. cbn [andb]. apply forall_list. eapply Forall_impl; [|exact A]. intros. now apply article_sparse.
  - intros M. congruence.
Qed.
End merging.
(** No space is added: emphasis contains text. *)
Fixpoint solid_emphasis (n : node) : bool :=
  match n with
  | Elem _ _ ks | Doc ks => (negb (is_bold_or_italic n) || (is_text (hd (Comment []) ks) && is_text (last ks (Comment [])))) && forallb solid_emphasis ks
  | _ => true
  end.
Lemma add_space_solid f : (forall n lt rt, solid_emphasis n = true -> add_space is_bold_or_italic is_inline_code_node f n lt rt = (n, lt, rt)) /\
  (forall todo done lt rt, forallb solid_emphasis todo = true -> add_space_list is_bold_or_italic is_inline_code_node f done todo lt rt = (rev done ++ todo, lt, rt)).
Proof.
  induction f as [|f [IH1 IH2]]; [split; auto|]. split.
  - intros n lt rt S. cbn [add_space]. assert (E : is_bold_or_italic n = false \/ exists d r e l, kids n = Text d :: r /\ kids n = l ++ [Text e]).
    { destruct n as [d|x a ks|d|ks|d]; auto. cbn [solid_emphasis] in S. apply andb_true_iff in S as [S _]. apply orb_true_iff in S as [S|S]; [left; now apply negb_true_iff|].
      right. apply andb_true_iff in S as [S1 S2]. cbn [kids]. destruct ks as [|[d| | | |] r]; try discriminate S1. destruct (exists_last (l := Text d :: r) ltac:(discriminate)) as (l & y & E). rewrite E in S2 |- *. rewrite last_last in S2. destruct y as [e| | | |]; try discriminate.
      exists d, r, e, l. now rewrite <- E. }
    assert (K : forallb solid_emphasis (kids n) = true).
    { destruct n as [d|x a ks|d|ks|d]; auto; cbn [solid_emphasis] in S; now apply andb_true_iff in S as [_ S]. }
    destruct E as [E|(d & r & e & l & E1 & E2)].
    + rewrite E. cbn [andb]. rewrite IH2 by auto. cbn [rev app]. now rewrite with_kids_id.
    + assert (A1 : opt_is is_inline_code_node (first_real_stack true (kids n :: rt)) = false) by (rewrite E1; reflexivity).
      assert (A2 : opt_is is_inline_code_node (first_real_stack false (rev (kids n) :: lt)) = false) by (rewrite E2, rev_app_distr; reflexivity).
      rewrite A1, andb_false_r, A2, andb_false_r. rewrite IH2 by auto. cbn [rev app]. now rewrite with_kids_id.
  - intros todo done lt rt S. cbn [add_space_list]. destruct todo as [|k r]; [now rewrite app_nil_r|]. cbn [forallb] in S. apply andb_true_iff in S as [S1 S2].
    rewrite IH1 by auto. cbn [hd tl]. rewrite IH2 by auto. cbn [rev]. now rewrite <- app_assoc.
Qed.
Lemma leaf_solid n : leaf n -> solid_emphasis n = true.
Proof. intros [d|x a d E|x a d E1 E2 D]; auto; cbn [solid_emphasis forallb]; now rewrite orb_true_r. Qed.
Lemma piece_solid n : piece n -> solid_emphasis n = true.
Proof.
  intros [m L|x a ks E C F S|a ks F S]; [now apply leaf_solid| |]; cbn [solid_emphasis].
  - unfold emphasis_content in C. apply andb_true_iff in C as [-> _]. rewrite orb_true_r. cbn [andb]. apply forall_list. eapply Forall_impl; [|exact F]. auto using leaf_solid.
  - apply forall_list. eapply Forall_impl; [|exact F]. auto using leaf_solid.
Qed.
Lemma article_solid n : form n -> solid_emphasis n = true.
Proof.
  revert n. apply form_induction; auto.
  intros x a ps ks O P _ _ F _ _. cbn [solid_emphasis]. unfold is_bold_or_italic. rewrite named_not by now apply outer_none. cbn [negb orb andb]. rewrite forallb_app. apply andb_true_iff. split; apply forall_list; auto. eapply Forall_impl; [|exact P]. auto using piece_solid.
Qed.
Lemma leaf_article n : form n -> leaf_alternatives false false n = [n].
Proof.
  assert (L : forall f i m, leaf m -> leaf_alternatives f i m = [m]).
  { intros f i m [d|x a d E|x a d E1 E2 D]; auto; cbn [leaf_alternatives flat_map app].
    - assert (Q : is_container x || is_leaf_block x = false) by (apply emphasis_cases in E; repeat (destruct E as [<-|E]; [reflexivity|]); destruct E). now rewrite Q.
    - assert (Q : is_container x || is_leaf_block x = false) by (apply code_cases in E2; repeat (destruct E2 as [<-|E2]; [reflexivity|]); destruct E2). now rewrite Q. }
  assert (Lp : forall f i m, piece m -> leaf_alternatives f i m = [m]).
  { intros f i. assert (K : forall x a ks, is_container x || is_leaf_block x = false -> Forall leaf ks -> leaf_alternatives f i (Elem x a ks) = [Elem x a ks]).
    { intros x a ks X F. cbn [leaf_alternatives]. rewrite X. cbn [andb]. rewrite flat_same; auto. eapply Forall_impl; [|exact F]. intros. now apply L. }
    intros m [k Lk|x a ks E _ F _|a ks F _]; auto. apply K; auto. apply emphasis_cases in E; repeat (destruct E as [<-|E]; [reflexivity|]); destruct E. }
  revert n. apply form_induction; auto.
  intros x a ps ks O P _ _ F _ Hi. cbn [leaf_alternatives orb]. rewrite flat_map_app, andb_false_r. rewrite (flat_same _ ps) by (eapply Forall_impl; [|exact P]; auto).
  destruct ks as [|k ks]; [reflexivity|]. destruct (Hi ltac:(discriminate)) as [-> ->]. now rewrite (flat_same _ (k :: ks)).
Qed.
Lemma inline_list_not x : name_in inline_names x = true -> is_list_name x = false.
Proof. intros A. apply name_of_in in A. repeat (destruct A as [<-|A]; [reflexivity|]). destruct A. Qed.
Lemma inline_all n : piece n -> all_names (fun x => name_in inline_names x) n = true.
Proof.
  assert (E1 : forall x, strong_element x || em_element x = true -> name_in inline_names x = true) by (intros x E; apply emphasis_cases in E; apply in_name; unfold inline_names; rewrite app_assoc; apply in_app_iff; now left).
  assert (E2 : forall x, code_element x = true -> name_in inline_names x = true) by (intros x E; apply code_cases in E; apply in_name; unfold inline_names; rewrite !in_app_iff; auto).
  assert (L : forall m, leaf m -> all_names (fun x => name_in inline_names x) m = true) by (intros m [d|x a d E|x a d _ E _]; auto; cbn [all_names forallb]; [rewrite E1|rewrite E2]; auto).
  intros [m Lm|x a ks E _ F _|a ks F _]; auto; cbn [all_names]; [rewrite E1 by auto|]; try change (name_in inline_names (b "a")) with true; cbn [andb]; apply forall_list; (eapply Forall_impl; [|exact F]); auto.
Qed.
Lemma move_inline n : all_names (fun x => name_in inline_names x) n = true -> move_list_items n = n.
Proof.
  induction n as [d|x a ks IH|d|ks IH|d] using node_induction; intros A; auto; cbn [move_list_items all_names] in *.
  - apply andb_true_iff in A as [A1 A2]. rewrite (all_map _ _ _ IH A2). now rewrite inline_list_not.
  - now rewrite (all_map _ _ _ IH A).
Qed.
Lemma move_id n : form n -> move_list_items n = n.
Proof.
  revert n. apply form_induction; auto. intros x a ps ks O P _ _ F Hl _. cbn [move_list_items]. assert (Fp : Forall (fun n => move_list_items n = n) ps) by (eapply Forall_impl; [|exact P]; intros; now apply move_inline, inline_all). rewrite map_app, (map_same _ ps Fp), (map_same _ ks F).
  assert (E : is_list_name x = list_name x) by (unfold is_list_name, list_name, name_in; cbn [existsb]; now rewrite orb_false_r). rewrite E. destruct (list_name x); auto. destruct (Hl eq_refl) as [-> I]. cbn [app]. now rewrite regroup_id.
Qed.
Lemma doc_map (f : node -> node) ns : (forall n, form n -> f n = n) -> Forall form ns -> map f ns = ns.
Proof. intros H A. apply map_same. eapply Forall_impl; [|exact A]. auto. Qed.
Lemma doc_flat (f : node -> list node) ns : (forall n, form n -> f n = [n]) -> Forall form ns -> flat_map f ns = ns.
Proof. intros H A. apply flat_same. eapply Forall_impl; [|exact A]. auto. Qed.
Variable ns : list node.
Hypothesis A : Forall form ns.
Lemma commonmark_pre_article e : commonmark_pre e (Doc ns) = Doc ns.
Proof.
  unfold commonmark_pre. cbv zeta.
  rewrite rename_id by (apply articles_none; auto).
  assert (E : remove_redundant class_bold_italic (Doc ns) = Doc ns) by (unfold remove_redundant; cbn [redundant hd]; now rewrite (doc_flat _ ns redundant_emphasis A)).
  rewrite E. clear E.
  rewrite merge_articles; auto; [|intros ks S; now apply spaced_alone|intros x a ks G; apply named_not, outer_none; auto].
  assert (E : remove_empty_code (Doc ns) = Doc ns).
  { cbn [remove_empty_code]. f_equal. fold drop_code. apply doc_flat; auto. intros n An. destruct (empty_code_article n An) as [E1 E2]. unfold drop_code. now rewrite E2, E1. }
  rewrite E. clear E.
  assert (E : swap_tags is_inline_code_node is_pre (Doc ns) = Doc ns).
  { cbn [swap_tags]. f_equal. apply doc_map; auto. intros n. apply swap_article; [intros x a ks G; apply named_not, outer_none; auto|].
    intros x a ks _ F k I. rewrite Forall_forall in F. destruct (F k I) as [d|y c d E|y c d E1 E2 D]; auto; apply named_not; [apply emphasis_cases in E; rename E into Q|apply code_cases in E2; rename E2 into Q]; repeat (destruct Q as [<-|Q]; [reflexivity|]); destruct Q. }
  rewrite E. clear E.
  rewrite merge_articles; auto; [|intros ks S; now apply spaced_alone|intros x a ks G; apply named_not, outer_none; auto].
  assert (E : add_space_root is_bold_or_italic is_inline_code_node (Doc ns) = Doc ns).
  { unfold add_space_root. rewrite (proj1 (add_space_solid _)); auto. cbn [solid_emphasis]. change (is_bold_or_italic (Doc ns)) with false. cbn [negb orb andb]. apply forall_list. eapply Forall_impl; [|exact A]. intros. now apply article_solid. }
  rewrite E. clear E.
  assert (E : remove_redundant class_link (Doc ns) = Doc ns) by (unfold remove_redundant; cbn [redundant hd]; now rewrite (doc_flat _ ns redundant_link A)).
  rewrite E. clear E.
  assert (E : swap_tags is_bold_or_italic is_link (Doc ns) = Doc ns).
  { cbn [swap_tags]. f_equal. apply doc_map; auto. intros n. apply swap_article; [intros x a ks G; apply named_not, outer_none; auto|].
    intros x a ks _ F k I. rewrite Forall_forall in F. destruct (F k I) as [d|y c d E|y c d E1 E2 D]; auto; apply named_not; [apply emphasis_cases in E; rename E into Q|apply code_cases in E2; rename E2 into Q]; repeat (destruct Q as [<-|Q]; [reflexivity|]); destruct Q. }
  rewrite E. clear E.
  assert (E : swap_tags is_link is_heading (Doc ns) = Doc ns).
  { cbn [swap_tags]. f_equal. apply doc_map; auto. intros n. apply swap_article; [intros x a ks G; apply named_not, outer_none; auto|].
    intros x0 a ks _ F k I. rewrite Forall_forall in F. destruct (F k I) as [d|y c d E|y c d E1 E2 D]; auto; apply named_not; [apply emphasis_cases in E; rename E into Q|apply code_cases in E2; rename E2 into Q]; repeat (destruct Q as [<-|Q]; [reflexivity|]); destruct Q. }
  rewrite E. clear E.
  assert (E : leaf_block_alternatives (Doc ns) = Doc ns).
  { unfold leaf_block_alternatives. cbn [leaf_alternatives hd]. f_equal. apply doc_flat; auto. apply leaf_article. }
  rewrite E. cbn [move_list_items]. f_equal. apply doc_map; auto using move_id.
Qed.
Lemma strike_pre_article e : strike_pre e (Doc ns) = Doc ns.
Proof.
  unfold strike_pre. rewrite (remove_redundant_id class_strike strike_names).
  - unfold is_strike. apply merge_adjacent_id. apply articles_none; auto.
  - intros x H. unfold class_strike. now rewrite H.
  - apply articles_none; auto.
Qed.
End passes.
