(** From the document to the formatting that is read (C67). *)
From Coq Require Import List NArith ZArith Bool String Lia ZifyBool ZifyNat ZifyN.
From Verif Require Import SpecDom DomFacts4 Bytes BytesFacts TextUtils TextFacts TextFacts2 RenderText RenderFacts RenderFacts2 RenderFacts4 RenderFacts5 Escape SpecEscape SpecText SpecText2
  SpecUrl UrlFacts Dom DomUtils Engine CommonMark SpecEngine EngineFacts SpecPipeline PipelineFacts SpecPlain SpecNode NodeFacts PanicFacts PlainFacts2 PlainFacts3 PlainFacts4 SpecBlocks BlockFacts0 BlockFacts
  BlockFacts1 BlockFacts2 BlockFacts3 BlockFacts4 BlockFacts8 RenderFacts3 EscapeFacts EscapeFacts4 EscapeFacts6 SpecInline InlineFacts1 InlineFacts2 InlineFacts3 InlineFacts4 InlineFacts5 InlineFacts6.
Import ListNotations.
Open Scope N_scope.
Open Scope list_scope.

(** ** Undoing the escapes in the parts *)
Lemma code_no7 d : quiet_code d = true -> ~ In 7 (inline_code_text d).
Proof.
  intros Q. destruct (code_written d Q) as (n & -> & _). unfold quiet_code in Q. rewrite !andb_true_iff in Q. destruct Q as [[[_ F] _] _]. rewrite forallb_forall in F.
  rewrite !in_app_iff. intros [I|[I|I]]; [apply repeat_spec in I; discriminate|apply F in I; discriminate|apply repeat_spec in I; discriminate].
Qed.
Section undo.
Variable url : bytes -> bytes.
Variable cfg : config.
Hypothesis Hcfg : usual_delimiters cfg.
Variables T T' : bytes -> bytes -> Prop.
Variables em em' inner inner' : node -> bytes -> Prop.
Hypothesis HE : forall n s o, em n s -> undone s o -> em' n o.
Hypothesis Hin : forall n s o, inner n s -> undone s o -> inner' n o.
Lemma delimiter_no7 y : ~ In 7 (delimiter cfg y).
Proof. destruct (delimiter_cases cfg Hcfg y) as (c & k & -> & C & _). intros I. apply repeat_spec in I. lia. Qed.
Lemma drawn_undone n s o : (forall t, n = Text t -> T t s -> T' t o) -> drawn url cfg T em inner n s -> undone s o -> drawn url cfg T' em' inner' n o.
Proof.
  intros HT D U. destruct D as [t s H|y a ks ss El H|y a d C Q|a ks ss F P].
  - apply dr_text; eauto.
  - apply undone_app in U as (p & q & -> & U1 & U). apply undone_app in U as (m & r & -> & U2 & U3). apply undone_same in U1; [|apply delimiter_no7]. apply undone_same in U3; [|apply delimiter_no7]. subst.
    apply undone_parts in U2 as (os & -> & Fo). apply dr_emphasis; auto. clear - H Fo HE. revert os Fo. induction H as [|k s ks ss H F IH]; intros os Fo; inversion Fo; subst; constructor; eauto.
  - rewrite (undone_same _ _ U (code_no7 d Q)). now apply dr_code.
  - apply undone_cons in U as (p & -> & U); [|discriminate]. apply undone_app in U as (m & q & -> & U1 & U). apply undone_parts in U1 as (os & -> & Fo).
    rewrite (undone_same _ _ U).
    + apply dr_link; auto. clear - F Fo Hin. revert os Fo. induction F as [|k s ks ss H F IH]; intros os Fo; inversion Fo; subst; constructor; eauto.
    + destruct (address_parts _ P) as (_ & _ & _ & D). set (dest := url _) in *. clearbody dest. unfold dest_and_title. cbn [is_empty app In]. rewrite in_app_iff. cbn [In].
      intros I. decompose [or] I; try discriminate; try contradiction. match goal with J : In 7 dest |- _ => apply D in J; lia end.
Qed.
End undo.
(** Bytes that do not occur *)
Lemma concat_none (inner : node -> bytes -> Prop) z ks ss : (forall n s, inner n s -> ~ In z s) -> Forall2 inner ks ss -> ~ In z (List.concat ss).
Proof.
  intros Hi F I. apply in_concat in I as (s & J1 & J2). induction F as [|k u ks ss H F IH]; [contradiction|]. destruct J1 as [->|J1]; [eapply Hi; eauto|auto].
Qed.
Lemma drawn_none url cfg (Hcfg : usual_delimiters cfg) (T : bytes -> bytes -> Prop) (em inner : node -> bytes -> Prop) z n s : z = 0 \/ z = 9 \/ z = 13 -> (forall t s, T t s -> ~ In z s) -> (forall n s, em n s -> ~ In z s) -> (forall n s, inner n s -> ~ In z s) -> drawn url cfg T em inner n s -> ~ In z s.
Proof.
  intros Z HT Hx Hi D. destruct D as [t s H|y a ks ss El H|y a d C Q|a ks ss F P].
  - eauto.
  - destruct (delimiter_cases cfg Hcfg y) as (c & k & -> & C & _). rewrite !in_app_iff. intros [I|[I|I]]; [apply repeat_spec in I; lia|exact (concat_none em z ks ss Hx H I)|apply repeat_spec in I; lia].
  - destruct (code_written d Q) as (j & -> & _). rewrite !in_app_iff. intros [I|[I|I]]; [apply repeat_spec in I; lia| |apply repeat_spec in I; lia].
    unfold quiet_code in Q. rewrite !andb_true_iff in Q. destruct Q as [[[_ Q] _] _]. rewrite forallb_forall in Q. apply Q in I. destruct Z as [Z|[Z|Z]]; subst z; discriminate.
  - destruct (address_parts _ P) as (_ & _ & _ & D). set (dest := url _) in *. clearbody dest. unfold dest_and_title. cbn [is_empty app In]. rewrite in_app_iff. cbn [In]. rewrite in_app_iff. cbn [In].
    intros I. decompose [or] I; try lia.
    + match goal with J : In z (List.concat ss) |- _ => exact (concat_none inner z ks ss Hi F J) end.
    + match goal with J : In z dest |- _ => apply D in J; lia end.
Qed.

(** ** The text of a link ends at the bracket *)
Inductive tame : bytes -> Prop :=
| tame_nil : tame []
| tame_char c s : c <> 91 -> c <> 92 -> c <> 93 -> tame s -> tame (c :: s)
| tame_escape c s : tame s -> tame (92 :: c :: s).
Lemma tame_app x y : tame x -> tame y -> tame (x ++ y).
Proof. induction 1; intros H'; auto; cbn [app]; [apply tame_char|apply tame_escape]; auto. Qed.
Lemma tame_all s : (forall c, In c s -> c <> 91 /\ c <> 92 /\ c <> 93) -> tame s.
Proof. induction s as [|c s IH]; intros H; constructor; try (apply H; now left). apply IH. intros; apply H; now right. Qed.
Lemma tame_until s : tame s -> forall r, until_bracket O false (s ++ 93 :: r) = Some (s, r).
Proof.
  induction 1 as [|c s A B C H IH|c s H IH]; intros r.
  - reflexivity.
  - cbn [app until_bracket]. replace (c =? 93) with false by lia. replace (c =? 91) with false by lia. replace (c =? 92) with false by lia. now rewrite IH.
  - cbn [app until_bracket]. change (92 =? 93) with false. change (92 =? 91) with false. change (92 =? 92) with true. cbv iota. now rewrite IH.
Qed.
Lemma shown_tame t o : shown_as t o -> tame o.
Proof.
  induction 1 as [|c t o Q N S IH|c t o Q A S IH|t o S IH|t o S IH]; [constructor| | | |].
  - apply tame_char; auto; apply (quiet_not c); auto; cbn; tauto.
  - now apply tame_escape.
  - repeat (apply tame_char; [discriminate|discriminate|discriminate|]). exact IH.
  - repeat (apply tame_char; [discriminate|discriminate|discriminate|]). exact IH.
Qed.
Definition quiet_final (t o : bytes) : Prop := quiet_text t = true /\ shown_as t o.
Definition busy_final (t o : bytes) : Prop := busy_text t = true /\ busy_as t o.
Lemma quiet_final_busy t o : quiet_final t o -> busy_final t o.
Proof. intros [Q S]. split; [now apply quiet_is_busy|now apply shown_busy]. Qed.
Section final.
Variables wb wa : bytes -> class.
Variable url : bytes -> bytes.
Variable cfg : config.
Hypothesis Hcfg : usual_delimiters cfg.
Notation leaf_final := (drawn url cfg quiet_final (only quiet_final) (fun _ _ => False)).
Notation piece_final := (drawn url cfg busy_final leaf_final leaf_final).
Lemma leaves_tame ks os : Forall2 leaf_final ks os -> forall prev before, runs url cfg None prev before ks = true -> tame (List.concat os).
Proof.
  induction 1 as [|n o ks os D F IH]; intros prev before R; [constructor|]. cbn [runs] in R. apply andb_true_iff in R as [R1 R]. cbn [List.concat].
  destruct (kind_of n) as [k|] eqn:K; [|discriminate]. apply andb_true_iff in R as [_ R]. apply tame_app; eauto. destruct D as [t s [Q H]|y a gs ss E G|y a d C Q|a gs ss G P].
  - eapply shown_tame; eauto.
  - assert (Td : tame (delimiter cfg y)). { destruct (delimiter_cases cfg Hcfg y) as (c & j & -> & C & _). apply tame_all. intros z I. apply repeat_spec in I. lia. }
    repeat apply tame_app; auto. clear - G. induction G as [|k s ks ss [t o [_ H]] G IH]; [constructor|]. cbn [List.concat]. apply tame_app; auto. eapply shown_tame; eauto.
  - destruct (run_code url cfg _ _ _ _ _ _ R1 C) as (d' & [= <-] & _ & B). specialize (B eq_refl). destruct (code_written d Q) as (j & -> & _). rewrite forallb_forall in B.
    assert (Tr : forall m, tame (repeat 96 m)) by (intros m; apply tame_all; intros z I; apply repeat_spec in I; lia). repeat apply tame_app; auto. apply tame_all. intros z I. apply B in I. cbn [existsb] in I. lia.
  - destruct (run_link _ _ _ _ _ _ R1 eq_refl) as (_ & _ & _ & _ & _ & _ & [=] & _).
Qed.
Lemma final_written edge link_read (top : bool) (T : bytes -> bytes -> Prop) em inner n o : (forall t o, T t o -> if top then busy_as t o else shown_as t o) ->
  (forall y a ks ss, n = Elem y a ks -> strong_element y || em_element y = true -> Forall2 em ks ss -> reads_inside wb wa edge link_read url cfg top y ks (List.concat ss)) ->
  (forall a ks ss, n = Elem (b "a") a ks -> Forall2 inner ks ss -> tame (List.concat ss) /\ link_read (List.concat ss) = Some (flat_map (formatted url) ks)) ->
  drawn url cfg T em inner n o -> written wb wa edge link_read url cfg top n o.
Proof.
  intros HT He Hi D. destruct D as [t s H|y a gs ss E G|y a d C Q|a gs ss G P].
  - apply w_text. now apply HT.
  - apply w_emphasis; auto. exact (He y a gs ss eq_refl E G).
  - destruct (code_written d Q) as (j & E & R). rewrite E in R |- *. cbn [repeat app] in R |- *. apply w_code; auto; [now apply strong_not_code|].
    exists (repeat 96 j ++ d ++ repeat 96 j). rewrite <- !app_assoc. do 2 f_equal. apply repeat_cons.
  - destruct (Hi a gs ss eq_refl G) as [Ht Hr]. destruct (address_parts _ P) as (Nd & _ & Nl & D). set (dest := url _) in *. apply w_link; auto.
    + exists (40 :: dest). reflexivity.
    + intros rest. now apply tame_until.
    + intros rest. fold dest. destruct (tail_read dest [] rest) as (o & E & _); eauto.
      * split; auto. intros (z & E). now apply Nl in E.
      * intros (z & [(y & E)|E]); now apply app_cons_not_nil in E.
Qed.
Lemma leaves_written edge link_read ks os : Forall2 leaf_final ks os -> forall prev before, runs url cfg None prev before ks = true -> Forall2 (written wb wa edge link_read url cfg false) ks os.
Proof.
  induction 1 as [|n o ks os D F IH]; intros prev before R; constructor; cbn [runs] in R; apply andb_true_iff in R as [R1 R].
  - eapply final_written; [| | |exact D].
    + now intros t w [_ H].
    + intros y a gs ss -> E G. destruct (run_emphasis _ _ _ _ _ _ _ _ R1 E) as (d & -> & Q). inversion G as [|? p ? ? P G']; subst. inversion G'; subst. inversion P as [? ? [_ S]]; subst. cbn [List.concat]. rewrite app_nil_r. apply reads_text; auto. now apply quiet_ne.
    + intros a gs ss -> G. destruct (run_link _ _ _ _ _ _ R1 eq_refl) as (_ & _ & _ & _ & _ & _ & [=] & _).
  - destruct (kind_of n) as [k|] eqn:K; [|discriminate]. apply andb_true_iff in R as [_ R]. eapply IH; eauto.
Qed.
Lemma link_text_read ks os : link_content url cfg ks = true -> Forall2 leaf_final ks os ->
  tame (List.concat os) /\ read_plain_inline wb wa (List.concat os) = Some (flat_map (formatted url) ks).
Proof.
  intros L F. pose proof (filled_runs _ _ L) as R. split; [eapply leaves_tame; eauto|]. unfold read_plain_inline. eapply (read_filled wb wa Punct ltac:(discriminate) _ url cfg Hcfg false None); eauto.
  eapply leaves_written; eauto.
Qed.
Lemma pieces_written ks os : Forall2 piece_final ks os -> forall prev before, runs url cfg (Some (link_content url cfg)) prev before ks = true ->
  Forall2 (written wb wa Blank (read_plain_inline wb wa) url cfg true) ks os.
Proof.
  induction 1 as [|n o ks os D F IH]; intros prev before R; constructor; cbn [runs] in R; apply andb_true_iff in R as [R1 R].
  - eapply final_written; [| | |exact D].
    + now intros t w [_ H].
    + intros y a gs ss -> E G. destruct (run_emphasis _ _ _ _ _ _ _ _ R1 E) as [L C]. apply reads_leaves; auto; try discriminate. eapply leaves_written; eauto. exact (filled_runs _ _ L).
    + intros a gs ss -> G. destruct (run_link _ _ _ _ _ _ R1 eq_refl) as (? & ? & gs' & p & [= <- <- <-] & _ & [= <-] & _ & Pg & _). now apply link_text_read.
  - destruct (kind_of n) as [k|] eqn:K; [|discriminate]. apply andb_true_iff in R as [_ R]. eapply IH; eauto.
Qed.
Lemma paragraph_read ks os : paragraph url cfg ks = true -> Forall2 piece_final ks os -> read_inline wb wa (List.concat os) = Some (flat_map (formatted url) ks).
Proof.
  intros L F. pose proof (filled_runs _ _ L) as R. unfold read_inline. eapply (read_filled wb wa Blank ltac:(discriminate) _ url cfg Hcfg true (Some (link_content url cfg))); eauto.
  eapply pieces_written; eauto.
Qed.
Lemma busy_final_sound t s : busy_final t s -> text_sound t s.
Proof. intros [Q H]. now apply busy_sound. Qed.
Lemma quiet_final_sound t s : quiet_final t s -> text_sound t s.
Proof. intros H. now apply busy_final_sound, quiet_final_busy. Qed.
Lemma leaf_final_sound n s : leaf_final n s -> sound n s.
Proof. apply drawn_sound; auto using quiet_final_sound; [apply only_sound, quiet_final_sound|contradiction]. Qed.
Lemma piece_final_sound n s : piece_final n s -> sound n s.
Proof. apply drawn_sound; auto using busy_final_sound; apply leaf_final_sound. Qed.
(** A line of its own *)
Lemma final_line ks os : paragraph url cfg ks = true -> Forall2 piece_final ks os -> nm (List.concat os) = true /\ ~ In 10 (List.concat os) /\ blank (List.concat os) = false.
Proof.
  intros P F. destruct (concat_sound piece_final piece_final_sound ks os F) as [A B]. split; auto. split; auto. destruct F as [|n o ks os D F]; [discriminate|].
  destruct (piece_final_sound n o D) as (_ & _ & c & u & -> & C1 & C2). unfold paragraph, filled in P. rewrite !andb_true_iff in P. destruct P as [[P _] _]. cbn [List.concat app]. unfold blank. cbn [forallb].
  destruct (c =? 32) eqn:E; [|replace (c =? 9) with false by lia; reflexivity]. rewrite C1 in P by lia. discriminate.
Qed.
End final.
