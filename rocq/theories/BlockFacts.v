(** Steps of the preparation that do nothing on pages (C64). *)
From Coq Require Import List NArith ZArith Bool String Lia ZifyBool ZifyNat ZifyN Permutation Sorted.
From Verif Require Import Bytes BytesFacts TextUtils TextFacts2 RenderFacts RenderText Escape SpecEscape Dom DomUtils Collapse SpecDom SpecText SpecPlain Engine CommonMark Table SpecEngine
  EngineFacts RenderInv SpecPipeline SpecNode PipelineFacts DomFacts DomFacts2 DomFacts3 SpecBlocks BlockFacts0.
Import ListNotations.
Open Scope N_scope.
Open Scope list_scope.

(** ** Passes that look for elements of some names *)
Fixpoint all_names (p : bytes -> bool) (n : node) : bool :=
  match n with
  | Elem x _ ks => p x && forallb (all_names p) ks
  | Doc ks => forallb (all_names p) ks
  | _ => true
  end.
Definition none_of (l : list bytes) : node -> bool := all_names (fun x => negb (name_in l x)).
Lemma all_map (f : node -> node) p ks : Forall (fun k => all_names p k = true -> f k = k) ks -> forallb (all_names p) ks = true -> map f ks = ks.
Proof.
  induction 1 as [|k ks H _ IH]; intros A; auto. cbn [forallb map] in *. apply andb_true_iff in A as [A1 A2]. now rewrite H, IH.
Qed.
Lemma all_flat (f : node -> list node) p ks : Forall (fun k => all_names p k = true -> f k = [k]) ks -> forallb (all_names p) ks = true -> flat_map f ks = ks.
Proof.
  induction 1 as [|k ks H _ IH]; intros A; auto. cbn [forallb flat_map] in *. apply andb_true_iff in A as [A1 A2]. now rewrite H, IH.
Qed.
Lemma rename_id n : none_of [b "span"] n = true -> rename_fake_spans n = n.
Proof.
  unfold none_of. induction n as [d|x a ks IH|d|ks IH|d] using node_induction; intros A; auto; cbn [rename_fake_spans all_names] in *.
  - apply andb_true_iff in A as [A1 A2]. rewrite (all_map _ _ _ IH A2). apply negb_true_iff in A1. unfold name_in in A1. cbn [existsb] in A1.
    apply orb_false_iff in A1 as [-> _]. reflexivity.
  - now rewrite (all_map _ _ _ IH A).
Qed.
Lemma redundant_id cls l n : (forall x, name_in l x = false -> cls x = None) -> none_of l n = true -> forall anc, redundant cls anc n = [n].
Proof.
  intros C A anc. revert A. unfold none_of. induction n as [d|x a ks IH|d|ks IH|d] using node_induction; intros A; auto; cbn [redundant all_names] in *.
  - apply andb_true_iff in A as [A1 A2]. apply negb_true_iff in A1. rewrite (C x A1). now rewrite (all_flat _ _ _ IH A2).
  - now rewrite (all_flat _ _ _ IH A).
Qed.
Lemma remove_redundant_id cls l n : (forall x, name_in l x = false -> cls x = None) -> none_of l n = true -> remove_redundant cls n = n.
Proof. intros C A. unfold remove_redundant. now rewrite (redundant_id cls l n C A). Qed.
Lemma with_kids_id n : with_kids n (kids n) = n.
Proof. now destruct n. Qed.
Lemma none_named l n : none_of l n = true -> named l n = false.
Proof. destruct n as [d|x a ks|d|ks|d]; auto. cbn. intros A. apply andb_true_iff in A as [A _]. now apply negb_true_iff in A. Qed.
Lemma none_kids l n : none_of l n = true -> forallb (none_of l) (kids n) = true.
Proof. destruct n as [d|x a ks|d|ks|d]; auto. cbn. intros A. now apply andb_true_iff in A as [_ A]. Qed.
Lemma merge_none l fuel : (forall n st, none_of l n = true -> merge_adj (named l) fuel n st = (n, st)) /\
  (forall ks st, forallb (none_of l) ks = true -> merge_adj_list (named l) fuel ks st = (ks, st)).
Proof.
  induction fuel as [|f [IH1 IH2]]; [split; auto|]. split.
  - intros n st A. cbn [merge_adj]. rewrite (none_named l n A). rewrite app_nil_r, IH2 by now apply none_kids. now rewrite with_kids_id.
  - intros ks st A. cbn [merge_adj_list]. destruct ks as [|k r]; auto. cbn [forallb] in A. apply andb_true_iff in A as [A1 A2].
    rewrite IH1 by auto. cbn [hd tl]. now rewrite IH2.
Qed.
Lemma merge_adjacent_id l n : none_of l n = true -> merge_adjacent (named l) n = n.
Proof. intros A. unfold merge_adjacent. now rewrite (proj1 (merge_none l _)). Qed.
Lemma add_space_none l inner fuel : (forall n lt rt, none_of l n = true -> add_space (named l) inner fuel n lt rt = (n, lt, rt)) /\
  (forall todo done lt rt, forallb (none_of l) todo = true -> add_space_list (named l) inner fuel done todo lt rt = (rev done ++ todo, lt, rt)).
Proof.
  induction fuel as [|f [IH1 IH2]]; [split; auto|]. split.
  - intros n lt rt A. cbn [add_space]. rewrite (none_named l n A). cbn [andb]. rewrite IH2 by now apply none_kids. cbn [rev app]. now rewrite with_kids_id.
  - intros todo done lt rt A. cbn [add_space_list]. destruct todo as [|k r]; [now rewrite app_nil_r|]. cbn [forallb] in A. apply andb_true_iff in A as [A1 A2].
    rewrite IH1 by auto. cbn [hd tl]. rewrite IH2 by auto. cbn [rev]. now rewrite <- app_assoc.
Qed.
Lemma add_space_id l inner n : none_of l n = true -> add_space_root (named l) inner n = n.
Proof. intros A. unfold add_space_root. now rewrite (proj1 (add_space_none l inner _)). Qed.
Lemma swap_none l inner n : none_of l n = true -> swap_tags (named l) inner n = n.
Proof.
  unfold none_of. induction n as [d|x a ks IH|d|ks IH|d] using node_induction; intros A; auto; cbn [swap_tags].
  - assert (N := none_named l _ A). rewrite N. cbn [all_names] in A. apply andb_true_iff in A as [_ A]. now rewrite (all_map _ _ _ IH A).
  - cbn [all_names] in A. now rewrite (all_map _ _ _ IH A).
Qed.
(** ** Pages during the preparation *)
Lemma holds_block x : holds_text x = true -> is_block_name x = true.
Proof.
  intros H. unfold holds_text, name_in in H. apply existsb_exists in H as (y & I & E). apply beqb_eq in E. subst y.
  cbn [map In] in I. repeat (destruct I as [<-|I]; [reflexivity|]). destruct I.
Qed.
(** [loose]: blank texts and other nodes are still there; [ended]: the comments behind lists are there; [T] holds of the texts of the
    blocks. Before and after the node: whether there was a text and no block yet after it. *)
Definition one_text (T : bytes -> Prop) (ks : list node) (t : bytes) : Prop := ks = [] /\ t = [] \/ ks = [Text t] /\ T t.
Definition list_name (x : bytes) : bool := name_in [b "ul"; b "ol"] x.
Section trees.
Variables (cfg : config) (loose ended : bool) (T : bytes -> Prop).
Inductive qpage : bool -> node -> list block -> bool -> Prop :=
| q_blank d : loose = true -> forallb separates d = true -> qpage false (Text d) [] false
| q_text d : T d -> one_spaced d <> [] -> readable_block (one_spaced d) = true -> qpage false (Text d) [Paragraph (plain (one_spaced d))] true
| q_other d p : loose = true -> qpage p (Other d) [] p
| q_head x a k ks t p : level_of x = Some k -> one_text T ks t -> readable_block (one_spaced t) = true -> (p = true -> one_spaced t <> []) ->
    qpage p (Elem x a ks) (some_text (Heading k) (one_spaced t)) false
| q_rule a p : qpage p (Elem (b "hr") a []) [Rule] false
| q_pre a ks i d p : code_in (Elem (b "pre") a ks) = Some (i, d) -> readable_code d = true ->
    qpage p (Elem (b "pre") a ks) [Code i (without_final_newline d)] false
| q_list x a ks its p : list_name x = true -> qitems ks its -> list_ok two_of cfg (Elem x a []) (nonempty_items its) = true ->
    qpage p (Elem x a ks) [Items (list_number (Elem x a [])) (nonempty_items its)] false
| q_block x a ks B p q : groups x = true -> holds_text x = true -> qpages false ks B q -> qpage p (Elem x a ks) B false
| q_inline x a ks B p q : groups x = true -> holds_text x = false -> qpages p ks B q -> qpage p (Elem x a ks) B q
with qpages : bool -> list node -> list block -> bool -> Prop :=
| qs_nil p : qpages p [] [] p
| qs_cons n ns B C p q r : qpage p n B q -> qpages q ns C r -> qpages p (n :: ns) (B ++ C) r
| qs_ended x a ks ns B C p q r : ended = true -> list_name x = true -> qpage p (Elem x a ks) B q -> qpages q ns C r ->
    qpages p (Elem x a ks :: Comment end_comment_data :: ns) (B ++ C) r
with qitems : list node -> list (list block) -> Prop :=
| qi_nil : qitems [] []
| qi_blank d ks its : loose = true -> forallb separates d = true -> qitems ks its -> qitems (Text d :: ks) ([] :: its)
| qi_item a js B q ks its : qpages false js B q -> qitems ks its -> qitems (Elem (b "li") a js :: ks) (B :: its).
Scheme qpage_mind := Minimality for qpage Sort Prop with qpages_mind := Minimality for qpages Sort Prop with qitems_mind := Minimality for qitems Sort Prop.
Combined Scheme qpage_all from qpage_mind, qpages_mind, qitems_mind.
End trees.

Definition anyt : bytes -> Prop := fun _ => True.
Lemma level_cases x k : level_of x = Some k -> In (x, k) heading_names_of.
Proof.
  unfold level_of. destruct (find _ heading_names_of) as [[y j]|] eqn:E; [|discriminate]. intros [= <-]. apply find_some in E as [E1 E2].
  apply beqb_eq in E2. cbn [fst] in E2. now subst.
Qed.
(** Names of the elements of a page *)
Definition page_name (x : bytes) : bool := groups x || name_in (map fst heading_names_of ++ [b "hr"; b "pre"; b "code"; b "ul"; b "ol"; b "li"]) x.
Lemma groups_not x y : groups x = true -> groups y = false -> beqb x y = false.
Proof. intros A B. destruct (beqb x y) eqn:E; auto. apply beqb_eq in E. congruence. Qed.
Lemma page_name_not x y : page_name x = true -> page_name y = false -> beqb x y = false.
Proof. intros A B. destruct (beqb x y) eqn:E; auto. apply beqb_eq in E. congruence. Qed.
Lemma groups_none l x : groups x = true -> forallb (fun y => negb (groups y)) l = true -> name_in l x = false.
Proof.
  intros G. unfold name_in. induction l as [|y l IH]; auto. cbn [forallb existsb]. intros H. apply andb_true_iff in H as [H1 H2].
  apply negb_true_iff in H1. now rewrite (groups_not x y), IH.
Qed.
Lemma page_none l x : page_name x = true -> forallb (fun y => negb (page_name y)) l = true -> name_in l x = false.
Proof.
  intros G. unfold name_in. induction l as [|y l IH]; auto. cbn [forallb existsb]. intros H. apply andb_true_iff in H as [H1 H2].
  apply negb_true_iff in H1. now rewrite (page_name_not x y), IH.
Qed.
Lemma level_page_name x k : level_of x = Some k -> page_name x = true.
Proof. intros H. apply level_cases in H. repeat (destruct H as [[= <- <-] | H]; [reflexivity|]). destruct H. Qed.
Lemma groups_page_name x : groups x = true -> page_name x = true.
Proof. intros H. unfold page_name. now rewrite H. Qed.
Lemma code_in_cases a ks i d : code_in (Elem (b "pre") a ks) = Some (i, d) ->
  (ks = [Text d] /\ i = [] /\ language (Elem (b "pre") a ks) [] = true) \/
  (exists c, ks = [Elem (b "code") c [Text d]] /\ d <> [] /\ i = language_in (Elem (b "code") c [Text d]) /\ language (Elem (b "pre") a ks) [] = true /\
     language (Elem (b "code") c [Text d]) i = true).
Proof.
  unfold code_in. cbn [kids]. destruct ks as [|[e|y c gs|e|gs|e] [|k' ks]]; try discriminate.
  - destruct (language _ []) eqn:L; [|discriminate]. intros [= <- <-]. auto.
  - destruct gs as [|[e|y' c' gs|e|gs|e] [|k' ks]]; try discriminate. cbv zeta.
    destruct (beqb y (b "code")) eqn:Y; [|discriminate]. apply beqb_eq in Y. subst y. cbn [andb].
    destruct e as [|e0 e]; [discriminate|]. cbn [is_empty negb andb].
    destruct (language (Elem (b "pre") a _) []) eqn:L; [|discriminate]. cbn [andb].
    destruct (language (Elem (b "code") c _) _) eqn:L2; [|discriminate]. intros [= <- <-]. right. exists c. repeat split; auto. easy.
  - now destruct gs as [|[e|y' c' gs|e|gs|e] [|]].
Qed.
(** ** Trees on which the steps of handlePreRender do nothing *)
Definition pre_kids (ks : list node) : bool :=
  match ks with
  | [Text _] => true
  | [Elem y _ [Text d]] => beqb y (b "code") && negb (is_empty d)
  | _ => false
  end.
Definition is_text (n : node) : bool := match n with Text _ => true | _ => false end.
Definition item_kid (n : node) : bool := match n with Text d => forallb separates d | _ => named [b "li"] n end.
Definition plain_name (x : bytes) : bool := groups x || name_in [b "hr"; b "ul"; b "ol"; b "li"] x.
Fixpoint quiet (n : node) : bool :=
  match n with
  | Text _ | Other _ => true
  | Elem x a ks =>
      match level_of x with
      | Some _ => forallb is_text ks
      | None => if beqb x (b "pre") then pre_kids ks
                else plain_name x && (negb (beqb x (b "hr")) || is_empty ks) && (negb (list_name x) || forallb item_kid ks) && forallb quiet ks
      end
  | _ => false
  end.
Lemma quiet_cases x a ks : quiet (Elem x a ks) = true ->
  (exists k, level_of x = Some k /\ forallb is_text ks = true) \/ (x = b "pre" /\ pre_kids ks = true) \/
  (plain_name x = true /\ (x = b "hr" -> ks = []) /\ (list_name x = true -> forallb item_kid ks = true) /\ forallb quiet ks = true).
Proof.
  cbn [quiet]. destruct (level_of x) as [k|]; [eauto|]. destruct (beqb x (b "pre")) eqn:E; [intros H; right; left; apply beqb_eq in E; auto|].
  rewrite !andb_true_iff, !orb_true_iff, !negb_true_iff. intros [[[P1 P2] P3] P4]. right. right. split; auto. split; [|split; auto].
  - intros ->. destruct P2 as [P2|P2]; [discriminate|]. now destruct ks.
  - intros L. destruct P3; [congruence|auto].
Qed.
Lemma plain_not x y : plain_name x = true -> plain_name y = false -> beqb x y = false.
Proof. intros A B. destruct (beqb x y) eqn:E; auto. apply beqb_eq in E. congruence. Qed.
Lemma plain_none l x : plain_name x = true -> forallb (fun y => negb (plain_name y)) l = true -> name_in l x = false.
Proof.
  intros G. unfold name_in. induction l as [|y l IH]; auto. cbn [forallb existsb]. intros H. apply andb_true_iff in H as [H1 H2].
  apply negb_true_iff in H1. now rewrite (plain_not x y), IH.
Qed.
Lemma plain_page_name x : plain_name x = true -> page_name x = true.
Proof.
  unfold plain_name, page_name. intros H. apply orb_true_iff in H as [->|H]; auto. unfold name_in in H. apply existsb_exists in H as (y & I & E). apply beqb_eq in E. subst y.
  cbn [In] in I. repeat (destruct I as [<-|I]; [reflexivity|]). destruct I.
Qed.
Lemma pre_kids_cases ks : pre_kids ks = true -> (exists d, ks = [Text d]) \/ exists c d, ks = [Elem (b "code") c [Text d]] /\ d <> [].
Proof.
  destruct ks as [|[e|y c gs|e|gs|e] [|k' ks]]; try discriminate; [eauto| |].
  - destruct gs as [|[e|y' c' gs|e|gs|e] [|k' ks]]; try discriminate. cbn [pre_kids]. intros H. apply andb_true_iff in H as [H1 H2]. apply beqb_eq in H1. subst y.
    right. exists c, e. split; auto. intros ->. discriminate.
  - now destruct gs as [|[e|y' c' gs|e|gs|e] [|]].
Qed.
Lemma texts_map (f : node -> node) ks : (forall d, f (Text d) = Text d) -> forallb is_text ks = true -> map f ks = ks.
Proof.
  intros H. induction ks as [|k ks IH]; intros A; auto. cbn [forallb map] in *. apply andb_true_iff in A as [A1 A2]. destruct k; try discriminate. now rewrite H, IH.
Qed.
Lemma texts_flat (f : node -> list node) ks : (forall d, f (Text d) = [Text d]) -> forallb is_text ks = true -> flat_map f ks = ks.
Proof.
  intros H. induction ks as [|k ks IH]; intros A; auto. cbn [forallb flat_map] in *. apply andb_true_iff in A as [A1 A2]. destruct k; try discriminate. now rewrite H, IH.
Qed.
Lemma quiet_map (f : node -> node) ks : Forall (fun k => quiet k = true -> f k = k) ks -> forallb quiet ks = true -> map f ks = ks.
Proof.
  induction 1 as [|k ks H _ IH]; intros A; auto. cbn [forallb map] in *. apply andb_true_iff in A as [A1 A2]. now rewrite H, IH.
Qed.
Lemma quiet_flat (f : node -> list node) ks : Forall (fun k => quiet k = true -> f k = [k]) ks -> forallb quiet ks = true -> flat_map f ks = ks.
Proof.
  induction 1 as [|k ks H _ IH]; intros A; auto. cbn [forallb flat_map] in *. apply andb_true_iff in A as [A1 A2]. now rewrite H, IH.
Qed.
Lemma texts_names p ks : forallb is_text ks = true -> forallb (all_names p) ks = true.
Proof. induction ks as [|k ks IH]; intros A; auto. cbn [forallb] in *. apply andb_true_iff in A as [A1 A2]. destruct k; try discriminate. cbn. auto. Qed.
Lemma quiet_names p n : (forall x, page_name x = true -> p x = true) -> quiet n = true -> all_names p n = true.
Proof.
  intros Hp. induction n as [d|x a ks IH|d|ks IH|d] using node_induction; auto; try discriminate. intros Q. cbn [all_names].
  apply quiet_cases in Q as [(k & L & Q)|[(-> & Q)|(P & _ & _ & Q)]].
  - rewrite Hp by eauto using level_page_name. now apply texts_names.
  - rewrite Hp by reflexivity. apply pre_kids_cases in Q as [(d & ->)|(c & d & -> & _)]; auto. cbn [forallb all_names]. now rewrite Hp.
  - rewrite Hp by now apply plain_page_name. clear - IH Q. induction IH as [|k ks H _ IH]; auto. cbn [forallb] in *. apply andb_true_iff in Q as [Q1 Q2]. now rewrite H, IH.
Qed.
Lemma quiet_none l ns : forallb (fun y => negb (page_name y)) l = true -> forallb quiet ns = true -> none_of l (Doc ns) = true.
Proof.
  intros Hl Q. unfold none_of. cbn [all_names]. induction ns as [|n ns IH]; auto. cbn [forallb] in *. apply andb_true_iff in Q as [Q1 Q2]. rewrite IH, quiet_names; auto.
  intros x X. cbn beta. now rewrite page_none.
Qed.
Lemma quiet_doc (f : node -> node) ns : (forall n, quiet n = true -> f n = n) -> forallb quiet ns = true -> map f ns = ns.
Proof. intros H Q. apply quiet_map; auto. apply Forall_forall. auto. Qed.
Lemma level_not x k y : level_of x = Some k -> level_of y = None -> beqb x y = false.
Proof. intros A B. destruct (beqb x y) eqn:E; auto. apply beqb_eq in E. congruence. Qed.
Lemma level_none l x k : level_of x = Some k -> forallb (fun y => match level_of y with None => true | _ => false end) l = true -> name_in l x = false.
Proof.
  intros G. unfold name_in. induction l as [|y l IH]; auto. cbn [forallb existsb]. intros H. apply andb_true_iff in H as [H1 H2].
  destruct (level_of y) eqn:L; [discriminate|]. now rewrite (level_not x k y), IH.
Qed.

(** ** The other steps of handlePreRender *)
Definition drop_code (k : node) : list node := if is_empty_code k then [] else [remove_empty_code k].
Lemma empty_code_id n : quiet n = true -> remove_empty_code n = n /\ is_empty_code n = false.
Proof.
  assert (Nc : forall x a ks, beqb x (b "code") = false -> is_empty_code (Elem x a ks) = false).
  { intros x a ks E. unfold is_empty_code. cbn [named name_in existsb]. now rewrite E. }
  assert (Pl : forall x a ks, beqb x (b "code") = false -> flat_map drop_code ks = ks -> remove_empty_code (Elem x a ks) = Elem x a ks /\ is_empty_code (Elem x a ks) = false).
  { intros x a ks E F. split; auto. cbn [remove_empty_code]. rewrite Nc by auto. fold drop_code. now rewrite F. }
  induction n as [d|x a ks IH|d|ks IH|d] using node_induction; auto; try discriminate. intros Q.
  apply quiet_cases in Q as [(k & L & Q)|[(-> & Q)|(P & _ & _ & Q)]].
  - apply Pl; [now apply (level_not x k)|]. now apply texts_flat.
  - apply Pl; auto. apply pre_kids_cases in Q as [(d & ->)|(c & d & -> & D)]; auto.
    cbn [flat_map]. assert (E : is_empty_code (Elem (b "code") c [Text d]) = false).
    { unfold is_empty_code. cbn [has_text existsb]. destruct d; [easy|]. cbn [is_empty negb orb]. now rewrite andb_false_r. }
    unfold drop_code. rewrite E. cbn [app]. f_equal. cbn [remove_empty_code]. rewrite E. reflexivity.
  - apply Pl; [now apply plain_not|]. apply quiet_flat; auto. eapply Forall_impl; [|exact IH]. cbn. intros k Hk Qk. destruct (Hk Qk) as [E1 E2]. unfold drop_code. now rewrite E2, E1.
Qed.
Lemma named_not l x a ks : name_in l x = false -> named l (Elem x a ks) = false.
Proof. auto. Qed.
Lemma swap_plain outer inner x a ks : outer (Elem x a ks) = false -> map (swap_tags outer inner) ks = ks -> swap_tags outer inner (Elem x a ks) = Elem x a ks.
Proof. intros H M. cbn [swap_tags]. now rewrite H, M. Qed.
Lemma swap_code_id n : quiet n = true -> swap_tags is_inline_code_node is_pre n = n.
Proof.
  induction n as [d|x a ks IH|d|ks IH|d] using node_induction; auto; try discriminate. intros Q.
  apply quiet_cases in Q as [(k & L & Q)|[(-> & Q)|(P & _ & _ & Q)]].
  - apply swap_plain; [apply named_not; now apply (level_none _ x k)|now apply texts_map].
  - apply swap_plain; auto. apply pre_kids_cases in Q as [(d & ->)|(c & d & -> & _)]; auto. cbn [map]. f_equal. cbn [swap_tags filter].
    destruct (is_inline_code_node _); auto. destruct (is_blank_text (Text d)); auto.
  - apply swap_plain; [apply named_not, plain_none; auto|]. now apply quiet_map.
Qed.
Lemma merge_code_id fuel : (forall n st, quiet n = true -> merge_adj is_inline_code_node fuel n st = (n, st)) /\
  (forall ns st, forallb quiet ns = true -> merge_adj_list is_inline_code_node fuel ns st = (ns, st)).
Proof.
  induction fuel as [|f [IH1 IH2]]; [split; auto|].
  assert (K0 : forall st, merge_adj_list is_inline_code_node f [] st = ([], st)) by now destruct f.
  assert (Pl : forall x a ks st, is_inline_code_node (Elem x a ks) = false -> (forall st, merge_adj_list is_inline_code_node f ks st = (ks, st)) ->
    merge_adj is_inline_code_node (S f) (Elem x a ks) st = (Elem x a ks, st)).
  { intros x a ks st H1 H2. cbn [merge_adj]. rewrite H1. cbn [kids]. now rewrite app_nil_r, H2. }
  split.
  - intros n st Q. destruct n as [d|x a ks|d|ks|d]; try discriminate.
    + cbn [merge_adj is_inline_code_node named kids app]. rewrite K0. reflexivity.
    + apply quiet_cases in Q as [(k & L & Q)|[(-> & Q)|(P & _ & _ & Q)]].
      * apply Pl; [apply named_not; now apply (level_none _ x k)|]. intros st'. apply IH2. clear - Q. induction ks as [|k ks IH]; auto. cbn [forallb] in *. apply andb_true_iff in Q as [Q1 Q2]. rewrite IH by auto. now destruct k.
      * apply Pl; auto. apply pre_kids_cases in Q as [(d & ->)|(c & d & -> & _)]; auto. intros st'.
        destruct f as [|f]; auto. cbn [merge_adj_list]. destruct f as [|f].
        -- reflexivity.
        -- cbn [merge_adj]. change (is_inline_code_node (Elem (b "code") c [Text d])) with true. cbn [collect_adjacent kids]. rewrite app_nil_r.
           assert (Kf : forall st, merge_adj_list is_inline_code_node f [Text d] st = ([Text d], st)).
           { intros st2. destruct f as [|[|f]]; auto. cbn [merge_adj_list merge_adj is_inline_code_node named kids app hd tl with_kids]. destruct f; auto. }
           rewrite Kf. cbn [hd tl with_kids]. destruct f; auto.
      * apply Pl; [apply named_not, plain_none; auto|]. auto.
    + cbn [merge_adj is_inline_code_node named kids app]. rewrite K0. reflexivity.
  - intros ns st Q. destruct ns as [|n ns]; auto. cbn [forallb] in Q. apply andb_true_iff in Q as [Q1 Q2]. cbn [merge_adj_list]. rewrite IH1 by auto. cbn [hd tl]. rewrite IH2; auto.
Qed.
Lemma leaf_id n : quiet n = true -> leaf_alternatives false false n = [n].
Proof.
  assert (Pl : forall x a ks, flat_map (leaf_alternatives (is_leaf_block x) (is_inline_name x)) ks = ks -> leaf_alternatives false false (Elem x a ks) = [Elem x a ks]).
  { intros x a ks H. cbn [leaf_alternatives orb]. now rewrite H, andb_false_r. }
  induction n as [d|x a ks IH|d|ks IH|d] using node_induction; auto; try discriminate. intros Q.
  apply quiet_cases in Q as [(k & L & Q)|[(-> & Q)|(P & Hr & _ & Q)]]; apply Pl.
  - now apply texts_flat.
  - apply pre_kids_cases in Q as [(d & ->)|(c & d & -> & _)]; auto.
  - destruct (beqb x (b "hr")) eqn:E. { apply beqb_eq in E. now rewrite (Hr E). }
    assert (E1 : is_leaf_block x = false).
    { unfold is_leaf_block. assert (A : name_in [b "pre"; b "h1"; b "h2"; b "h3"; b "h4"; b "h5"; b "h6"] x = false) by now apply plain_none.
      cbn [map]. unfold name_in in *. cbn [existsb] in *. rewrite E. exact A. }
    assert (E2 : is_inline_name x = false) by now apply plain_none. rewrite E1, E2. now apply quiet_flat.
Qed.
Lemma separates_space d : forallb separates d = true -> trim_space d = [].
Proof.
  intros H. assert (E : trim_left d = []).
  { induction d as [|c d IH]; auto. cbn [forallb] in H. apply andb_true_iff in H as [H1 H2]. unfold separates in H1.
    assert (C : c = 32 \/ c = 9 \/ c = 10 \/ c = 13) by lia. destruct C as [->|[->|[->| ->]]]; exact (IH H2). }
  unfold trim_space. now rewrite E.
Qed.
Lemma regroup_id ks : forallb item_kid ks = true -> regroup ks = ks.
Proof.
  assert (G : forall done, forallb item_kid ks = true -> fold_left regroup_step ks done = rev ks ++ done).
  { induction ks as [|k ks IH]; intros done Q; auto. cbn [forallb fold_left rev] in *. apply andb_true_iff in Q as [Q1 Q2]. rewrite IH by auto. rewrite <- app_assoc. f_equal. cbn [app].
    unfold regroup_step. destruct k as [d|x a gs|d|gs|d]; try discriminate; cbn [item_kid] in Q1.
    - cbn [named is_blank_text]. rewrite separates_space by auto. reflexivity.
    - rewrite Q1. reflexivity. }
  intros Q. unfold regroup. now rewrite G, app_nil_r, rev_involutive.
Qed.
Lemma items_id n : quiet n = true -> move_list_items n = n.
Proof.
  induction n as [d|x a ks IH|d|ks IH|d] using node_induction; auto; try discriminate. intros Q. cbn [move_list_items].
  apply quiet_cases in Q as [(k & L & Q)|[(-> & Q)|(P & _ & Hi & Q)]].
  - rewrite texts_map by auto. assert (E : name_in [b "ul"; b "ol"] x = false) by now apply (level_none _ x k). unfold name_in in E. cbn [existsb] in E. apply orb_false_iff in E as [E1 E2].
    apply orb_false_iff in E2 as [E2 _]. unfold is_list_name. now rewrite E1, E2.
  - change (is_list_name (b "pre")) with false. cbv iota. apply pre_kids_cases in Q as [(d & ->)|(c & d & -> & _)]; auto.
  - rewrite quiet_map by auto. assert (E : is_list_name x = list_name x) by (unfold is_list_name, list_name, name_in; cbn [existsb]; now rewrite orb_false_r). rewrite E.
    destruct (list_name x); auto. now rewrite regroup_id by auto.
Qed.
Section passes.
Variable ns : list node.
Hypothesis Q : forallb quiet ns = true.
Lemma commonmark_pre_id e : commonmark_pre e (Doc ns) = Doc ns.
Proof.
  unfold commonmark_pre. cbv zeta.
  rewrite rename_id by (apply quiet_none; auto).
  assert (Cb : forall x, name_in (bold_names ++ italic_names) x = false -> class_bold_italic x = None).
  { intros x H. unfold class_bold_italic, name_in in *. rewrite existsb_app in H. apply orb_false_iff in H as [-> ->]. reflexivity. }
  assert (Cl : forall x, name_in [b "a"] x = false -> class_link x = None).
  { intros x H. unfold class_link, name_in in *. cbn [existsb] in H. apply orb_false_iff in H as [-> _]. reflexivity. }
  rewrite (remove_redundant_id class_bold_italic (bold_names ++ italic_names)) by (auto; apply quiet_none; auto).
  unfold is_bold_or_italic. rewrite merge_adjacent_id by (apply quiet_none; auto).
  assert (E : remove_empty_code (Doc ns) = Doc ns).
  { cbn [remove_empty_code]. f_equal. fold drop_code. apply quiet_flat; auto. apply Forall_forall. intros k _ Qk. destruct (empty_code_id k Qk) as [E1 E2]. unfold drop_code. now rewrite E2, E1. }
  rewrite E. clear E.
  assert (E : swap_tags is_inline_code_node is_pre (Doc ns) = Doc ns). { cbn [swap_tags]. f_equal. apply quiet_doc; auto using swap_code_id. }
  rewrite E. clear E.
  assert (E : merge_adjacent is_inline_code_node (Doc ns) = Doc ns).
  { unfold merge_adjacent. destruct (merge_fuel (Doc ns)); auto. cbn [merge_adj is_inline_code_node named kids]. rewrite app_nil_r.
    fold is_inline_code_node. rewrite (proj2 (merge_code_id _)); auto. }
  rewrite E. clear E.
  rewrite add_space_id by (apply quiet_none; auto).
  rewrite (remove_redundant_id class_link [b "a"]) by (auto; apply quiet_none; auto).
  rewrite swap_none by (apply quiet_none; auto). unfold is_link at 1. rewrite swap_none by (apply quiet_none; auto).
  assert (E : leaf_block_alternatives (Doc ns) = Doc ns).
  { unfold leaf_block_alternatives. cbn [leaf_alternatives hd]. f_equal. apply quiet_flat; auto. apply Forall_forall. intros k _ Qk. now apply leaf_id. }
  rewrite E. cbn [move_list_items]. f_equal. apply quiet_doc; auto using items_id.
Qed.
Lemma strike_pre_id e : strike_pre e (Doc ns) = Doc ns.
Proof.
  unfold strike_pre. rewrite (remove_redundant_id class_strike strike_names).
  - unfold is_strike. apply merge_adjacent_id. apply quiet_none; auto.
  - intros x H. unfold class_strike. now rewrite H.
  - apply quiet_none; auto.
Qed.
End passes.
(** Pages are such trees. *)
Lemma groups_level x : groups x = true -> level_of x = None /\ beqb x (b "pre") = false /\ beqb x (b "hr") = false /\ list_name x = false.
Proof.
  intros G. split; [|split; [|split]]; try (apply groups_not; auto); [|apply groups_none; auto].
  destruct (level_of x) as [k|] eqn:E; auto. apply level_cases in E. exfalso. repeat (destruct E as [[= <- <-] | E]; [discriminate|]). destruct E.
Qed.
Lemma list_cases x : list_name x = true -> x = b "ul" \/ x = b "ol".
Proof. unfold list_name, name_in. cbn [existsb]. rewrite orb_false_r. intros H. apply orb_true_iff in H as [H|H]; apply beqb_eq in H; auto. Qed.
Lemma qpage_quiet cfg loose T : (forall p n B q, qpage cfg loose false T p n B q -> quiet n = true) /\ (forall p ns B q, qpages cfg loose false T p ns B q -> forallb quiet ns = true) /\
  (forall ks its, qitems cfg loose false T ks its -> forallb quiet ks = true /\ forallb item_kid ks = true).
Proof.
  apply qpage_all; auto; try discriminate.
  - intros x a k ks t p L O _ _. cbn [quiet]. rewrite L. destruct O as [[-> _]|[-> _]]; reflexivity.
  - intros a ks i d p C _. cbn [quiet]. change (level_of (b "pre")) with (@None nat). change (beqb (b "pre") (b "pre")) with true. cbv iota.
    apply code_in_cases in C as [(-> & _)|(c & -> & D & _)]; auto. cbn. now destruct d.
  - intros x a ks its p L _ [Q1 Q2] _. apply list_cases in L as [-> | ->]; cbn [quiet].
    + change (level_of (b "ul")) with (@None nat). change (beqb (b "ul") (b "pre")) with false. cbv iota. rewrite Q1, Q2. reflexivity.
    + change (level_of (b "ol")) with (@None nat). change (beqb (b "ol") (b "pre")) with false. cbv iota. rewrite Q1, Q2. reflexivity.
  - intros x a ks B p q G _ _ Q. destruct (groups_level x G) as (E1 & E2 & E3 & E4). cbn [quiet]. unfold plain_name. now rewrite E1, E2, E3, E4, G, Q.
  - intros x a ks B p q G _ _ Q. destruct (groups_level x G) as (E1 & E2 & E3 & E4). cbn [quiet]. unfold plain_name. now rewrite E1, E2, E3, E4, G, Q.
  - intros n ns B C p q r _ Q1 _ Q2. cbn [forallb]. now rewrite Q1, Q2.
  - intros d ks its _ S _ [Q1 Q2]. cbn [forallb quiet item_kid]. now rewrite Q1, Q2, S.
  - intros a js B q ks its _ Q0 _ [Q1 Q2]. cbn [forallb item_kid named]. rewrite Q1, Q2. split; auto. rewrite andb_true_r. cbn [quiet].
    change (level_of (b "li")) with (@None nat). change (beqb (b "li") (b "pre")) with false. cbv iota. now rewrite Q0.
Qed.
