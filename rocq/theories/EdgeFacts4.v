(** Rendering a tree without markers keeps visible bytes around the code block newlines (C19). *)
From Coq Require Import List NArith ZArith Bool String Lia ZifyBool ZifyNat ZifyN.
From Verif Require Import Bytes BytesFacts TextUtils RenderText Escape SpecEscape EscapeFacts EscapeFacts6 SpecDom SpecText TextFacts TextFacts2 RenderFacts RenderFacts3 RenderFacts4
  Dom DomUtils Engine CommonMark Table RenderInv LetterFacts SpecPlain SpecTrim PlainFacts2 EdgeFacts EdgeFacts2 EdgeFacts3.
Import ListNotations.
Open Scope N_scope.
Open Scope list_scope.

Section tree.
Variable strict : bool.
Notation ok := (edge_node strict).
Notation edged := (edged strict).
Lemma edge_elem_inv x a ks : ok (Elem x a ks) -> forallb (fun kv => unmarked (snd kv)) a = true /\ (strict = true -> x <> b "pre") /\ Forall ok ks.
Proof.
  unfold edge_node. cbn [tree_ok]. intros H. apply andb_true_iff in H as [H1 H2]. unfold edge_elem in H1. apply andb_true_iff in H1 as [H1 H3]. repeat split; auto.
  - intros St ->. rewrite St, beqb_refl in H3. discriminate.
  - apply Forall_forall. intros k I. rewrite forallb_forall in H2. now apply H2.
Qed.
Lemma edge_kids n : ok n -> Forall ok (kids n).
Proof.
  destruct n as [d|x a ks|d|ks|d]; intros H; cbn [kids]; try constructor; [now apply edge_elem_inv in H|]. unfold edge_node in H. cbn [tree_ok] in H. apply Forall_forall. intros k I.
  rewrite forallb_forall in H. now apply H.
Qed.
Lemma unmarked_attr a key : forallb (fun kv => unmarked (snd kv)) a = true -> unmarked (attr_or key [] a) = true.
Proof.
  induction a as [|[x v] a IH]; intros H; [reflexivity|]. cbn [forallb] in H. apply andb_true_iff in H as [H1 H2]. cbn [attr_or]. destruct (beqb x key); auto.
Qed.
Lemma unmarked_node_attr n key : ok n -> unmarked (node_attr n key []) = true.
Proof. destruct n as [d|x a ks|d|ks|d]; intros H; try reflexivity. apply edge_elem_inv in H as (H & _). now apply unmarked_attr. Qed.
Lemma calm_code n : ok n -> calm (code_text n).
Proof.
  assert (K : forall ks, Forall (fun n => ok n -> calm (code_text n)) ks -> Forall ok ks -> calm (flat_map code_text ks)).
  { induction 1 as [|k ks Hk F IH]; intros G; [apply calm_nil|]. inversion G; subst. cbn [flat_map]. apply calm_app; auto. }
  induction n as [d|x a ks IH|d|ks IH|d] using node_induction; intros H; cbn [code_text]; try apply calm_nil.
  - now apply unmarked_calm.
  - apply edge_elem_inv in H as (_ & _ & H). destruct (name_in _ _); [apply calm_nil|]. apply calm_app; auto. destruct (name_in _ _); [ascii|apply calm_nil].
  - apply edge_kids in H. auto.
Qed.
Definition low_text (w : bytes) : Prop := Forall (fun c => c < 128) w.
Lemma unmarked_first old s : old <> [] -> low_text old -> unmarked s = true -> unmarked (replace_first old [] s) = true.
Proof.
  intros N L. assert (G : exists u v, s = u ++ v /\ (replace_first old [] s = s \/ exists v', v = old ++ v' /\ replace_first old [] s = u ++ v')).
  { induction s as [|c s IH].
    - exists [], []. split; auto. destruct old; cbn; auto.
    - cbn [replace_first]. destruct (has_prefix old (c :: s)) eqn:E.
      + exists [], (c :: s). split; auto. right. exists (skipn (List.length old) (c :: s)). split; auto. apply has_prefix_iff in E as (r & E). rewrite E. f_equal.
        clear. induction old; auto.
      + destruct IH as (u & v & E1 & [E2|(v' & E2 & E3)]).
        * exists [], (c :: s). split; auto. left. now rewrite E2.
        * exists (c :: u), v. split; [cbn [app]; congruence|]. right. exists v'. split; auto. cbn [app]. congruence. }
  destruct G as (u & v & E & [->|(v' & Ev & ->)]); auto. intros H. rewrite E in H. subst v.
  assert (Hv : unmarked v' = true) by (apply unmarked_suffix in H; now apply unmarked_suffix in H).
  apply unmarked_app; auto. destruct old as [|c old].
  - congruence.
  - apply unmarked_prefix in H; auto. cbn [app]. inversion L; subst. unfold continuation. lia.
Qed.
Lemma unmarked_parts sep s : sep < 128 -> unmarked s = true -> Forall (fun x => unmarked x = true) (split_on sep s).
Proof.
  intros L H. rewrite <- (split_join sep s) in H. induction (split_on sep s) as [|x [|y l] IH]; [constructor|constructor; [exact H|constructor]|].
  rewrite join_cons in H by easy. constructor; [|apply IH; now apply unmarked_suffix in H; apply (unmarked_suffix [sep])].
  apply unmarked_prefix in H; auto. cbn [app]. unfold continuation. lia.
Qed.
Lemma unmarked_language class : unmarked class = true -> unmarked (code_language class) = true.
Proof.
  intros H. unfold code_language. assert (F : Forall (fun x => unmarked x = true) (split_on cSP class)) by (apply unmarked_parts; auto; unfold cSP; lia).
  induction F as [|x l Hx F IH]; [reflexivity|]. cbn [first_language]. destruct (_ || _); auto.
  apply unmarked_first; [discriminate|repeat constructor; lia|]. apply unmarked_first; [discriminate|repeat constructor; lia|auto].
Qed.
Lemma unmarked_languages n : ok n -> Forall (fun x => unmarked x = true) (code_languages n).
Proof.
  assert (K : forall ks, Forall (fun n => ok n -> Forall (fun x => unmarked x = true) (code_languages n)) ks -> Forall ok ks ->
    Forall (fun x => unmarked x = true) (flat_map code_languages ks)).
  { induction 1 as [|k ks Hk F IH]; intros G; [constructor|]. inversion G; subst. cbn [flat_map]. apply Forall_app. auto. }
  induction n as [d|x a ks IH|d|ks IH|d] using node_induction; intros H; cbn [code_languages]; try constructor.
  - apply edge_elem_inv in H as (A & _ & H). apply Forall_app. split; [destruct (name_in _ _); constructor; [|constructor]; now apply unmarked_language, unmarked_attr|].
    destruct (name_in _ _); [constructor|auto].
  - apply edge_kids in H. auto.
Qed.
Lemma unmarked_info n : ok n -> unmarked (code_info n) = true.
Proof.
  intros H. apply unmarked_languages in H. unfold code_info. destruct (filter _ _) as [|x l] eqn:E; [reflexivity|]. cbn [hd].
  assert (I : In x (filter (fun l => negb (is_empty l)) (code_languages n))) by (rewrite E; now left). apply filter_In in I as [I _]. rewrite Forall_forall in H. auto.
Qed.

Variables (e : env) (ts : list text_handler).
Hypothesis Hun : forall s, unescape_fn e s = s \/ unbelled s (unescape_fn e s).
Hypothesis Hts : forall d c, unmarked d = true -> calm (fold_left (fun s t => t e c s) ts d).
Hypothesis Hurl : forall tag raw, unmarked raw = true -> unmarked (assemble_url e tag raw) = true.
Lemma edged_un x : edged x -> edged (unescape_fn e x).
Proof. intros H. destruct (Hun x) as [->|U]; auto. eapply edged_grow; [exact H|]. intros k T. eapply toks_unbelled; eauto. Qed.
Lemma edge_closed :
  closed e ts false (fun _ => false) (fun _ => []) (fun _ x => edged x) edged edged True ok edge_cfg calm True.
Proof.
  assert (V : forall n, vis false (fun _ => false) (fun _ => []) n = []) by now apply vis_nil.
  split; auto.
  - apply edge_kids.
  - intros n _ _. unfold below_vis. induction (kids n); simpl; auto. now rewrite V.
  - apply edged_nil.
  - intros. now apply edged_app.
  - apply edged_calm. ascii.
  - intros d c H. apply edged_calm. now apply Hts.
  - intros cfg l x (_ & H & _). now apply edged_emphasis.
  - intros cfg l x (H & _). now apply edged_emphasis.
  - intros d l x H. now apply edged_emphasis.
  - intros cfg (_ & _ & H & _). unfold divider_text. apply edged_calm. apply (calm_app [cNL; cNL]); [ascii|]. apply calm_app; [auto|ascii].
  - apply edged_calm. ascii.
  - intros cfg n ul start ls items (_ & _ & _ & H & _) P N F. apply edged_list; auto; [apply edged_un|]. clear - F. induction F; constructor; auto.
  - intros cfg n (_ & _ & _ & _ & H) P N. apply edged_block; auto; [now apply unmarked_calm, unmarked_info|now apply calm_code|].
    destruct n as [d|x a ks|d|ks|d]; try discriminate. apply edge_elem_inv in P as (_ & P & _). cbn [node_name] in N. destruct strict; auto. now elim P.
  - intros n P N. apply edged_calm, calm_inline. now apply calm_code.
  - intros l x. apply edged_quote.
  - intros setext level n x _ _ P N H. now apply edged_heading.
  - intros n P. apply edged_calm, calm_image; apply unmarked_calm; try now apply unmarked_node_attr. apply Hurl, unmarked_trim. now apply unmarked_node_attr.
  - intros cfg n l x t _ P H E. eapply edged_link; [| | |exact E]; auto; apply unmarked_calm; [apply Hurl, unmarked_trim|]; now apply unmarked_node_attr.
  - apply edged_calm. ascii.
  - intros _ l x H. unfold cell_text. apply edged_un. eapply edged_grow; [now apply edged_trim, H|]. intros k T. eapply toks_rebelled; [exact T|apply replace_rebelled].
  - intros _. apply edged_nil.
  - intros _ x H. unfold cNL. apply edged_swap; auto; try lia. ascii.
  - intros _ k x _ _ H. now apply edged_trim.
  - intros _ n tcfg aligns rows cap _ _. apply edged_table.
  - discriminate.
Qed.
End tree.

(** ** The text handlers *)
Lemma toks_entity k s : toks k s -> exists k', toks k' (entity_replace s) /\ grow k k'.
Proof.
  assert (L1 : toks [true; true; true; true] (b "&lt;")) by (change (b "&lt;") with [38; 108; 116; 59]; repeat (apply tk_ink; [byte|]); constructor).
  assert (L2 : toks [true; true; true; true] (b "&gt;")) by (change (b "&gt;") with [38; 103; 116; 59]; repeat (apply tk_ink; [byte|]); constructor).
  induction 1 as [|k c s C T (k' & A & B)|k c s C T (k' & A & B)|k c s C1 C2 C3 T (k' & A & B)|k s T (k' & A & B)|k a y s X Y W T (k' & A & B)]; cbn [entity_replace].
  - exists []. split; constructor.
  - destruct (c =? 60); [|destruct (c =? 62)].
    + exists ([true; true; true; true] ++ k'). split; [|cbn [app]; apply gr_same; repeat apply gr_ins; auto]. apply (toks_app [true; true; true; true]); auto.
    + exists ([true; true; true; true] ++ k'). split; [|cbn [app]; apply gr_same; repeat apply gr_ins; auto]. apply (toks_app [true; true; true; true]); auto.
    + exists (true :: k'). split; [now apply tk_ink|now constructor].
  - exists k'. split; auto. cbn [entity_replace] in A. change (b "&lt;") with [38; 108; 116; 59] in *. change (b "&gt;") with [38; 103; 116; 59] in *. change (7 =? 60) with false. change (7 =? 62) with false. destruct (c =? 60); [|destruct (c =? 62)]; cbn [app] in *; apply tk_bell; auto; right; byte.
  - replace (c =? 60) with false by byte. replace (c =? 62) with false by byte. exists k'. split; auto. now apply tk_other.
  - exists (false :: k'). split; [now apply tk_mark|now constructor].
  - replace (a =? 60) with false by byte. replace (a =? 62) with false by byte. assert (y <> 60 /\ y <> 62) as [Y1 Y2] by (destruct Y; byte).
    replace (y =? 60) with false by lia. replace (y =? 62) with false by lia. exists k'. split; auto. now apply tk_wide.
Qed.
Lemma toks_escape l : (forall c, In c l -> inkb c) -> forall k s, toks k s -> no_newline_mark s = true -> toks k (escape_content (is_escaped_in l) s).
Proof.
  intros Hl. assert (Hl' : forall c, In c l -> c < 128 /\ c <> 0 /\ c <> 7 /\ ~ ws_byte c) by (intros c I; apply Hl in I; unfold ws_byte; byte).
  assert (No : forall c, ~ inkb c -> is_escaped_in l c = false) by (intros c N; destruct (is_escaped_in l c) eqn:Q; auto; apply esc_in, Hl in Q; contradiction).
  induction 1 as [|k c s C T IH|k c s C T IH|k c s C1 C2 C3 T IH|k s T IH|k a y s X Y W T IH]; intros M; rewrite ?(escape_cons l Hl').
  - constructor.
  - apply (nm_suffix [c]) in M. specialize (IH M). replace (c =? 0) with false by byte. destruct (is_escaped_in l c); cbn [app]; [apply tk_bell; auto|]; now apply tk_ink.
  - apply (nm_suffix [7]) in M. specialize (IH M). rewrite (escape_cons l Hl') in IH. replace (c =? 0) with false in * by byte. replace (7 =? 0) with false by reflexivity. rewrite (No 7) by byte. cbn [app].
    destruct (is_escaped_in l c); cbn [app] in *; apply tk_bell; auto.
  - apply (nm_suffix [c]) in M. specialize (IH M). rewrite (No c) by auto. destruct (c =? 0); cbn [app]; [apply tk_wide; auto; byte|now apply tk_other].
  - apply (nm_suffix [239; 128; 130]) in M. specialize (IH M). change (239 =? 0) with false. change (128 =? 0) with false. change (130 =? 0) with false. rewrite !No by byte. cbn [app]. now apply tk_mark.
  - pose proof M as M'. apply (nm_suffix [239; a; y]) in M. specialize (IH M). rewrite nm_cons, N.eqb_refl in M'. apply andb_true_iff in M' as [M' _]. unfold continuation in M'.
    change (239 =? 0) with false. rewrite (No 239), (No a), (No y) by byte. replace (a =? 0) with false by byte. replace (y =? 0) with false by byte.
    cbn [app]. now apply tk_wide.
Qed.
Lemma nm_rebelled s o : rebelled s o -> no_newline_mark s = true -> no_newline_mark o = true.
Proof.
  assert (G : forall s o, rebelled s o -> no_newline_mark s = true -> no_newline_mark o = true /\
    forall x y r, s = x :: y :: r -> continuation x = true -> continuation y = true -> exists r', o = x :: y :: r').
  { clear. induction 1 as [|c s o T IH|s o T IH]; intros H.
    - split; auto. discriminate.
    - rewrite nm_cons in H. apply andb_true_iff in H as [H1 H2]. destruct (IH H2) as [A B]. split.
      + rewrite nm_cons, A, andb_true_r. destruct (c =? 239); auto. destruct s as [|x [|y r]]; try discriminate.
        apply andb_true_iff in H1 as [H1 H3]. apply andb_true_iff in H1 as [H1 H1']. destruct (B x y r eq_refl H1 H1') as (r' & ->). now rewrite H1, H1', H3.
      + intros x y r [= -> ->] X Y. inversion T as [|? ? o' T'|? ? T']; subst; [eauto|discriminate].
    - rewrite nm_ascii in H by lia. destruct (IH H) as [A B]. split; [now rewrite nm_ascii by lia|]. intros x y r [= <- ->] X. discriminate. }
  intros R H. now apply (G s o).
Qed.
Definition pure (s : bytes) : Prop := calm s /\ no_newline_mark s = true.
Lemma pure_unmarked s : unmarked s = true -> pure s.
Proof. intros H. split; [now apply unmarked_calm|]. unfold unmarked in H. now apply andb_true_iff in H. Qed.
Lemma pure_base e l c s : (escape_fn e = fun s => s) \/ escape_fn e = escape_content (is_escaped_in l) -> (forall c, In c l -> inkb c) -> pure s -> pure (base_text e c s).
Proof.
  intros E Hl [A B]. unfold base_text. assert (P : pure (entity_replace s)). { split; [eapply calm_grow; [exact A|]; intros k; apply toks_entity|now apply nm_entity]. }
  destruct E as [-> | ->]; auto. destruct P as [(k & C & D) F]. split.
  - exists k. split; auto. now apply toks_escape.
  - apply nm_escape; auto. intros x I. apply Hl in I. unfold ws_byte. byte.
Qed.
Lemma pure_link e c s : pure s -> pure (commonmark_text e c s).
Proof.
  intros [A B]. unfold commonmark_text. destruct (ctx_value _ _); [|now split]. split.
  - eapply calm_grow; [exact A|]. intros k T. eapply toks_rebelled; [exact T|apply replace_rebelled].
  - eapply nm_rebelled; [apply replace_rebelled|auto].
Qed.
