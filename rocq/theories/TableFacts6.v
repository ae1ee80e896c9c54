(** The cells of a rendered table cannot split a row (C35). *)
From Coq Require Import List NArith ZArith Bool String Lia ZifyBool ZifyNat ZifyN.
From Verif Require Import Bytes BytesFacts TextUtils RenderText Escape SpecEscape EscapeFacts EscapeFacts6 SpecDom SpecText TextFacts TextFacts2 RenderFacts RenderFacts3 RenderFacts4
  Dom DomUtils Engine CommonMark Table RenderInv PanicFacts LetterFacts SpecEngine SpecPipeline PipelineFacts LetterFacts2 SpecTable TableFacts TableFacts2 TableFacts3 TableFacts5.
Import ListNotations.
Open Scope N_scope.
Open Scope list_scope.

Lemma lacks_app x y : ~ In 124 x -> ~ In 124 y -> ~ In 124 (x ++ y).
Proof. intros A B I. apply in_app_iff in I as [I|I]; auto. Qed.
Lemma lacks_cons c x : c <> 124 -> ~ In 124 x -> ~ In 124 (c :: x).
Proof. intros A B [I|I]; auto. Qed.
Lemma lacks_replace old new s : old <> [] -> ~ In 124 new -> ~ In 124 s -> ~ In 124 (replace_all old new s).
Proof. intros N A B I. apply replace_back in I as [I|I]; auto. Qed.
Lemma lacks_repeat c k : c <> 124 -> ~ In 124 (repeat c k).
Proof. intros N I. apply repeat_spec in I. congruence. Qed.
Lemma bar_in s : has_bar s = false -> ~ In 124 s.
Proof.
  intros H I. assert (K : has_bar s = true); [|congruence]. apply existsb_exists. exists 124. split; auto.
Qed.
Ltac lit := vm_compute; intuition discriminate.
Lemma lacks_drop s : ~ In 124 s -> ~ In 124 (drop_last_newline s).
Proof.
  intros H. unfold drop_last_newline. destruct (has_suffix _ s); auto. intros I. apply H. destruct (snoc_cases s) as [->|(z & c & ->)]; [destruct I|].
  rewrite removelast_last in I. apply in_app_iff. auto.
Qed.
Lemma lacks_trim s : ~ In 124 s -> ~ In 124 (trim_space s). Proof. intros H I. now apply trim_space_in in I. Qed.
Lemma lacks_inline s : ~ In 124 s -> ~ In 124 (inline_code_text s).
Proof.
  intros H. unfold inline_code_text. destruct (is_empty _); [apply (lacks_app [96]); [lit|]; apply lacks_app; auto; lit|].
  cbv zeta. assert (K : ~ In 124 (collapse_inline_code s)).
  { unfold collapse_inline_code. cbv zeta. intros I. apply squeeze_in in I. revert I. apply lacks_trim. repeat (apply lacks_replace; [discriminate|lit|]). exact H. }
  set (code := collapse_inline_code s) in *. clearbody code.
  assert (K1 : ~ In 124 (if has_prefix [96] code then cSP :: code else code)) by (destruct (has_prefix _ _); auto; apply lacks_cons; auto; lit).
  set (code1 := if has_prefix [96] code then _ else _) in *. clearbody code1.
  repeat apply lacks_app; try (apply lacks_repeat; lit). destruct (has_suffix _ _); auto. apply lacks_app; auto; lit.
Qed.
Lemma hd_fence x : hd 96 x <> 124 -> forall code, ~ In 124 (calculate_code_fence (hd 96 x) code).
Proof. intros H code. unfold calculate_code_fence. now apply lacks_repeat. Qed.
Lemma lacks_block f info code : hd 96 f <> 124 -> ~ In 124 info -> ~ In 124 code -> ~ In 124 (block_code_text f info code).
Proof.
  intros Hf Hi Hc. unfold block_code_text. cbv zeta. set (code' := drop_last_newline code). assert (K : ~ In 124 code') by now apply lacks_drop.
  pose proof (hd_fence f Hf code'). apply (lacks_app [cNL; cNL]); [lit|]. repeat apply lacks_app; auto; try lit. apply lacks_replace; auto; [discriminate|lit].
Qed.
Lemma lacks_quotes s : ~ In 124 s -> ~ In 124 (surround_by_quotes s).
Proof.
  intros H. unfold surround_by_quotes, surround_by. destruct (is_empty s); [now intros []|]. destruct (_ && _); [|destruct (contains_byte _ _)];
    repeat apply lacks_app; auto; try lit. apply lacks_replace; auto; [discriminate|lit].
Qed.
Lemma lacks_dest d t : ~ In 124 d -> ~ In 124 t -> ~ In 124 (dest_and_title d t).
Proof.
  intros H1 H2. unfold dest_and_title. apply (lacks_app [40]); [lit|]. repeat apply lacks_app; auto; try lit. destruct (is_empty t); [now intros []|].
  apply lacks_cons; [lit|]. now apply lacks_quotes.
Qed.
Lemma lacks_alt s : ~ In 124 s -> ~ In 124 (escape_alt s).
Proof.
  unfold escape_alt. generalize false. induction s as [|c s IH]; intros p H; [now intros []|]. cbn [escape_alt_from].
  apply lacks_app; [|apply IH; intros I; apply H; now right]. assert (c <> 124) by (intros ->; apply H; now left).
  destruct (_ && _); repeat apply lacks_cons; auto; lit.
Qed.
Lemma lacks_image src title alt : ~ In 124 src -> ~ In 124 title -> ~ In 124 alt -> ~ In 124 (image_text src title alt).
Proof.
  intros H1 H2 H3. unfold image_text. cbv zeta. apply (lacks_app [33; 91]); [lit|]. apply lacks_app; [|apply (lacks_app [93]); [lit|]].
  - apply lacks_alt, lacks_replace; auto; [discriminate|lit].
  - apply lacks_dest; auto. apply lacks_replace; auto; [discriminate|lit].
Qed.
Lemma ok_link cfg href title x t : ~ In 124 href -> ~ In 124 title -> ok mark_or_bsl x -> link_text cfg href title x = Some t -> ok mark_or_bsl t.
Proof.
  intros H1 H2 H3. unfold link_text. destruct (_ && _); [discriminate|]. cbv zeta. destruct (_ && _); [discriminate|].
  pose proof (ok_surround mark_or_bsl m0 mws x H3) as S. destruct (surrounding_spaces x) as [[l y] r]. destruct S as (A & B & C).
  destruct (beqb _ _); [|discriminate]. intros E. apply (f_equal (fun o => match o with Some x => x | None => [] end)) in E. cbv beta iota in E. subst t. apply ok_app; auto using m0. apply (ok_app mark_or_bsl m0 [91]); [reflexivity|].
  apply ok_app; auto using m0; [apply ok_multi; auto using m0, mws; apply ok_tcn; auto using m0, mws|].
  apply (ok_app mark_or_bsl m0 [93]); [reflexivity|]. apply ok_app; auto using m0. apply ok_lacks. apply lacks_dest; auto.
  destruct (is_empty href); [now intros []|]. apply lacks_replace; auto; [discriminate|lit].
Qed.

(** ** Code in the tree *)
Lemma no_bar_code n : no_bar n = true -> ~ In 124 (code_text n).
Proof.
  assert (K : forall ks, Forall (fun n => no_bar n = true -> ~ In 124 (code_text n)) ks -> forallb no_bar ks = true -> ~ In 124 (flat_map code_text ks)).
  { intros ks F B I. apply in_flat_map in I as (k & Ik & I). rewrite Forall_forall in F. rewrite forallb_forall in B. exact (F k Ik (B k Ik) I). }
  induction n using node_induction; cbn [no_bar code_text]; auto.
  - intros B. apply negb_true_iff in B. now apply bar_in.
  - intros B. destruct (name_in _ _); [now intros []|]. apply lacks_app; [destruct (name_in _ _); [lit|now intros []]|]. now apply K.
Qed.
Lemma lacks_first old s : ~ In 124 s -> ~ In 124 (replace_first old [] s).
Proof.
  intros H I. apply H. clear H. induction s as [|c s IH]; [destruct old; destruct I|]. cbn [replace_first] in I. destruct (has_prefix old (c :: s)).
  - cbn [app] in I. rewrite <- (firstn_skipn (List.length old) (c :: s)). apply in_app_iff. auto.
  - destruct I as [I|I]; [now left|right; auto].
Qed.
Lemma lacks_language class : ~ In 124 class -> ~ In 124 (code_language class).
Proof.
  intros H. unfold code_language. assert (K : Forall (fun x => ~ In 124 x) (split_on cSP class)).
  { apply Forall_forall. intros x Ix I. apply H. clear H. rewrite <- (split_join cSP class). generalize dependent (split_on cSP class). induction l as [|y l IH]; [intros []|].
    intros [->|J]; destruct l as [|z l]; auto; rewrite ?join_cons by easy; try (apply in_app_iff; auto). destruct J. right. apply in_app_iff. right. auto. }
  induction K as [|x l Hx K IH]; [now intros []|]. cbn [first_language]. destruct (_ || _); auto. now apply lacks_first, lacks_first.
Qed.
Lemma lacks_attr a k : forallb (fun kv => negb (has_bar (snd kv))) a = true -> ~ In 124 (attr_or k [] a).
Proof.
  induction a as [|[x v] a IH]; intros H; [now intros []|]. cbn [forallb] in H. apply andb_true_iff in H as [H1 H2]. cbn [attr_or].
  destruct (beqb x k); auto. cbn [snd] in H1. apply negb_true_iff in H1. now apply bar_in.
Qed.
Lemma bars_languages n : bars_in_text n = true -> Forall (fun l => ~ In 124 l) (code_languages n).
Proof.
  assert (K : forall ks, Forall (fun n => bars_in_text n = true -> Forall (fun l => ~ In 124 l) (code_languages n)) ks -> forallb bars_in_text ks = true ->
     Forall (fun l => ~ In 124 l) (flat_map code_languages ks)).
  { induction 1 as [|k ks Hk F IH]; intros B; [constructor|]. cbn [forallb flat_map] in *. apply andb_true_iff in B as [B1 B2]. apply Forall_app. auto. }
  induction n using node_induction; cbn [bars_in_text code_languages]; try (constructor; fail); auto.
  intros B. apply andb_true_iff in B as [B1 B2]. apply andb_true_iff in B1 as [B0 B1]. apply Forall_app. split.
  - destruct (name_in _ _); constructor; [|constructor]. now apply lacks_language, lacks_attr.
  - destruct (name_in _ _); [constructor|]. auto.
Qed.
Lemma lacks_info n : bars_in_text n = true -> ~ In 124 (code_info n).
Proof.
  intros B. apply bars_languages in B. unfold code_info. destruct (filter _ _) as [|x l] eqn:E; [now intros []|]. cbn [hd].
  assert (I : In x (filter (fun l => negb (is_empty l)) (code_languages n))) by (rewrite E; now left). apply filter_In in I as [I _]. rewrite Forall_forall in B. auto.
Qed.
Lemma lacks_code n : bars_in_text n = true -> existsb (beqb (node_name n)) code_names = true -> ~ In 124 (code_text n).
Proof.
  intros B N. destruct n as [d|x a ks|d|ks|d]; try discriminate. cbn [node_name] in N. cbn [bars_in_text] in B. rewrite N in B. cbn [negb orb] in B.
  apply andb_true_iff in B as [B _]. apply andb_true_iff in B as [_ B]. cbn [code_text].
  destruct (name_in code_skipped x); [now intros []|]. apply lacks_app; [destruct (name_in _ _); [lit|now intros []]|].
  intros I. apply in_flat_map in I as (k & Ik & I). rewrite forallb_forall in B. revert I. apply no_bar_code. auto.
Qed.
Lemma lacks_node_attr n k : bars_in_text n = true -> ~ In 124 (node_attr n k []).
Proof.
  intros B. destruct n as [d|x a ks|d|ks|d]; try (now intros []). cbn [bars_in_text] in B. apply andb_true_iff in B as [B _]. apply andb_true_iff in B as [B _].
  now apply lacks_attr.
Qed.

(** ** The renderers *)
Definition plain_node (n : node) : Prop :=
  everywhere (fun x => negb (name_in problematic_kids (node_name x))) n = true /\ bars_in_text n = true.
Definition plain_cfg (c : config) : Prop :=
  ~ In 124 (em_delimiter c) /\ ~ In 124 (strong_delimiter c) /\ ~ In 124 (horizontal_rule c) /\ hd 96 (code_fence_opt c) <> 124.
Lemma plain_name n l : plain_node n -> (forall x, In x l -> In x problematic_kids) -> name_in l (node_name n) = true -> False.
Proof.
  intros [E _] H N. assert (K : negb (name_in problematic_kids (node_name n)) = true) by (destruct n; cbn [everywhere] in E; now apply andb_true_iff in E as [E _]).
  apply negb_true_iff in K. unfold name_in in *. apply existsb_exists in N as (x & I & N). assert (J : existsb (beqb (node_name n)) problematic_kids = true); [|congruence].
  apply existsb_exists. exists x. auto.
Qed.
Section bars.
Variables (e : env) (ts : list text_handler) (ds : list detector).
Hypothesis Hun : forall x, unescape_fn e x = unescape_content ds x.
Hypothesis Hds : Forall well_behaved ds.
Hypothesis Hts : forall d c, ok mark_or_bsl (fold_left (fun s t => t e c s) ts d).
Hypothesis Hurl : forall tag raw, ~ In 124 raw -> ~ In 124 (assemble_url e tag raw).
Lemma bars_closed :
  closed e ts false (fun _ => false) (fun _ => []) (fun _ x => ok mark_or_bsl x) (ok bsl) (fun _ => True) True plain_node plain_cfg (fun d => ~ In 124 d) True.
Proof.
  assert (V : forall n, vis false (fun _ => false) (fun _ => []) n = []) by now apply vis_nil.
  split; auto.
  - intros n [E B]. apply Forall_forall. intros k I. split.
    + destruct n as [d|x a ks|d|ks|d]; try destruct I; cbn [everywhere kids] in *; apply andb_true_iff in E as [_ E]; rewrite forallb_forall in E; auto.
    + destruct n as [d|x a ks|d|ks|d]; try destruct I; cbn [bars_in_text kids] in *.
      * apply andb_true_iff in B as [_ B]. rewrite forallb_forall in B. auto.
      * rewrite forallb_forall in B. auto.
  - intros n _ _. unfold below_vis. induction (kids n); simpl; auto. now rewrite V.
  - reflexivity.
  - intros. apply ok_app; auto using m0.
  - reflexivity.
  - intros cfg l x (_ & H & _). apply ok_delim; auto using m0, mws.
  - intros cfg l x (H & _). apply ok_delim; auto using m0, mws.
  - intros d l x H. apply ok_delim; auto using m0, mws.
  - intros cfg (_ & _ & H & _). unfold divider_text. apply ok_lacks. apply (lacks_app [cNL; cNL]); [lit|]. apply lacks_app; auto; lit.
  - reflexivity.
  - intros cfg n ul start ls items _ P N _. exfalso. unfold is_list_name in N. eapply (plain_name n [b "ul"; b "ol"] P); [|unfold name_in; cbn [existsb]; now rewrite orb_false_r].
    intros x [<-|[<-|[]]]; vm_compute; tauto.
  - intros cfg n (_ & _ & _ & H) [_ B] N. apply ok_lacks, lacks_block; auto. now apply lacks_info. apply lacks_code; auto. now rewrite N.
  - intros n [_ B] N. apply ok_lacks, lacks_inline, lacks_code; auto. unfold name_in in N. unfold code_names. cbn [existsb]. 
    change (existsb (beqb (node_name n)) inline_code_names = true) in N. unfold inline_code_names in N. cbn [existsb] in N. rewrite N. apply orb_true_r.
  - intros l x. apply ok_quote; auto using m0, mws.
  - intros setext level n x _ _ P N _. exfalso. eapply (plain_name n heading_names P); [|exact N]. intros y I. unfold problematic_kids. apply in_app_iff. now left.
  - intros n [_ B]. apply ok_lacks, lacks_image; try now apply lacks_node_attr. apply Hurl, lacks_trim. now apply lacks_node_attr.
  - intros cfg n l x t _ [_ B] H E. eapply ok_link; [| | |exact E]; auto; [apply Hurl, lacks_trim|]; now apply lacks_node_attr.
  - vm_compute. reflexivity.
  - intros _ l x. now apply (cell_guarded e ds).
  - reflexivity.
  - intros _ x H. apply ok_replace; auto using b0; [discriminate|reflexivity].
  - intros _ n tcfg aligns rows cap P N _ _. exfalso. eapply (plain_name n [b "table"] P); [|rewrite N; reflexivity]. intros y [<-|[]]. vm_compute. tauto.
  - discriminate.
Qed.
End bars.

(** ** Reading a line *)
Lemma split_bars_cell x : forall p rest, guarded bsl p x = true -> bsl (last x p) = false -> split_bars p (x ++ 124 :: rest) = x :: split_bars 124 rest.
Proof.
  induction x as [|c x IH]; intros p rest G L.
  - cbn [app split_bars last] in *. unfold bsl in L. rewrite L. reflexivity.
  - cbn [app split_bars guarded] in *. apply andb_true_iff in G as [G1 G2].
    assert (E : (c =? 124) && negb (p =? 92) = false). { unfold bsl in G1. destruct (c =? 124), (p =? 92); auto; discriminate. }
    rewrite E, IH; auto. destruct x as [|d x]; [exact L|]. now rewrite (last_default _ c p).
Qed.
Lemma read_cells cells : Forall (fun x => ok bsl x /\ bsl (last x 124) = false) cells -> read_line (bar_line cells) = cells.
Proof.
  intros F. unfold read_line. destruct cells as [|x l]; [reflexivity|].
  change (tl (bar_line (x :: l))) with (List.concat (map (fun c => c ++ [124]) (x :: l))).
  assert (K : forall p, bsl p = false -> split_bars p (List.concat (map (fun c => c ++ [124]) (x :: l))) = (x :: l) ++ [[]]).
  { clear - F. induction F as [|y l' [G L] F IH]; intros p P; [reflexivity|]. cbn [map List.concat]. rewrite <- app_assoc. cbn [app].
    rewrite split_bars_cell; [now rewrite (IH 124)|apply guarded_any; auto using b0|]. destruct y as [|d y]; [exact P|]. now rewrite (last_default _ p 124). }
  rewrite K by reflexivity. apply removelast_last.
Qed.
Lemma guarded_written tcfg count x : ok bsl x -> ok bsl (written tcfg count x).
Proof.
  intros H. unfold written, pad_space. assert (S : ok bsl (if aligned tcfg || beqb (cell_padding tcfg) (b "minimal") then [cSP] else [])) by (destruct (_ || _); reflexivity).
  apply ok_app; auto using b0. apply ok_app; auto using b0. apply ok_app; auto using b0. destruct (aligned tcfg); [|reflexivity]. apply ok_lacks, lacks_repeat. discriminate.
Qed.
Lemma last_written tcfg count x : cell_padding tcfg = b "aligned" \/ cell_padding tcfg = b "minimal" -> last (written tcfg count x) 124 = 32.
Proof.
  intros H. unfold written, pad_space. assert (E : aligned tcfg || beqb (cell_padding tcfg) (b "minimal") = true).
  { unfold aligned. destruct H as [-> | ->]; reflexivity. }
  rewrite E, !app_assoc. apply last_last.
Qed.
Lemma written_cells (P : bytes -> Prop) (counts : list nat) row : P [] -> Forall P row -> Forall (fun px : nat * bytes => P (snd px)) (combine counts (fill_row (List.length counts) row)).
Proof.
  intros P0 F. apply Forall_forall. intros (m & x) I. apply in_combine_r in I. unfold fill_row, grow in I. apply in_app_iff in I as [I|I].
  - rewrite Forall_forall in F. now apply F.
  - apply repeat_spec in I. now subst.
Qed.

(** ** The text handlers *)
Lemma guarded_escape (esc : N -> bool) s : esc 124 = true -> forall p, guarded mark_or_bsl p (escape_content esc s) = true.
Proof.
  intros E. induction s as [|c s IH]; intros p; [reflexivity|]. cbn [escape_content]. destruct (c =? cNUL) eqn:Z.
  - cbn. apply IH.
  - destruct (esc (fst (decode_rune (c :: s)))) eqn:D.
    + cbn [guarded]. unfold marker_esc. cbn. rewrite orb_true_r. apply IH.
    + cbn [guarded]. rewrite IH, andb_true_r. destruct (c =? 124) eqn:C; [|reflexivity]. apply N.eqb_eq in C. subst c.
      assert (R : fst (decode_rune (124 :: s)) = 124) by reflexivity. rewrite R in D. congruence.
Qed.
Section whole.
Variable sort : forall A, list (Z * A) -> list (Z * A).
Hypothesis Hsort : sorts sort.
Lemma bar_escaped us os tcfg : In (UseTable os) us -> apply_table_options os table_defaults = (tcfg, None) -> escaped_char (converter_with Smart us) 124 = true.
Proof.
  intros I V. unfold escaped_char. apply existsb_exists. exists 124. split; [|apply N.eqb_refl]. rewrite cw_chars.
  apply in_flat_map. exists (UseTable os). split; auto. cbn [use_chars]. rewrite V. now left.
Qed.
Lemma texts_guarded us os tcfg url : In UseBase us -> In (UseTable os) us -> apply_table_options os table_defaults = (tcfg, None) -> forall d c,
  ok mark_or_bsl (fold_left (fun s t => t (env_of sort (converter_with Smart us) url) c s) (in_order sort (cv_text (converter_with Smart us))) d).
Proof.
  intros Ib It V d c. set (e := env_of _ _ _).
  assert (Ee : escape_fn e = escape_content (escaped_char (converter_with Smart us))) by (unfold e, env_of; cbn [escape_fn]; now rewrite cw_mode).
  assert (Hb : forall s, ok mark_or_bsl (base_text e c s)).
  { intros s. unfold base_text. rewrite Ee. apply guarded_escape. eapply bar_escaped; eauto. }
  assert (Hl : forall s, ok mark_or_bsl s -> ok mark_or_bsl (commonmark_text e c s)).
  { intros s H. unfold commonmark_text. destruct (ctx_value _ _); [|auto]. apply ok_replace; auto using m0; [discriminate|reflexivity]. }
  assert (Hall : forall l s, (forall h, In h l -> h = base_text \/ h = commonmark_text) -> ok mark_or_bsl s \/ In base_text l ->
    ok mark_or_bsl (fold_left (fun s t => t e c s) l s)).
  { induction l as [|h l IH]; intros s Hh D; cbn [fold_left]; [destruct D as [D|[]]; exact D|].
    assert (Hr : forall k, In k l -> k = base_text \/ k = commonmark_text) by (intros; apply Hh; now right).
    destruct (Hh h (or_introl eq_refl)) as [->| ->]; [apply IH; auto|]. destruct D as [D|[D|D]]; [apply IH; auto| |apply IH; auto].
    rewrite D. apply IH; auto. }
  apply Hall; [intros h; now apply text_cases|]. right. now apply text_base.
Qed.
Lemma plain_below : forall n anc p, Forall (fun x => name_in problematic_kids (node_name (e_node x)) = false) (descendants p anc n) ->
  name_in problematic_kids (node_name n) = false -> everywhere (fun x => negb (name_in problematic_kids (node_name x))) n = true.
Proof.
  assert (K : forall ks, Forall (fun n => forall anc p, Forall (fun x => name_in problematic_kids (node_name (e_node x)) = false) (descendants p anc n) ->
    name_in problematic_kids (node_name n) = false -> everywhere (fun x => negb (name_in problematic_kids (node_name x))) n = true) ks ->
    forall p nm anc s, Forall (fun x => name_in problematic_kids (node_name (e_node x)) = false) (kid_entries p nm anc s ks) ->
    forallb (everywhere (fun x => negb (name_in problematic_kids (node_name x)))) ks = true).
  { induction 1 as [|k ks Hk F IH]; intros p nm anc s A; [reflexivity|]. rewrite kid_entries_cons in A. apply Forall_app in A as [A B]. inversion A; subst.
    cbn [forallb]. apply andb_true_iff. split; [eapply Hk; eauto|eapply IH; eauto]. }
  induction n using node_induction; intros anc p A N; cbn [everywhere]; rewrite N; cbn [negb andb]; auto; rewrite descendants_kids in A; eapply K; eauto.
Qed.
Theorem table_cells us os tcfg0 url tcfg fuel c anc n out :
  let e := env_of sort (converter_with Smart us) url in
  let rec := render e (in_order sort (cv_render (converter_with Smart us))) (in_order sort (cv_text (converter_with Smart us))) fuel in
  In UseBase us -> In (UseTable os) us -> apply_table_options os table_defaults = (tcfg0, None) ->
  (forall k, In (UseCommonmark k) us -> ~ In 124 (em_delimiter k) /\ ~ In 124 (strong_delimiter k) /\ ~ In 124 (horizontal_rule k)) ->
  (forall d, In (UseStrikethrough d) us -> ~ In 124 d) ->
  (forall tag raw, ~ In 124 raw -> ~ In 124 (url tag raw)) ->
  bars_in_text n = true -> (height n <= S fuel)%nat ->
  node_name n = b "table" -> table_render tcfg e rec c anc n = Done (true, out) ->
  exists header under body cap, out = table_layout header under body cap /\ Forall (Forall one_cell) (header :: body)
    /\ (cell_padding tcfg = b "aligned" \/ cell_padding tcfg = b "minimal" ->
        Forall (fun row => read_line (bar_line row) = row) (under :: header :: body)).
Proof.
  intros e rec Ib It V Hc Hd Hu B Hf En H. unfold table_render in H. rewrite En in H. change (beqb (b "table") (b "table")) with true in H. cbv iota in H.
  apply render_table_parts in H as (rows & rows' & cap & Hr & Nr & Hn & _ & -> & Hk & _).
  set (table := {| e_path := []; e_anc := anc; e_node := n |}) in *.
  set (ts := in_order sort (cv_text (converter_with Smart us))) in *. set (hs := in_order sort (cv_render (converter_with Smart us))) in *.
  assert (Eu : forall x, unescape_fn e x = unescape_content (in_order sort (cv_unescape (converter_with Smart us))) x).
  { intros x. unfold e, env_of. cbn [unescape_fn]. rewrite cw_mode. reflexivity. }
  pose proof (bars_closed e ts _ Eu (detectors_wb sort Hsort Smart us) (texts_guarded us os tcfg0 url Ib It V)) as C.
  specialize (C Hu).
  assert (Hbu : Forall (RenderInv.bundled plain_cfg (fun d => ~ In 124 d) True) hs).
  { apply bundled_uses; [exact Hsort|..]; auto.
    - intros k Ik Vk. destruct (Hc k Ik) as (A1 & A2 & A3). unfold plain_cfg, fill_defaults. cbn [em_delimiter strong_delimiter horizontal_rule code_fence_opt].
      assert (O : forall v d, ~ In 124 v -> ~ In 124 d -> ~ In 124 (or_default v d)) by (intros v d; unfold or_default; now destruct (is_empty v)).
      split; [apply O; auto; lit|]. split; [apply O; auto; lit|]. split; [apply O; auto; lit|].
      unfold valid_cfg in Vk. destruct (validate_config (fill_defaults k)) eqn:Ev; [discriminate|]. unfold validate_config in Ev.
      repeat match type of Ev with (if ?x then _ else _) = _ => let F := fresh "F" in destruct x eqn:F; [discriminate|] end.
      match goal with F : negb (one_of [b "```"; b "~~~"] _) = false |- _ => apply negb_false_iff, one_of_in in F; unfold fill_defaults in F; cbn [code_fence_opt] in F;
        destruct F as [F|[F|[]]]; rewrite <- F; discriminate end.
    - intros d Id. unfold or_default. destruct (is_empty d); [lit|auto]. }
  assert (G : good_rec false (fun _ => false) (fun _ => []) (fun _ x => ok mark_or_bsl x) True plain_node rec n).
  { intros c0 anc0 k Ok Hh. apply (render_inv e ts _ _ _ _ _ _ _ _ _ _ _ C hs Hbu no_strikes); [exact Ok|]. lia. }
  assert (Pb : forall x, In x (below table) -> RenderInv.entry_ok plain_node n x).
  { intros x Ix. assert (Hh : (S (height (e_node x)) <= height n)%nat).
    { eapply (below_forall (fun _ => True)); [|exact Ix|exact I]. intros m _. apply Forall_forall. auto. }
    split; [|exact Hh]. split.
    - apply (plain_below _ (e_anc x) (e_path x)).
      + apply Forall_forall. intros y Iy. assert (J : In y (below table)) by (eapply below_below; eauto).
        destruct (name_in problematic_kids (node_name (e_node y))) eqn:F; auto. assert (K : existsb (entry_is problematic_kids) (below table) = true); [|congruence].
        apply existsb_exists. exists y. auto.
      + destruct (name_in problematic_kids (node_name (e_node x))) eqn:F; auto. assert (K : existsb (entry_is problematic_kids) (below table) = true); [|congruence].
        apply existsb_exists. exists x. auto.
    - eapply (below_forall (fun m => bars_in_text m = true)); [|exact Ix|exact B]. intros m Bm. apply Forall_forall. intros k Ik.
      destruct m as [d|y a ks|d|ks|d]; try destruct Ik; cbn [bars_in_text kids] in *; [apply andb_true_iff in Bm as [_ Bm]|]; rewrite forallb_forall in Bm; auto. }
  assert (Pr : forall x, In x (table :: below table) -> RenderInv.row_ok plain_node n x).
  { intros x Ix. apply Forall_forall. intros y Iy. apply Pb. destruct Ix as [<-|Ix]; [exact Iy|]. eapply below_below; eauto. }
  pose proof (header_cases table) as Hh.
  assert (Hg : Forall (Forall (ok bsl)) rows).
  { pose proof (collect_rows_ok e ts _ _ _ _ _ _ _ _ _ _ _ C tcfg rec c n (header_row table) (normal_rows table (header_row table)) I G) as K.
    fold rec in Hr. rewrite Hr in K. apply K.
    - destruct (header_row table) as [h|]; auto. apply Pr. apply Hh.
    - apply Forall_forall. intros x Ix. apply filter_In in Ix as [Ix _]. auto. }
  assert (Hg' : Forall (Forall (ok bsl)) rows').
  { rewrite (newlines_map _ _ _ Hn). apply Forall_forall. intros r Ir. apply in_map_iff in Ir as (r0 & <- & Ir). rewrite Forall_forall in Hg. specialize (Hg _ Ir).
    apply Forall_forall. intros x Ix. apply in_map_iff in Ix as (x0 & <- & Ix). rewrite Forall_forall in Hg. specialize (Hg _ Ix). unfold broken.
    destruct (beqb _ _); [|exact Hg]. apply ok_replace; auto using b0; [discriminate|reflexivity]. }
  pose proof (newlines_gone _ _ _ Hn) as Hnl. pose proof (newlines_nonempty _ _ _ Hn Nr) as Nr'.
  set (aligns := alignments _ _). clearbody aligns. destruct (table_text_eq tcfg aligns rows' cap) as [E|E]; [|contradiction]. rewrite E.
  set (counts := max_counts rows'). clearbody counts.
  assert (Hw : forall r, In r rows' -> Forall (fun px => ok bsl (snd px) /\ ~ In 10 (snd px)) (combine counts (fill_row (List.length counts) r))).
  { intros r Ir. apply (written_cells (fun x => ok bsl x /\ ~ In 10 x)); [split; [reflexivity|now intros []]|]. rewrite Forall_forall in Hg', Hnl.
    specialize (Hg' _ Ir). specialize (Hnl _ Ir). rewrite Forall_forall in Hg', Hnl. apply Forall_forall. auto. }
  assert (Ho : forall r, In r rows' -> Forall one_cell (written_row tcfg counts (fill_row (List.length counts) r))).
  { intros r Ir. specialize (Hw r Ir). rewrite Forall_forall in Hw. apply Forall_forall. intros w Iw. apply in_map_iff in Iw as (px & <- & Ip). apply Hw in Ip as [O1 O2].
    split; [|now apply guarded_one_cell, guarded_written]. intros J. apply written_in in J as [J|J]; [contradiction|discriminate]. }
  assert (Hread : cell_padding tcfg = b "aligned" \/ cell_padding tcfg = b "minimal" -> forall r, In r rows' ->
    read_line (bar_line (written_row tcfg counts (fill_row (List.length counts) r))) = written_row tcfg counts (fill_row (List.length counts) r)).
  { intros Hp r Ir. apply read_cells. specialize (Hw r Ir). rewrite Forall_forall in Hw. apply Forall_forall. intros w Iw. apply in_map_iff in Iw as (px & <- & Ip).
    apply Hw in Ip as [O1 _]. split; [now apply guarded_written|]. now rewrite last_written. }
  assert (Eh : exists h r, rows' = h :: r) by (destruct rows'; [contradiction|eauto]). destruct Eh as (h & r & ->). cbn [hd tl].
  do 4 eexists. split; [reflexivity|]. split.
  - constructor; [apply Ho; now left|]. apply Forall_forall. intros w Iw. apply in_map_iff in Iw as (x & <- & Ix). apply Ho. now right.
  - intros Hp. constructor; [|constructor].
    + apply read_cells. apply Forall_forall. intros w Iw. apply in_map_iff in Iw as ((i & m) & <- & _). cbn [fst snd]. unfold under_cell. split.
      * apply ok_lacks. intros J. rewrite !in_app_iff in J. destruct J as [J|[J|J]].
        -- destruct (one_of _ _); destruct J as [J|[]]; discriminate.
        -- destruct (aligned tcfg); [apply repeat_spec in J; discriminate|destruct J as [J|[]]; discriminate].
        -- destruct (one_of _ _); destruct J as [J|[]]; discriminate.
      * rewrite app_assoc. destruct (one_of [b "right"; b "center"] _); rewrite last_last; reflexivity.
    + apply Hread; [exact Hp|now left].
    + apply Forall_forall. intros w Iw. apply in_map_iff in Iw as (x & <- & Ix). apply Hread; [exact Hp|now right].
Qed.
End whole.

Lemma env_unbell sort (Hsort : sorts sort) m us url s :
  subsequence (filter (fun c => negb (c =? 7)) s) (unescape_fn (env_of sort (converter_with m us) url) s).
Proof.
  unfold env_of. cbn [unescape_fn]. rewrite cw_mode. destruct m; cbn [unescape_with]; [|apply filter_sub].
  apply inserts_sub, content_inserts. now apply detectors_wb.
Qed.
