(** What the flags select and with what the program converts (C61). *)
From Coq Require Import List NArith ZArith Bool String Lia Permutation.
From Verif Require Import Bytes BytesFacts TextUtils Escape Dom RenderText SpecDom Engine CommonMark Table SpecEngine SpecPipeline RenderInv NetUrl Url
  Cli SpecCli CliConvert SpecSelect SelectFacts SelectFacts2.
Import ListNotations.
Open Scope N_scope.
Open Scope list_scope.

Section ext.
Variables f g : place -> node -> bool.
Hypothesis Hfg : forall pl n, f pl n = g pl n.
Lemma extract_ext n : forall pl, extract f pl n = extract g pl n.
Proof.
  induction n as [d|x a ks IH|d|ks IH|d] using node_induction; intros pl; cbn [extract]; rewrite ?Hfg; auto.
  - match goal with |- (let '(_, _) := ?F [] ks in _) = (let '(_, _) := ?G [] ks in _) => assert (E : forall left, F left ks = G left ks) end.
    { generalize (Elem x a ks) as m. intros m. induction IH as [|k r H F IHr]; intros left; auto. cbn. rewrite H, IHr. reflexivity. }
    now rewrite E.
  - match goal with |- (let '(_, _) := ?F [] ks in _) = (let '(_, _) := ?G [] ks in _) => assert (E : forall left, F left ks = G left ks) end.
    { generalize (Doc ks) as m. intros m. induction IH as [|k r H F IHr]; intros left; auto. cbn. rewrite H, IHr. reflexivity. }
    now rewrite E.
Qed.
Lemma include_ext doc : include_nodes f doc = include_nodes g doc.
Proof.
  unfold include_nodes. f_equal. generalize (kids doc), (@nil node). intros l. induction l as [|k r IH]; intros left; auto.
  cbn [extract_kids]. now rewrite extract_ext, IH.
Qed.
Lemma exclude_in_ext n : forall pl, exclude_in f pl n = exclude_in g pl n.
Proof.
  induction n as [d|x a ks IH|d|ks IH|d] using node_induction; intros pl; cbn [exclude_in]; rewrite ?Hfg; auto.
  - destruct (g pl (Elem x a ks)); auto. f_equal. f_equal. generalize (Elem x a ks) as m. intros m.
    match goal with |- ?F [] ks = ?G [] ks => assert (E : forall left, F left ks = G left ks); [|apply E] end.
    induction IH as [|k r H F IHr]; intros left; auto. cbn. now rewrite H, IHr.
  - destruct (g pl (Doc ks)); auto. f_equal. f_equal. generalize (Doc ks) as m. intros m.
    match goal with |- ?F [] ks = ?G [] ks => assert (E : forall left, F left ks = G left ks); [|apply E] end.
    induction IH as [|k r H F IHr]; intros left; auto. cbn. now rewrite H, IHr.
Qed.
Lemma exclude_ext doc : exclude_nodes f doc = exclude_nodes g doc.
Proof. unfold exclude_nodes. now rewrite exclude_in_ext. Qed.
End ext.

Section flags.
Variable selector : Type.
Variable matches : selector -> place -> node -> bool.
Variable parse_html : bytes -> option node.
Variable sort : forall A : Type, list (Z * A) -> list (Z * A).
Lemma decides_eq l sel : decides matches l sel -> forall pl n, any_match selector matches l pl n = sel pl n.
Proof.
  intros H pl n. unfold any_match. destruct (sel pl n) eqn:E.
  - apply existsb_exists. now apply H.
  - destruct (existsb _ l) eqn:X; auto. apply existsb_exists in X. apply H in X. congruence.
Qed.
Lemma select_flags (c : Cli.config selector) si se doc : decides matches (c_include selector c) si -> decides matches (c_exclude selector c) se ->
  (c_include selector c = [] -> c_exclude selector c = [] -> select selector matches c doc = doc)
  /\ (c_include selector c <> [] -> c_exclude selector c = [] -> select selector matches c doc = include_nodes si doc)
  /\ (c_include selector c = [] -> c_exclude selector c <> [] -> select selector matches c doc = exclude_nodes se doc)
  /\ (c_include selector c <> [] -> c_exclude selector c <> [] -> select selector matches c doc = exclude_nodes se (include_nodes si doc)).
Proof.
  intros Di De. unfold select. rewrite (include_ext _ _ (decides_eq _ _ Di)).
  assert (X : forall d, exclude_nodes (any_match selector matches (c_exclude selector c)) d = exclude_nodes se d) by (intros; apply exclude_ext; now apply decides_eq).
  repeat split; intros A B; rewrite ?A, ?B; cbn [is_empty]; auto.
  - destruct (c_include selector c); [congruence|reflexivity].
  - destruct (c_exclude selector c) eqn:E; [congruence|]. apply X.
  - destruct (c_include selector c); [congruence|]. cbn [is_empty]. destruct (c_exclude selector c) eqn:E; [congruence|]. apply X.
Qed.
Lemma only_included (c : Cli.config selector) si ks : decides matches (c_include selector c) si -> c_include selector c <> [] -> c_exclude selector c = [] ->
  si [] (Doc ks) = false -> Permutation (text_of (select selector matches c (Doc ks))) (text_where true (pieces si false [] (Doc ks))).
Proof.
  intros Di A B R. destruct (select_flags c si (any_match selector matches (c_exclude selector c)) (Doc ks) Di) as (_ & H & _).
  - intros pl n. apply existsb_exists.
  - rewrite H by auto. now apply include_text.
Qed.
Lemma excluded_gone (c : Cli.config selector) se doc : decides matches (c_exclude selector c) se -> c_include selector c = [] -> c_exclude selector c <> [] ->
  looks_left se -> se [] doc = false -> [select selector matches c doc] = pruned se [] doc.
Proof.
  intros De A B L R. destruct (select_flags c (any_match selector matches (c_include selector c)) se doc) as (_ & _ & H & _); auto.
  - intros pl n. apply existsb_exists.
  - rewrite H by auto. now apply exclude_tree.
Qed.
Lemma cli_converts (c : Cli.config selector) us d md : named_plugins c us ->
  (cli_convert selector matches parse_html sort c d = Some md <->
   exists doc, parse_html d = Some doc /\
     converts (convert_node sort (converter_with Smart us) (fun _ raw => assemble_absolute_url go_url (c_domain selector c) raw) (select selector matches c doc)) md).
Proof.
  intros (cm & -> & E). assert (cm = cli_commonmark selector c).
  { destruct cm. unfold cli_commonmark. cbn in E.
    destruct E as (-> & -> & -> & -> & -> & -> & -> & -> & -> & ->). reflexivity. }
  subst cm. fold (cli_table_options selector c). fold (cli_uses selector c). unfold cli_convert, cli_outcome, converts. rewrite cli_converter_eq. split.
  - destruct (parse_html d) as [doc|]; [|discriminate]. intros H. exists doc. split; auto. destruct (convert_node _ _ _ _) as [|[]]; congruence.
  - intros (doc & -> & ->). reflexivity.
Qed.
End flags.
