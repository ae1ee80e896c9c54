(** The conversion of the command line program is that of the library with the plugins the flags name. *)
From Coq Require Import List NArith ZArith Bool String Lia.
From Verif Require Import Bytes TextUtils Escape Dom RenderText SpecDom Engine CommonMark Table SpecEngine SpecPipeline PipelineFacts LetterFacts2 NetUrl Url
  Cli SpecCli CliFacts3 CliFacts4 CliWitness CliConvert SpecSelect SelectFacts.
Import ListNotations.
Open Scope N_scope.
Open Scope list_scope.

Section conv.
Variable selector : Type.
Definition cli_uses (c : Cli.config selector) : list use :=
  [UseBase; UseCommonmark (cli_commonmark selector c)] ++ (if c_strikethrough selector c then [UseStrikethrough []] else []) ++
  (if c_table selector c then [UseTable (cli_table_options selector c)] else []).
Lemma cli_converter_eq c : cli_converter selector c = converter_with Smart (cli_uses c).
Proof.
  unfold cli_converter, cli_uses, converter_with, new_converter. cbn [apply_options apply_option].
  assert (E : set_mode Smart empty_converter = empty_converter) by reflexivity. rewrite E.
  destruct (c_strikethrough selector c), (c_table selector c); cbn [app map plugin_of]; unfold do_actions; cbn [map fold_left]; reflexivity.
Qed.
Variable matches : selector -> place -> node -> bool.
Variable parse_html : bytes -> option node.
Variable sort : forall A : Type, list (Z * A) -> list (Z * A).
Hypothesis Hsort : sorts sort.
Lemma cli_never_panics c doc : match cli_outcome selector matches sort c doc with Failed _ | Returned (Done _) => True | _ => False end.
Proof.
  unfold cli_outcome. rewrite cli_converter_eq. apply smart_no_panic; [exact Hsort|].
  intros d I. unfold cli_uses in I. destruct (c_strikethrough selector c), (c_table selector c); cbn in I;
    repeat (destruct I as [I|I]; [try discriminate; injection I as <-; now left|]); destruct I.
Qed.
Lemma cli_convert_done c d md : cli_convert selector matches parse_html sort c d = Some md ->
  exists doc, parse_html d = Some doc /\
  converts (convert_node sort (converter_with Smart (cli_uses c)) (fun _ raw => assemble_absolute_url go_url (c_domain selector c) raw) (select selector matches c doc)) md.
Proof.
  unfold cli_convert, cli_outcome. destruct (parse_html d) as [doc|]; [|discriminate]. intros H. exists doc. split; [reflexivity|].
  unfold converts. rewrite <- cli_converter_eq. destruct (convert_node _ _ _ _) as [|[]]; congruence.
Qed.
Variable keep : N -> bool.
Hypothesis Hkeep : forall c, keep c = true -> spelled c = true.
Lemma cli_letters c d md : c_table selector c = false -> c_strikethrough selector c = false -> ~ In 35 (c_strong selector c) ->
  cli_convert selector matches parse_html sort c d = Some md ->
  exists doc, parse_html d = Some doc /\ (tidy (select selector matches c doc) = true -> invisible (select selector matches c doc) = false ->
    subsequence (filter keep (visible_text (select selector matches c doc))) md).
Proof.
  intros Ht Hs H35 H. apply cli_convert_done in H. destruct H as (doc & P & C). exists doc. split; [exact P|]. intros T I.
  assert (U : cli_uses c = [UseBase; UseCommonmark (cli_commonmark selector c)]) by (unfold cli_uses; now rewrite Ht, Hs).
  eapply conversion_letters with (us := cli_uses c) (cfg := cli_commonmark selector c); try exact C; auto; rewrite U.
  - now left.
  - right. now left.
  - intros cc [X|[X|[]]]; [discriminate|]. injection X as <-. split.
    + vm_compute. intros [X|[]]; discriminate.
    + unfold cli_commonmark, fill_defaults, or_default. cbn [strong_delimiter]. destruct (c_strong selector c) eqn:E; [|exact H35].
      vm_compute. intros [X|[X|[]]]; discriminate.
  - intros x [X|[X|[]]]; discriminate.
  - intros x [X|[X|[]]]; discriminate.
Qed.
End conv.
Lemma cli_letters_run w matches parse_html sort keep i o e args c tr :
  sorts sort -> (forall c, keep c = true -> spelled c = true) ->
  accepts (real w matches parse_html sort) args c -> c_version _ c = false -> c_table _ c = false -> c_strikethrough _ c = false ->
  ~ In 35 (c_strong _ c) -> trace (program (real w matches parse_html sort) i o e args) tr (Exit 0) ->
  forall md, (exists q, In (q, md) (written tr)) \/ In (md ++ [10]) (printed tr) ->
  exists d doc, In d (data_read tr) /\ parse_html d = Some doc /\
    (tidy doc = true -> is_doc doc = true -> subsequence (filter keep (visible_text (select _ matches c doc))) md).
Proof.
  intros Hs Hk A V T S H35 Tr md W. destruct (w_outputs _ _ _ _ _ _ _ A V Tr) as (outs & mds & _ & _ & _ & _ & F & O1 & O2 & O3).
  assert (I : In md mds).
  { destruct (c_output _ c) as [|c0 out0] eqn:E.
    - destruct (O1 eq_refl) as ((m & -> & P) & W0). rewrite P, W0 in W. destruct W as [(q & [])|[W|[]]]. apply app_inj_tail in W. left. apply W.
    - destruct (has_suffix (b "/") (c0 :: out0)) eqn:X.
      + destruct (O2 eq_refl) as (W0 & P). rewrite P, W0 in W. destruct W as [(q & W)|[]]. now apply in_combine_r in W.
      + destruct O3 as ((m & -> & W0) & P); [discriminate|reflexivity|]. rewrite P, W0 in W. destruct W as [(q & [W|[]])|[]]. injection W as _ ->. now left. }
  destruct (CliFacts3.forall2_in _ _ _ _ F I) as (d & Id & Cd). apply (cli_letters _ _ _ _ Hs keep Hk) in Cd; auto.
  destruct Cd as (doc & P & L). exists d, doc. split; [exact Id|]. split; [exact P|]. intros Td D.
  destruct doc as [?|? ? ?|?|ks|?]; try discriminate. destruct (select_tidy _ matches c ks Td). now apply L.
Qed.
