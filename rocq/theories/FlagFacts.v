(** Facts about the flags of the command line program (C59). *)
From Coq Require Import List NArith ZArith Bool String Lia ZifyBool ZifyNat ZifyN.
From Verif Require Import Bytes TextUtils NetUrl Cli SpecText SpecNode SpecFlags BytesFacts CliFacts RenderFacts2 NodeFacts.
Import ListNotations.
Open Scope N_scope.
Open Scope list_scope.

Section flags.
Variable selector : Type.
Variable parse : bytes -> option (list selector).
Notation config := (config selector).
Notation find_flag := (find_flag selector parse).
Notation parse_args := (parse_args selector parse).
Notation meant := (meant selector parse).

Definition step (c : config) (g : bytes * bytes) : option config :=
  match find_flag (fst g) with
  | Some (SetBool _ f) => match parse_bool (snd g) with Some v => Some (f v c) | None => None end
  | Some (SetString _ f) => f (snd g) c
  | None => None
  end.
Fixpoint run (c : config) (gs : list (bytes * bytes)) : option config :=
  match gs with [] => Some c | g :: r => match step c g with Some c' => run c' r | None => None end end.

(** ** Arguments *)
Lemma switch_flag n : In n switches -> exists f, find_flag n = Some (SetBool _ f).
Proof. intros I. cbn [switches map In] in I. repeat (destruct I as [<-|I]; [eexists; reflexivity|]). destruct I. Qed.
Lemma valued_flag n : In n valued -> exists f, find_flag n = Some (SetString _ f).
Proof. intros I. cbn [valued map In] in I. repeat (destruct I as [<-|I]; [eexists; reflexivity|]). destruct I. Qed.
Lemma found_flag n s : find_flag n = Some s -> match s with SetBool _ _ => In n switches | SetString _ _ => In n valued end.
Proof.
  unfold find_flag, Cli.find_flag. intros H.
  repeat (match type of H with (if ?q then _ else _) = _ => destruct q eqn:E; [match type of H with Some ?z = Some _ => assert (s = z) by congruence end; subst s; clear H; try (apply orb_true_iff in E as [E|E]);
    apply beqb_eq in E; subst n; vm_compute; tauto|clear E] end). discriminate H.
Qed.
Lemma flag_none n a : In n (switches ++ valued) -> dashed n a -> flag_of a = Word n None.
Proof.
  intros I [->| ->]; cbn [switches valued map app In] in I; repeat (destruct I as [<-|I]; [reflexivity|]); destruct I.
Qed.
Lemma flag_some n v a : In n (switches ++ valued) -> dashed (n ++ [61] ++ v) a -> flag_of a = Word n (Some v).
Proof.
  intros I [->| ->]; cbn [switches valued map app In] in I; repeat (destruct I as [<-|I]; [reflexivity|]); destruct I.
Qed.
Lemma flag_word a n v : flag_of a = Word n v -> dashed (match v with Some w => n ++ [61] ++ w | None => n end) a.
Proof.
  unfold flag_of. destruct a as [|c [|d t]]; try discriminate. destruct (c =? 45) eqn:Ec; [|discriminate]. apply N.eqb_eq in Ec. subst c.
  destruct ((d =? 45) && is_empty t) eqn:E; [discriminate|].
  assert (K : forall m, match m with [] => BadSyntax | n0 :: n => if (n0 =? 45) || (n0 =? 61) then BadSyntax
      else match cut_at 61 n with Some (x, v) => Word (n0 :: x) (Some v) | None => Word (n0 :: n) None end end = Word n v ->
      m = match v with Some w => n ++ [61] ++ w | None => n end).
  { intros [|n0 m] H; [discriminate|]. destruct ((n0 =? 45) || (n0 =? 61)); [discriminate|]. destruct (cut_at 61 m) as [[x y]|] eqn:Ec.
    - injection H as <- <-. apply cut_at_eq in Ec. now subst m.
    - now injection H as <- <-. }
  destruct (d =? 45) eqn:Ed.
  - apply N.eqb_eq in Ed. subst d. intros H. apply K in H. subst t. now right.
  - intros H. apply (K (d :: t)) in H. left. change ([45] ++ ?w) with (45 :: w). now rewrite <- H.
Qed.
Lemma flag_not a : flag_of a = NotAFlag <-> a = [45] \/ first_is 45 a = false.
Proof.
  unfold flag_of. destruct a as [|c [|d t]]; cbn [first_is].
  - split; auto.
  - split; auto. intros _. destruct (N.eqb_spec c 45); subst; auto.
  - destruct (c =? 45) eqn:E.
    + split; [|intros [H|H]; discriminate]. destruct ((d =? 45) && is_empty t); [discriminate|].
      destruct (if d =? 45 then t else d :: t) as [|n0 n]; [discriminate|]. destruct ((n0 =? 45) || (n0 =? 61)); [discriminate|].
      destruct (cut_at 61 n) as [[x y]|]; discriminate.
    + split; auto.
Qed.
Lemma flag_stop a : flag_of a = Terminator -> a = [45; 45].
Proof.
  unfold flag_of. destruct a as [|c [|d t]]; try discriminate. destruct (c =? 45) eqn:Ec; [|discriminate]. destruct ((d =? 45) && is_empty t) eqn:E.
  - intros _. destruct t; cbn in E; [|lia]. f_equal; [lia|f_equal; lia].
  - destruct (if d =? 45 then t else d :: t) as [|n0 n]; [discriminate|]. destruct ((n0 =? 45) || (n0 =? 61)); [discriminate|].
    destruct (cut_at 61 n) as [[x y]|]; discriminate.
Qed.
Lemma parse_reading : forall k args, (List.length args <= k)%nat -> forall c c' rest, parse_args c args = inl (c', rest) ->
  exists gs, reading args gs rest /\ run c gs = Some c'.
Proof.
  induction k as [|k IH]; intros args L c c' rest H.
  - destruct args; [|cbn in L; lia]. injection H as <- <-. exists []. split; constructor.
  - destruct args as [|a args]; [injection H as <- <-; exists []; split; constructor|]. cbn in L. cbn [Cli.parse_args] in H.
    destruct (flag_of a) as [| | |n v] eqn:Ef.
    + injection H as <- <-. exists []. split; [|reflexivity]. constructor. now apply flag_not.
    + injection H as <- <-. apply flag_stop in Ef. subst a. exists []. split; [constructor|reflexivity].
    + discriminate.
    + apply flag_word in Ef. destruct (find_flag n) as [[f|f]|] eqn:En; [| |discriminate].
      * pose proof (found_flag _ _ En) as In_. cbn beta iota in In_. destruct v as [v|].
        -- destruct (parse_bool v) as [y|] eqn:Ep; [|discriminate]. apply IH in H as (gs & R & H); [|lia]. exists ((n, v) :: gs). split.
           ++ apply (Read_equals a n v); auto. rewrite in_app_iff. auto.
           ++ cbn [run]. unfold step. cbn [fst snd]. now rewrite En, Ep.
        -- apply IH in H as (gs & R & H); [|lia]. exists ((n, b "true") :: gs). split.
           ++ now apply (Read_switch a n).
           ++ cbn [run]. unfold step. cbn [fst snd]. now rewrite En.
      * pose proof (found_flag _ _ En) as In_. cbn beta iota in In_. destruct v as [v|].
        -- destruct (f v c) as [c1|] eqn:E1; [|discriminate]. apply IH in H as (gs & R & H); [|lia]. exists ((n, v) :: gs). split.
           ++ apply (Read_equals a n v); auto. rewrite in_app_iff. auto.
           ++ cbn [run]. unfold step. cbn [fst snd]. now rewrite En, E1.
        -- destruct args as [|v args]; [discriminate|]. destruct (f v c) as [c1|] eqn:E1; [|discriminate]. cbn in L.
           apply IH in H as (gs & R & H); [|lia]. exists ((n, v) :: gs). split.
           ++ now apply (Read_next a n v).
           ++ cbn [run]. unfold step. cbn [fst snd]. now rewrite En, E1.
Qed.
Lemma reading_parse args gs rest : reading args gs rest -> forall c c', run c gs = Some c' -> parse_args c args = inl (c', rest).
Proof.
  induction 1 as [|a args O|args|a n args gs rest I D R IH|a n v args gs rest I D R IH|a n v args gs rest I D R IH]; intros c c' H; cbn [run] in H.
  - now injection H as <-.
  - injection H as <-. cbn [Cli.parse_args]. apply flag_not in O. now rewrite O.
  - now injection H as <-.
  - cbn [Cli.parse_args]. rewrite (flag_none n a) by (auto; rewrite in_app_iff; auto). destruct (switch_flag n I) as (f & E). rewrite E.
    unfold step in H. cbn [fst snd] in H. rewrite E in H. now apply IH.
  - cbn [Cli.parse_args]. rewrite (flag_some n v a) by auto. unfold step in H. cbn [fst snd] in H. apply in_app_iff in I as [I|I].
    + destruct (switch_flag n I) as (f & E). rewrite E in *. destruct (parse_bool v); [|discriminate]. now apply IH.
    + destruct (valued_flag n I) as (f & E). rewrite E in *. destruct (f v c); [|discriminate]. now apply IH.
  - cbn [Cli.parse_args]. rewrite (flag_none n a) by (auto; rewrite in_app_iff; auto). destruct (valued_flag n I) as (f & E). rewrite E.
    unfold step in H. cbn [fst snd] in H. rewrite E in H. destruct (f v c); [|discriminate]. now apply IH.
Qed.

(** ** Values *)
Lemma given_snoc ns gs n v : given ns (gs ++ [(n, v)]) = given ns gs ++ (if existsb (beqb n) (map b ns) then [v] else []).
Proof. unfold given. rewrite filter_app, map_app. cbn [filter fst]. now destruct (existsb (beqb n) (map b ns)). Qed.
Lemma parse_bool_words v x : parse_bool v = Some x -> In v (yes_words ++ no_words) /\ (x = true <-> In v yes_words).
Proof.
  unfold parse_bool. intros H. rewrite in_app_iff.
  change [b "1"; b "t"; b "T"; b "true"; b "TRUE"; b "True"] with yes_words in H. change [b "0"; b "f"; b "F"; b "false"; b "FALSE"; b "False"] with no_words in H.
  destruct (existsb (beqb v) yes_words) eqn:E1.
  - injection H as <-. apply existsb_exists in E1 as (y & I & E). apply beqb_eq in E. subst y. split; [auto|split; auto].
  - destruct (existsb (beqb v) no_words) eqn:E2; [|discriminate]. injection H as <-. apply existsb_exists in E2 as (y & I & E). apply beqb_eq in E. subst y.
    split; [auto|]. split; [discriminate|]. intros J. assert (existsb (beqb v) yes_words = true); [|congruence]. apply existsb_exists. exists v. split; auto. apply beqb_refl.
Qed.
Lemma words_parse v : In v (yes_words ++ no_words) -> parse_bool v <> None.
Proof. intros I. cbn [yes_words no_words map app In] in I. repeat (destruct I as [<-|I]; [vm_compute; discriminate|]). destruct I. Qed.
Lemma switched_same ns gs n v x : existsb (beqb n) (map b ns) = false -> switched ns gs x -> switched ns (gs ++ [(n, v)]) x.
Proof. intros E. unfold switched. now rewrite given_snoc, E, app_nil_r. Qed.
Lemma switched_new ns gs n v x y : existsb (beqb n) (map b ns) = true -> switched ns gs x -> parse_bool v = Some y -> switched ns (gs ++ [(n, v)]) y.
Proof.
  intros E [A _] P. apply parse_bool_words in P as [P1 P2]. unfold switched. rewrite given_snoc, E, last_last. split; [|exact P2].
  apply Forall_app. split; auto.
Qed.
Lemma text_same k d gs n v x : existsb (beqb n) (map b [k]) = false -> text_is k d gs x -> text_is k d (gs ++ [(n, v)]) x.
Proof. intros E. unfold text_is. now rewrite given_snoc, E, app_nil_r. Qed.
Lemma text_new k d gs n v : existsb (beqb n) (map b [k]) = true -> text_is k d (gs ++ [(n, v)]) v.
Proof. intros E. unfold text_is. now rewrite given_snoc, E, last_last. Qed.
Lemma once_same k gs n v x : existsb (beqb n) (map b [k]) = false -> once k gs x -> once k (gs ++ [(n, v)]) x.
Proof. intros E. unfold once. now rewrite given_snoc, E, app_nil_r. Qed.
Lemma spaces_both l r : spaces l -> spaces r -> spaces (l ++ r).
Proof. induction 1; intros R; [exact R|]. rewrite <- app_assoc. econstructor; eauto. Qed.
Lemma once_new k gs n v : existsb (beqb n) (map b [k]) = true -> once k gs [] -> trim_space v <> [] -> once k (gs ++ [(n, v)]) (trim_space v).
Proof.
  intros E [[G _]|(w & _ & A & l & r & -> & L & R & _)] T.
  - unfold once. rewrite given_snoc, E, G. right. exists v. split; auto. split; [|apply trimmed_eq]. intros W. apply T. now apply trim_space_nil.
  - contradiction A. cbn [app]. now apply spaces_both.
Qed.
Lemma selected_same k gs n v x : existsb (beqb n) (map b [k]) = false -> selected selector parse k gs x -> selected selector parse k (gs ++ [(n, v)]) x.
Proof. intros E. unfold selected. now rewrite given_snoc, E, app_nil_r. Qed.
Lemma selected_new k gs n v x s : existsb (beqb n) (map b [k]) = true -> selected selector parse k gs x -> trim_space v <> [] -> parse v = Some s ->
  selected selector parse k (gs ++ [(n, v)]) (x ++ s).
Proof.
  intros E (ls & A & ->) T P. unfold selected. rewrite given_snoc, E. exists (ls ++ [s]). split.
  - apply Forall2_app; auto. constructor; [|constructor]. split; auto. intros W. apply T. now apply trim_space_nil.
  - rewrite concat_app. cbn. now rewrite app_nil_r.
Qed.
Lemma run_snoc gs g : forall c, run c (gs ++ [g]) = match run c gs with Some c' => step c' g | None => None end.
Proof. induction gs as [|h gs IH]; intros c; cbn [app run]; [now destruct (step c g)|]. destruct (step c h); auto. Qed.
Ltac others := repeat (split; [first [apply switched_same; [reflexivity|assumption] | apply text_same; [reflexivity|assumption]
  | apply once_same; [reflexivity|assumption] | apply selected_same; [reflexivity|assumption]
  | eapply switched_new; [reflexivity|eassumption|assumption] | apply text_new; reflexivity
  | apply once_new; [reflexivity|assumption|assumption] | apply selected_new; [reflexivity|assumption|assumption|assumption] ]|]);
  first [apply text_same; [reflexivity|assumption] | apply text_new; reflexivity].
Ltac which_flag E g := match type of E with ?l = _ => let Q := fresh in assert (Q : l = Some (SetString _ g)) by reflexivity; rewrite Q in E; clear Q; injection E as <- end.
Lemma meant_step gs c g c' : meant gs c -> step c g = Some c' -> meant (gs ++ [g]) c'.
Proof.
  destruct g as [n v]. intros M H. unfold step in H. cbn [fst snd] in H. destruct (find_flag n) as [s|] eqn:E; [|discriminate].
  unfold SpecFlags.meant in M. destruct M as (M1 & M2 & M3 & M4 & M5 & M6 & M7 & M8 & M9 & M10 & M11 & M12 & M13 & M14 & M15 & M16).
  pose proof (found_flag _ _ E) as I. destruct s as [f|f].
  - cbn [switches map In] in I. destruct (parse_bool v) as [y|] eqn:P; [|discriminate]. injection H as <-.
    repeat (destruct I as [<-|I]; [cbv in E; injection E as <-; unfold SpecFlags.meant; cbn [c_version c_input c_output c_overwrite c_domain c_include c_exclude c_strong c_strikethrough
      c_table c_skip_empty_rows c_header_promotion c_span_cells c_presentation c_newlines c_padding]; others|]). destruct I.
  - cbn [valued map In] in I. destruct I as [<-|[<-|[<-|[<-|[<-|[<-|[<-|[<-|[<-|[]]]]]]]]]].
    + which_flag E (single selector (c_input selector) (upd_input selector)). unfold single in H.
      destruct (trim_space v) as [|t0 t] eqn:T; [discriminate|]. destruct (c_input _ c) as [|? ?] eqn:Ec; [|discriminate]. cbn [is_empty negb] in H. injection H as <-.
      assert (trim_space v <> []) by (rewrite T; discriminate). rewrite <- T. unfold SpecFlags.meant. cbn. others.
    + which_flag E (single selector (c_output selector) (upd_output selector)). unfold single in H.
      destruct (trim_space v) as [|t0 t] eqn:T; [discriminate|]. destruct (c_output _ c) as [|? ?] eqn:Ec; [|discriminate]. cbn [is_empty negb] in H. injection H as <-.
      assert (trim_space v <> []) by (rewrite T; discriminate). rewrite <- T. unfold SpecFlags.meant. cbn. others.
    + which_flag E (plain selector (upd_domain selector)). injection H as <-. unfold SpecFlags.meant. cbn. others.
    + which_flag E (selectors selector parse (c_include selector) (upd_include selector)). unfold selectors in H.
      destruct (trim_space v) as [|t0 t] eqn:T; [discriminate|]. cbn [is_empty] in H. destruct (parse v) as [sl|] eqn:Pv; [|discriminate]. injection H as <-.
      assert (trim_space v <> []) by (rewrite T; discriminate). unfold SpecFlags.meant. cbn. others.
    + which_flag E (selectors selector parse (c_exclude selector) (upd_exclude selector)). unfold selectors in H.
      destruct (trim_space v) as [|t0 t] eqn:T; [discriminate|]. cbn [is_empty] in H. destruct (parse v) as [sl|] eqn:Pv; [|discriminate]. injection H as <-.
      assert (trim_space v <> []) by (rewrite T; discriminate). unfold SpecFlags.meant. cbn. others.
    + which_flag E (plain selector (upd_strong selector)). injection H as <-. unfold SpecFlags.meant. cbn. others.
    + which_flag E (plain selector (upd_span_cells selector)). injection H as <-. unfold SpecFlags.meant. cbn. others.
    + which_flag E (plain selector (upd_newlines selector)). injection H as <-. unfold SpecFlags.meant. cbn. others.
    + which_flag E (plain selector (upd_padding selector)). injection H as <-. unfold SpecFlags.meant. cbn. others.
Qed.
Lemma meant_nothing : meant [] (default_config selector).
Proof.
  assert (W : forall ns, switched ns [] false). { intros ns. split; [constructor|]. split; [discriminate|]. intros H. vm_compute in H. intuition discriminate. }
  assert (S : forall n, selected selector parse n [] []). { intros n. exists []. split; [constructor|reflexivity]. }
  assert (O : forall n, once n [] []). { intros n. now left. }
  unfold SpecFlags.meant. cbn. repeat split; auto; try apply W.
Qed.
Lemma run_meant gs : forall c, run (default_config selector) gs = Some c -> meant gs c.
Proof.
  induction gs as [|g gs IH] using rev_ind; intros c H.
  - injection H as <-. apply meant_nothing.
  - rewrite run_snoc in H. destruct (run (default_config selector) gs) as [c1|]; [|discriminate]. eapply meant_step; eauto.
Qed.
Lemma in_given ns gs n v : In (n, v) gs -> existsb (beqb n) (map b ns) = true -> In v (given ns gs).
Proof. intros I E. unfold given. apply (in_map snd _ (n, v)). now apply filter_In. Qed.
(** what is needed for a step *)
Definition fits (g : bytes * bytes) : Prop :=
  In (fst g) switches /\ In (snd g) (yes_words ++ no_words)
  \/ In (fst g) valued /\ (existsb (beqb (fst g)) (map b ["input"; "output"; "include-selector"; "exclude-selector"]%string) = true -> trim_space (snd g) <> [])
     /\ (existsb (beqb (fst g)) (map b ["include-selector"; "exclude-selector"]%string) = true -> parse (snd g) <> None).
Lemma given_in ns gs v : In v (given ns gs) -> exists n, In (n, v) gs /\ existsb (beqb n) (map b ns) = true.
Proof. unfold given. intros I. apply in_map_iff in I as ([n w] & <- & I). apply filter_In in I as [I E]. exists n. auto. Qed.
Lemma meant_fits gs c : meant gs c -> Forall (fun g => In (fst g) (switches ++ valued)) gs -> Forall fits gs.
Proof.
  intros M N. apply Forall_forall. intros [n v] I. pose proof (proj1 (Forall_forall _ _) N _ I) as K. cbn [fst] in K.
  unfold SpecFlags.meant in M. destruct M as (M1 & M2 & M3 & M4 & M5 & M6 & M7 & M8 & M9 & M10 & M11 & M12 & M13 & M14 & M15 & M16).
  assert (A : forall ns x, switched ns gs x -> existsb (beqb n) (map b ns) = true -> In v (yes_words ++ no_words)).
  { intros ns x [H _] E. exact (proj1 (Forall_forall _ _) H v (in_given ns gs n v I E)). }
  assert (B : forall k x, once k gs x -> existsb (beqb n) (map b [k]) = true -> trim_space v <> []).
  { intros k x H E T. pose proof (in_given [k] gs n v I E) as J. destruct H as [[H _]|(w & H & W & _)]; rewrite H in J; [destruct J|].
    destruct J as [<-|[]]. apply W. now apply trim_space_nil. }
  assert (C : forall k x, selected selector parse k gs x -> existsb (beqb n) (map b [k]) = true -> trim_space v <> [] /\ parse v <> None).
  { intros k x (ls & H & _) E. pose proof (in_given [k] gs n v I E) as J. clear - H J. induction H as [|w s l ls [H1 H2] H IH]; [destruct J|].
    destruct J as [->|J]; [|now apply IH]. split; [|congruence]. intros T. apply H1. now apply trim_space_nil. }
  apply in_app_iff in K as [K|K]; unfold fits; cbn [fst snd]; [left|right]; (split; [exact K|]).
  - cbn [switches map In] in K. repeat (destruct K as [<-|K]; [match goal with H : switched _ gs _ |- _ => exact (A _ _ H eq_refl) end|]). destruct K.
  - cbn [valued map In] in K. destruct K as [<-|[<-|[<-|[<-|[<-|[<-|[<-|[<-|[<-|[]]]]]]]]]]; (split; intros Q; [|]);
      first [discriminate Q | match goal with H : once _ gs _ |- _ => exact (B _ _ H eq_refl) end | match goal with H : selected _ _ _ gs _ |- _ => apply (C _ _ H eq_refl) end].
Qed.
Lemma once_short k gs x : once k gs x -> (List.length (given [k] gs) <= 1)%nat.
Proof. intros [[-> _]|(w & -> & _)]; cbn; lia. Qed.
Lemma run_works gs : Forall fits gs -> (List.length (given ["input"%string] gs) <= 1)%nat -> (List.length (given ["output"%string] gs) <= 1)%nat ->
  exists c, run (default_config selector) gs = Some c.
Proof.
  induction gs as [|[n v] gs IH] using rev_ind; intros F L1 L2; [eexists; reflexivity|].
  apply Forall_app in F as [F Fg]. inversion Fg as [|? ? Fn _]; subst. rewrite given_snoc, app_length in L1, L2.
  destruct IH as (c & R); [exact F|lia|lia|]. pose proof (run_meant gs c R) as M. rewrite run_snoc, R. unfold step. cbn [fst snd].
  assert (Z : forall k, (List.length (given [k] gs) + 1 <= 1)%nat -> forall x, once k gs x -> x = []).
  { intros k L x [[_ H]|(w & H & _)]; [exact H|]. rewrite H in L. cbn in L. lia. }
  destruct M as (_ & M2 & M3 & _). destruct Fn as [[I V]|(I & V1 & V2)]; cbn [fst snd] in *.
  - destruct (switch_flag n I) as (f & ->). pose proof (words_parse v V) as P. destruct (parse_bool v); [eauto|now contradiction P].
  - assert (Q : forall t, is_empty (trim_space v) = t -> existsb (beqb n) (map b ["input"; "output"; "include-selector"; "exclude-selector"]%string) = true -> t = false).
    { intros t <- Hn. specialize (V1 Hn). now destruct (trim_space v). }
    cbn [valued map In] in I. destruct I as [<-|[<-|[<-|[<-|[<-|[<-|[<-|[<-|[<-|[]]]]]]]]]].
    + change (find_flag (b "input")) with (Some (SetString selector (single _ (c_input _) (upd_input selector)))). cbn beta iota. unfold single.
      rewrite (Q _ eq_refl eq_refl). rewrite (Z "input"%string L1 _ M2). cbn [is_empty negb]. eauto.
    + change (find_flag (b "output")) with (Some (SetString selector (single _ (c_output _) (upd_output selector)))). cbn beta iota. unfold single.
      rewrite (Q _ eq_refl eq_refl). rewrite (Z "output"%string L2 _ M3). cbn [is_empty negb]. eauto.
    + eexists; reflexivity.
    + change (find_flag (b "include-selector")) with (Some (SetString selector (selectors _ parse (c_include _) (upd_include selector)))). cbn beta iota. unfold selectors.
      rewrite (Q _ eq_refl eq_refl). specialize (V2 eq_refl). destruct (parse v); [eauto|now contradiction V2].
    + change (find_flag (b "exclude-selector")) with (Some (SetString selector (selectors _ parse (c_exclude _) (upd_exclude selector)))). cbn beta iota. unfold selectors.
      rewrite (Q _ eq_refl eq_refl). specialize (V2 eq_refl). destruct (parse v); [eauto|now contradiction V2].
    + eexists; reflexivity.
    + eexists; reflexivity.
    + eexists; reflexivity.
    + eexists; reflexivity.
Qed.
Lemma reading_names args gs rest : reading args gs rest -> Forall (fun g => In (fst g) (switches ++ valued)) gs.
Proof. induction 1; constructor; auto; cbn [fst]; rewrite in_app_iff in *; auto. Qed.
Lemma switched_unique ns gs x y : switched ns gs x -> switched ns gs y -> x = y.
Proof. intros [_ A] [_ B]. destruct x, y; auto; [symmetry|]; intuition. Qed.

Lemma flags_meant args c rest : parse_flags selector parse args = inl (c, rest) -> exists gs, reading args gs rest /\ meant gs c /\ table_ready selector c.
Proof.
  intros H. pose proof H as H0. unfold parse_flags in H. destruct (parse_args (default_config selector) args) as [[c1 r1]|e] eqn:E; [|discriminate].
  assert (c1 = c /\ r1 = rest) as [-> ->].
  { repeat match type of H with (if ?q then _ else _) = _ => destruct q; [discriminate|] end. injection H as <- <-. auto. }
  apply (parse_reading _ _ (le_n _)) in E as (gs & R & Rn). exists gs. split; [exact R|]. split; [now apply run_meant|].
  unfold table_ready. destruct (c_table selector c); [reflexivity|]. cbn [negb] in H. rewrite !andb_true_r in H.
  destruct (c_skip_empty_rows selector c); [discriminate|]. destruct (c_header_promotion selector c); [discriminate|].
  destruct (c_span_cells selector c); [|discriminate]. destruct (c_presentation selector c); [discriminate|]. cbn [is_empty negb] in H.
  destruct (c_newlines selector c); [|discriminate]. destruct (c_padding selector c); [|discriminate]. intuition discriminate.
Qed.
Lemma flags_accepted args gs rest c0 : reading args gs rest -> meant gs c0 -> table_ready selector c0 ->
  exists c, parse_flags selector parse args = inl (c, rest) /\ meant gs c.
Proof.
  intros R M T. pose proof (meant_fits gs c0 M (reading_names _ _ _ R)) as F.
  destruct (run_works gs F) as (c & Rn); [destruct M as (_ & M & _); now apply once_short in M|destruct M as (_ & _ & M & _); now apply once_short in M|].
  pose proof (run_meant gs c Rn) as M'. exists c. split; [|exact M']. unfold parse_flags. rewrite (reading_parse _ _ _ R _ _ Rn).
  unfold table_ready in T. destruct M as (M1 & M2 & M3 & M4 & M5 & M6 & M7 & M8 & M9 & M10 & M11 & M12 & M13 & M14 & M15 & M16).
  destruct M' as (N1 & N2 & N3 & N4 & N5 & N6 & N7 & N8 & N9 & N10 & N11 & N12 & N13 & N14 & N15 & N16).
  rewrite (switched_unique _ _ _ _ M11 N11), (switched_unique _ _ _ _ M12 N12), (switched_unique _ _ _ _ M14 N14), (switched_unique _ _ _ _ M10 N10) in T.
  unfold text_is in *. rewrite M13, M15, M16, <- N13, <- N15, <- N16 in T.
  destruct (c_table selector c); [now rewrite !andb_false_r|]. cbn [negb]. rewrite !andb_true_r.
  destruct (c_skip_empty_rows selector c); [discriminate T; auto|]. destruct (c_header_promotion selector c); [discriminate T; auto|].
  destruct (c_span_cells selector c); [|discriminate T; right; right; left; discriminate]. destruct (c_presentation selector c); [discriminate T; auto|].
  destruct (c_newlines selector c); [|discriminate T; do 4 right; left; discriminate]. destruct (c_padding selector c); [reflexivity|].
  discriminate T. do 5 right. discriminate.
Qed.
End flags.
