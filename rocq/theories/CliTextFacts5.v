(** The usage text, the version, the reports. *)
From Coq Require Import List NArith ZArith Arith Bool String Lia ZifyBool ZifyNat ZifyN.
From Verif Require Import Bytes Cli SpecCli CliText SpecCliText CliTextFacts1 CliTextFacts2 CliTextFacts4.
Import ListNotations.
Open Scope N_scope.
Open Scope list_scope.

Lemma split_front sep x : ~ In sep x -> forall y p ps, split_on sep y = p :: ps -> split_on sep (x ++ y) = (x ++ p) :: ps.
Proof.
  induction x as [|c x IH]; intros H y p ps E; [exact E|]. cbn [app split_on].
  assert (Ec : (c =? sep) = false) by (apply N.eqb_neq; intros ->; apply H; left; reflexivity).
  rewrite Ec, (IH (fun G => H (or_intror G)) y p ps E). reflexivity.
Qed.
Lemma split_line sep x : ~ In sep x -> forall y, split_on sep (x ++ sep :: y) = x :: split_on sep y.
Proof.
  intros H y. rewrite (split_front sep x H (sep :: y) [] (split_on sep y)); [rewrite app_nil_r; reflexivity|].
  cbn [split_on]. rewrite N.eqb_refl. reflexivity.
Qed.
Definition after_version : bytes :=
  usage_middle ++ flat_map usage_flag (sort_flags (List.filter (fun f => negb (manual_flag (fst f))) visit_all)) ++ usage_tail.
Definition usage_first : bytes := skipn 1 usage_head.
Transparent visit_all.
Definition listed : list bytes := Eval vm_compute in listed_flags (usage_head ++ after_version).
Lemma usage_listed r : ~ In 10 (r_version r) -> listed_flags (usage_text r) = listed.
Proof.
  intros H. change (usage_text r) with (10 :: usage_first ++ r_version r ++ after_version).
  assert (S : exists p ps, split_on 10 after_version = p :: ps /\ flat_map options_in (below_flags ps) = listed).
  { destruct (split_on 10 after_version) as [|p ps] eqn:E; [vm_compute in E; discriminate|]. exists p, ps. split; [reflexivity|].
    replace ps with (tl (split_on 10 after_version)) by (rewrite E; reflexivity). vm_compute. reflexivity. }
  destruct S as (p & ps & E & L). unfold listed_flags.
  assert (E2 : split_on 10 (10 :: usage_first ++ r_version r ++ after_version) = [] :: (usage_first ++ r_version r ++ p) :: ps).
  { change (split_on 10 (10 :: ?x)) with ([] :: split_on 10 x). f_equal. apply split_front; [|apply split_front; assumption].
    intros G. apply (in_split 10) in G. vm_compute in G. destruct G as (l1 & l2 & G).
    assert (In 10 usage_first) as I by (replace usage_first with (l1 ++ 10 :: l2) by (rewrite <- G; reflexivity); apply in_or_app; right; left; reflexivity).
    clear -I. assert (A : existsb (N.eqb 10) usage_first = true) by (apply existsb_exists; exists 10; split; [exact I|reflexivity]).
    vm_compute in A. discriminate. }
  rewrite E2. assert (E3 : forall z, below_flags ([] :: (usage_first ++ z) :: ps) = below_flags ps) by (intros z; reflexivity).
  rewrite E3. exact L.
Qed.
Lemma listed_iff w f : In f listed <-> accepted_flag w f \/ f = b "help".
Proof.
  rewrite known_iff. split.
  - revert f. apply Forall_forall. assert (A : forallb (fun f => existsb (beqb f) (b "help" :: flag_names)) listed = true) by (vm_compute; reflexivity).
    apply Forall_forall. intros f F. rewrite forallb_forall in A. specialize (A f F). apply existsb_exists in A.
    destruct A as (g & G & E). apply beqb_eq in E. subst g. destruct G as [<-|G]; [right; reflexivity|left; exact G].
  - assert (A : forallb (fun f => existsb (beqb f) listed) (b "help" :: flag_names) = true) by (vm_compute; reflexivity).
    intros H. assert (F : In f (b "help" :: flag_names)) by (destruct H as [H| ->]; [right; exact H|left; reflexivity]).
    rewrite forallb_forall in A. specialize (A f F). apply existsb_exists in A. destruct A as (g & G & E). apply beqb_eq in E. subst g. exact G.
Qed.
Lemma listed_once : NoDup listed.
Proof. repeat (constructor; [vm_compute; intuition discriminate|]). constructor. Qed.
Opaque visit_all.
Lemma usage_lists w r : ~ In 10 (r_version r) ->
  NoDup (listed_flags (usage_text r)) /\
  forall f, In f (listed_flags (usage_text r)) <-> accepted_flag w f \/ f = b "help".
Proof. intros H. rewrite usage_listed by exact H. split; [apply listed_once|intros f; apply listed_iff]. Qed.

(** ** Version *)
Lemma version_lines r : ~ In 10 (r_version r) -> ~ In 10 (r_commit r) -> ~ In 10 (r_date r) ->
  split_on 10 (version_text r) = [b "html2markdown"; []; b "GitVersion:  " ++ r_version r; b "GitCommit:   " ++ r_commit r;
    b "BuildDate:   " ++ r_date r; []].
Proof.
  intros H1 H2 H3. unfold version_text.
  assert (L : forall x v y, ~ In 10 x -> ~ In 10 v -> split_on 10 (x ++ v ++ [cNL] ++ y) = (x ++ v) :: split_on 10 y).
  { intros x v y Hx Hv. rewrite app_assoc. apply (split_line 10 (x ++ v)). intros G. apply in_app_or in G. tauto. }
  change (b "html2markdown" ++ [cNL; cNL] ++ ?x) with (b "html2markdown" ++ 10 :: 10 :: x).
  rewrite split_line by (vm_compute; intuition discriminate). change (split_on 10 (10 :: ?x)) with ([] :: split_on 10 x).
  rewrite L by (try assumption; vm_compute; intuition discriminate). rewrite L by (try assumption; vm_compute; intuition discriminate).
  replace (b "BuildDate:   " ++ r_date r ++ [cNL]) with (b "BuildDate:   " ++ r_date r ++ [cNL] ++ []) by reflexivity.
  rewrite L by (try assumption; vm_compute; intuition discriminate). reflexivity.
Qed.
Lemma beqb_refl x : beqb x x = true. Proof. induction x as [|c x IH]; [reflexivity|]. cbn [beqb]. rewrite N.eqb_refl. exact IH. Qed.
Lemma use_settings l : forall r,
  let r' := fold_left use_setting l r in
  r_version r' = r_version r /\
  r_commit r' = first_known unknown_value (r_commit r :: map (firstn 7) (List.filter (fun v => Nat.leb 7 (List.length v)) (values_of (b "vcs.revision") l))) /\
  r_date r' = first_known unknown_value (r_date r :: List.filter (fun v => negb (is_empty v)) (values_of (b "vcs.time") l)).
Proof.
  assert (K : forall v, (if beqb v unknown_value then unknown_value else v) = v).
  { intros v. destruct (beqb v unknown_value) eqn:E; [apply beqb_eq in E; auto|reflexivity]. }
  induction l as [|[k v] l IH]; intros r; cbn zeta.
  - cbn [fold_left values_of List.filter map first_known]. rewrite !K. auto.
  - cbn [fold_left]. specialize (IH (use_setting r (k, v))). cbn zeta in IH. destruct IH as (E1 & E2 & E3).
    rewrite E1, E2, E3. unfold use_setting, values_of. cbn [fst snd List.filter].
    destruct (beqb k (b "vcs.revision")) eqn:Ek.
    + apply beqb_eq in Ek. subst k. change (beqb (b "vcs.revision") (b "vcs.time")) with false. cbn [map snd List.filter].
      destruct (Nat.leb 7 (List.length v)) eqn:L; cbn [map].
      * rewrite Bool.andb_true_r. cbn [first_known]. destruct (beqb (r_commit r) unknown_value) eqn:E; cbn [r_version r_commit r_date].
        -- repeat split. 
        -- rewrite E. repeat split.
      * rewrite Bool.andb_false_r. repeat split.
    + destruct (beqb k (b "vcs.time")) eqn:Et.
      * cbn [map snd List.filter]. destruct (negb (is_empty v)) eqn:L.
        -- rewrite Bool.andb_true_r. cbn [first_known]. destruct (beqb (r_date r) unknown_value) eqn:E; cbn [r_version r_commit r_date].
           ++ repeat split.
           ++ rewrite E. repeat split.
        -- rewrite Bool.andb_false_r. repeat split.
      * repeat split.
Qed.
Lemma release_fields linked i :
  let r := release_of linked (Some i) in
  r_version r = first_known (b "unknown") [r_version linked; if is_empty (bi_version i) || beqb (bi_version i) (b "(devel)") then b "unknown" else bi_version i] /\
  r_commit r = first_known (b "unknown") (r_commit linked :: map (firstn 7) (List.filter (fun v => Nat.leb 7 (List.length v)) (values_of (b "vcs.revision") (bi_settings i)))) /\
  r_date r = first_known (b "unknown") (r_date linked :: List.filter (fun v => negb (is_empty v)) (values_of (b "vcs.time") (bi_settings i))).
Proof.
  cbn zeta. unfold release_of.
  destruct (use_settings (bi_settings i) {| r_version := if beqb (r_version linked) unknown_value && negb (is_empty (bi_version i)) && negb (beqb (bi_version i) (b "(devel)"))
               then bi_version i else r_version linked; r_commit := r_commit linked; r_date := r_date linked |}) as (E1 & E2 & E3).
  rewrite E1, E2, E3. cbn [r_version r_commit r_date]. split; [|split; reflexivity].
  change unknown_value with (b "unknown"). set (u := b "unknown"). cbn [first_known].
  destruct (beqb (r_version linked) u) eqn:E; cbn [andb].
  - apply beqb_eq in E. rewrite E. destruct (is_empty (bi_version i)) eqn:Ee; cbn [negb andb orb].
    + rewrite beqb_refl. reflexivity.
    + destruct (beqb (bi_version i) (b "(devel)")) eqn:Ed; cbn [negb].
      * rewrite beqb_refl. reflexivity.
      * destruct (beqb (bi_version i) u) eqn:Ev; [apply beqb_eq in Ev; auto|reflexivity].
  - reflexivity.
Qed.

(** ** Runs that only write a text *)
Lemma exit_trace n tr p : trace (Exit n) tr p -> tr = [] /\ p = Exit n.
Proof. intros T. inversion T as [|q ev p1 tr' p2 D]; subst; [auto|inversion D]. Qed.
Lemma stdout_trace t n tr m : trace (WriteStdout t (fun _ => Exit n)) tr (Exit m) -> m = n /\ exists ok, tr = [EvStdout t ok].
Proof.
  intros T. inversion T as [|q ev p1 tr' p2 D T2]; subst. inversion D; subst. apply exit_trace in T2. destruct T2 as [-> E].
  injection E as ->. split; [reflexivity|]. eexists. reflexivity.
Qed.
Lemma help_run w r args i o e tr code : w_usage w = usage_text r ->
  parse_flags (w_selector w) (w_parse w) args = inr HelpRequested ->
  trace (program w (Some i) (Some o) (Some e) args) tr (Exit code) -> code = 0%nat /\ exists ok, tr = [EvStdout (usage_text r) ok].
Proof.
  intros U P T. unfold program, cli_main, execute, run in T. rewrite P, U in T. apply stdout_trace in T. exact T.
Qed.
Lemma version_run w r args c i o e tr code : w_version w = version_text r ->
  accepts w args c -> c_version _ c = true ->
  trace (program w (Some i) (Some o) (Some e) args) tr (Exit code) -> code = 0%nat /\ exists ok, tr = [EvStdout (version_text r) ok].
Proof.
  intros U P V T. unfold accepts in P. unfold program, cli_main, execute, run in T. rewrite P, V, U in T. cbn [is_empty negb] in T.
  apply stdout_trace in T. exact T.
Qed.

(** ** Reports *)
Section reports.
Variable paint_prefix paint_message : bytes -> bytes.
Variable is_print : N -> bool.
Variable foreign : error -> bytes.
Notation rep := (report paint_prefix paint_message is_print foreign).
Lemma prefix_app x y : has_prefix x (x ++ y) = true.
Proof. induction x as [|c x IH]; [reflexivity|]. cbn [app has_prefix]. rewrite N.eqb_refl. exact IH. Qed.
Lemma format_hyphens f : format_flag f = with_hyphens f.
Proof. destruct f as [|c [|d f]]; reflexivity. Qed.
Lemma unknown_report out name :
  rep out (UnknownFlag name) =
  [10] ++ paint_prefix (b "error:") ++ [32] ++ paint_message (b "unknown flag: " ++ with_hyphens name) ++ [10] ++
  match alternative_flag name with
  | [] => []
  | f => [10] ++ b "Did you mean " ++ with_hyphens f ++ b " instead?" ++ [10]
  end ++ [10].
Proof.
  unfold report, cli_error_of, flag_message, categorize. rewrite prefix_app, skipn_exact, !format_hyphens.
  destruct (alternative_flag name) as [|c f]; cbn [is_empty].
  - unfold print_details. cbn [fst snd flat_map print app]. rewrite <- !app_assoc. reflexivity.
  - unfold print_details. cbn [fst snd flat_map print app]. rewrite <- !app_assoc. cbn [app]. rewrite <- !app_assoc.
    reflexivity.
Qed.
Lemma categorize_other m : has_prefix not_defined m = false -> categorize m = (m, []).
Proof. intros H. unfold categorize. rewrite H. reflexivity. Qed.
Lemma mean_unknown out e text : In (Paragraph (b "Did you mean " ++ text)) (snd (cli_error_of is_print foreign out e)) ->
  exists name, e = UnknownFlag name.
Proof.
  assert (N1 : forall m, has_prefix not_defined m = false -> In (Paragraph (b "Did you mean " ++ text)) (snd (categorize m)) -> False)
    by (intros m H; rewrite (categorize_other m H); intros []).
  destruct e; cbn [cli_error_of snd]; intros H; try (exfalso; revert H; apply N1; reflexivity); try (eexists; reflexivity);
    try (cbn in H; contradiction); unfold how_to_pipe, how_to_glob in H; cbn [In] in H;
    repeat (destruct H as [H|H]; [discriminate H|]); contradiction.
Qed.
End reports.
Section plain_reports.
Variable is_print : N -> bool.
Variable foreign : error -> bytes.
Notation rep := (report (fun x => x) (fun x => x) is_print foreign).
Lemma found_in_report out e x p y hints : cli_error_of is_print foreign out e = (x ++ quote is_print p ++ y, hints) ->
  existsb (N.eqb 34) x = false ->
  exists u v, rep out e = u ++ quote is_print p ++ v /\ ~ In 34 u.
Proof.
  intros E H. unfold report, print_details. rewrite E. cbn [fst snd flat_map print].
  exists ([cNL] ++ (b "error" ++ b ":") ++ b " " ++ x),
    (y ++ [cNL] ++ flat_map (fun q => [cNL] ++ print (fun z => z) (fun z => z) q) hints ++ [cNL]).
  split; [rewrite <- !app_assoc; reflexivity|].
  intros G. rewrite !in_app_iff in G.
  assert (Gx : In 34 x).
  { destruct G as [G|[[G|G]|[G|G]]]; [| | | |exact G]; exfalso; vm_compute in G; intuition discriminate. }
  assert (A : existsb (N.eqb 34) x = true) by (apply existsb_exists; exists 34; split; [exact Gx|reflexivity]). congruence.
Qed.
Lemma names_file out e p : e = InputIsDirectory p \/ e = NoFilesFound p \/ (exists q, e = OutputExists q) /\ out = p ->
  exists u v, rep out e = u ++ quote is_print p ++ v /\ ~ In 34 u.
Proof.
  intros [-> |[-> |[[q ->] ->]]].
  - apply (found_in_report _ _ (b "input path ") p (b " is a directory, not a file") how_to_glob); reflexivity.
  - apply (found_in_report _ _ (b "no files found matching pattern ") p [] how_to_glob); [|reflexivity].
    rewrite app_nil_r. reflexivity.
  - apply (found_in_report _ _ (b "output path ") p (b " already exists. Use --output-overwrite to replace existing files") []); reflexivity.
Qed.
End plain_reports.
Lemma raw_flag : exists args name,
  parse_flags unit (fun _ => None) args = inr (UnknownFlag name) /\
  In 27 (report (fun x => x) (fun x => x) (fun _ => false) (fun _ => []) [] (UnknownFlag name)).
Proof.
  exists [b "--" ++ [27] ++ b "[2J"], ([27] ++ b "[2J"). split; [vm_compute; reflexivity|].
  assert (A : existsb (N.eqb 27) (report (fun x => x) (fun x => x) (fun _ => false) (fun _ => []) [] (UnknownFlag ([27] ++ b "[2J"))) = true)
    by (vm_compute; reflexivity).
  apply existsb_exists in A. destruct A as (c & C & E). apply N.eqb_eq in E. subst c. exact C.
Qed.
Lemma same_report : exists out x y, x <> y /\
  let p := join_path out x in let q := join_path out y in
  p <> q /\
  report (fun x => x) (fun x => x) (fun _ => true) (fun _ => []) out (OutputExists p) =
  report (fun x => x) (fun x => x) (fun _ => true) (fun _ => []) out (OutputExists q) /\
  contains x (report (fun x => x) (fun x => x) (fun _ => true) (fun _ => []) out (OutputExists p)) = false.
Proof.
  exists (b "dist/"), (b "a.md"), (b "b.md"). cbn zeta. split; [discriminate|]. split; [vm_compute; discriminate|]. vm_compute. split; reflexivity.
Qed.
