(** Theorems about the texts of the command line program (C68-C71). Only statements; the specification is SpecCliText.v, the model
    CliText.v. *)
From Coq Require Import List NArith Arith Bool String.
From Verif Require Import Bytes Cli SpecCli CliSim CliWitness CliText SpecCliText CliTextFacts1 CliTextFacts2 CliTextFacts3 CliTextFacts4 CliTextFacts5.
Import ListNotations.
Open Scope N_scope.
Open Scope list_scope.

(** ** C68 *)
(** A suggested flag exists, is at most four changes away and less than the length of the name, and no flag is nearer; of several
    equally near ones it is the first in the dictionary. *)
Theorem c68_suggestion : forall w name f,
  N.of_nat (rune_count name) < 65535 -> alternative_flag name = f -> f <> [] ->
  accepted_flag w f /\
  exists d, distance (runes f) (runes name) d /\ (d <= 4)%nat /\ (d < rune_count name)%nat /\
    forall g e, accepted_flag w g -> distance (runes g) (runes name) e -> (d <= e)%nat /\ (e = d -> g = f \/ before f g).
Proof. exact suggestion. Qed.
Print Assumptions c68_suggestion.
(** Without suggestion no flag is that near. *)
Theorem c68_no_suggestion : forall w name,
  N.of_nat (rune_count name) < 65535 -> alternative_flag name = [] ->
  forall g d, accepted_flag w g -> distance (runes g) (runes name) d -> (4 < d)%nat \/ (rune_count name <= d)%nat.
Proof. exact no_suggestion. Qed.
Print Assumptions c68_no_suggestion.
(** The report names the flag as it was typed, then the suggestion. *)
Theorem c68_report : forall paint_prefix paint_message is_print foreign out name,
  report paint_prefix paint_message is_print foreign out (UnknownFlag name) =
  [10] ++ paint_prefix (b "error:") ++ [32] ++ paint_message (b "unknown flag: " ++ with_hyphens name) ++ [10] ++
  match alternative_flag name with
  | [] => []
  | f => [10] ++ b "Did you mean " ++ with_hyphens f ++ b " instead?" ++ [10]
  end ++ [10].
Proof. exact unknown_report. Qed.
Print Assumptions c68_report.
(** Only unknown flags get one. *)
Theorem c68_only_unknown : forall is_print foreign out e text,
  In (Paragraph (b "Did you mean " ++ text)) (snd (cli_error_of is_print foreign out e)) -> exists name, e = UnknownFlag name.
Proof. exact mean_unknown. Qed.
Print Assumptions c68_only_unknown.
Example c68_ex :
  map (fun x => show (alternative_flag (b x))) ["opt_strong_delimiter"; "vv"; "inputt"; "versoin"; "x"; "out"; "this-does-not-exist"]%string =
  ["opt-strong-delimiter"; "v"; "input"; "version"; ""; ""; ""]%string /\
  show (report (fun x => x) (fun x => x) (fun _ => true) (fun _ => []) [] (UnknownFlag (b "opt_strong_delimiter"))) =
  ("
error: unknown flag: --opt_strong_delimiter

Did you mean --opt-strong-delimiter instead?

")%string.
Proof. vm_compute. split; reflexivity. Qed.
Example c68_parse_ex : parse_flags unit (fun _ => None) [b "--plugin-table"; b "-opt_strong_delimiter=__"] = inr (UnknownFlag (b "opt_strong_delimiter")).
Proof. vm_compute. reflexivity. Qed.
(** The distances are kept in 16 bits: a name of 65535 letters gets a suggestion although no flag is near. *)
Theorem c68_long_refuted : exists name, alternative_flag name <> [] /\
  forall w g d, accepted_flag w g -> distance (runes g) (runes name) d -> (1000 < d)%nat.
Proof. exact long_suggestion. Qed.
Print Assumptions c68_long_refuted.

(** ** C69 *)
(** The usage text lists exactly the flags that the program knows, and help, each once. *)
Theorem c69_usage : forall w r, ~ In 10 (r_version r) ->
  NoDup (listed_flags (usage_text r)) /\
  forall f, In f (listed_flags (usage_text r)) <-> accepted_flag w f \/ f = b "help".
Proof. exact usage_lists. Qed.
Print Assumptions c69_usage.
(** Asked for help the program writes it, and nothing else. *)
Theorem c69_help : forall w r args i o e tr code,
  w_usage w = usage_text r -> parse_flags (w_selector w) (w_parse w) args = inr HelpRequested ->
  trace (program w (Some i) (Some o) (Some e) args) tr (Exit code) -> code = 0%nat /\ exists ok, tr = [EvStdout (usage_text r) ok].
Proof. exact help_run. Qed.
Print Assumptions c69_help.
Example c69_ex :
  map show (listed_flags (usage_text {| r_version := b "2.3.4-test"; r_commit := []; r_date := [] |})) =
  ["v"; "version"; "help"; "input"; "output"; "output-overwrite"; "domain"; "exclude-selector"; "include-selector";
   "opt-strong-delimiter"; "opt-table-cell-padding-behavior"; "opt-table-header-promotion"; "opt-table-newline-behavior";
   "opt-table-presentation-tables"; "opt-table-skip-empty-rows"; "opt-table-span-cell-behavior"; "plugin-strikethrough"; "plugin-table"]%string /\
  parse_flags unit (fun _ => None) [b "--plugin-table"; b "--help"] = inr HelpRequested.
Proof. vm_compute. split; reflexivity. Qed.

(** ** C70 *)
(** Each field of the release: what the linker set, otherwise the first fitting value of the build information, otherwise unknown *)
Theorem c70_release : forall linked i,
  let r := release_of linked (Some i) in
  r_version r = first_known (b "unknown") [r_version linked; if is_empty (bi_version i) || beqb (bi_version i) (b "(devel)") then b "unknown" else bi_version i] /\
  r_commit r = first_known (b "unknown") (r_commit linked :: map (firstn 7) (List.filter (fun v => Nat.leb 7 (List.length v)) (values_of (b "vcs.revision") (bi_settings i)))) /\
  r_date r = first_known (b "unknown") (r_date linked :: List.filter (fun v => negb (is_empty v)) (values_of (b "vcs.time") (bi_settings i))).
Proof. exact release_fields. Qed.
Print Assumptions c70_release.
(** Asked for the version the program writes these six lines, and nothing else. *)
Theorem c70_version : forall w r args c i o e tr code,
  w_version w = version_text r -> accepts w args c -> c_version _ c = true ->
  trace (program w (Some i) (Some o) (Some e) args) tr (Exit code) -> code = 0%nat /\ exists ok, tr = [EvStdout (version_text r) ok].
Proof. exact version_run. Qed.
Print Assumptions c70_version.
Theorem c70_lines : forall r, ~ In 10 (r_version r) -> ~ In 10 (r_commit r) -> ~ In 10 (r_date r) ->
  split_on 10 (version_text r) = [b "html2markdown"; []; b "GitVersion:  " ++ r_version r; b "GitCommit:   " ++ r_commit r;
    b "BuildDate:   " ++ r_date r; []].
Proof. exact version_lines. Qed.
Print Assumptions c70_lines.
Definition c70_linked : release := {| r_version := b "unknown"; r_commit := b "unknown"; r_date := b "2026-05-07" |}.
Definition c70_info : build_info := {| bi_version := b "v2.5.0";
  bi_settings := [(b "vcs", b "git"); (b "vcs.revision", b "abc"); (b "vcs.revision", b "ca82a6dff817ec66"); (b "vcs.time", b "2024-08-18T13:03:43Z")] |}.
Example c70_ex : release_of c70_linked (Some c70_info) = {| r_version := b "v2.5.0"; r_commit := b "ca82a6d"; r_date := b "2026-05-07" |} /\
  exists c, accepts sim_world [b "-v"] c /\ c_version _ c = true.
Proof. split; [vm_compute; reflexivity|]. eexists. split; vm_compute; reflexivity. Qed.

(** ** C71 *)
(** A quoted text can be read back and has no control characters, so it stays on its line. *)
Theorem c71_quoted : forall is_print s, Forall (fun c => c < 256) s ->
  read_quoted (quote is_print s) = Some s /\ Forall (fun c => 32 <= c /\ c <> 127) (quote is_print s).
Proof. exact (fun is_print s B => conj (read_quote is_print s B) (calm_quote is_print s)). Qed.
Print Assumptions c71_quoted.
(** The reports about a path given by the user contain it, quoted. *)
Theorem c71_names_path : forall is_print foreign out e p,
  e = InputIsDirectory p \/ e = NoFilesFound p \/ (exists q, e = OutputExists q) /\ out = p ->
  exists u v, report (fun x => x) (fun x => x) is_print foreign out e = u ++ quote is_print p ++ v /\ ~ In 34 u.
Proof. exact names_file. Qed.
Print Assumptions c71_names_path.
Example c71_ex :
  show (report (fun x => x) (fun x => x) (fun _ => true) (fun _ => []) [] (NoFilesFound (b "a""b\c" ++ [10; 195; 164; 200] ++ b "x"))) =
  ("
error: no files found matching pattern ""a\""b\\c\nä\xc8x""

Here is how you can use a glob to match multiple files:

    html2markdown --input ""src/*.html"" --output ""dist/""

")%string.
Proof. vm_compute. reflexivity. Qed.
(** Names of flags are not quoted: what an argument contains reaches the terminal, control characters included. *)
Theorem c71_raw_refuted : exists args name,
  parse_flags unit (fun _ => None) args = inr (UnknownFlag name) /\
  In 27 (report (fun x => x) (fun x => x) (fun _ => false) (fun _ => []) [] (UnknownFlag name)).
Proof. exact raw_flag. Qed.
Print Assumptions c71_raw_refuted.
(** The message about an existing file in the output directory names the directory only: two files, one report. *)
Theorem c71_existing_file_refuted : exists out x y, x <> y /\
  let p := join_path out x in let q := join_path out y in
  p <> q /\
  report (fun x => x) (fun x => x) (fun _ => true) (fun _ => []) out (OutputExists p) =
  report (fun x => x) (fun x => x) (fun _ => true) (fun _ => []) out (OutputExists q) /\
  contains x (report (fun x => x) (fun x => x) (fun _ => true) (fun _ => []) out (OutputExists p)) = false.
Proof. exact same_report. Qed.
Print Assumptions c71_existing_file_refuted.
