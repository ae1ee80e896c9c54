(** Theorems about the command line program (C47-C50, C52). Only statements; the specification is SpecCli.v, the model Cli.v. *)
From Coq Require Import List NArith Arith Bool String.
From Verif Require Import Bytes Cli SpecCli CliFacts CliFacts2 CliFacts3 CliFacts4 CliSim CliWitness.
Import ListNotations.
Open Scope N_scope.
Open Scope list_scope.

(** ** C47 *)
(** Whatever other processes do meanwhile, no operation of the program changes a file that it did not create itself, and none
    takes away or redirects a name. *)
Theorem c47_no_change : forall w i o e args f0 tr f p ev f' p',
  keeps_files w args -> history anything f0 (program w i o e args) tr f p -> does p ev p' -> effect ev f f' ->
  (forall n, content f n <> None -> ~ In n (created tr) -> content f' n = content f n) /\
  (forall q x, names f q = Some x -> names f' q = Some x).
Proof. exact w_no_change. Qed.
Print Assumptions c47_no_change.
(** Stopped at any moment: every file that was there is there, with its contents. *)
Theorem c47_crash : forall w i o e args f0 tr f p q n d,
  keeps_files w args -> history alone f0 (program w i o e args) tr f p ->
  names f0 q = Some (File n) -> content f0 n = Some d -> names f q = Some (File n) /\ content f n = Some d.
Proof. exact w_crash. Qed.
Print Assumptions c47_crash.
(** An existing target ends the run with a message and status 1, also when it appeared a moment ago. *)
Theorem c47_existing_fails : forall w i o e args f0 tr f q m k x ev p' f',
  keeps_files w args -> history anything f0 (program w i o e args) tr f (OpenFile q m k) -> names f q = Some x ->
  does (OpenFile q m k) ev p' -> effect ev f f' -> f' = f /\ exists err, p' = WriteStderr err (Exit 1).
Proof. exact w_existing_fails. Qed.
Print Assumptions c47_existing_fails.
(** So after a successful run no target had existed. *)
Theorem c47_success : forall w i o e args c f0 tr f q d,
  accepts w args c -> c_overwrite _ c = false -> history alone f0 (program w i o e args) tr f (Exit 0) ->
  In (q, d) (written tr) -> names f0 q = None.
Proof. exact w_success. Qed.
Print Assumptions c47_success.
(** The flag has to be given: arguments that do not mention it keep the files. *)
Theorem c47_flag : forall w args,
  (forall a, In a args -> contains (b "output-overwrite") a = false) -> keeps_files w args.
Proof. exact w_flag. Qed.
Print Assumptions c47_flag.
Example c47_ex : keeps_files sim_world two_args /\
  exists tr f, history alone two_files (program sim_world (Some false) (Some true) (Some true) two_args) tr f (Exit 0) /\
    written tr = [(b "out/a.md", b "A"); (b "out/b.md", b "B")].
Proof. exact two_run. Qed.
Example c47_fail_ex : exists tr f k, history alone old_files (program sim_world (Some false) (Some true) (Some true) two_args) tr f
    (OpenFile (b "out/b.md") Excl k) /\ names f (b "out/b.md") = Some (File 2) /\ written tr = [(b "out/a.md", b "A")].
Proof. exact old_run. Qed.
(** With the flag there is a moment at which the old contents are gone and the new ones not there. *)
Theorem c47_overwrite_crash_refuted : exists w args f0 tr f p q n d,
  history alone f0 (program w (Some false) (Some true) (Some true) args) tr f p /\
  names f0 q = Some (File n) /\ content f0 n = Some d /\ d <> [] /\ content f n = Some [].
Proof. exact overwrite_crash. Qed.
Print Assumptions c47_overwrite_crash_refuted.

(** ** C48 *)
(** Every output name is the input's name without directory and extension, a hash for repeated names, and .md *)
Theorem c48_names : forall hash rel glob_base inputs outs,
  (forall p, In p inputs -> exists stem, stem_of p stem) ->
  output_names hash rel glob_base [] inputs = Some outs ->
  Forall2 (fun p out => exists stem, stem_of p stem /\
     (out = stem ++ b ".md" \/ exists r, rel glob_base p = Some r /\ out = stem ++ b "." ++ firstn 10 (hash r) ++ b ".md")) inputs outs.
Proof. exact names_of_stems. Qed.
Print Assumptions c48_names.
(** No two outputs share a name if the shortened hashes of the inputs differ and no input is itself named like a hashed
    output. *)
Theorem c48_distinct_partial : forall hash rel glob_base inputs outs,
  (forall r, (10 <= List.length (hash r))%nat) -> NoDup inputs ->
  (forall p, In p inputs -> exists stem, stem_of p stem) ->
  (forall p q rp rq, In p inputs -> In q inputs -> p <> q -> rel glob_base p = Some rp -> rel glob_base q = Some rq ->
     firstn 10 (hash rp) <> firstn 10 (hash rq)) ->
  (forall p q r sp sq, In p inputs -> In q inputs -> rel glob_base q = Some r -> stem_of p sp -> stem_of q sq ->
     sp <> sq ++ b "." ++ firstn 10 (hash r)) ->
  output_names hash rel glob_base [] inputs = Some outs -> NoDup outs.
Proof. exact names_distinct. Qed.
Print Assumptions c48_distinct_partial.
Example c48_ex : output_names sim_hash (fun _ p => Some p) (b "in") [] four =
  Some [b "x.md"; b "x.mneioipcpo.md"; b "y.tar.md"; b "x.neioipdpoj.md"].
Proof. vm_compute. reflexivity. Qed.
Example c48_hyps_ex :
  (forall r, (10 <= List.length (sim_hash r))%nat) /\ NoDup four /\ (forall p, In p four -> exists stem, stem_of p stem) /\
  (forall p q, In p four -> In q four -> p <> q -> firstn 10 (sim_hash p) <> firstn 10 (sim_hash q)) /\
  (forall p q sp sq, In p four -> In q four -> stem_of p sp -> stem_of q sq -> sp <> sq ++ b "." ++ firstn 10 (sim_hash q)).
Proof. exact four_ok. Qed.
(** Without the second condition two inputs share an output, whatever the hash function: the name of the third input is
    chosen after the hash of the second. *)
Theorem c48_collision_refuted : forall hash rel glob_base r,
  rel glob_base (b "b/x.html") = Some r -> ~ In 47 (hash r) -> exists inputs outs,
  NoDup inputs /\ output_names hash rel glob_base [] inputs = Some outs /\ ~ NoDup outs.
Proof. exact names_collision. Qed.
Print Assumptions c48_collision_refuted.
(** Each output lies directly in the output directory. *)
Theorem c48_below : forall hash rel glob_base out inputs outs name,
  has_suffix (b "/") out = true -> (forall p, In p inputs -> exists stem, stem_of p stem) -> (forall r, ~ In 47 (hash r)) ->
  output_names hash rel glob_base [] inputs = Some outs -> In name outs ->
  ~ In 47 name /\
  join_path out name = (if beqb (clean_path out) (b ".") then [] else if beqb (clean_path out) (b "/") then b "/" else clean_path out ++ b "/") ++ name.
Proof. exact names_below. Qed.
Print Assumptions c48_below.
Example c48_below_ex : join_path (b "dist//sub/../") (b "a.md") = b "dist/a.md" /\ join_path (b "./") (b "a.md") = b "a.md" /\
  join_path (b "/") (b "a.md") = b "/a.md" /\ join_path (b "../x/") (b "a.md") = b "../x/a.md".
Proof. vm_compute. auto. Qed.

(** ** C49 *)
(** Status 0 exactly if nothing was reported on standard error; then every operation succeeded (writes to standard output
    apart).  Otherwise the status is 1, one message comes last and standard output is empty. *)
Theorem c49_exit_status : forall w i o e args tr code,
  trace (program w i o e args) tr (Exit code) ->
  (code = 0%nat /\ Forall (fun ev => ~ failed ev /\ ~ is_stderr ev) tr) \/
  (code = 1%nat /\ exists tr0 err, tr = tr0 ++ [EvStderr err] /\ Forall (fun ev => ~ is_stdout ev /\ ~ is_stderr ev) tr0).
Proof. exact w_exit_status. Qed.
Print Assumptions c49_exit_status.
(** There is no other way to end once the standard streams could be examined. *)
Theorem c49_no_panic : forall w i o e args tr p, trace (program w (Some i) (Some o) (Some e) args) tr p -> p <> Panic.
Proof. exact w_no_panic. Qed.
Print Assumptions c49_no_panic.
Example c49_ex : exists tr, trace (program sim_world (Some false) (Some true) (Some true) [b "--input"; b "nothing"]) tr (Exit 1) /\
  tr = [EvGlob (b "nothing") (Some []); EvStat (b "nothing") StatFailed; EvStderr (NoFilesFound (b "nothing"))].
Proof. exact missing_run. Qed.
(** A failing write to standard output is not noticed. *)
Theorem c49_stdout_refuted : exists w args tr text,
  trace (program w (Some true) (Some true) (Some true) args) tr (Exit 0) /\ In (EvStdout text false) tr.
Proof. exact stdout_lost. Qed.
Print Assumptions c49_stdout_refuted.

(** ** C50 *)
(** Options of the table plugin are accepted only with the plugin. *)
Theorem c50_table_options : forall w args c rest,
  parse_flags (w_selector w) (w_parse w) args = inl (c, rest) ->
  c_skip_empty_rows _ c = true \/ c_header_promotion _ c = true \/ c_span_cells _ c <> [] \/ c_presentation _ c = true \/
  c_newlines _ c <> [] \/ c_padding _ c <> [] -> c_table _ c = true.
Proof. exact w_table_options. Qed.
Print Assumptions c50_table_options.
(** Arguments that are not accepted: one message, status 1, no other operation. *)
Theorem c50_rejected : forall w i o e args err tr code,
  parse_flags (w_selector w) (w_parse w) args = inr err -> err <> HelpRequested ->
  trace (program w i o e args) tr (Exit code) -> code = 1%nat /\ tr = [EvStderr err].
Proof. exact w_rejected. Qed.
Print Assumptions c50_rejected.
Example c50_ex : parse_flags unit (fun _ => None) [b "--opt-table-span-cell-behavior=mirror"] =
    inr (RequiresTable (b "opt-table-span-cell-behavior")) /\
  exists c, parse_flags unit (fun _ => None) [b "--opt-table-span-cell-behavior=mirror"; b "-plugin-table"] = inl (c, []) /\
    c_span_cells _ c = b "mirror".
Proof. split; [vm_compute; reflexivity|]. eexists. split; [vm_compute; reflexivity|reflexivity]. Qed.
(** Several inputs need a directory (a path with a slash at the end): otherwise nothing is read or written. *)
Theorem c50_several_inputs : forall w i o e args c g m1 m2 ms tr code,
  accepts w args c -> has_suffix (b "/") (c_output _ c) = false ->
  trace (program w i o e args) (EvGlob g (Some (m1 :: m2 :: ms)) :: tr) (Exit code) ->
  code = 1%nat /\ exists err, tr = [EvStderr err].
Proof. exact w_several. Qed.
Print Assumptions c50_several_inputs.
Example c50_several_ex : exists tr, trace (program sim_world (Some false) (Some true) (Some true) [b "--input=*.html"; b "--output"; b "out"])
  (EvGlob (b "*.html") (Some [b "in/a.html"; b "in/b.html"]) :: tr) (Exit 1).
Proof. exact several_run. Qed.
(** Standard input and input files are not mixed: with --input the program never reads standard input, without it no file. *)
Theorem c50_one_source : forall w i o e args c rest tr p,
  parse_flags (w_selector w) (w_parse w) args = inl (c, rest) -> trace (program w i o e args) tr p ->
  (c_input _ c <> [] -> forall r, ~ In (EvStdin r) tr) /\
  (c_input _ c = [] -> (forall q r, ~ In (EvRead q r) tr) /\ (forall q r, ~ In (EvGlob q r) tr)).
Proof. exact w_one_source. Qed.
Print Assumptions c50_one_source.

(** ** C52 *)
(** A successful conversion: every input found was read, in this order; each output is the conversion of the data read; it
    went to standard output, to the one file, or under the computed names into the directory, and nothing else was written. *)
Theorem c52_outputs : forall w i o e args c tr,
  accepts w args c -> c_version _ c = false -> trace (program w i o e args) tr (Exit 0) ->
  exists outs mds,
    output_names (w_hash w) (w_rel w) (w_split w (clean_path (c_input _ c))) [] (inputs_of c tr) = Some outs /\
    inputs_of c tr <> [] /\
    (c_input _ c <> [] -> files_read tr = found tr) /\
    List.length (data_read tr) = List.length (inputs_of c tr) /\
    Forall2 (fun d md => w_convert w c d = Some md) (data_read tr) mds /\
    (c_output _ c = [] -> (exists md, mds = [md] /\ printed tr = [md ++ [10]]) /\ written tr = []) /\
    (has_suffix (b "/") (c_output _ c) = true -> written tr = combine (map (join_path (c_output _ c)) outs) mds /\ printed tr = []) /\
    (c_output _ c <> [] -> has_suffix (b "/") (c_output _ c) = false ->
       (exists md, mds = [md] /\ written tr = [(c_output _ c, md)]) /\ printed tr = []).
Proof. exact w_outputs. Qed.
Print Assumptions c52_outputs.
(** Without overwriting: at the end every output is on disk as written, and the data read were those at the start. *)
Theorem c52_on_disk : forall w i o e args c f0 tr f,
  accepts w args c -> c_overwrite _ c = false -> history alone f0 (program w i o e args) tr f (Exit 0) ->
  (forall q d, In (q, d) (written tr) -> exists n, names f q = Some (File n) /\ content f n = Some d) /\
  (forall p d n d0, In (EvRead p (Some d)) tr -> names f0 p = Some (File n) -> content f0 n = Some d0 -> d = d0).
Proof. exact w_on_disk. Qed.
Print Assumptions c52_on_disk.
Example c52_ex : exists tr f, history alone two_files (program sim_world (Some false) (Some true) (Some true) two_args) tr f (Exit 0) /\
  file_at f (b "out/a.md") = Some (b "A") /\ file_at f (b "out/b.md") = Some (b "B").
Proof. exact two_run_disk. Qed.
(** With overwriting an input can be replaced by an output before it is read ... *)
Theorem c52_overwrite_input_refuted : exists w args f0 tr f p d n d0,
  history alone f0 (program w (Some false) (Some true) (Some true) args) tr f (Exit 0) /\
  In (EvRead p (Some d)) tr /\ names f0 p = Some (File n) /\ content f0 n = Some d0 /\ d <> d0.
Proof. exact overwrite_input. Qed.
Print Assumptions c52_overwrite_input_refuted.
(** ... and an output by the output of another input, with status 0. *)
Theorem c52_overwrite_output_refuted : exists w args f0 tr f q d,
  history alone f0 (program w (Some false) (Some true) (Some true) args) tr f (Exit 0) /\
  In (q, d) (written tr) /\ file_at f q <> Some d.
Proof. exact overwrite_output. Qed.
Print Assumptions c52_overwrite_output_refuted.
