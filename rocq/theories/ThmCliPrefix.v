(** C75: what the command line program has done at any moment of a run, also of one that fails or is interrupted. *)
From Coq Require Import List NArith Arith Bool String.
From Verif Require Import Bytes NetUrl Cli SpecCli CliWitness CliOrder.
Import ListNotations.
Open Scope N_scope.
Open Scope list_scope.

(** Conversion into a directory, at any moment: the files read are the first ones that the pattern found, in this order; the
    outputs written are the conversions of the data read, in this order and under the names of the inputs; at most one input
    was read whose output is not yet written; nothing was printed. *)
Theorem c75_prefix : forall w i o e args c tr p,
  accepts w args c -> c_version _ c = false -> c_input _ c <> [] -> has_suffix (b "/") (c_output _ c) = true ->
  trace (program w i o e args) tr p ->
  exists mds outs waiting,
    found tr = files_read tr ++ waiting /\
    List.length (files_read tr) = List.length (data_read tr) /\
    (List.length (data_read tr) <= S (List.length mds))%nat /\ List.length outs = List.length mds /\
    Forall2 (fun d md => w_convert w c d = Some md) (firstn (List.length mds) (data_read tr)) mds /\
    (outs = [] \/ exists more, output_names (w_hash w) (w_rel w) (w_split w (clean_path (c_input _ c))) [] (found tr) = Some (outs ++ more)) /\
    written tr = combine (map (join_path (c_output _ c)) outs) mds /\ printed tr = [].
Proof. exact w_prefix. Qed.
Print Assumptions c75_prefix.

(** Without overwriting, and nobody else acting: at any moment every output written so far is on disk, complete. *)
Theorem c75_stays : forall w i o e args f0 tr f p,
  keeps_files w args -> history alone f0 (program w i o e args) tr f p ->
  forall q d, In (q, d) (written tr) -> exists n, names f q = Some (File n) /\ content f n = Some d.
Proof. exact w_stays. Qed.
Print Assumptions c75_stays.

(** in/a.html and in/b.html are converted into out/, where b.md exists already: the run stops before the second output. *)
Example c75_args_ex : exists c, accepts sim_world two_args c /\ c_version _ c = false /\ c_input _ c = b "*.html" /\ c_output _ c = b "out/".
Proof. eexists. split; [vm_compute; reflexivity|]. repeat split. Qed.
Example c75_ex : exists tr f k, history alone old_files (program sim_world (Some false) (Some true) (Some true) two_args) tr f
    (OpenFile (b "out/b.md") Excl k) /\ names f (b "out/b.md") = Some (File 2) /\ written tr = [(b "out/a.md", b "A")].
Proof. exact old_run. Qed.
Example c75_keeps_ex : keeps_files sim_world two_args.
Proof. exact keeps_two. Qed.
