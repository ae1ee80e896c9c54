(** Specification vocabulary for the command line program: runs as sequences of events, a file system, what a trace did. *)
From Coq Require Import List NArith Arith Bool String.
From Verif Require Import Bytes Cli.
Import ListNotations.
Open Scope N_scope.
Open Scope list_scope.

(** One operation together with the answer of the operating system *)
Inductive event :=
| EvStdin (r : option bytes)
| EvGlob (pattern : bytes) (r : option (list path))
| EvStat (p : path) (r : stat_answer)
| EvMkdir (p : path) (r : bool)
| EvRead (p : path) (r : option bytes)
| EvOpen (p : path) (m : open_mode) (r : open_answer)
| EvWrite (h : N) (data : bytes) (r : bool)
| EvClose (h : N) (r : bool)
| EvStdout (text : bytes) (r : bool)
| EvStderr (e : error).

(** The program makes one operation and goes on; every answer is possible. *)
Inductive does : prog -> event -> prog -> Prop :=
| does_stdin k r : does (ReadStdin k) (EvStdin r) (k r)
| does_glob g k r : does (Glob g k) (EvGlob g r) (k r)
| does_stat p k r : does (Stat p k) (EvStat p r) (k r)
| does_mkdir p k r : does (MkdirAll p k) (EvMkdir p r) (k r)
| does_read p k r : does (ReadFile p k) (EvRead p r) (k r)
| does_open p m k r : does (OpenFile p m k) (EvOpen p m r) (k r)
| does_write h d k r : does (WriteData h d k) (EvWrite h d r) (k r)
| does_close h k r : does (CloseFile h k) (EvClose h r) (k r)
| does_stdout t k r : does (WriteStdout t k) (EvStdout t r) (k r)
| does_stderr e k : does (WriteStderr e k) (EvStderr e) k.
Inductive trace : prog -> list event -> prog -> Prop :=
| trace_nil p : trace p [] p
| trace_cons p ev p1 tr p2 : does p ev p1 -> trace p1 tr p2 -> trace p (ev :: tr) p2.

(** ** A file system: names bound to files, files with contents.  A file keeps its number for ever. *)
Inductive entry := Directory | File (i : N).
Record fs := { names : path -> option entry; content : N -> option bytes }.
Definition bind (f : fs) (p : path) (e : entry) : fs :=
  {| names := fun q => if beqb q p then Some e else names f q; content := content f |}.
Definition store (f : fs) (i : N) (d : bytes) : fs :=
  {| names := names f; content := fun j => if j =? i then Some d else content f j |}.

(** What an operation with its answer can do to the file system.  A write may stop half way; in an empty file a complete
    write leaves exactly the data. *)
Inductive effect : event -> fs -> fs -> Prop :=
| eff_stdin r f : effect (EvStdin r) f f
| eff_glob g r f : effect (EvGlob g r) f f
| eff_stat p r f : effect (EvStat p r) f f
| eff_mkdir p r f f' :
    (forall q e, names f q = Some e -> names f' q = Some e) ->
    (forall q, names f q = None -> names f' q = None \/ names f' q = Some Directory) ->
    content f' = content f -> effect (EvMkdir p r) f f'
| eff_read_ok p i d f : names f p = Some (File i) -> content f i = Some d -> effect (EvRead p (Some d)) f f
| eff_read_fail p f : effect (EvRead p None) f f
| eff_open_fail p m f : effect (EvOpen p m OpenFailed) f f
| eff_open_exists p f e : names f p = Some e -> effect (EvOpen p Excl AlreadyExists) f f
| eff_open_new p m f i : names f p = None -> content f i = None ->
    effect (EvOpen p m (Opened i)) f (bind (store f i []) p (File i))
| eff_open_trunc p f i d : names f p = Some (File i) -> content f i = Some d ->
    effect (EvOpen p Trunc (Opened i)) f (store f i [])
| eff_write h d r f old new : content f h = Some old -> (r = true -> old = [] -> new = d) ->
    effect (EvWrite h d r) f (store f h new)
| eff_close h r f : effect (EvClose h r) f f
| eff_stdout t r f : effect (EvStdout t r) f f
| eff_stderr e f : effect (EvStderr e) f f.

(** A run on a file system, up to any moment; between the operations of the program others may act ([other]). *)
Inductive history (other : fs -> fs -> Prop) (f0 : fs) (p0 : prog) : list event -> fs -> prog -> Prop :=
| h_start : history other f0 p0 [] f0 p0
| h_own tr f p ev f' p' : history other f0 p0 tr f p -> does p ev p' -> effect ev f f' ->
    history other f0 p0 (tr ++ [ev]) f' p'
| h_other tr f p f' : history other f0 p0 tr f p -> other f f' -> history other f0 p0 tr f' p.
(** Nobody else acts. *)
Definition alone (f f' : fs) : Prop := False.
(** Others do what they want; a file that exists does not become a number that is free again. *)
Definition anything (f f' : fs) : Prop := forall i, content f i <> None -> content f' i <> None.

(** The files that the run has created exclusively so far *)
Fixpoint created (tr : list event) : list N :=
  match tr with
  | [] => []
  | EvOpen _ Excl (Opened i) :: t => i :: created t
  | _ :: t => created t
  end.
(** The outputs completely written so far: path and contents *)
Fixpoint written (tr : list event) : list (path * bytes) :=
  match tr with
  | EvOpen p _ (Opened h) :: ((EvWrite h' d true :: _) as t) => if h =? h' then (p, d) :: written t else written t
  | _ :: t => written t
  | [] => []
  end.
(** The data read so far, from files or from standard input *)
Fixpoint data_read (tr : list event) : list bytes :=
  match tr with
  | [] => []
  | EvRead _ (Some d) :: t | EvStdin (Some d) :: t => d :: data_read t
  | _ :: t => data_read t
  end.
(** The input files that were read, in this order *)
Fixpoint files_read (tr : list event) : list path :=
  match tr with
  | [] => []
  | EvRead p (Some _) :: t => p :: files_read t
  | _ :: t => files_read t
  end.
(** The texts sent to standard output *)
Fixpoint printed (tr : list event) : list bytes :=
  match tr with
  | [] => []
  | EvStdout t0 _ :: t => t0 :: printed t
  | _ :: t => printed t
  end.
(** The files that the pattern found, in this order *)
Fixpoint found (tr : list event) : list path :=
  match tr with
  | [] => []
  | EvGlob _ (Some ps) :: t => ps ++ found t
  | _ :: t => found t
  end.

(** The operating system reported a failure (the outcome of a query by stat is none, writes to standard output apart). *)
Definition failed (ev : event) : Prop :=
  match ev with
  | EvStdin None | EvGlob _ None | EvMkdir _ false | EvRead _ None | EvOpen _ _ AlreadyExists | EvOpen _ _ OpenFailed
  | EvWrite _ _ false | EvClose _ false => True
  | _ => False
  end.
Definition is_stdout (ev : event) : Prop := match ev with EvStdout _ _ => True | _ => False end.
Definition is_stderr (ev : event) : Prop := match ev with EvStderr _ => True | _ => False end.
(** The operations that touch the file system *)
Definition changes (ev : event) : Prop :=
  match ev with EvMkdir _ _ | EvOpen _ _ _ | EvWrite _ _ _ | EvClose _ _ => True | _ => False end.

(** The name of a file without directory and last extension: [dirs]/[stem].[ext] *)
Definition slash_free (s : bytes) : Prop := ~ In 47 s.
Definition dot_free (s : bytes) : Prop := ~ In 46 s.
Inductive stem_of : path -> bytes -> Prop :=
| stem_ext dir stem ext : slash_free stem -> slash_free ext -> dot_free ext -> (dir = [] \/ exists d, dir = d ++ [47]) ->
    stem_of (dir ++ stem ++ [46] ++ ext) stem
| stem_plain dir stem : slash_free stem -> dot_free stem -> stem <> [] -> (dir = [] \/ exists d, dir = d ++ [47]) ->
    stem_of (dir ++ stem) stem.

(** What the program calls and this development does not model: parser and matcher of CSS selectors, the conversion of one
    document, SHA-256, filepath.Rel, doublestar.SplitPattern, the texts of help and version. *)
Record world := {
  w_selector : Type;
  w_parse : bytes -> option (list w_selector);
  w_convert : config w_selector -> bytes -> option bytes;
  w_hash : bytes -> bytes;
  w_rel : path -> path -> option path;
  w_split : path -> path;
  w_usage : bytes;
  w_version : bytes
}.
(** The whole program: which of the standard streams are pipes (None: that could not be found out), the arguments *)
Definition program (w : world) (stdin_pipe stdout_pipe stderr_pipe : option bool) (args : list bytes) : prog :=
  cli_main (w_selector w) (w_parse w) (w_convert w) (w_hash w) (w_rel w) (w_split w) (w_usage w) (w_version w)
    stdin_pipe stdout_pipe stderr_pipe args.
(** The arguments are accepted, with this configuration. *)
Definition accepts (w : world) (args : list bytes) (c : config (w_selector w)) : Prop :=
  parse_flags (w_selector w) (w_parse w) args = inl (c, []).
(** The arguments do not ask for overwriting. *)
Definition keeps_files (w : world) (args : list bytes) : Prop :=
  forall c rest, parse_flags (w_selector w) (w_parse w) args = inl (c, rest) -> c_overwrite _ c = false.
(** The names of the inputs: output for standard input *)
Definition inputs_of {w : world} (c : config (w_selector w)) (tr : list event) : list path :=
  if is_empty (c_input _ c) then [b "output"] else found tr.
