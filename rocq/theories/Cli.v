(** Model of the command line program cli/html2markdown. No proofs in this file.

    A run is a tree of operations: each node is one call into the operating system, its children are indexed by the answers
    that the operating system can give.  The texts of the messages are in
    CliText.v: here an error message is a value of [error].
    Paths are Unix paths; doublestar.FilepathGlob is an operation, doublestar.SplitPattern, filepath.Rel and SHA-256 are
    parameters. *)
From Coq Require Import List NArith Arith Bool String.
From Verif Require Import Bytes NetUrl.
Import ListNotations.
Open Scope N_scope.
Open Scope list_scope.

Definition path := bytes.

(** What can be reported on standard error *)
Inductive error :=
| HelpRequested                            (* flag.ErrHelp *)
| BadFlagSyntax (arg : bytes)
| UnknownFlag (name : bytes)               (* cmd/flags_categorize.go:49-63 *)
| BadBoolean (name value : bytes)
| NeedsArgument (name : bytes)
| BadValue (name value : bytes)
| RequiresTable (name : bytes)             (* cmd/flags.go:108-126 *)
| UnknownArguments (args : list bytes)     (* cmd/exec.go:137-143 *)
| GlobFailed (pattern : bytes)
| InputIsDirectory (p : path)
| NoFilesFound (pattern : bytes)
| NoInput
| StdinFailed
| SeveralInputsNoOutput
| SeveralInputsOneFile (p : path)
| OutputIsDirectory (p : path)
| MkdirFailed (p : path)
| RelFailed (p : path)
| ReadFailed (p : path)
| ConvertFailed
| OutputExists (p : path)
| WriteFailed (p : path).

Inductive open_mode := Excl | Trunc.
Inductive open_answer := Opened (h : N) | AlreadyExists | OpenFailed.
Inductive stat_answer := StatFailed | IsFile | IsDir.
(** A program of operating system calls; the child is chosen by the answer. *)
Inductive prog :=
| Exit (code : nat)
| Panic
| ReadStdin (k : option bytes -> prog)                        (* io.ReadAll(cli.Stdin) *)
| Glob (pattern : bytes) (k : option (list path) -> prog)     (* doublestar.FilepathGlob *)
| Stat (p : path) (k : stat_answer -> prog)                   (* os.Stat *)
| MkdirAll (p : path) (k : bool -> prog)                      (* os.MkdirAll *)
| ReadFile (p : path) (k : option bytes -> prog)              (* os.ReadFile *)
| OpenFile (p : path) (m : open_mode) (k : open_answer -> prog)  (* os.OpenFile, O_WRONLY|O_CREATE *)
| WriteData (h : N) (data : bytes) (k : bool -> prog)         (* f.Write *)
| CloseFile (h : N) (k : bool -> prog)                        (* f.Close *)
| WriteStdout (text : bytes) (k : bool -> prog)
| WriteStderr (e : error) (k : prog).

(** ** Paths (path/filepath on Unix) *)
(** filepath.Clean: the elements, without empty ones and dots, each .. taken back where possible *)
Definition clean_step (rooted : bool) (acc : list bytes) (e : bytes) : list bytes :=
  if is_empty e || beqb e (b ".") then acc
  else if beqb e (b "..") then
    match acc with
    | [] => if rooted then [] else [e]
    | t :: r => if beqb t (b "..") then e :: acc else r
    end
  else e :: acc.
Definition clean_elems (p : path) : list bytes :=
  rev (fold_left (clean_step (has_prefix [47] p)) (split_on 47 p) []).
Definition unsplit (rooted : bool) (es : list bytes) : path :=
  let s := (if rooted then [47] else []) ++ join [47] es in
  if is_empty s then b "." else s.
Definition clean_path (p : path) : path := unsplit (has_prefix [47] p) (clean_elems p).
(** filepath.Join of two elements *)
Definition join_path (x y : path) : path :=
  if is_empty x then (if is_empty y then [] else clean_path y)
  else if is_empty y then clean_path x
  else clean_path (x ++ [47] ++ y).
(** filepath.Base *)
Definition base_name (p : path) : bytes :=
  if is_empty p then b "."
  else match List.filter (fun e => negb (is_empty e)) (split_on 47 p) with
       | [] => [47]
       | es => last es []
       end.
(** filepath.Dir *)
Definition dir_name (p : path) : path :=
  clean_path (match cut_last 47 p with Some (x, _) => x ++ [47] | None => [] end).
(** filepath.Ext of a name without slash, and cmd/io_input.go:19-22  fileNameWithoutExtension *)
Definition without_extension (name : bytes) : bytes :=
  match cut_last 46 name with Some (x, _) => x | None => name end.

Section cli.
(** cascadia.SelectorGroup and cascadia.ParseGroup *)
Variable selector : Type.
Variable parse_group : bytes -> option (list selector).

(** ** Flags *)
(** cmd/exec.go:22-50  Config; the positional arguments are returned separately *)
Record config := {
  c_input : bytes;
  c_output : bytes;
  c_overwrite : bool;
  c_version : bool;
  c_domain : bytes;
  c_include : list selector;
  c_exclude : list selector;
  c_strong : bytes;
  c_strikethrough : bool;
  c_table : bool;
  c_skip_empty_rows : bool;
  c_header_promotion : bool;
  c_span_cells : bytes;
  c_presentation : bool;
  c_newlines : bytes;
  c_padding : bytes
}.
(** cmd/flags.go:45-98  initFlags: the defaults *)
Definition default_config : config := {|
  c_input := []; c_output := []; c_overwrite := false; c_version := false; c_domain := []; c_include := []; c_exclude := [];
  c_strong := b "**"; c_strikethrough := false; c_table := false; c_skip_empty_rows := false; c_header_promotion := false;
  c_span_cells := []; c_presentation := false; c_newlines := []; c_padding := [] |}.

(** One setter for each flag, as the flag package calls it with a value *)
Inductive setter := SetBool (f : bool -> config -> config) | SetString (f : bytes -> config -> option config).
Definition upd_input v c := {| c_input := v; c_output := c_output c; c_overwrite := c_overwrite c; c_version := c_version c; c_domain := c_domain c; c_include := c_include c; c_exclude := c_exclude c; c_strong := c_strong c; c_strikethrough := c_strikethrough c; c_table := c_table c; c_skip_empty_rows := c_skip_empty_rows c; c_header_promotion := c_header_promotion c; c_span_cells := c_span_cells c; c_presentation := c_presentation c; c_newlines := c_newlines c; c_padding := c_padding c |}.
Definition upd_output v c := {| c_input := c_input c; c_output := v; c_overwrite := c_overwrite c; c_version := c_version c; c_domain := c_domain c; c_include := c_include c; c_exclude := c_exclude c; c_strong := c_strong c; c_strikethrough := c_strikethrough c; c_table := c_table c; c_skip_empty_rows := c_skip_empty_rows c; c_header_promotion := c_header_promotion c; c_span_cells := c_span_cells c; c_presentation := c_presentation c; c_newlines := c_newlines c; c_padding := c_padding c |}.
Definition upd_overwrite v c := {| c_input := c_input c; c_output := c_output c; c_overwrite := v; c_version := c_version c; c_domain := c_domain c; c_include := c_include c; c_exclude := c_exclude c; c_strong := c_strong c; c_strikethrough := c_strikethrough c; c_table := c_table c; c_skip_empty_rows := c_skip_empty_rows c; c_header_promotion := c_header_promotion c; c_span_cells := c_span_cells c; c_presentation := c_presentation c; c_newlines := c_newlines c; c_padding := c_padding c |}.
Definition upd_version v c := {| c_input := c_input c; c_output := c_output c; c_overwrite := c_overwrite c; c_version := v; c_domain := c_domain c; c_include := c_include c; c_exclude := c_exclude c; c_strong := c_strong c; c_strikethrough := c_strikethrough c; c_table := c_table c; c_skip_empty_rows := c_skip_empty_rows c; c_header_promotion := c_header_promotion c; c_span_cells := c_span_cells c; c_presentation := c_presentation c; c_newlines := c_newlines c; c_padding := c_padding c |}.
Definition upd_domain v c := {| c_input := c_input c; c_output := c_output c; c_overwrite := c_overwrite c; c_version := c_version c; c_domain := v; c_include := c_include c; c_exclude := c_exclude c; c_strong := c_strong c; c_strikethrough := c_strikethrough c; c_table := c_table c; c_skip_empty_rows := c_skip_empty_rows c; c_header_promotion := c_header_promotion c; c_span_cells := c_span_cells c; c_presentation := c_presentation c; c_newlines := c_newlines c; c_padding := c_padding c |}.
Definition upd_include v c := {| c_input := c_input c; c_output := c_output c; c_overwrite := c_overwrite c; c_version := c_version c; c_domain := c_domain c; c_include := v; c_exclude := c_exclude c; c_strong := c_strong c; c_strikethrough := c_strikethrough c; c_table := c_table c; c_skip_empty_rows := c_skip_empty_rows c; c_header_promotion := c_header_promotion c; c_span_cells := c_span_cells c; c_presentation := c_presentation c; c_newlines := c_newlines c; c_padding := c_padding c |}.
Definition upd_exclude v c := {| c_input := c_input c; c_output := c_output c; c_overwrite := c_overwrite c; c_version := c_version c; c_domain := c_domain c; c_include := c_include c; c_exclude := v; c_strong := c_strong c; c_strikethrough := c_strikethrough c; c_table := c_table c; c_skip_empty_rows := c_skip_empty_rows c; c_header_promotion := c_header_promotion c; c_span_cells := c_span_cells c; c_presentation := c_presentation c; c_newlines := c_newlines c; c_padding := c_padding c |}.
Definition upd_strong v c := {| c_input := c_input c; c_output := c_output c; c_overwrite := c_overwrite c; c_version := c_version c; c_domain := c_domain c; c_include := c_include c; c_exclude := c_exclude c; c_strong := v; c_strikethrough := c_strikethrough c; c_table := c_table c; c_skip_empty_rows := c_skip_empty_rows c; c_header_promotion := c_header_promotion c; c_span_cells := c_span_cells c; c_presentation := c_presentation c; c_newlines := c_newlines c; c_padding := c_padding c |}.
Definition upd_strikethrough v c := {| c_input := c_input c; c_output := c_output c; c_overwrite := c_overwrite c; c_version := c_version c; c_domain := c_domain c; c_include := c_include c; c_exclude := c_exclude c; c_strong := c_strong c; c_strikethrough := v; c_table := c_table c; c_skip_empty_rows := c_skip_empty_rows c; c_header_promotion := c_header_promotion c; c_span_cells := c_span_cells c; c_presentation := c_presentation c; c_newlines := c_newlines c; c_padding := c_padding c |}.
Definition upd_table v c := {| c_input := c_input c; c_output := c_output c; c_overwrite := c_overwrite c; c_version := c_version c; c_domain := c_domain c; c_include := c_include c; c_exclude := c_exclude c; c_strong := c_strong c; c_strikethrough := c_strikethrough c; c_table := v; c_skip_empty_rows := c_skip_empty_rows c; c_header_promotion := c_header_promotion c; c_span_cells := c_span_cells c; c_presentation := c_presentation c; c_newlines := c_newlines c; c_padding := c_padding c |}.
Definition upd_skip_empty_rows v c := {| c_input := c_input c; c_output := c_output c; c_overwrite := c_overwrite c; c_version := c_version c; c_domain := c_domain c; c_include := c_include c; c_exclude := c_exclude c; c_strong := c_strong c; c_strikethrough := c_strikethrough c; c_table := c_table c; c_skip_empty_rows := v; c_header_promotion := c_header_promotion c; c_span_cells := c_span_cells c; c_presentation := c_presentation c; c_newlines := c_newlines c; c_padding := c_padding c |}.
Definition upd_header_promotion v c := {| c_input := c_input c; c_output := c_output c; c_overwrite := c_overwrite c; c_version := c_version c; c_domain := c_domain c; c_include := c_include c; c_exclude := c_exclude c; c_strong := c_strong c; c_strikethrough := c_strikethrough c; c_table := c_table c; c_skip_empty_rows := c_skip_empty_rows c; c_header_promotion := v; c_span_cells := c_span_cells c; c_presentation := c_presentation c; c_newlines := c_newlines c; c_padding := c_padding c |}.
Definition upd_span_cells v c := {| c_input := c_input c; c_output := c_output c; c_overwrite := c_overwrite c; c_version := c_version c; c_domain := c_domain c; c_include := c_include c; c_exclude := c_exclude c; c_strong := c_strong c; c_strikethrough := c_strikethrough c; c_table := c_table c; c_skip_empty_rows := c_skip_empty_rows c; c_header_promotion := c_header_promotion c; c_span_cells := v; c_presentation := c_presentation c; c_newlines := c_newlines c; c_padding := c_padding c |}.
Definition upd_presentation v c := {| c_input := c_input c; c_output := c_output c; c_overwrite := c_overwrite c; c_version := c_version c; c_domain := c_domain c; c_include := c_include c; c_exclude := c_exclude c; c_strong := c_strong c; c_strikethrough := c_strikethrough c; c_table := c_table c; c_skip_empty_rows := c_skip_empty_rows c; c_header_promotion := c_header_promotion c; c_span_cells := c_span_cells c; c_presentation := v; c_newlines := c_newlines c; c_padding := c_padding c |}.
Definition upd_newlines v c := {| c_input := c_input c; c_output := c_output c; c_overwrite := c_overwrite c; c_version := c_version c; c_domain := c_domain c; c_include := c_include c; c_exclude := c_exclude c; c_strong := c_strong c; c_strikethrough := c_strikethrough c; c_table := c_table c; c_skip_empty_rows := c_skip_empty_rows c; c_header_promotion := c_header_promotion c; c_span_cells := c_span_cells c; c_presentation := c_presentation c; c_newlines := v; c_padding := c_padding c |}.
Definition upd_padding v c := {| c_input := c_input c; c_output := c_output c; c_overwrite := c_overwrite c; c_version := c_version c; c_domain := c_domain c; c_include := c_include c; c_exclude := c_exclude c; c_strong := c_strong c; c_strikethrough := c_strikethrough c; c_table := c_table c; c_skip_empty_rows := c_skip_empty_rows c; c_header_promotion := c_header_promotion c; c_span_cells := c_span_cells c; c_presentation := c_presentation c; c_newlines := c_newlines c; c_padding := v |}.

(** cmd/flags.go:31-43  singleStringFlag *)
Definition single (get : config -> bytes) (upd : bytes -> config -> config) (v : bytes) (c : config) : option config :=
  if is_empty (trim_space v) then None
  else if negb (is_empty (get c)) then None
  else Some (upd (trim_space v) c).
(** cmd/flags.go:13-29  selectorFlag *)
Definition selectors (get : config -> list selector) (upd : list selector -> config -> config) (v : bytes) (c : config) : option config :=
  if is_empty (trim_space v) then None
  else match parse_group v with
       | None => None
       | Some sel => Some (upd (get c ++ sel) c)
       end.
Definition plain (upd : bytes -> config -> config) (v : bytes) (c : config) : option config := Some (upd v c).
(** cmd/flags.go:45-98  initFlags: the names *)
Definition find_flag (name : bytes) : option setter :=
  if beqb name (b "version") || beqb name (b "v") then Some (SetBool upd_version)
  else if beqb name (b "input") then Some (SetString (single c_input upd_input))
  else if beqb name (b "output") then Some (SetString (single c_output upd_output))
  else if beqb name (b "output-overwrite") then Some (SetBool upd_overwrite)
  else if beqb name (b "domain") then Some (SetString (plain upd_domain))
  else if beqb name (b "include-selector") then Some (SetString (selectors c_include upd_include))
  else if beqb name (b "exclude-selector") then Some (SetString (selectors c_exclude upd_exclude))
  else if beqb name (b "opt-strong-delimiter") then Some (SetString (plain upd_strong))
  else if beqb name (b "plugin-strikethrough") then Some (SetBool upd_strikethrough)
  else if beqb name (b "plugin-table") then Some (SetBool upd_table)
  else if beqb name (b "opt-table-skip-empty-rows") then Some (SetBool upd_skip_empty_rows)
  else if beqb name (b "opt-table-header-promotion") then Some (SetBool upd_header_promotion)
  else if beqb name (b "opt-table-span-cell-behavior") then Some (SetString (plain upd_span_cells))
  else if beqb name (b "opt-table-presentation-tables") then Some (SetBool upd_presentation)
  else if beqb name (b "opt-table-newline-behavior") then Some (SetString (plain upd_newlines))
  else if beqb name (b "opt-table-cell-padding-behavior") then Some (SetString (plain upd_padding))
  else None.

(** strconv.ParseBool *)
Definition parse_bool (v : bytes) : option bool :=
  if existsb (beqb v) [b "1"; b "t"; b "T"; b "true"; b "TRUE"; b "True"] then Some true
  else if existsb (beqb v) [b "0"; b "f"; b "F"; b "false"; b "FALSE"; b "False"] then Some false
  else None.
(** The package flag (recalled): FlagSet.parseOne, with name and optional value of one argument split off *)
Inductive flag_word := NotAFlag | Terminator | BadSyntax | Word (name : bytes) (value : option bytes).
Definition flag_of (s : bytes) : flag_word :=
  match s with
  | c :: d :: t =>
      if c =? 45 then
        if (d =? 45) && is_empty t then Terminator
        else
          match (if d =? 45 then t else d :: t) with
          | [] => BadSyntax
          | n0 :: n => if (n0 =? 45) || (n0 =? 61) then BadSyntax
                       else match cut_at 61 n with
                            | Some (x, v) => Word (n0 :: x) (Some v)
                            | None => Word (n0 :: n) None
                            end
          end
      else NotAFlag
  | _ => NotAFlag
  end.
(** FlagSet.Parse: configuration and remaining arguments, or an error. *)
Fixpoint parse_args (c : config) (args : list bytes) : config * list bytes + error :=
  match args with
  | [] => inl (c, [])
  | s :: rest =>
      match flag_of s with
      | NotAFlag => inl (c, args)
      | Terminator => inl (c, rest)
      | BadSyntax => inr (BadFlagSyntax s)
      | Word name value =>
          match find_flag name with
          | None => inr (if beqb name (b "help") || beqb name (b "h") then HelpRequested else UnknownFlag name)
          | Some (SetBool f) =>
              match value with
              | None => parse_args (f true c) rest
              | Some v => match parse_bool v with
                          | Some x => parse_args (f x c) rest
                          | None => inr (BadBoolean name v)
                          end
              end
          | Some (SetString f) =>
              match value with
              | Some v => match f v c with Some c' => parse_args c' rest | None => inr (BadValue name v) end
              | None =>
                  match rest with
                  | [] => inr (NeedsArgument name)
                  | v :: rest' => match f v c with Some c' => parse_args c' rest' | None => inr (BadValue name v) end
                  end
              end
          end
      end
  end.
(** cmd/flags.go:100-132  parseFlags *)
Definition parse_flags (args : list bytes) : config * list bytes + error :=
  match parse_args default_config args with
  | inr e => inr e
  | inl (c, rest) =>
      if c_skip_empty_rows c && negb (c_table c) then inr (RequiresTable (b "opt-table-skip-empty-rows"))
      else if c_header_promotion c && negb (c_table c) then inr (RequiresTable (b "opt-table-header-promotion"))
      else if negb (is_empty (c_span_cells c)) && negb (c_table c) then inr (RequiresTable (b "opt-table-span-cell-behavior"))
      else if c_presentation c && negb (c_table c) then inr (RequiresTable (b "opt-table-presentation-tables"))
      else if negb (is_empty (c_newlines c)) && negb (c_table c) then inr (RequiresTable (b "opt-table-newline-behavior"))
      else if negb (is_empty (c_padding c)) && negb (c_table c) then inr (RequiresTable (b "opt-table-cell-padding-behavior"))
      else inl (c, rest)
  end.

(** ** Inputs and outputs *)
Variable convert : config -> bytes -> option bytes.      (* cmd/cmd_convert.go:94-137; None = error *)
Variable hash : bytes -> bytes.                           (* SHA-256 in hexadecimal *)
Variable rel : path -> path -> option path.               (* filepath.Rel; None = error *)
Variable split_pattern : path -> path.                    (* doublestar.SplitPattern, first result *)
Variable usage version_text : bytes.

(** cmd/io_input.go:13-17  input; the output path is kept beside it *)
Definition input := (path * option bytes)%type.

(** cmd/io_input.go:27-85  listInputs *)
Definition list_inputs (stdin_pipe : bool) (c : config) (k : list input + error -> prog) : prog :=
  if negb (is_empty (c_input c)) then
    Glob (c_input c) (fun r =>
      match r with
      | None => k (inr (GlobFailed (c_input c)))
      | Some [] => Stat (c_input c) (fun st =>
          match st with
          | IsDir => k (inr (InputIsDirectory (c_input c)))
          | _ => k (inr (NoFilesFound (c_input c)))
          end)
      | Some matches => k (inl (map (fun p => (p, None)) matches))
      end)
  else if stdin_pipe then
    ReadStdin (fun r => match r with
                        | None => k (inr StdinFailed)
                        | Some data => k (inl [(b "output", Some data)])
                        end)
  else k (inr NoInput).

Inductive output_type := ToStdout | ToDirectory | ToFile.
(** cmd/io_output.go:22-81  determineOutputType *)
Definition determine_output (n : nat) (out : path) (k : output_type + error -> prog) : prog :=
  if is_empty out then
    if Nat.ltb 1 n then k (inr SeveralInputsNoOutput) else k (inl ToStdout)
  else if has_suffix [47] out then k (inl ToDirectory)
  else if Nat.ltb 1 n then k (inr (SeveralInputsOneFile out))
  else Stat out (fun st => match st with IsDir => k (inr (OutputIsDirectory out)) | _ => k (inl ToFile) end).

(** cmd/io_output.go:131-141  ensureOutputDirectories *)
Definition ensure_directories (t : output_type) (out : path) (k : option error -> prog) : prog :=
  let mk p := MkdirAll p (fun ok => k (if ok then None else Some (MkdirFailed p))) in
  match t with
  | ToStdout => k None
  | ToDirectory => mk out
  | ToFile => mk (dir_name out)
  end.

(** cmd/io_output.go:83-129  calculateOutputPaths: the file names; None = error of filepath.Rel.
    [seen]: the names so far (the Go map counts them) *)
Fixpoint output_names (glob_base : path) (seen : list bytes) (inputs : list path) : option (list bytes) :=
  match inputs with
  | [] => Some []
  | p :: rest =>
      let base := without_extension (base_name p) in
      let name :=
        if existsb (beqb base) seen then
          match rel glob_base p with
          | None => None
          | Some r => Some (base ++ [46] ++ firstn 10 (hash r) ++ b ".md")
          end
        else Some (base ++ b ".md") in
      match name, output_names glob_base (base :: seen) rest with
      | Some x, Some xs => Some (x :: xs)
      | _, _ => None
      end
  end.

(** cmd/io_output.go:180-208  WriteFile *)
Definition write_file (p : path) (data : bytes) (overwrite : bool) (k : option error -> prog) : prog :=
  OpenFile p (if overwrite then Trunc else Excl) (fun r =>
    match r with
    | AlreadyExists => k (Some (OutputExists p))
    | OpenFailed => k (Some (WriteFailed p))
    | Opened h => WriteData h data (fun ok1 => CloseFile h (fun ok2 =>
        k (if ok1 && ok2 then None else Some (WriteFailed p))))
    end).
(** cmd/io_output.go:143-178  writeOutput *)
Definition write_output (c : config) (t : output_type) (name markdown : bytes) (k : option error -> prog) : prog :=
  match t with
  | ToDirectory => write_file (join_path (c_output c) name) markdown (c_overwrite c) k
  | ToFile => write_file (c_output c) markdown (c_overwrite c) k
  | ToStdout => WriteStdout (markdown ++ [cNL]) (fun _ => k None)
  end.
(** cmd/io_input.go:87-98  readInput *)
Definition read_input (i : input) (k : option bytes -> prog) : prog :=
  match snd i with Some data => k (Some data) | None => ReadFile (fst i) k end.

(** cmd/exec.go:172-187: the loop over the inputs *)
Fixpoint convert_all (c : config) (t : output_type) (inputs : list (input * bytes)) (k : option error -> prog) : prog :=
  match inputs with
  | [] => k None
  | (i, name) :: rest =>
      read_input i (fun r =>
        match r with
        | None => k (Some (ReadFailed (fst i)))
        | Some data =>
            match convert c data with
            | None => k (Some ConvertFailed)
            | Some markdown =>
                write_output c t name markdown (fun r =>
                  match r with
                  | Some e => k (Some e)
                  | None => convert_all c t rest k
                  end)
            end
        end)
  end.

(** cmd/exec.go:130-190  run *)
Definition run (stdin_pipe : bool) (args : list bytes) (k : option error -> prog) : prog :=
  match parse_flags args with
  | inr e => k (Some e)
  | inl (c, rest) =>
      if negb (is_empty rest) then k (Some (UnknownArguments rest))
      else if c_version c then WriteStdout version_text (fun _ => k None)
      else
        list_inputs stdin_pipe c (fun r =>
          match r with
          | inr e => k (Some e)
          | inl inputs =>
              determine_output (List.length inputs) (c_output c) (fun r =>
                match r with
                | inr e => k (Some e)
                | inl t =>
                    ensure_directories t (c_output c) (fun r =>
                      match r with
                      | Some e => k (Some e)
                      | None =>
                          match output_names (split_pattern (clean_path (c_input c))) [] (map fst inputs) with
                          | None => k (Some (RelFailed (c_input c)))
                          | Some names => convert_all c t (combine inputs names) k
                          end
                      end)
                end)
          end)
  end.
(** cmd/exec.go:106-128  Execute *)
Definition execute (stdin_pipe : bool) (args : list bytes) : prog :=
  run stdin_pipe args (fun r =>
    match r with
    | None => Exit 0
    | Some HelpRequested => WriteStdout usage (fun _ => Exit 0)
    | Some e => WriteStderr e (Exit 1)
    end).
(** cmd/cli_run.go:3-30  Run with cmd/exec.go:82-105  Init: [None] = Stat of a standard stream failed *)
Definition cli_main (stdin_pipe stdout_pipe stderr_pipe : option bool) (args : list bytes) : prog :=
  match stdin_pipe, stdout_pipe, stderr_pipe with
  | Some p, Some _, Some _ => execute p args
  | _, _, _ => Panic
  end.
End cli.
