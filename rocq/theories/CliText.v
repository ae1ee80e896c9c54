(** Model of the texts of the command line program: the search for a flag with a similar name, error reports, usage and
    version. No proofs in this file.

    The colours (package termenv) are parameters; the identity when standard error is not a terminal. *)
From Coq Require Import List NArith Arith Bool String.
From Verif Require Import Bytes Cli.
Import ListNotations.
Open Scope N_scope.
Open Scope list_scope.

(** ** All flags *)
(** cmd/flags.go:45-98  initFlags: name and usage, in the order of the code *)
Definition init_flags : list (bytes * bytes) := [
  (b "version", b "display the version");
  (b "v", b "display the version");
  (b "input", b "Read input from FILE instead of stdin");
  (b "output", b "Write output to FILE instead of stdout");
  (b "output-overwrite", b "replace existing files");
  (b "domain", b "The url of the web page, used to convert relative links to absolute links.");
  (b "include-selector", b "css query selector to only include parts of the input");
  (b "exclude-selector", b "css query selector to exclude parts of the input");
  (b "opt-strong-delimiter", b "Make bold text. Should <strong> be indicated by two asterisks or two underscores?" ++ [cNL] ++ b """**"" or ""__"" (default: ""**"")");
  (b "plugin-strikethrough", b "enable the plugin ~~strikethrough~~");
  (b "plugin-table", b "enable the plugin table");
  (b "opt-table-skip-empty-rows", b "[for --plugin-table] omit empty rows from the output");
  (b "opt-table-header-promotion", b "[for --plugin-table] first row should be treated as a header");
  (b "opt-table-span-cell-behavior", b "[for --plugin-table] how colspan/rowspan should be rendered: ""empty"" or ""mirror""");
  (b "opt-table-presentation-tables", b "[for --plugin-table] whether tables with role=""presentation"" should be converted");
  (b "opt-table-newline-behavior", b "[for --plugin-table] how tables containing newlines should be handled: ""skip"" or ""preserve""");
  (b "opt-table-cell-padding-behavior", b "[for --plugin-table] whether cells in the tables should include extra padding for visual continuity: ""aligned"", ""minimal"", or ""none""")].
(** Go string comparison *)
Fixpoint blt (x y : bytes) : bool :=
  match x, y with
  | [], [] => false
  | [], _ :: _ => true
  | _ :: _, [] => false
  | c :: x', d :: y' => (c <? d) || ((c =? d) && blt x' y')
  end.
(** flag.FlagSet.VisitAll (recalled): the flags, sorted by their names *)
Fixpoint insert_flag (f : bytes * bytes) (l : list (bytes * bytes)) : list (bytes * bytes) :=
  match l with
  | [] => [f]
  | g :: t => if blt (fst g) (fst f) then g :: insert_flag f t else f :: l
  end.
Definition sort_flags (l : list (bytes * bytes)) : list (bytes * bytes) := fold_right insert_flag [] l.
Definition visit_all : list (bytes * bytes) := sort_flags init_flags.

(** ** Levenshtein distance (github.com/agnivade/levenshtein v1.2.1, recalled) *)
(** Conversion to uint16 *)
Definition w16 (n : N) : N := n mod 65536.
(** One pass of the inner loop: [x] is the row of the previous rune, [prev] the value for the cell on the left *)
Fixpoint dist_row (c : N) (s1 : list N) (prev : N) (x : list N) : list N :=
  match s1, x with
  | r :: s1', x0 :: ((x1 :: _) as xs) =>
      let cur := if c =? r then x0 else N.min (N.min (w16 (x0 + 1)) (w16 (prev + 1))) (w16 (x1 + 1)) in
      prev :: dist_row c s1' cur xs
  | _, _ => [prev]
  end.
(** The outer loop: [i] is the number of the rune *)
Fixpoint dist_rows (i : N) (s1 s2 : list N) (x : list N) : list N :=
  match s2 with
  | [] => x
  | c :: t => dist_rows (i + 1) s1 t (dist_row c s1 (w16 i) x)
  end.
Fixpoint first_row (i : N) (s1 : list N) : list N :=
  match s1 with [] => [w16 i] | _ :: t => w16 i :: first_row (i + 1) t end.
(** trimLongestCommonPrefix, trimLongestCommonSuffix *)
Fixpoint trim_common (s1 s2 : list N) : list N * list N :=
  match s1, s2 with
  | c :: t1, d :: t2 => if c =? d then trim_common t1 t2 else (s1, s2)
  | _, _ => (s1, s2)
  end.
Definition trim_common_suffix (s1 s2 : list N) : list N * list N :=
  let '(r1, r2) := trim_common (rev s1) (rev s2) in (rev r1, rev r2).
(** ComputeDistance *)
Definition compute_distance (x y : bytes) : N :=
  if is_empty x then N.of_nat (rune_count y)
  else if is_empty y then N.of_nat (rune_count x)
  else if beqb x y then 0
  else
    let s1 := runes x in
    let s2 := runes y in
    let '(s1, s2) := if Nat.ltb (List.length s2) (List.length s1) then (s2, s1) else (s1, s2) in
    let '(s1, s2) := trim_common_suffix s1 s2 in
    let '(s1, s2) := trim_common s1 s2 in
    last (dist_rows 1 s1 s2 (first_row 0 s1)) 0.

(** ** Unknown flags *)
(** cmd/flags_categorize.go:14-19  formatFlag *)
Definition format_flag (name : bytes) : bytes :=
  if Nat.eqb (List.length name) 1 then b "-" ++ name else b "--" ++ name.
(** cmd/flags_categorize.go:24-32: the closure given to VisitAll *)
Definition closer (unknown : bytes) (best : N * bytes) (f : bytes * bytes) : N * bytes :=
  let d := compute_distance (fst f) unknown in
  if d <? fst best then (d, fst f) else best.
(** cmd/flags_categorize.go:20-41  getAlternativeFlag; the empty string: none *)
Definition alternative_flag (unknown : bytes) : bytes :=
  let '(d, f) := fold_left (closer unknown) visit_all (10000, []) in
  if N.of_nat (rune_count unknown) <=? d then []
  else if 4 <? d then []
  else f.

(** ** Reports on standard error *)
(** cmd/print.go: the printers *)
Inductive printer := ColoredBox (prefix text : bytes) | Paragraph (text : bytes) | CodeBlock (code : bytes).
(** cmd/errors.go:10-13  CLIError; an error of another kind has no printers *)
Definition cli_error := (bytes * list printer)%type.

(** cmd/flags_categorize.go:12 *)
Definition not_defined : bytes := b "flag provided but not defined: -".
(** cmd/flags_categorize.go:42-66  categorizeFlagError *)
Definition categorize (message : bytes) : cli_error :=
  if has_prefix not_defined message then
    let name := skipn (List.length not_defined) message in
    let err := b "unknown flag: " ++ format_flag name in
    let alternative := alternative_flag name in
    if is_empty alternative then (err, [])
    else (err, [Paragraph (b "Did you mean " ++ format_flag alternative ++ b " instead?")])
  else (message, []).

Section texts.
(** termenv: background and foreground of the prefix, foreground of the message *)
Variable paint_prefix paint_message : bytes -> bytes.
(** unicode.IsPrint from 128 upwards *)
Variable is_print : N -> bool.
(** The texts of errors that come from other packages: values of flags refused, the operating system, the conversion *)
Variable foreign : error -> bytes.

(** cmd/print.go:25-32, 43-45, 56-59  Print *)
Definition print (p : printer) : bytes :=
  match p with
  | ColoredBox prefix text => paint_prefix (prefix ++ b ":") ++ b " " ++ paint_message text ++ [cNL]
  | Paragraph text => text ++ [cNL]
  | CodeBlock code => b "    " ++ code ++ [cNL]
  end.
(** cmd/errors.go:34-45  PrintDetails *)
Definition print_details (e : cli_error) : bytes :=
  flat_map (fun p => [cNL] ++ print p) (ColoredBox (b "error") (fst e) :: snd e) ++ [cNL].

(** strconv.Quote (recalled; the verb %q of package fmt): a rune of width [n] whose bytes are [s] *)
Definition hex_digit (d : N) : N := if d <? 10 then 48 + d else 87 + d.
Fixpoint hex (digits : nat) (v : N) : bytes :=
  match digits with O => [] | S k => hex k (v / 16) ++ [hex_digit (v mod 16)] end.
Definition printable (r : N) : bool := if r <? 128 then (32 <=? r) && (r <? 127) else is_print r.
Definition quote_rune (r : N) (n : nat) (s : bytes) : bytes :=
  if Nat.eqb n 1 && (r =? rune_error) then b "\x" ++ hex 2 (hd 0 s)
  else if (r =? 34) || (r =? 92) then [92; r]
  else if printable r then s
  else if r =? 7 then b "\a" else if r =? 8 then b "\b" else if r =? 12 then b "\f" else if r =? 10 then b "\n"
  else if r =? 13 then b "\r" else if r =? 9 then b "\t" else if r =? 11 then b "\v"
  else if (r <? 32) || (r =? 127) then b "\x" ++ hex 2 r
  else if r <? 65536 then b "\u" ++ hex 4 r
  else b "\U" ++ hex 8 r.
Fixpoint quote_from (skip : nat) (s : bytes) : bytes :=
  match s with
  | [] => []
  | _ :: t =>
      match skip with
      | S k => quote_from k t
      | O => let '(r, n) := decode_rune s in quote_rune r n (firstn n s) ++ quote_from (pred n) t
      end
  end.
Definition quote (s : bytes) : bytes := [34] ++ quote_from O s ++ [34].

(** The errors of package flag (recalled: FlagSet.parseOne) as its messages *)
Definition flag_message (e : error) : bytes :=
  match e with
  | BadFlagSyntax arg => b "bad flag syntax: " ++ arg
  | UnknownFlag name => not_defined ++ name
  | BadBoolean name value => b "invalid boolean value " ++ quote value ++ b " for -" ++ name ++ b ": parse error"
  | NeedsArgument name => b "flag needs an argument: -" ++ name
  | BadValue name value => b "invalid value " ++ quote value ++ b " for flag -" ++ name ++ b ": " ++ foreign e
  | _ => []
  end.
Definition how_to_pipe : list printer :=
  [Paragraph (b "Here is how you can use the CLI:"); CodeBlock (b "echo ""<strong>important</strong>"" | html2markdown")].
Definition how_to_glob : list printer :=
  [Paragraph (b "Here is how you can use a glob to match multiple files:");
   CodeBlock (b "html2markdown --input ""src/*.html"" --output ""dist/""")].
(** The error values where they are made; [out] is the value of --output *)
Definition cli_error_of (out : bytes) (e : error) : cli_error :=
  match e with
  | HelpRequested => (b "flag: help requested", [])
  | BadFlagSyntax _ | UnknownFlag _ | BadBoolean _ _ | NeedsArgument _ | BadValue _ _ =>
      categorize (flag_message e)                                                        (* cmd/flags.go:101-104 *)
  | RequiresTable name => (b "--" ++ name ++ b " requires --plugin-table to be enabled", [])  (* cmd/flags.go:108-126 *)
  | UnknownArguments args => (b "unknown arguments: " ++ join (b " ") args, how_to_pipe)  (* cmd/exec.go:137-143 *)
  | InputIsDirectory p => (b "input path " ++ quote p ++ b " is a directory, not a file", how_to_glob)  (* cmd/io_input.go:42-46 *)
  | NoFilesFound p => (b "no files found matching pattern " ++ quote p, how_to_glob)      (* cmd/io_input.go:49-53 *)
  | NoInput => (b "the html input should be piped into the cli", how_to_pipe)             (* cmd/io_input.go:80-84 *)
  | SeveralInputsNoOutput =>
      (b "when processing multiple input files --output needs to be a directory", how_to_glob)  (* cmd/io_output.go:32-36 *)
  | SeveralInputsOneFile p =>
      let dir := base_name p in
      (b "when processing multiple input files, --output """ ++ dir ++ b """ must end with """ ++ dir ++ b "/" ++
       b """ to indicate a directory", [])                                               (* cmd/io_output.go:54-57 *)
  | OutputIsDirectory p =>
      let dir := base_name p in
      (b "path """ ++ dir ++ b """ exists and is a directory, did you mean """ ++ dir ++ b "/" ++ b """?",
       [Paragraph (b "The --output must end with ""/"" to indicate a directory")])       (* cmd/io_output.go:66-69 *)
  | OutputExists _ =>
      (b "output path " ++ quote out ++ b " already exists. Use --output-overwrite to replace existing files", [])
                                                                                         (* cmd/io_output.go:150, 163 *)
  | WriteFailed _ => (foreign e, [])                       (* cmd/io_output.go:153, 166; the text before the cause not split off *)
  | GlobFailed _ | StdinFailed | MkdirFailed _ | RelFailed _ | ReadFailed _ | ConvertFailed => (foreign e, [])
  end.
(** cmd/errors.go:47-54  PrintErr, with extractCLIError (15-23) *)
Definition report (out : bytes) (e : error) : bytes := print_details (cli_error_of out e).
End texts.

(** ** Usage and version *)
(** cmd/exec.go:53-62  Release *)
Record release := { r_version : bytes; r_commit : bytes; r_date : bytes }.

(** cmd/cmd_help.go:83-88  indent *)
Definition indent (spaces : nat) (v : bytes) : bytes :=
  let pad := repeat cSP spaces in pad ++ replace_all [cNL] (cNL :: pad) v.
(** cmd/cmd_help.go:12-81  usageTemplate: the text before the version, from there to the flags, after them *)
Definition usage_head : bytes := join [cNL] [
  b "";
  b "# html2markdown - convert html to markdown [version "].
Definition usage_middle : bytes := join [cNL] [
  b "]";
  b "";
  b "Convert HTML to Markdown. Even works with entire websites!";
  b "";
  b "## Basics";
  b "";
  b "By default the ""Commonmark"" Plugin will be enabled. You can customize the options,";
  b "for example changing the appearance of bold with --opt-strong-delimiter=""__""";
  b "";
  b "Other Plugins can also be enabled. For example ""GitHub Flavored Markdown"" (GFM)";
  b "extends Commonmark with more features.";
  b "";
  b "## Relative / Absolute Links";
  b "";
  b "Use --domain=""https://example.com"" to convert *relative* links to *absolute* links.";
  b "The same also works for images.";
  b "";
  b "## Escaping";
  b "";
  b "Some characters have a special meaning in markdown. The library escapes these — if necessary.";
  b "See the documentation for more info.";
  b "";
  b "## Security";
  b "";
  b "Once you convert this markdown *back* to HTML you need to be careful of malicious content. ";
  b "Use a HTML sanitizer before displaying the HTML in the browser!";
  b "";
  b "";
  b "## Examples";
  b "";
  b "    echo ""<strong>important</strong>"" | html2markdown";
  b "";
  b "    curl --no-progress-meter http://example.com | html2markdown";
  b "";
  b "";
  b "    html2markdown --input file.html --output file.md";
  b "";
  b "    html2markdown --input ""src/*.html"" --output ""dist/""";
  b "";
  b "";
  b "## Flags";
  b "";
  b "    -v, --version";
  b "        show the version of html2markdown and exit";
  b "";
  b "    --help";
  b "";
  b "    --input PATH";
  b "        Input file, directory, or glob pattern (instead of stdin)";
  b "";
  b "    --output PATH";
  b "        Output file or directory (instead of stdout)";
  b "";
  b "    --output-overwrite";
  b "        Replace existing files";
  b "";
  b "    If --input is a directory or glob pattern, --output must be a directory.";
  b "";
  b "";
  b ""].
Definition usage_tail : bytes := join [cNL] [
  b "";
  b "";
  b "";
  b "For more information visit the documentation:";
  b "https://github.com/Johanneskaufmann/html-to-markdown";
  b "";
  b ""].
(** cmd/cmd_help.go:72-75: the body of the range over the flags *)
Definition usage_flag (f : bytes * bytes) : bytes :=
  [cNL] ++ b "    --" ++ fst f ++ (if is_empty (snd f) then [] else [cNL] ++ indent 8 (snd f)) ++ [cNL].
(** cmd/cmd_help.go:104-107: flags that the template mentions itself *)
Definition manual_flag (name : bytes) : bool :=
  beqb name (b "v") || beqb name (b "version") || beqb name (b "input") || beqb name (b "output") || beqb name (b "output-overwrite").
(** cmd/cmd_help.go:101-124  initUsageText *)
Definition usage_text (r : release) : bytes :=
  let flags := sort_flags (List.filter (fun f => negb (manual_flag (fst f))) visit_all) in
  usage_head ++ r_version r ++ usage_middle ++ flat_map usage_flag flags ++ usage_tail.
(** cmd/cmd_version.go:5-11  printVersion: the four writes together *)
Definition version_text (r : release) : bytes :=
  b "html2markdown" ++ [cNL; cNL] ++
  b "GitVersion:  " ++ r_version r ++ [cNL] ++
  b "GitCommit:   " ++ r_commit r ++ [cNL] ++
  b "BuildDate:   " ++ r_date r ++ [cNL].

(** main.go:10-15: set by the linker, otherwise "unknown" *)
Definition unknown_value : bytes := b "unknown".
(** runtime/debug.BuildInfo: the version of the main module, the settings *)
Record build_info := { bi_version : bytes; bi_settings : list (bytes * bytes) }.
(** main.go:24-35: the loop over the settings *)
Definition use_setting (r : release) (s : bytes * bytes) : release :=
  if beqb (fst s) (b "vcs.revision") then
    if beqb (r_commit r) unknown_value && Nat.leb 7 (List.length (snd s))
    then {| r_version := r_version r; r_commit := firstn 7 (snd s); r_date := r_date r |} else r
  else if beqb (fst s) (b "vcs.time") then
    if beqb (r_date r) unknown_value && negb (is_empty (snd s))
    then {| r_version := r_version r; r_commit := r_commit r; r_date := snd s |} else r
  else r.
(** main.go:17-43  main: the release given to cmd.Run *)
Definition release_of (linked : release) (info : option build_info) : release :=
  match info with
  | None => linked
  | Some i =>
      let v := if beqb (r_version linked) unknown_value && negb (is_empty (bi_version i)) && negb (beqb (bi_version i) (b "(devel)"))
               then bi_version i else r_version linked in
      fold_left use_setting (bi_settings i) {| r_version := v; r_commit := r_commit linked; r_date := r_date linked |}
  end.
