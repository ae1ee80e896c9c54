(** The test cases of cli/html2markdown/cmd/exec_test.go and files_test.go that do not depend on the text of messages, run on
    the model. Bounded checks of the model, not proofs. The conversion copies its input. *)
From Coq Require Import List NArith Arith Bool String.
From Verif Require Import Bytes Dom RenderText Engine Cli SpecCli CliSim CliConvert.
Import ListNotations.
Open Scope N_scope.
Open Scope list_scope.

Definition test_hash (r : bytes) : bytes :=
  if beqb r (b "b/random.html") then b "689330a60f12" else if beqb r (b "nested/c/random.html") then b "f679b6e0c212" else b "0000000000".
Definition test_rel (base p : path) : option path :=
  if has_prefix (base ++ b "/") p then Some (skipn (List.length base + 1) p) else None.
Definition test_world : world :=
  {| w_selector := bytes;
     w_parse := fun s => if beqb s (b "?") then None else if beqb s (b " ") then None else Some [s];
     w_convert := fun c d => if beqb (c_strong _ c) (b "*") then None else if beqb (c_span_cells _ c) (b "random") then None else Some d;
     w_hash := test_hash; w_rel := test_rel;
     w_split := fun p => if has_prefix (b "input") p then b "input" else p; w_usage := b "usage"; w_version := b "2.3.4-test" |}.
Definition tree : fs :=
  files [b "input"; b "input/nested"; b "output"]
    [(b "input/random.txt", b "R"); (b "input/website_a.html", b "A"); (b "input/website_b.html", b "B"); (b "input/nested/website_c.html", b "C")].
Definition globs (g : bytes) : list path :=
  if beqb g (b "**/*") then [b "input/random.txt"; b "input/website_a.html"; b "input/website_b.html"; b "input/nested/website_c.html"]
  else if beqb g (b "input/**/*") then [b "input/a/random.html"; b "input/b/random.html"; b "input/nested/c/random.html"]
  else if beqb g (b "input/website_a.html") then [g] else if beqb g (b "input.html") then [g] else [].
(** standard input: the data of a pipe, or a terminal; the result: standard output, message, status *)
Definition outcome (f : fs) (stdin : option bytes) (args : list string) : list bytes * list error * prog :=
  let '(tr, _, p) := simulate (match stdin with Some d => d | None => [] end) globs f 100
    (program test_world (Some (match stdin with Some _ => true | None => false end)) (Some true) (Some true) (map b args)) in
  (printed tr, flat_map (fun e => match e with EvStderr x => [x] | _ => [] end) tr, p).
Definition disk (f : fs) (stdin : option bytes) (args : list string) : list (path * bytes) * list error :=
  let '(tr, f', p) := simulate (match stdin with Some d => d | None => [] end) globs f 100
    (program test_world (Some (match stdin with Some _ => true | None => false end)) (Some true) (Some true) (map b args)) in
  (flat_map (fun e => match e with
     | EvOpen q _ (Opened _) => match file_at f' q with Some d => [(q, d)] | None => [] end
     | _ => [] end) tr, flat_map (fun e => match e with EvStderr x => [x] | _ => [] end) tr).

Definition fails_with (e : error) (r : list bytes * list error * prog) : bool :=
  match r with
  | ([], [x], Exit 1) => match e, x with
      | BadFlagSyntax u, BadFlagSyntax v | UnknownFlag u, UnknownFlag v | NeedsArgument u, NeedsArgument v
      | RequiresTable u, RequiresTable v | GlobFailed u, GlobFailed v | InputIsDirectory u, InputIsDirectory v | NoFilesFound u, NoFilesFound v
      | SeveralInputsOneFile u, SeveralInputsOneFile v | OutputIsDirectory u, OutputIsDirectory v | OutputExists u, OutputExists v => beqb u v
      | BadValue n u, BadValue m v | BadBoolean n u, BadBoolean m v => beqb n m && beqb u v
      | NoInput, NoInput | SeveralInputsNoOutput, SeveralInputsNoOutput | ConvertFailed, ConvertFailed => true
      | UnknownArguments l, UnknownArguments k => beqb (List.concat l) (List.concat k) && (List.length l =? List.length k)%nat
      | _, _ => false
      end
  | _ => false
  end.
Definition prints (text : string) (r : list bytes * list error * prog) : bool :=
  match r with ([t], [], Exit 0) => beqb t (b text) | _ => false end.

(** exec_test.go:137-215 *)
Example version_terminal : prints "2.3.4-test" (outcome tree None ["--version"%string]) = true. Proof. vm_compute. reflexivity. Qed.
Example help_pipe : prints "usage" (outcome tree (Some []) ["--help"%string]) = true. Proof. vm_compute. reflexivity. Qed.
Example no_content : fails_with NoInput (outcome tree None []) = true. Proof. vm_compute. reflexivity. Qed.
Example unknown_version : fails_with (UnknownArguments [b "version"]) (outcome tree None ["version"%string]) = true. Proof. vm_compute. reflexivity. Qed.
Example unknown_list : fails_with (UnknownArguments (map b ["README.md"; "SECURITY.md"; "a.html"]%string))
  (outcome tree None ["--opt-strong-delimiter"; "CONTRIBUTING.md"; "README.md"; "SECURITY.md"; "a.html"]%string) = true.
Proof. vm_compute. reflexivity. Qed.
Example unknown_flag : fails_with (UnknownFlag (b "this-does-not-exist")) (outcome tree (Some []) ["--this-does-not-exist"%string]) = true.
Proof. vm_compute. reflexivity. Qed.
Example misspelled : fails_with (UnknownFlag (b "opt_strong_delimiter")) (outcome tree (Some (b "x")) ["--opt_strong_delimiter="%string]) = true.
Proof. vm_compute. reflexivity. Qed.
Example convert_default : prints ("text" ++ String (Ascii.ascii_of_nat 10) "") (outcome tree (Some (b "text")) []) = true.
Proof. vm_compute. reflexivity. Qed.
Example selector_empty : fails_with (BadValue (b "include-selector") (b " ")) (outcome tree (Some (b "x")) ["--include-selector"; " "]%string) = true.
Proof. vm_compute. reflexivity. Qed.
Example selector_invalid : fails_with (BadValue (b "include-selector") (b "?")) (outcome tree (Some (b "x")) ["--include-selector"; "?"]%string) = true.
Proof. vm_compute. reflexivity. Qed.
Example discouraged : fails_with ConvertFailed (outcome tree (Some (b "x")) ["--opt-strong-delimiter=*"%string]) = true.
Proof. vm_compute. reflexivity. Qed.
Example requires_plugin : fails_with (RequiresTable (b "opt-table-skip-empty-rows")) (outcome tree (Some (b "x")) ["--opt-table-skip-empty-rows"%string]) = true.
Proof. vm_compute. reflexivity. Qed.
Example plugin_value : fails_with ConvertFailed (outcome tree (Some (b "x")) ["--plugin-table"; "--opt-table-span-cell-behavior=random"]%string) = true.
Proof. vm_compute. reflexivity. Qed.
(** exec_test.go:458-555 *)
Example existing_dir : fails_with (OutputIsDirectory (b "output")) (outcome tree (Some (b "x")) ["--output"; "output"]%string) = true.
Proof. vm_compute. reflexivity. Qed.
Example many_no_suffix : fails_with (SeveralInputsOneFile (b "random/folder")) (outcome tree None ["--input"; "**/*"; "--output"; "random/folder"]%string) = true.
Proof. vm_compute. reflexivity. Qed.
Example stdin_and_file : prints ("A" ++ String (Ascii.ascii_of_nat 10) "") (outcome tree (Some (b "stdin content")) ["--input"; "input/website_a.html"]%string) = true.
Proof. vm_compute. reflexivity. Qed.
Example many_no_output : fails_with SeveralInputsNoOutput (outcome tree None ["--input"; "**/*"]%string) = true.
Proof. vm_compute. reflexivity. Qed.
Example not_found : fails_with (NoFilesFound (b "not_found.html")) (outcome tree None ["--input"; "not_found.html"]%string) = true.
Proof. vm_compute. reflexivity. Qed.
Example input_dir : fails_with (InputIsDirectory (b "input")) (outcome tree None ["--input"; "input"]%string) = true.
Proof. vm_compute. reflexivity. Qed.
Example two_values : fails_with (BadValue (b "input") (b "b.html")) (outcome tree None ["--input"; "a.html"; "--input"; "b.html"]%string) = true.
Proof. vm_compute. reflexivity. Qed.
Example empty_value : fails_with (BadValue (b "input") []) (outcome tree None ["--input="%string]) = true.
Proof. vm_compute. reflexivity. Qed.
(** files_test.go:165-345 *)
Example single_input : prints ("the file content" ++ String (Ascii.ascii_of_nat 10) "")
  (outcome (files [] [(b "input.html", b "the file content")]) None ["--input"; "input.html"]%string) = true.
Proof. vm_compute. reflexivity. Qed.
Example single_output : disk (files [b "dir/"] []) (Some (b "bold text")) ["--output"; "dir/"]%string = ([(b "dir/output.md", b "bold text")], []).
Proof. vm_compute. reflexivity. Qed.
Example not_overwrite : disk (files [] [(b "output.md", b "A")]) (Some (b "B")) ["--output"; "output.md"]%string = ([], [OutputExists (b "output.md")]).
Proof. vm_compute. reflexivity. Qed.
Example overwrite : disk (files [] [(b "output.md", b "A")]) (Some (b "B")) ["--output"; "output.md"; "--output-overwrite"]%string =
  ([(b "output.md", b "B")], []).
Proof. vm_compute. reflexivity. Qed.
Example duplicate_files :
  disk (files [] [(b "input/a/random.html", b "a"); (b "input/b/random.html", b "b"); (b "input/nested/c/random.html", b "c")]) None
    ["--input"; "input/**/*"; "--output"; "output/"]%string =
  ([(b "output/random.md", b "a"); (b "output/random.689330a60f.md", b "b"); (b "output/random.f679b6e0c2.md", b "c")], []).
Proof. vm_compute. reflexivity. Qed.

(** The conversion: exec_test.go:265-380, 560-754; selectors are tag or class names *)
Definition test_matches (s : bytes) (_ : place) (n : node) : bool :=
  match n with Elem x a _ => if has_prefix (b ".") s then beqb (b "." ++ attr_or (b "class") [] a) s else beqb x s | _ => false end.
Definition conv (args : list string) (body : list node) : option bytes :=
  match parse_flags bytes (fun s => Some [s]) (map b args) with
  | inl (c, _) => cli_convert bytes test_matches (fun _ => Some (Doc [Elem (b "html") [] [Elem (b "head") [] []; Elem (b "body") [] body]])) stable_sort c []
  | inr _ => None
  end.
Definition el (x : string) (ks : list node) : node := Elem (b x) [] ks.
Definition tx (s : string) : node := Text (b s).
Example t_strong : conv [] [el "strong" [tx "text"]] = Some (b "**text**"). Proof. vm_compute. reflexivity. Qed.
Example t_under : conv ["--opt-strong-delimiter"; "__"]%string [el "strong" [tx "text"]] = Some (b "__text__"). Proof. vm_compute. reflexivity. Qed.
Example t_star : conv ["--opt-strong-delimiter=*"%string] [el "strong" [tx "text"]] = None. Proof. vm_compute. reflexivity. Qed.
Example t_include : conv ["--include-selector"; "strong"]%string
  [el "p" [tx "Some "; el "strong" [el "span" [tx "bold"]; tx " text"]; tx " here"]] = Some (b "**bold text**"). Proof. vm_compute. reflexivity. Qed.
Example t_include2 : conv ["--include-selector"; "strong"]%string
  [el "p" [tx "Some "; el "strong" [tx "a"]; tx " and "; el "strong" [tx "b"]; tx " text"]] = Some (b "**ab**"). Proof. vm_compute. reflexivity. Qed.
Example t_include3 : conv ["--include-selector"; "strong"; "--include-selector"; ".bold"]%string
  [el "p" [tx "Some "; el "strong" [tx "a"]; tx " and "; Elem (b "span") [(b "class", b "bold")] [tx "b"]; tx " text"]] = Some (b "**a**b").
Proof. vm_compute. reflexivity. Qed.
Example t_exclude : conv ["--exclude-selector"; "strong"; "--exclude-selector"; ".italic"]%string
  [el "p" [tx "Some "; el "strong" [tx "bold"]; tx " and "; Elem (b "span") [(b "class", b "italic")] [tx "italic"]; tx " text"]] = Some (b "Some and text").
Proof. vm_compute. reflexivity. Qed.
Example t_domain : conv ["--domain"; "example.com"]%string [Elem (b "img") [(b "src", b "/image.png")] []] = Some (b "![](http://example.com/image.png)").
Proof. vm_compute. reflexivity. Qed.
Example t_strike : conv ["--plugin-strikethrough"%string] [el "p" [tx "Some "; el "s" [tx "outdated"]; tx " text"]] = Some (b "Some ~~outdated~~ text").
Proof. vm_compute. reflexivity. Qed.
Definition tab : list node :=
  [el "table" [el "tbody" [el "tr" [el "td" [tx "A1"]; el "td" [tx "A2"]]; el "tr" [el "td" []; el "td" []]; el "tr" [el "td" [tx "C1"]; el "td" [tx "C2"]]]]].
Definition lines (l : list string) : bytes := join [10] (map b l).
Example t_table : conv ["--plugin-table"%string] tab = Some (lines ["|    |    |"; "|----|----|"; "| A1 | A2 |"; "|    |    |"; "| C1 | C2 |"]%string).
Proof. vm_compute. reflexivity. Qed.
Example t_table_skip : conv ["--plugin-table"; "--opt-table-skip-empty-rows"]%string tab =
  Some (lines ["|    |    |"; "|----|----|"; "| A1 | A2 |"; "| C1 | C2 |"]%string). Proof. vm_compute. reflexivity. Qed.
Example t_table_promote : conv ["--plugin-table"; "--opt-table-skip-empty-rows"; "--opt-table-header-promotion"]%string tab =
  Some (lines ["| A1 | A2 |"; "|----|----|"; "| C1 | C2 |"]%string). Proof. vm_compute. reflexivity. Qed.
Example t_table_bad : conv ["--plugin-table"; "--opt-table-span-cell-behavior=random"]%string tab = None. Proof. vm_compute. reflexivity. Qed.
