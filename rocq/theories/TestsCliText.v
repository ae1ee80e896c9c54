(** Golden files of the command line program: messages, usage and version. Tests, not proofs. *)
From Coq Require Import List NArith Bool String.
From Verif Require Import Bytes Cli CliText.
Import ListNotations.
Open Scope N_scope.
Open Scope list_scope.

(** Errors of other packages, as they are in the golden files *)
Definition foreign (e : error) : bytes :=
  match e with
  | BadValue n v => if beqb n (b "input") then (if is_empty v then b "empty string" else b "another value has already been set")
                    else b "invalid css selector: expected identifier, found ? instead"
  | _ => []
  end.
Definition plain_report := report (fun x => x) (fun x => x) (fun _ => true) foreign.
(** cli/html2markdown/cmd/testdata/TestExecute/[argument_unknown]_html/stderr.golden *)
Example golden_0 : show (plain_report ([]) (UnknownArguments [b """<strong>text</strong>"""])) = "
error: unknown arguments: ""<strong>text</strong>""

Here is how you can use the CLI:

    echo ""<strong>important</strong>"" | html2markdown

"%string. Proof. vm_compute. reflexivity. Qed.
(** cli/html2markdown/cmd/testdata/TestExecute/[argument_unknown]_version/stderr.golden *)
Example golden_1 : show (plain_report ([]) (UnknownArguments [b "version"])) = "
error: unknown arguments: version

Here is how you can use the CLI:

    echo ""<strong>important</strong>"" | html2markdown

"%string. Proof. vm_compute. reflexivity. Qed.
(** cli/html2markdown/cmd/testdata/TestExecute/[argument_unknown]_list_of_files/stderr.golden *)
Example golden_2 : show (plain_report ([]) (UnknownArguments (map b ["README.md"; "SECURITY.md"; "a.html"; "b.html"; "c.html"; "d.html"; "e.html"; "f.html"]%string))) = "
error: unknown arguments: README.md SECURITY.md a.html b.html c.html d.html e.html f.html

Here is how you can use the CLI:

    echo ""<strong>important</strong>"" | html2markdown

"%string. Proof. vm_compute. reflexivity. Qed.
(** cli/html2markdown/cmd/testdata/TestExecute/[files]_empty_string/stderr.golden *)
Example golden_3 : show (plain_report ([]) (BadValue (b "input") [])) = "
error: invalid value """" for flag -input: empty string

"%string. Proof. vm_compute. reflexivity. Qed.
(** cli/html2markdown/cmd/testdata/TestExecute/[files]_input_directory/stderr.golden *)
Example golden_4 : show (plain_report ([]) (InputIsDirectory (b "input"))) = "
error: input path ""input"" is a directory, not a file

Here is how you can use a glob to match multiple files:

    html2markdown --input ""src/*.html"" --output ""dist/""

"%string. Proof. vm_compute. reflexivity. Qed.
(** cli/html2markdown/cmd/testdata/TestExecute/[files]_multiple_files_but_no_output/stderr.golden *)
Example golden_5 : show (plain_report ([]) (SeveralInputsNoOutput)) = "
error: when processing multiple input files --output needs to be a directory

Here is how you can use a glob to match multiple files:

    html2markdown --input ""src/*.html"" --output ""dist/""

"%string. Proof. vm_compute. reflexivity. Qed.
(** cli/html2markdown/cmd/testdata/TestExecute/[files]_multiple_values/stderr.golden *)
Example golden_6 : show (plain_report ([]) (BadValue (b "input") (b "b.html"))) = "
error: invalid value ""b.html"" for flag -input: another value has already been set

"%string. Proof. vm_compute. reflexivity. Qed.
(** cli/html2markdown/cmd/testdata/TestExecute/[files]_not_found/stderr.golden *)
Example golden_7 : show (plain_report ([]) (NoFilesFound (b "not_found.html"))) = "
error: no files found matching pattern ""not_found.html""

Here is how you can use a glob to match multiple files:

    html2markdown --input ""src/*.html"" --output ""dist/""

"%string. Proof. vm_compute. reflexivity. Qed.
(** cli/html2markdown/cmd/testdata/TestExecute/[files]_without_suffix_existing_dir/stderr.golden *)
Example golden_8 : show (plain_report (b "output") (OutputIsDirectory (b "output"))) = "
error: path ""output"" exists and is a directory, did you mean ""output/""?

The --output must end with ""/"" to indicate a directory

"%string. Proof. vm_compute. reflexivity. Qed.
(** cli/html2markdown/cmd/testdata/TestExecute/[files]_without_suffix_multiple_files/stderr.golden *)
Example golden_9 : show (plain_report (b "folder") (SeveralInputsOneFile (b "folder"))) = "
error: when processing multiple input files, --output ""folder"" must end with ""folder/"" to indicate a directory

"%string. Proof. vm_compute. reflexivity. Qed.
(** cli/html2markdown/cmd/testdata/TestExecute/[flag_misspelled]_underscore/stderr.golden *)
Example golden_10 : show (plain_report ([]) (UnknownFlag (b "opt_strong_delimiter"))) = "
error: unknown flag: --opt_strong_delimiter

Did you mean --opt-strong-delimiter instead?

"%string. Proof. vm_compute. reflexivity. Qed.
(** cli/html2markdown/cmd/testdata/TestExecute/[flag_unknown]_with_pipe/stderr.golden *)
Example golden_11 : show (plain_report ([]) (UnknownFlag (b "this-does-not-exist"))) = "
error: unknown flag: --this-does-not-exist

"%string. Proof. vm_compute. reflexivity. Qed.
(** cli/html2markdown/cmd/testdata/TestExecute/[general]_no_content/stderr.golden *)
Example golden_12 : show (plain_report ([]) (NoInput)) = "
error: the html input should be piped into the cli

Here is how you can use the CLI:

    echo ""<strong>important</strong>"" | html2markdown

"%string. Proof. vm_compute. reflexivity. Qed.
(** cli/html2markdown/cmd/testdata/TestExecute/[include-selector]_invalid/stderr.golden *)
Example golden_13 : show (plain_report ([]) (BadValue (b "include-selector") (b "?"))) = "
error: invalid value ""?"" for flag -include-selector: invalid css selector: expected identifier, found ? instead

"%string. Proof. vm_compute. reflexivity. Qed.
(** cli/html2markdown/cmd/testdata/TestExecute/[validation]_option_requires_plugin/stderr.golden *)
Example golden_14 : show (plain_report ([]) (RequiresTable (b "opt-table-skip-empty-rows"))) = "
error: --opt-table-skip-empty-rows requires --plugin-table to be enabled

"%string. Proof. vm_compute. reflexivity. Qed.
Definition test_release : release :=
  {| r_version := b "2.3.4-test"; r_commit := b "ca82a6dff817ec66f44342007202690a93763949"; r_date := b "2024-08-18T13:03:43Z" |}.
Example golden_usage : show (usage_text test_release) = "
# html2markdown - convert html to markdown [version 2.3.4-test]

Convert HTML to Markdown. Even works with entire websites!

## Basics

By default the ""Commonmark"" Plugin will be enabled. You can customize the options,
for example changing the appearance of bold with --opt-strong-delimiter=""__""

Other Plugins can also be enabled. For example ""GitHub Flavored Markdown"" (GFM)
extends Commonmark with more features.

## Relative / Absolute Links

Use --domain=""https://example.com"" to convert *relative* links to *absolute* links.
The same also works for images.

## Escaping

Some characters have a special meaning in markdown. The library escapes these — if necessary.
See the documentation for more info.

## Security

Once you convert this markdown *back* to HTML you need to be careful of malicious content. 
Use a HTML sanitizer before displaying the HTML in the browser!


## Examples

    echo ""<strong>important</strong>"" | html2markdown

    curl --no-progress-meter http://example.com | html2markdown


    html2markdown --input file.html --output file.md

    html2markdown --input ""src/*.html"" --output ""dist/""


## Flags

    -v, --version
        show the version of html2markdown and exit

    --help

    --input PATH
        Input file, directory, or glob pattern (instead of stdin)

    --output PATH
        Output file or directory (instead of stdout)

    --output-overwrite
        Replace existing files

    If --input is a directory or glob pattern, --output must be a directory.



    --domain
        The url of the web page, used to convert relative links to absolute links.

    --exclude-selector
        css query selector to exclude parts of the input

    --include-selector
        css query selector to only include parts of the input

    --opt-strong-delimiter
        Make bold text. Should <strong> be indicated by two asterisks or two underscores?
        ""**"" or ""__"" (default: ""**"")

    --opt-table-cell-padding-behavior
        [for --plugin-table] whether cells in the tables should include extra padding for visual continuity: ""aligned"", ""minimal"", or ""none""

    --opt-table-header-promotion
        [for --plugin-table] first row should be treated as a header

    --opt-table-newline-behavior
        [for --plugin-table] how tables containing newlines should be handled: ""skip"" or ""preserve""

    --opt-table-presentation-tables
        [for --plugin-table] whether tables with role=""presentation"" should be converted

    --opt-table-skip-empty-rows
        [for --plugin-table] omit empty rows from the output

    --opt-table-span-cell-behavior
        [for --plugin-table] how colspan/rowspan should be rendered: ""empty"" or ""mirror""

    --plugin-strikethrough
        enable the plugin ~~strikethrough~~

    --plugin-table
        enable the plugin table



For more information visit the documentation:
https://github.com/Johanneskaufmann/html-to-markdown

"%string. Proof. vm_compute. reflexivity. Qed.
Example golden_version : show (version_text test_release) = "html2markdown

GitVersion:  2.3.4-test
GitCommit:   ca82a6dff817ec66f44342007202690a93763949
BuildDate:   2024-08-18T13:03:43Z
"%string. Proof. vm_compute. reflexivity. Qed.
