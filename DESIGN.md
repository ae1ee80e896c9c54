# Design: a Rocq model of html-to-markdown

Source under study: `/repo` (JohannesKaufmann/html-to-markdown v2, Go, with its command line program).
The Go code was read, never built or run. Everything here is about a hand-written Gallina model of it. What ties the model to the
code: the citation of file and lines beside every definition, and the test vectors and golden files of the repository, which the model
reproduces by `vm_compute` (`Tests*.v`; these are tests, not proofs).

## 1. Layout (rocq/theories)

Model (no proofs in these files):

| file | content |
|---|---|
| `Bytes.v` | Byte strings and the parts of the Go standard library that the converter uses on them (packages bytes, strings, unicode, unicode/utf8, strconv) |
| `TextUtils.v` | Model of internal/textutils, collapse/whitespace.go and marker/marker.go |
| `Escape.v` | Model of converter/escape.go, internal/escape/*.go and the strikethrough detector |
| `RenderText.v` | Model of the textual part of the renderers of plugin/commonmark: what each renderer makes of the rendered content of its children and of the attribute values |
| `Dom.v` | The document tree: golang.org/x/net/html nodes and the helpers of github.com/JohannesKaufmann/dom that the code uses (both recalled, they are not part of /repo) |
| `DomUtils.v` | Model of internal/domutils/*.go |
| `Collapse.v` | Model of collapse/collapse.go and collapse/is_node.go |
| `Engine.v` | Model of the package converter: registration, priorities, tag types, rendering, ConvertNode |
| `CommonMark.v` | Model of plugin/base, plugin/commonmark and plugin/strikethrough on top of Engine.v and RenderText.v: the renderers that walk the tree, the handlers and the plugins as lists of calls of Register |
| `Table.v` | Model of plugin/table |
| `NetUrl.v` | The package net/url of the Go standard library as far as converter/url.go uses it |
| `Url.v` | Model of converter/url.go |
| `State.v` | Model of the state of a conversion (converter/ctx.go:63-134) and of the in-place sorting of the registered tag types (converter/register.go:203-222) |
| `Api.v` | Model of the functions that a program calls: /repo/convert.go and converter/convert.go:119-142. No proofs in this file |
| `Cli.v` | Model of the command line program cli/html2markdown |
| `CliConvert.v` | Model of cli/html2markdown/cmd/cmd_convert.go: the selectors and the conversion of one input |
| `CliText.v` | Model of the texts of the command line program: the search for a flag with a similar name, error reports, usage and version |

Specifications (`Spec*.v`; written without the functions of the model they specify: readers of markdown, lines, file systems, ...):

| file | content |
|---|---|
| `SpecEscape.v` | Specification side of the escaping properties: what a reader of the produced markdown sees |
| `SpecText.v` | Specification vocabulary for the text utilities and the textual part of the renderers |
| `SpecDom.v` | Independent specification of the preparation of the tree (C17, C41, C42, C43, C44) |
| `SpecEngine.v` | Specification of the converter engine, independent of the functions of Engine.v |
| `SpecText2.v` | Further specifications of text: hard line breaks (C18) and the language of a code block (C56) |
| `SpecPipeline.v` | Specification vocabulary for whole conversions: converters with the bundled plugins, readers of the output |
| `SpecUrl.v` | Specification of link destinations and queries (C26-C28, C51), written without the model |
| `SpecDomain.v` | Specification of the resolution of addresses against the domain (C65), after RFC 3986 section 5, written without the model |
| `SpecApi.v` | Specification of the calls of a program (C66) |
| `SpecCli.v` | Specification vocabulary for the command line program: runs as sequences of events, a file system, what a trace did |
| `SpecSelect.v` | Specification vocabulary for the selectors of the command line program |
| `SpecTable.v` | Specification vocabulary for tables (C34, C35, C55): the lines of a table, how GitHub flavoured markdown reads a line, where the cells come from |
| `SpecGrid.v` | Specification of the grid of an HTML table with cells over several rows and columns (C57) |
| `SpecNode.v` | Specification vocabulary for the rendering of single elements (C58): what a conversion makes of a node, in terms of what it makes of the children |
| `SpecOptions.v` | Specification vocabulary for the options of the plugins (C46) |
| `SpecFlags.v` | Specification vocabulary for the flags of the command line program (C59): how a list of arguments is read and what the values given mean |
| `SpecPlain.v` | Specification vocabulary for documents without markup (C60): texts in elements that stand for nothing in markdown |
| `SpecTrim.v` | Specification vocabulary for the two ends and the blank lines of converted markdown (C19) |
| `SpecUtf8.v` | Specification vocabulary for valid UTF-8 (C62) |
| `SpecHtml.v` | Elements kept as HTML: specification for C72. Independent of the model of the renderers |
| `SpecSpace.v` | White space around emphasis that starts or ends with code: specification for C73 |
| `SpecSpace2.v` | The exact result of AddSpace for every document: specification for C73 |
| `SpecPath.v` | Specification of paths and fragments of addresses (C74), written without the model |
| `SpecStruck.v` | Specification for C43 with the strikethrough plugin: blocks inside a heading are inside struck text |
| `SpecStyle.v` | Independent specification of what formats a character (C63) |
| `SpecBlocks.v` | Specification vocabulary for the block structure of a document (C64): the blocks of a page, and a reader that finds the blocks of a markdown text (CommonMark 0.31 sections 4 and 5, without the content of block quotes) |
| `SpecInline.v` | Specification vocabulary for the formatting inside paragraphs (C67): the formatting of the characters of a document, and a reader that finds the formatting in a markdown text (CommonMark 0.31 section 6: backslash escapes, code spans, links and emphasis) |
| `SpecCliText.v` | Specification vocabulary for the texts of the command line program: edit distance, the flags a usage text lists, what a quoted text stands for |
| `SpecLocks.v` | Specification for concurrent registrations and conversions (C76) |
| `SpecComments.v` | The comments between lists, on the sequence of tags and texts: specification for C43 |
| `SpecRedundant.v` | Tags inside tags of the same kind, on the sequence of tags and texts: specification for C43 |
| `SpecAlternatives.v` | Blocks that cannot stand where they are, on the sequence of tags and texts: specification for C43 |

Theorems (`Thm*.v`: only statements, each closed by `exact lemma` or, for refutations, by a witness; examples that meet the hypotheses
beside them; `Print Assumptions` beneath each):

| file | content |
|---|---|
| `ThmEscape.v` | Theorems about escaping (C01, C03-C14) |
| `ThmText.v` | Theorems about the text utilities and the texts written by the renderers (C16, C18, C20-C26, C29-C33, C46) |
| `ThmEngine.v` | Theorems about the converter: order of handlers, choice of the renderer, errors, state, tag types (C36-C40) |
| `ThmDom.v` | Theorems about the preparation of the tree (C17, C41, C42, C43) |
| `ThmLetters.v` | Theorems about the visible characters of a document (C44) |
| `ThmPipeline.v` | Theorems about whole conversions with the bundled plugins (C01, C02, C03, C15, C45) |
| `ThmUrl.v` | Theorems about link destinations (C26-C28, C51) |
| `ThmDomain.v` | Theorems about addresses and the domain (C65) |
| `ThmApi.v` | Theorems about the functions that a program calls (C66) |
| `ThmCli.v` | Theorems about the command line program (C47-C50, C52) |
| `ThmCliPrefix.v` | C75: what the command line program has done at any moment of a run, also of one that fails or is interrupted |
| `ThmSelect.v` | Theorems about the selectors and the conversion of the command line program (C53, C54, C61, C45, C52) |
| `ThmTable.v` | Theorems about rendered tables (C34, C35, C55) |
| `ThmGrid.v` | Theorems about the grid of tables with spans (C57) |
| `ThmNode.v` | C58: what a conversion makes of each element |
| `ThmOptions.v` | C46: which option values are accepted and what they mean |
| `ThmFlags.v` | C59: what the arguments of the command line program mean |
| `ThmPlain.v` | Theorems about documents without markup (C60) |
| `ThmTrim.v` | Theorems about the two ends and the blank lines of converted markdown (C19) |
| `ThmUtf8.v` | Theorems about valid UTF-8 (C62) |
| `ThmHtml.v` | C72: elements kept as HTML or as plain text (plugin/base/renderers.go) |
| `ThmSpace.v` | C73: the spaces around emphasis that starts or ends with inline code (internal/domutils/add_space.go) |
| `ThmPath.v` | Theorems about paths and fragments of addresses (C74) |
| `ThmDomain2.v` | Theorems about addresses with paths of any characters and the domain (C65) |
| `ThmStruck.v` | C43 with the strikethrough plugin |
| `ThmStyle.v` | Theorems about the formatting of the characters (C63) |
| `ThmBlocks.v` | Theorems about the blocks of a document (C64) |
| `ThmInline.v` | Theorems about the formatting inside the blocks of a document (C67) |
| `ThmCliText.v` | Theorems about the texts of the command line program (C68-C71) |
| `ThmLocks.v` | C76: registrations and conversions at the same time |
| `ThmSteps.v` | C43: the comments between lists (internal/domutils/list_end_comment.go), the redundant tags (internal/domutils/redundant.go) and the misplaced blocks (internal/domutils/alternatives.go), exactly |

Tests (`Tests*.v`) run the model on the unit-test tables and golden files of /repo. All other files are proofs.

## 2. Modelling decisions

* A byte is an `N`, a Go `[]byte`/`string` is `list N`. `nil` and empty slices are identified; where Go compares with `nil` the
  value comes from `bytes.TrimSpace`, which returns nil exactly for the empty result. Runes are decoded as Go does (invalid bytes give
  U+FFFD of width 1).
* Machine integers are unbounded `Z`/`nat`/`N`.
* DOM: a rose tree (`Text`, `Elem`, `Comment`, `Doc`, `Other` for doctypes and raw nodes). Go mutates a pointer graph; each pass is
  a function on trees. Assumptions: the node handed to `ConvertNode` has no parent and no siblings; element names do not start with
  `#`; `DataAtom` agrees with the name. `tidy` (void elements without children, no document inside a document) holds for every
  document of the HTML parser.
* Loops are structural recursion, or fuel with a theorem that the fuel is enough (`c42_merge_walk_ends`, `c42_space_walk_ends`,
  `c45_conversion_ends`); several one-pass functions are proved equal to a literal transcription of the Go loop
  (`unescape_refines_loop`, `c16_model_is_loop`, `c18_model_is_loop`).
* Sorting handlers: every theorem holds for every function that returns a sorted permutation (`sorts`); `sort.Slice` is not stable.
  The golden tests use a stable sort (Go uses insertion sort up to 12 elements).
* The text, the colours and the similar-flag search of the messages of the command line program are left out.

## 3. Parameters (external behaviour)

`html.Parse` (the model of the library starts from the tree; in the CLI it is a parameter), `html.Render` (`RenderAsHTML` takes its
result), `cascadia` selectors (a predicate on nodes and their place), `doublestar` globs and `SplitPattern`, `filepath.Rel`, SHA-256, `unicode.IsPrint`,
the operating system (every event may fail; other processes may change the file system between events), handlers registered by the
user. Theorems quantify over all of them.

Recalled (written down from memory of the Go standard library and of the `dom` package, because the sandbox has no sources; part of the
trusted base): `bytes`/`strings`/`unicode` helpers (`Bytes.v`), `net/url` (`NetUrl.v`), `flag` and `path/filepath` (`Cli.v`), `strconv.Quote`, the
output of the usage template and `github.com/agnivade/levenshtein` (`CliText.v`), the
helpers of `github.com/JohannesKaufmann/dom` (`Dom.v`), Go maps and `any` (`State.v`), `FindFirstNode`/`FindAllNodes` in pre-order
without the start node, `dom.RemoveNode` of a node without parent does nothing. The root of the include selector (an `ErrorNode`) is
modelled as a document.

## 4. What is modelled and what is not

Modelled: `convert.go` (as `default_uses` and `convert_node`), `converter/*.go`, `collapse/*.go`, `marker/*.go`, `internal/domutils`,
`internal/escape`, `internal/textutils`, `plugin/base`, `plugin/commonmark`, `plugin/strikethrough`, `plugin/table`,
`cli/html2markdown/cmd` and `main.go` (flags, inputs, outputs, selectors, conversion, messages, usage, version, exit status).
Not modelled: the colours of messages (package termenv, a parameter), warnings (never made), the wording of errors of other packages,
`examples/`, `internal/tester`, logging, contexts given
by the caller, concurrency beyond the sorted tag types (C40) and the lock of the handler
slices (C76; sequentially consistent steps; the view of one slice: other slices, the error, the options of a conversion and the names of the plugins
are operations that only hold the lock; options that take the lock of the same converter again are not part of it).

## 5. Properties

Status and theorem names are in `MANIFEST.json`. Refuted claims have a `_refuted` theorem with a witness found by running the model;
the provable rest is `_partial` or has the restriction in its hypotheses. 329 theorems, 88 of them refutations.

| id | property | status | proof |
|---|---|---|---|
| C01 | Escape marker never reaches the output | proved | last pipeline step removes the marker; for every tree and every set of bundled plugins |
| C02 | Code-block newline marker never reaches the output | proved | the replacement of the newline marker is the last post-renderer of the bundled plugins; all trees |
| C03 | Disabled escaping adds nothing | proved | case analysis on the mode, all strings |
| C04 | Escaping only ever inserts backslashes | proved | the un-escaped text relates to the input by an inductive `inserts`; all strings, all rendered contents |
| C05 | Every inserted backslash is a valid markdown escape | proved | reader of backslash escapes as specification; annotation of every output byte with its origin (`explains`) |
| C06 | NUL is replaced | proved | induction over the text |
| C07 | Literal text never starts a heading | proved | CommonMark line recognisers in SpecEscape.v; a recognised line would need an unescaped character that a detector escapes |
| C08 | Literal text never becomes a setext underline | proved | as C07 |
| C09 | Literal text never becomes a thematic break | proved | as C07; tabs between the characters are not detected; collapsing removes tabs |
| C10 | Literal text never starts a block quote | proved | as C07 |
| C11 | Literal text never starts a list | proved | as C07 |
| C12 | Literal backticks and fences never open code | partial | as C07 for fences; code spans with an independent recogniser; code spans can open when a line of the text starts with three or more backticks/tildes (refuted) |
| C13 | Literal emphasis characters never open or close emphasis | partial | annotation; left-flanking rule as specification; VT, NEL, U+2028, U+2029 count as white space in Go only (refuted for CommonMark white space) |
| C14 | Literal brackets never form a link | partial | annotation; bracket matching as specification; brackets across a line break are not escaped (refuted) |
| C15 | HTML special characters in text are neutralised | partial | all texts; reader of entities as specification; no raw angle brackets proved; recoverability refuted (ampersand is not escaped), proved without ampersand |
| C16 | Whitespace collapse of a text | proved | induction over the string, and refinement of the Go loop |
| C17 | Whitespace collapse of a tree | partial | invariant of the walk over the flattened tree; characters, elements and spacing proved for all trees without neighbouring texts; absence of empty text nodes refuted; in a whole conversion neighbouring texts occur and blanks can meet (refuted) |
| C18 | At most one blank line | proved | lines as specification, refinement of the Go loop |
| C19 | Output is trimmed and has no blank-line runs outside code | proved | rendered text as a sequence of visible bytes and code newlines, an invariant of every renderer; white space of Unicode as specification; For all trees, modes, options and sets of bundled plugins with base; the refutations show why texts with the marker characters are excluded. The function that makes addresses absolute is a parameter assumed not to bring in the marker characters. |
| C20 | A code fence is longer than any run in the code | proved | induction |
| C21 | Code block round trip | partial | reader of fenced code blocks as specification; refuted for class attributes with a backtick or newline and for code with U+F002 |
| C22 | Inline code round trip | partial | reader of code spans as specification; content round trip exactly when both or neither end is a backtick |
| C23 | Emphasis delimiters hug the text on every line | proved | lines as specification |
| C24 | Link text and headings never contain a blank line | partial | lines; links proved; setext headings with trailing line break refuted |
| C25 | Block quotes prefix every line | partial | lines; refuted for code blocks inside a quote |
| C26 | Link and image titles are a well-formed quoted string | partial | reader of quoted titles; refuted for backslash before a double quote or at the end |
| C27 | Link destinations cannot break out | proved | reader of link destinations; the listed characters never occur; other control characters and a final backslash can still break the link (refuted) |
| C28 | Query parameters keep their order and meaning | proved | reader of queries; with the recalled net/url |
| C29 | Image descriptions cannot break out | partial | reader of bracketed descriptions; refuted for two backslashes in a row or one at the end |
| C30 | Ordered lists are numbered consecutively with equal width | partial | decimal reader; start >= 0; negative start refuted |
| C31 | List items stay inside their item | proved | lines |
| C32 | ATX headings are one line | partial | lines; smart mode proved, disabled mode refuted |
| C33 | Setext headings are recognised | partial | lines; last line not blank; otherwise refuted |
| C34 | Tables are rectangular | proved | lines of a table; width of runes |
| C35 | Table cells cannot break the row | partial | GFM row splitter as specification, invariant over rendering; for bars in texts, smart mode and padded cells; false for bars in code, alternative texts and titles, in disabled mode, without padding, and for the code block newline marker (refuted) |
| C36 | Handlers run in priority order | proved | sorted permutations; all registration histories; for every sorting algorithm that returns a sorted permutation |
| C37 | First successful renderer wins | proved | induction over the handlers |
| C38 | A failed plugin is never forgotten | proved | all histories of calls |
| C39 | Conversions do not influence each other | proved | heap of maps; all histories; sequential use; for concurrent use see C40 |
| C40 | Concurrent use reads consistent tag types | partial | interleaving of the in-place sort with readers; all schedules; refuted when the types of a tag were registered out of order |
| C41 | Removed elements do not influence the output | proved | relation between trees that differ in invisible nodes; for every root that is not itself of a removed kind; the root itself is not removed (refuted) |
| C42 | Preparing the tree loses no text | proved | one theorem per pass, then the composition; sufficiency of the fuel of the walks; for trees as a parser makes them (tidy: void elements have no children) |
| C43 | Preparing the tree reaches its normal form | partial | one theorem per normal form; lists, links, blocks and end comments proved for the prepared tree; nested bold and bold around a link refuted |
| C44 | Visible letters survive in order | proved | subsequence invariant over rendering; All documents, base, commonmark and strikethrough plugins, smart mode, delimiters without a number sign. False for tables and in disabled mode. |
| C45 | Conversion always terminates without panic | partial | fuel is enough; index bounds; termination of rendering in both modes, no panic in smart mode; disabled mode refuted |
| C46 | Only documented option values are accepted | partial | all option values; documented values are accepted and other words refused for all choices; delimiters, rules and the behaviour of empty links are checked only in part (refuted) |
| C47 | CLI never overwrites without being told | proved | state machine over file systems, other processes and all crash points; at every moment, also with other processes; with the flag a crash can lose the old contents (refuted) |
| C48 | CLI writes one output per input | partial | all inputs and hashes; distinct if the shortened hashes differ and no input is named like a hashed output; otherwise two inputs can share a path (refuted for every hash) |
| C49 | CLI exit status is faithful | proved | all runs; errors of writes to standard output are ignored (refuted) |
| C50 | CLI flag rules | proved | all argument lists |
| C51 | Percent-encoding keeps the meaning of a destination | partial | meaning of a percent-encoded text; path, query and fragment keep their meaning; hosts in brackets do not (refuted) |
| C52 | CLI outputs are the conversions of the inputs | proved | all complete runs; without --output-overwrite; with it inputs and outputs can be lost (refuted) |
| C53 | Include selector keeps exactly the selected parts | partial | pieces of text with a flag; the right text always; in document order if matches are not nested; otherwise not (refuted) |
| C54 | Exclude selector removes exactly the selected parts | partial | pruned tree as specification; for selectors that do not depend on siblings to the right; false otherwise (refuted) |
| C55 | Every table cell is shown in its row | partial | places of cells; rows, order and contents always; the exact columns only without spans; two cells with colspan in one row are placed wrongly (refuted) |
| C56 | Language of a code block becomes the info string | partial | words of the class attribute; class names separated by spaces; refuted: a class that merely contains language- as a part, classes separated by tabs |
| C57 | Spanning cells take their place in the HTML grid | partial | the HTML table model as specification; the grid holds when spans are nested, stay inside the table and no row has two cells over several columns; refuted without these |
| C58 | Each element becomes its own construct | partial | one theorem per element, in every context; every element in every context; destinations without white space, brackets and percent signs to read them back, start attributes that are not negative, titles without stray backslashes |
| C59 | Flags mean what the help says | proved | reading of argument lists as specification; the flag package is recalled |
| C60 | A document without markup stays text | partial | invariant of rendered content (escaped text), then the escaping theorems; reader of escapes and entities; texts without U+F002 (refuted with it); reading back needs texts without ampersand (refuted with it); no code spans if there are not three backticks in a row (refuted with them) |
| C61 | CLI converts the selected part with the plugins the flags name | proved | equality of conversions; text-level consequences; matching and HTML parsing are parameters |
| C62 | Valid UTF-8 stays valid | proved | RFC 3629 table as specification; an automaton and byte edits that keep it, an invariant of every renderer; the same invariant for the parts of an address; smart mode with all bundled plugins, delimiters without a number sign (refuted otherwise); with any options and in both modes if there are no headings; refuted for headings with escaping disabled; the function that makes addresses absolute is shown to meet its hypothesis (c62_addresses) |
| C63 | Text keeps its formatting | partial | each visible character carries a flag (inside the class or not); one relation, parametrised by whether flags may be gained, is an invariant of every step; nothing is lost, per kind of formatting; that nothing is added is proved for documents with one kind of inline formatting and refuted otherwise |
| C64 | A reader finds the blocks of the page | partial | an independent CommonMark block reader is the specification; the tree preparation keeps the list of blocks, rendering writes one piece per block with blank lines between (a list is a piece whose text was trimmed and un-escaped item by item), trimming, un-escaping and the newline handler act on each piece alone, and each piece is read as its block; a mutual induction over pieces, page and list items does the nesting; pages of groups, nested lists, headings, paragraphs, rules, code blocks and texts between blocks, with texts that can be read back; quotes (refuted), tables and inline elements are missing; refuted for items that start with two bullets, negative start numbers, empty headings or lists between texts, lists side by side without the end comment and configured rules that are none |
| C65 | Addresses are resolved against the domain | partial | the fold of net/url over the segments keeps a stack of segments like the one of the specification; parsing and writing are inverse on the characters in question; paths of any characters without empty segments (refuted with them), hosts of unreserved characters; net/url is recalled; a domain that cannot be read is ignored (refuted) |
| C66 | The entry points agree | proved | unfolding, with C45 for the absence of crashes and the validity of the default options; html.Parse and the reader are parameters; contexts of the caller have no effect in the model because the bundled handlers do not ask for their values |
| C67 | A reader finds the blocks of a document and the formatting inside them | partial | an independent CommonMark reader of inline text (escapes, code spans, links, the delimiter algorithm) is the specification; each node is written as a piece whose ends are known, escapes are undone piece by piece, the tokens of a list of pieces are those of its parts, and each pair of delimiters is matched before the next one starts; the white space of the source is read as a browser shows it, and the two walks of the collapse step are shown to leave exactly that; the first line of a paragraph starts no other block by the annotations of C07 to C12; the blocks are read by the reader of C64, and the proof that it finds them is the one of C64, which is generic in the texts; with the comments between lists, and without quotes, images, tables and line breaks; headings that do not end in a number sign; texts beside blocks only at the start of a block or item; emphasis in a paragraph or heading may have texts, code and emphasis of the other kind in it but starts and ends with a text (that in links has a text), texts in emphasis and links without the characters [ ] * _ ` \\, other texts with them unless a star or underscore is at the end of the text, beside emphasis or before a character that is not ASCII, a bracket is never closed in it, or a backtick is at its start or beside backticks and tildes; no & and no control characters; ASCII at the ends of emphasis, no white space there unless a browser does not show it; code with single spaces; inlined links without titles; refuted for emphasis of punctuation between letters, underscores inside words and stars in emphasised text |
| C68 | The suggestion for an unknown flag is the nearest flag | proved | edit scripts as specification; the recursive distance is their least length (it changes by at most one with each edit), the rows of the library hold it for all beginnings, the fold over the sorted flags keeps the first nearest one; names of fewer than 65535 characters (the distances of the library are 16 bit numbers; refuted for longer ones, which Linux accepts as an argument); the levenshtein library and package flag are recalled |
| C69 | The usage text lists exactly the flags there are | proved | a reader of usage texts as specification; the text is fixed around the version; releases whose version has no line end; text/template is recalled |
| C70 | The version is the best one known | proved | induction over the settings; fields without line ends for the lines |
| C71 | A report shows the path it is about unambiguously | proved | a reader of Go string literals as specification; induction over the runes, arithmetic of UTF-8 and hexadecimal digits; strconv.Quote is recalled, unicode.IsPrint is a parameter; colours off; refuted for names of flags (written as they are, control characters included) and for a file in the output directory (only the directory is named) |
| C72 | An element kept as HTML reaches the output as it is | partial | each post-renderer keeps a block of HTML and the blank lines around it (lists split at the block); for every order of the handlers; html.Render is a parameter; the element stands below the document, html, body, div, section, article or main; refuted: two blank lines in a row lose one (also inside pre), the wrapper drops attributes and does not stand apart |
| C73 | Spaces around emphasis with code at its edges | proved | weights of trees and stacks of siblings through the mutual recursion of the walk; the exact result on the sequence of tags and texts, with touches counted at both borders of a part; every tree |
| C74 | Paths and fragments of addresses keep what they stand for | partial | decoding as a relation that encoding and replacing respect; parsing and writing keep the parts; net/url is recalled; paths without a domain and behind plain hosts; refuted: an encoded slash becomes a slash when another character has to be encoded |
| C75 | At any moment of a run the outputs are those of a beginning of the inputs | proved | invariant over the traces; a predicate on programs that only write a file directly after creating it; on disk: without --output-overwrite and nobody else acting |
| C76 | Registrations and conversions at the same time | partial | invariant over all interleavings of single accesses and lock operations; a measure for the end of every run; refuted for the names of the plugins |

## 6. Trusted base

* The kernel of Coq 8.16.1, including `vm_compute`, which closes the examples, tests and witnesses.
* `Print Assumptions` beneath every theorem prints "Closed under the global context": no axioms, neither own nor of the standard
  library. No functors, module types or plugins; no kernel check is switched off.
* The reading of the Go code (section 4), the recalled packages and the parameters (section 3).
* The specifications (`Spec*.v`), in particular that the readers there describe CommonMark/GFM as far as they are used.

## 7. Tests against wrong programs

`seeded/LOG.jsonl` holds 416 edits of the model in a scratch copy (one realistic bug each), the theorems that failed, and the
theorems that were added or tightened because an edit survived.

How to read `failed`: the edited copy is built, `failed_lemmas` are the lemmas whose proof scripts stop, and `failed` are the theorems that
use one of them, directly or not. The uses are found by name in the text of the proofs, so now and then a theorem is listed only because
of a local name that is also the name of a lemma. A lemma in between may also break while the theorem above it still holds for the edited
model: `failed` is an upper bound, and not each theorem in it was shown to be false. A run ends as soon as a theorem about the
claim is affected, so theorems in files that come later may be missing. For C76 `failed` is exact in another way: the listed theorems were found false by
running all interleavings of small programs in the edited model (c76_accesses: by one step), because one lemma on single steps is below all of them.
