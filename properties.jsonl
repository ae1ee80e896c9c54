{"id": "C01", "title": "Escape marker never reaches the output", "statement": "With smart escaping, the markdown returned by a conversion with the base plugin contains no 0x07 (the internal escape marker), whatever the HTML tree contains, even if the HTML itself contains 0x07.", "quantifier": "every HTML tree, every commonmark option, every combination of the commonmark/strikethrough/table plugins", "why_tests_cant": "Unit and golden tests check a finite list of documents; the claim is about every document.", "anchors": ["converter/escape.go: unEscapeContent", "plugin/base/base.go: postRenderUnescapeContent", "marker/marker.go"]}
{"id": "C02", "title": "Code-block newline marker never reaches the output", "statement": "The markdown returned by a conversion with the base and commonmark plugins never contains the private-use sequence EF 80 82 (U+F002) that is used internally to protect newlines in code blocks.", "quantifier": "every HTML tree and option", "why_tests_cant": "Unit and golden tests check a finite list of documents; the claim is about every document.", "anchors": ["plugin/commonmark/commonmark.go: handlePostRenderCodeBlockNewline", "marker/marker.go"]}
{"id": "C03", "title": "Disabled escaping adds nothing", "statement": "With WithEscapeMode(\"disabled\") the escaping and un-escaping of content are the identity on every byte string: no backslash or marker is added or removed.", "quantifier": "every byte string, every set of registered characters and detectors", "why_tests_cant": "A table of example strings cannot cover every byte string (any length, invalid UTF-8, any position of the special byte).", "anchors": ["converter/escape.go: escapeContent, unEscapeContent"]}
{"id": "C04", "title": "Escaping only ever inserts backslashes", "statement": "With smart escaping, for text without NUL and 0x07, escape followed by un-escape yields the text with some backslashes inserted; deleting exactly the inserted ones gives back the text, byte for byte.", "quantifier": "every byte string, every detector list, every set of registered characters", "why_tests_cant": "A table of example strings cannot cover every byte string (any length, invalid UTF-8, any position of the special byte).", "anchors": ["converter/escape.go: escapeContent, unEscapeContent"]}
{"id": "C05", "title": "Every inserted backslash is a valid markdown escape", "statement": "With the commonmark plugin's registered characters, each backslash that un-escaping inserts stands directly before an ASCII punctuation character, so a CommonMark reader removes it and shows the original text: reading the backslash escapes of the result gives back the original text.", "quantifier": "every byte string", "why_tests_cant": "A table of example strings cannot cover every byte string (any length, invalid UTF-8, any position of the special byte).", "anchors": ["converter/escape.go", "plugin/commonmark/commonmark.go: Init", "internal/escape/"]}
{"id": "C06", "title": "NUL is replaced", "statement": "With smart escaping, escaped text never contains a NUL byte; each NUL becomes U+FFFD and no other byte is altered.", "quantifier": "every byte string", "why_tests_cant": "A table of example strings cannot cover every byte string (any length, invalid UTF-8, any position of the special byte).", "anchors": ["converter/escape.go: escapeContent"]}
{"id": "C07", "title": "Literal text never starts a heading", "statement": "No line of escaped text is an ATX heading for CommonMark (0-3 spaces, 1-6 '#', then space, tab or end of line), wherever the '#' stands in the text.", "quantifier": "every byte string", "why_tests_cant": "Detectors look arbitrarily far left and right; tests only try short strings.", "anchors": ["internal/escape/elem_header.go: IsAtxHeader", "converter/escape.go"]}
{"id": "C08", "title": "Literal text never becomes a setext underline", "statement": "No line of escaped text consisting of '=' (or '-') only, with spaces around, directly follows a non-blank line, so the text never turns into a setext heading.", "quantifier": "every byte string", "why_tests_cant": "Depends on the previous line, at unbounded distance.", "anchors": ["internal/escape/elem_header.go: IsSetextHeader"]}
{"id": "C09", "title": "Literal text never becomes a thematic break", "statement": "No line of escaped text is a thematic break: three or more matching '-', '_' or '*' with only spaces between.", "quantifier": "every byte string", "why_tests_cant": "A table of example strings cannot cover every byte string (any length, invalid UTF-8, any position of the special byte).", "anchors": ["internal/escape/elem_divider.go: IsDivider"]}
{"id": "C10", "title": "Literal text never starts a block quote", "statement": "No line of escaped text starts (after spaces) with an unescaped '>'.", "quantifier": "every byte string", "why_tests_cant": "A table of example strings cannot cover every byte string (any length, invalid UTF-8, any position of the special byte).", "anchors": ["internal/escape/elem_quote.go: IsBlockQuote"]}
{"id": "C11", "title": "Literal text never starts a list", "statement": "No line of escaped text starts (after spaces) with an unescaped list marker: '-', '+', '*' followed by space, tab or end of line, or digits followed by '.' or ')' and space, tab or end of line.", "quantifier": "every byte string", "why_tests_cant": "A table of example strings cannot cover every byte string (any length, invalid UTF-8, any position of the special byte).", "anchors": ["internal/escape/elem_list.go: IsUnorderedList, IsOrderedList"]}
{"id": "C12", "title": "Literal backticks and fences never open code", "statement": "In escaped text every backtick is preceded by a backslash, so no code span and no fenced code block is opened by literal text.", "quantifier": "every byte string", "why_tests_cant": "A table of example strings cannot cover every byte string (any length, invalid UTF-8, any position of the special byte).", "anchors": ["internal/escape/elem_code.go: IsFencedCode, IsInlineCode"]}
{"id": "C13", "title": "Literal emphasis characters never open or close emphasis", "statement": "In escaped text each '*' or '_' is either escaped or directly followed by whitespace or the end of the text, so that it cannot open emphasis; and text inside an emphasised element never closes that emphasis early.", "quantifier": "every byte string and every inline element around it", "why_tests_cant": "A table of example strings cannot cover every byte string (any length, invalid UTF-8, any position of the special byte).", "anchors": ["internal/escape/elem_italic_bold.go: IsItalicOrBold"]}
{"id": "C14", "title": "Literal brackets never form a link", "statement": "In escaped text, a '[' that is followed by a ']' before the next newline is always escaped, so that text such as [a](b) is not read as a link or image, also when a hard line break stands between the brackets.", "quantifier": "every byte string", "why_tests_cant": "A table of example strings cannot cover every byte string (any length, invalid UTF-8, any position of the special byte).", "anchors": ["internal/escape/elem_image.go: IsImageOrLink"]}
{"id": "C15", "title": "HTML special characters in text are neutralised", "statement": "Text nodes never put a raw '<' or '>' into the output; distinct texts give distinct outputs (the text is recoverable).", "quantifier": "every text node", "why_tests_cant": "A table of example strings cannot cover every byte string (any length, invalid UTF-8, any position of the special byte).", "anchors": ["plugin/base/base.go: characterEntityReplacer, handleTextTransform"]}
{"id": "C16", "title": "Whitespace collapse of a text", "statement": "Collapsing a text turns every maximal run of space, tab, CR and LF into exactly one space and keeps every other byte in order; doing it twice changes nothing.", "quantifier": "every byte string", "why_tests_cant": "A table of example strings cannot cover every byte string (any length, invalid UTF-8, any position of the special byte).", "anchors": ["collapse/whitespace.go: replaceAnyWhitespaceWithSpace"]}
{"id": "C17", "title": "Whitespace collapse of a tree", "statement": "Collapse never changes a non-whitespace character, never touches the content of pre and code, leaves no empty text node, no text node with two adjacent blanks, no blank at the start or the end of a block, and keeps all elements and their order.", "quantifier": "every HTML tree, every choice of which elements are blocks", "why_tests_cant": "Unit and golden tests check a finite list of documents; the claim is about every document.", "anchors": ["collapse/collapse.go: Collapse", "collapse/is_node.go"]}
{"id": "C18", "title": "At most one blank line", "statement": "Trimming consecutive newlines leaves no three consecutive line ends (with only blanks between them counted as the code does), keeps all other characters, and is idempotent.", "quantifier": "every byte string", "why_tests_cant": "A table of example strings cannot cover every byte string (any length, invalid UTF-8, any position of the special byte).", "anchors": ["internal/textutils/consecutive_newlines.go: TrimConsecutiveNewlines, TrimUnnecessaryHardLineBreaks"]}
{"id": "C19", "title": "Output is trimmed and has no blank-line runs outside code", "statement": "The returned markdown of base+commonmark starts and ends with a non-whitespace character (or is empty), and contains no three consecutive newlines except those that come from a code block.", "quantifier": "every HTML tree without the marker characters", "why_tests_cant": "Unit and golden tests check a finite list of documents; the claim is about every document.", "anchors": ["plugin/base/base.go: postRenderTrimContent", "plugin/commonmark/commonmark.go"]}
{"id": "C20", "title": "A code fence is longer than any run in the code", "statement": "The fence around a code block has at least three fence characters and more than the longest run of that character in the code, so no line of the code closes the block.", "quantifier": "every code text and both fence characters", "why_tests_cant": "A table of example strings cannot cover every byte string (any length, invalid UTF-8, any position of the special byte).", "anchors": ["internal/textutils/codefence.go: CalculateCodeFence, CalculateCodeFenceOccurrences", "plugin/commonmark/render_code.go: renderBlockCode"]}
{"id": "C21", "title": "Code block round trip", "statement": "Reading the produced fenced block with the CommonMark rule (first fence line opens, first line that closes ends) returns exactly the text of the pre element (one trailing newline removed), with every space and blank line kept.", "quantifier": "every pre element, wherever it stands at the top level of the document", "why_tests_cant": "Needs arbitrary code, including code that contains fences.", "anchors": ["plugin/commonmark/render_code.go: renderBlockCode", "plugin/commonmark/commonmark.go"]}
{"id": "C22", "title": "Inline code round trip", "statement": "The delimiter run around inline code occurs nowhere inside it, and reading the code span by the CommonMark rule returns the (whitespace-collapsed) text.", "quantifier": "every code text", "why_tests_cant": "Needs arbitrary mixes of backtick runs.", "anchors": ["plugin/commonmark/render_code.go: renderInlineCode", "internal/textutils/collapse_code.go"]}
{"id": "C23", "title": "Emphasis delimiters hug the text on every line", "statement": "Bold and italic markers are put around each non-blank line, directly next to non-whitespace on both sides, blank lines get none, and removing them gives back the content.", "quantifier": "every rendered content and every delimiter", "why_tests_cant": "A table of example strings cannot cover every byte string (any length, invalid UTF-8, any position of the special byte).", "anchors": ["internal/textutils/delimiter.go: DelimiterForEveryLine", "plugin/commonmark/render_bold_italic.go"]}
{"id": "C24", "title": "Link text and headings never contain a blank line", "statement": "After EscapeMultiLine no blank line remains inside link text (setext heading text), so the inline construct is not cut in two.", "quantifier": "every content without leading or trailing blank", "why_tests_cant": "A table of example strings cannot cover every byte string (any length, invalid UTF-8, any position of the special byte).", "anchors": ["internal/textutils/escape_multiline.go: EscapeMultiLine", "plugin/commonmark/render_link.go", "plugin/commonmark/render_heading.go"]}
{"id": "C25", "title": "Block quotes prefix every line", "statement": "Every line of a rendered block quote starts with '>', and removing the prefix from each line gives back exactly the rendered content of the quote.", "quantifier": "every content", "why_tests_cant": "A table of example strings cannot cover every byte string (any length, invalid UTF-8, any position of the special byte).", "anchors": ["internal/textutils/prefix_lines.go: PrefixLines", "plugin/commonmark/render_blockquote.go"]}
{"id": "C26", "title": "Link and image titles are a well-formed quoted string", "statement": "The rendered title is one CommonMark title: it opens and closes with the same quote character and that character does not occur unescaped inside.", "quantifier": "every title string", "why_tests_cant": "A table of example strings cannot cover every byte string (any length, invalid UTF-8, any position of the special byte).", "anchors": ["internal/textutils/quote.go: SurroundByQuotes"]}
{"id": "C27", "title": "Link destinations cannot break out", "statement": "The destination put into [..](..) contains no space, newline, tab, '<', '>', '(' , ')', '[' or ']' in raw form.", "quantifier": "every href/src value, every base domain, every result of the URL parser", "why_tests_cant": "A table of example strings cannot cover every byte string (any length, invalid UTF-8, any position of the special byte).", "anchors": ["converter/url.go: defaultAssembleAbsoluteURL, percentEncodingReplacer"]}
{"id": "C28", "title": "Query parameters keep their order and meaning", "statement": "Re-encoding a query keeps the number and order of its parameters and their decoded values.", "quantifier": "every query string", "why_tests_cant": "A table of example strings cannot cover every byte string (any length, invalid UTF-8, any position of the special byte).", "anchors": ["converter/url.go: ParseAndEncodeQuery, decodeAndEncode"]}
{"id": "C29", "title": "Image descriptions cannot break out", "statement": "Inside ![..] every '[' and ']' of the alt text is escaped, so the description ends at the bracket the converter wrote.", "quantifier": "every alt string", "why_tests_cant": "A table of example strings cannot cover every byte string (any length, invalid UTF-8, any position of the special byte).", "anchors": ["plugin/commonmark/render_image.go: escapeAlt"]}
{"id": "C30", "title": "Ordered lists are numbered consecutively with equal width", "statement": "The items of an ordered list get consecutive numbers beginning with the start attribute, zero-padded to the same width, and the indentation of following lines equals that width.", "quantifier": "every number of items and every start value", "why_tests_cant": "Width depends on the largest number; tests try a few.", "anchors": ["plugin/commonmark/render_list.go: getPrefixFunc, renderMultiLineListItem, renderListContainer"]}
{"id": "C31", "title": "List items stay inside their item", "statement": "Every line of an item after the first is indented by the width of the item's prefix, also for lines of a code block inside the item; removing prefix and indentation gives back the item's content.", "quantifier": "every item content", "why_tests_cant": "A table of example strings cannot cover every byte string (any length, invalid UTF-8, any position of the special byte).", "anchors": ["plugin/commonmark/render_list.go: renderMultiLineListItem"]}
{"id": "C32", "title": "ATX headings are one line", "statement": "A rendered ATX heading is exactly one line: the right number of '#', one space, the content without newlines; a trailing '#' of the content stays visible; no character of the content is lost.", "quantifier": "every heading content and level, both escape modes", "why_tests_cant": "A table of example strings cannot cover every byte string (any length, invalid UTF-8, any position of the special byte).", "anchors": ["plugin/commonmark/render_heading.go: renderHeading, escapePoundSignAtEnd"]}
{"id": "C33", "title": "Setext headings are recognised", "statement": "With the setext style the underline directly follows a non-blank line and is at least three characters wide and as wide as the widest line.", "quantifier": "every heading content", "why_tests_cant": "A table of example strings cannot cover every byte string (any length, invalid UTF-8, any position of the special byte).", "anchors": ["plugin/commonmark/render_heading.go: getUnderlineWidth, setextUnderline"]}
{"id": "C34", "title": "Tables are rectangular", "statement": "Every row of a rendered table has the same number of cells, whatever rowspans and colspans the HTML has, and (with padded cells) the same width; the underline has as many cells as the header.", "quantifier": "every table, every rowspan/colspan value", "why_tests_cant": "Unbounded rows, columns and spans.", "anchors": ["plugin/table/utils.go: calculateModifications, applyModifications, applyGroupedModifications, fillUpRows, calculateMaxCounts", "plugin/table/3_render.go", "plugin/table/2_collect.go"]}
{"id": "C35", "title": "Table cells cannot break the row", "statement": "A cell's rendered content contains no newline and no unescaped '|', so it cannot end the row or split into more cells.", "quantifier": "every cell content", "why_tests_cant": "Unit and golden tests check a finite list of documents; the claim is about every document.", "anchors": ["plugin/table/2_collect.go", "plugin/table/table.go"]}
{"id": "C36", "title": "Handlers run in priority order", "statement": "Handlers of each kind run in non-decreasing order of priority, each registered handler exactly once, whatever the order of registration.", "quantifier": "every sequence of registrations and every correct sorting algorithm (the sort used is not stable)", "why_tests_cant": "The order of registrations is unbounded.", "anchors": ["converter/prioritized.go", "converter/register.go"]}
{"id": "C37", "title": "First successful renderer wins", "statement": "A node is rendered by the first renderer in priority order that reports success; later ones are not called; if none succeeds the children are rendered, surrounded by blank lines iff the tag type is block.", "quantifier": "every list of renderers, every node", "why_tests_cant": "Unit and golden tests check a finite list of documents; the claim is about every document.", "anchors": ["converter/render.go: handleRenderNode"]}
{"id": "C38", "title": "A failed plugin is never forgotten", "statement": "If registering any plugin failed (empty name, error from Init) every later conversion returns an error, whatever else is registered afterwards; if all succeed and a renderer is registered (and base accompanies commonmark) no conversion returns an error.", "quantifier": "every history of registrations and conversions", "why_tests_cant": "Quantifies over histories.", "anchors": ["converter/register.go: Plugin", "converter/convert.go: ConvertNode", "converter/converter.go: NewConverter"]}
{"id": "C39", "title": "Conversions do not influence each other", "statement": "State set during a conversion through the context is seen by later reads of the same conversion (last write wins per key) and never by another conversion; using a converter does not change its configuration.", "quantifier": "every sequence of conversions and state operations", "why_tests_cant": "Quantifies over histories.", "anchors": ["converter/ctx.go", "converter/convert.go"]}
{"id": "C40", "title": "Concurrent use reads consistent tag types", "statement": "Concurrent conversions that only read the registered tag types always see, for each tag, the type with the lowest priority number.", "quantifier": "every interleaving of concurrent readers", "why_tests_cant": "A data race depends on the schedule.", "anchors": ["converter/register.go: getTagType"]}
{"id": "C41", "title": "Removed elements do not influence the output", "statement": "Two documents that differ only inside head, script, style, link, meta, iframe, noscript, input, textarea elements or comments give the same markdown.", "quantifier": "every pair of such documents, every place in the tree", "why_tests_cant": "Unit and golden tests check a finite list of documents; the claim is about every document.", "anchors": ["plugin/base/base.go: preRenderRemove"]}
{"id": "C42", "title": "Preparing the tree loses no text", "statement": "Each tree preparation step (merging text nodes, fake spans, redundant tags, merging adjacent inline tags, swapping tags, block alternatives, moving list items, list end comments, removing empty code, adding spaces) keeps the visible characters of the document in order.", "quantifier": "every tree", "why_tests_cant": "Unit and golden tests check a finite list of documents; the claim is about every document.", "anchors": ["internal/domutils/", "plugin/commonmark/handle_pre_render.go"]}
{"id": "C43", "title": "Preparing the tree reaches its normal form", "statement": "After the steps: no two adjacent text siblings, no nested redundant tag, list containers hold only list items as element children, no bold directly around a link, between two neighbouring lists an end comment. A redundant tag is dropped exactly if an element of its kind is open around it, and an end comment is put behind a list exactly if another list follows before any text, item or rule.", "quantifier": "every tree", "why_tests_cant": "Unit and golden tests check a finite list of documents; the claim is about every document.", "anchors": ["internal/domutils/"]}
{"id": "C44", "title": "Visible letters survive in order", "statement": "Every ASCII letter and digit of the visible text of the document occurs in the markdown, in the same order (as a subsequence).", "quantifier": "every HTML tree, smart escaping, base, commonmark and strikethrough plugins", "why_tests_cant": "Unit and golden tests check a finite list of documents; the claim is about every document.", "anchors": ["converter/render.go", "plugin/commonmark/", "plugin/base/", "plugin/strikethrough/"]}
{"id": "C45", "title": "Conversion always terminates without panic", "statement": "On every tree the conversion returns (no endless loop in the tree walks, no out-of-range index), with smart and with disabled escaping.", "quantifier": "every HTML tree and option", "why_tests_cant": "Termination and absence of panics are universal.", "anchors": ["converter/convert.go", "internal/domutils/", "plugin/commonmark/"]}
{"id": "C46", "title": "Only documented option values are accepted", "statement": "A converter with the bundled plugins works for all documented option values; every other value gives an error, the last value given counts, and an unset option behaves as its documented default.", "quantifier": "every option value", "why_tests_cant": "A table of example strings cannot cover every byte string (any length, invalid UTF-8, any position of the special byte).", "anchors": ["plugin/commonmark/validation.go: validateConfig", "plugin/commonmark/options.go: fillInDefaultConfig", "plugin/table/table.go: WithSpanCellBehavior, WithCellPaddingBehavior, NewTablePlugin"]}
{"id": "C47", "title": "CLI never overwrites without being told", "statement": "Without --output-overwrite no file that existed before is changed by the CLI, at any crash point; an existing target makes the run fail.", "quantifier": "every file system state, every list of inputs, every crash point", "why_tests_cant": "Quantifies over crash points and file system states.", "anchors": ["cli/html2markdown/cmd/io_output.go: WriteFile, writeOutput"]}
{"id": "C48", "title": "CLI writes one output per input", "statement": "With several inputs every input gets its own output path below the output directory; no two inputs share a path.", "quantifier": "every list of input paths", "why_tests_cant": "Name collisions depend on arbitrary names.", "anchors": ["cli/html2markdown/cmd/io_output.go: calculateOutputPaths"]}
{"id": "C49", "title": "CLI exit status is faithful", "statement": "The exit status is 0 iff no error was reported; an error leaves standard output empty of markdown for the failing input and prints a message on standard error.", "quantifier": "every flag combination, input and environment behaviour", "why_tests_cant": "Combinations of flags and failures.", "anchors": ["cli/html2markdown/cmd/exec.go", "cli/html2markdown/cmd/cli_run.go"]}
{"id": "C50", "title": "CLI flag rules", "statement": "Plugin-specific flags require their plugin flag, several inputs require a directory output, standard input and file input are never mixed (with --input standard input is not read); a violated rule is an error and nothing is written.", "quantifier": "every combination of flags", "why_tests_cant": "Exponentially many combinations.", "anchors": ["cli/html2markdown/cmd/flags.go", "cli/html2markdown/cmd/cmd_convert.go"]}
{"id": "C51", "title": "Percent-encoding keeps the meaning of a destination", "statement": "Replacing the characters that would break out of a destination by percent triples does not change what the URL stands for.", "quantifier": "every attribute value", "why_tests_cant": "A table of example strings cannot cover every byte string (any length, invalid UTF-8, any position of the special byte).", "anchors": ["converter/url.go: percentEncodingReplacer"]}
{"id": "C52", "title": "CLI outputs are the conversions of the inputs", "statement": "After a successful run every input found was read once, each output holds the conversion of exactly that input under that input's own name, nothing else was written, and without --output-overwrite all outputs are on disk and no input was altered before it was read.", "quantifier": "every list of inputs, every file system, every conversion function", "why_tests_cant": "Depends on arbitrary file systems, names and aliasing of inputs and outputs.", "anchors": ["cli/html2markdown/cmd/exec.go", "cli/html2markdown/cmd/io_output.go", "cli/html2markdown/cmd/io_input.go"]}
{"id": "C53", "title": "Include selector keeps exactly the selected parts", "statement": "With --include-selector the converted document consists of the nodes that the selector matches in the original document: their text, all of it, in document order, and nothing else.", "quantifier": "every document, every selector", "why_tests_cant": "Unit and golden tests check a finite list of documents; the claim is about every document.", "anchors": ["cli/html2markdown/cmd/cmd_convert.go: includeNodesFromDoc"]}
{"id": "C54", "title": "Exclude selector removes exactly the selected parts", "statement": "With --exclude-selector exactly the nodes that the selector matches in the original document are removed.", "quantifier": "every document, every selector", "why_tests_cant": "Unit and golden tests check a finite list of documents; the claim is about every document.", "anchors": ["cli/html2markdown/cmd/cmd_convert.go: excludeNodesFromDoc"]}
{"id": "C55", "title": "Every table cell is shown in its row", "statement": "A rendered table shows the cells of the source row by row, the header row first and then the other rows in order, with all characters of each cell; only rows without text are left out, and a cell stands in the column it has in the source.", "quantifier": "every table, every configuration of the table plugin, every rendering of the cells", "why_tests_cant": "Unit and golden tests check a finite list of documents; the claim is about every document.", "anchors": ["plugin/table/2_collect.go: collectRows, collectCellsInRow", "plugin/table/utils.go: applyGroupedModifications, removeEmptyRows", "plugin/table/1_select.go"]}
{"id": "C56", "title": "Language of a code block becomes the info string", "statement": "The language that the class attribute of pre or code names with language- or lang- is the info string of the fence; without such a class there is none; the info string never contains a line end or another class name.", "quantifier": "every document, every class attribute", "why_tests_cant": "A table of example strings cannot cover every byte string (any length, invalid UTF-8, any position of the special byte).", "anchors": ["plugin/commonmark/render_code.go: getCodeLanguage, renderBlockCode"]}
{"id": "C57", "title": "Spanning cells take their place in the HTML grid", "statement": "A rendered table shows the grid that the HTML standard defines for its cells: every cell stands in the columns and rows that its rowspan and colspan give it, next to the cells that are beside it in a browser; the other positions of a spanning cell are empty, or repeat its text if the plugin mirrors spans.", "quantifier": "every table, every rowspan and colspan, every rendering of the cells", "why_tests_cant": "The placement depends on all rows above and on arbitrary combinations of spans.", "anchors": ["plugin/table/utils.go: calculateModifications, applyGroupedModifications, applyModifications", "plugin/table/2_collect.go: collectRows"]}
{"id": "C58", "title": "Each element becomes its own construct", "statement": "strong and em become their delimiters around each line of their content, headings as many number signs as their level (or the underline that tells it), pre a fence and code a code span around exactly their code, ul and ol their items in order behind bullets or numbers counted from start, img and a their text, destination and title, blockquote a prefix before every line, br a hard break, hr the rule; every other element shows just its content.", "quantifier": "every element, attributes, content, position in the document and option of the plugins", "why_tests_cant": "The claim is about every element in every context with every content.", "anchors": ["plugin/commonmark/handle_render.go", "plugin/commonmark/render_bold_italic.go", "plugin/commonmark/render_heading.go", "plugin/commonmark/render_code.go", "plugin/commonmark/render_list.go", "plugin/commonmark/render_link.go", "plugin/commonmark/render_image.go", "plugin/commonmark/render_blockquote.go", "converter/render.go", "plugin/strikethrough/strikethrough.go", "plugin/table/table.go"]}
{"id": "C59", "title": "Flags mean what the help says", "statement": "The arguments are accepted exactly when they are known flags with acceptable values, input and output at most once; the configuration then holds the last value given for each flag (all selectors together), and the defaults for the others.", "quantifier": "every list of arguments, every selector parser", "why_tests_cant": "Arbitrary sequences, spellings and repetitions of flags.", "anchors": ["cli/html2markdown/cmd/flags.go: initFlags, parseFlags, singleStringFlag, selectorFlag"]}
{"id": "C60", "title": "A document without markup stays text", "statement": "A document of texts, paragraphs, divisions, spans and line breaks becomes markdown without any block or inline construct (no heading, list, quote, code, rule, emphasis, link), and a reader who resolves the escapes gets exactly the visible characters of the document back.", "quantifier": "every such document, every set of bundled plugins, smart escaping", "why_tests_cant": "Unit and golden tests check a finite list of documents; the claim is about every document.", "anchors": ["converter/convert.go", "plugin/base/base.go", "plugin/commonmark/commonmark.go", "internal/escape/", "converter/escape.go"]}
{"id": "C61", "title": "CLI converts the selected part with the plugins the flags name", "statement": "The program converts what the selector flags select (a node is selected if any of the given selectors matches; include first, then exclude, each only if given) exactly as the library does with base, commonmark with the given strong delimiter, strikethrough and table (with the given options) only if their flags are given, resolving addresses against --domain.", "quantifier": "every flag combination, document and selector semantics", "why_tests_cant": "Exponentially many combinations of flags and documents.", "anchors": ["cli/html2markdown/cmd/cmd_convert.go"]}
{"id": "C62", "title": "Valid UTF-8 stays valid", "statement": "If the texts and attributes of the document and the options are valid UTF-8, so is the markdown: no step cuts a character in two, drops a byte of one or writes over one.", "quantifier": "every document of valid UTF-8, every set of bundled plugins, smart escaping (with escaping disabled: every document without headings)", "why_tests_cant": "Unit and golden tests check a finite list of documents; the claim is about every document.", "anchors": ["plugin/commonmark/render_heading.go: escapePoundSignAtEnd", "internal/textutils/", "converter/escape.go", "internal/escape/", "plugin/commonmark/render_list.go", "plugin/table/", "collapse/whitespace.go"]}
{"id": "C63", "title": "Text keeps its formatting", "statement": "Every visible character that stands inside emphasised text, a link, code, deleted text or a heading still stands inside such an element after the tree was prepared, and no other character comes into one.", "quantifier": "every document and every set of bundled plugins", "why_tests_cant": "Unit and golden tests check a finite list of documents; the claim is about every document.", "anchors": ["internal/domutils/adjacent.go", "internal/domutils/redundant.go", "internal/domutils/swap.go", "internal/domutils/alternatives.go", "internal/domutils/list_items.go", "plugin/commonmark/handle_pre_render.go", "plugin/strikethrough/strikethrough.go", "collapse/collapse.go"]}
{"id": "C64", "title": "A reader finds the blocks of the page", "statement": "A CommonMark reader of the markdown finds exactly the blocks of the document, in order: each heading with its level, each paragraph, each rule, each code block with its language and each list with its number and its items (in which there are blocks again), and in each the words or the code of the source; no text becomes another kind of block and no two blocks are joined or one split.", "quantifier": "every page of nested groups and lists with headings, paragraphs, rules and code blocks, every set of bundled plugins, smart escaping", "why_tests_cant": "Unit and golden tests check a finite list of documents; the claim is about every document.", "anchors": ["converter/convert.go", "plugin/base/base.go", "plugin/commonmark/", "internal/escape/", "internal/textutils/", "collapse/collapse.go", "converter/escape.go"]}
{"id": "C65", "title": "Addresses are resolved against the domain", "statement": "With a domain (a scheme is optional and then http), a relative address becomes scheme://host of the domain followed by the path that RFC 3986 gives for it (dots removed, relative to the directory of the domain's path, never above the root) with the query and fragment it has without a domain; an address with its own host keeps it, one that starts with two slashes takes only the scheme, and one like mailto: does not depend on the domain.", "quantifier": "every domain, path, query and fragment", "why_tests_cant": "Paths, dots and domains combine without bound; the tests have a few dozen pairs.", "anchors": ["converter/url.go: parseBaseDomain, defaultAssembleAbsoluteURL"]}
{"id": "C66", "title": "The entry points agree", "statement": "ConvertString, ConvertReader and ConvertNode (of the package and of every converter) give the same result for the same document and options; those of the package never fail on a document that was parsed and use the base and commonmark plugins without options and the last domain given; an error of reading or parsing comes back unchanged; with an error there is no output.", "quantifier": "every document, reader, converter and list of options", "why_tests_cant": "All documents and option lists; the tests call one entry point each.", "anchors": ["convert.go", "converter/convert.go: ConvertNode, ConvertReader, ConvertString, WithDomain, WithContext"]}
{"id": "C67", "title": "A reader finds the blocks of a document and the formatting inside them", "statement": "A CommonMark reader of the markdown finds the paragraphs, headings with their levels, dividers, code blocks and (nested) lists with their numbers and items in order, and in them the characters of the document (white space as a browser shows it), each with the formatting it has there: strong, emphasised, code, or the text of a link with its (absolute) address; no delimiter is left as text, no text becomes formatting, and no block becomes another kind of block.", "quantifier": "every document of nested groups and lists with paragraphs, headings, dividers and code blocks, of texts, emphasis, code and links (which may contain emphasis and code), with any white space of the source between and inside them, every set of bundled plugins, smart escaping, both delimiters", "why_tests_cant": "Unit and golden tests check a finite list of documents; the claim is about every document.", "anchors": ["plugin/commonmark/render_bold_italic.go", "plugin/commonmark/render_code.go", "plugin/commonmark/render_link.go", "plugin/commonmark/render_list.go", "plugin/commonmark/render_heading.go", "internal/textutils/", "internal/escape/", "converter/escape.go", "collapse/collapse.go"]}
{"id": "C68", "title": "The suggestion for an unknown flag is the nearest flag", "statement": "When a flag is unknown, the flag that the report suggests exists, is at most four single-letter edits away and fewer than the letters typed, and no other flag is nearer (of equally near ones it is the first in the alphabet); without suggestion there is no such flag. The report names the unknown flag as it was typed, and no other error gets a suggestion.", "quantifier": "every unknown flag name", "why_tests_cant": "The names are arbitrary; the tests have one misspelled and one unknown flag.", "anchors": ["cli/html2markdown/cmd/flags_categorize.go", "cli/html2markdown/cmd/errors.go: PrintDetails, PrintErr", "cli/html2markdown/cmd/print.go"]}
{"id": "C69", "title": "The usage text lists exactly the flags there are", "statement": "Below its heading for flags the usage text lists every flag that the program accepts, and help, each exactly once, and nothing else; asked for help the program writes this text to standard output, nothing else, and ends with status 0.", "quantifier": "every release and list of arguments, every flag name", "why_tests_cant": "The text is made from a template, a list in the template and the registered flags; the golden file freezes whatever it is.", "anchors": ["cli/html2markdown/cmd/cmd_help.go", "cli/html2markdown/cmd/flags.go: initFlags"]}
{"id": "C70", "title": "The version is the best one known", "statement": "Version, commit and date that the program reports are those the linker set; a field it did not set is the one of the build information (module version unless it is missing or (devel), the first seven letters of the revision, the time), otherwise unknown. Asked for the version the program writes these to standard output, one per line, and ends with status 0.", "quantifier": "every linked value, every build information, every list of arguments", "why_tests_cant": "Linker flags and build information are fixed in a test binary.", "anchors": ["cli/html2markdown/main.go", "cli/html2markdown/cmd/cmd_version.go"]}
{"id": "C71", "title": "A report shows the path it is about unambiguously", "statement": "The reports about a missing input, an input that is a directory and an output that exists contain the path that the user gave as a quoted text without control characters, from which exactly that path can be read back, whatever its bytes.", "quantifier": "every path (also with quotes, backslashes, control characters and invalid UTF-8), every table of printable characters", "why_tests_cant": "A table of example strings cannot cover every byte string (any length, invalid UTF-8, any position of the special byte).", "anchors": ["cli/html2markdown/cmd/io_input.go: listInputs", "cli/html2markdown/cmd/io_output.go: writeOutput", "cli/html2markdown/cmd/errors.go", "cli/html2markdown/cmd/print.go"]}
{"id": "C72", "title": "An element kept as HTML reaches the output as it is", "statement": "An element for which a program registers RenderAsHTML reaches the output byte for byte as html.Render writes it, whatever is around it, escaped or not; registered as a block it stands apart with a blank line before and after it. RenderAsHTMLWrapper keeps the tags, RenderAsPlaintextWrapper makes the element one that no renderer knows.", "quantifier": "every document, set of bundled plugins, escape mode and tag type, every html.Render; elements below the document, html, body, div, section, article or main; HTML without the marker characters and without two blank lines in a row", "why_tests_cant": "Golden files keep a few comments; post-renderers run on everything around.", "anchors": ["plugin/base/renderers.go", "plugin/base/base.go: handlePostRenderTrimContent", "converter/register.go: RendererFor"]}
{"id": "C73", "title": "Spaces around emphasis with code at its edges", "statement": "AddSpace puts at most one space on each side of a bold or italic element, loses no text, changes nothing in a document without inline code, and puts the spaces into the neighbouring texts of elements that start or end with code, leaving everything else as it was. Each text gets exactly one space, on each side, for every such element that starts or ends right there, where the tags of spans do not count.", "quantifier": "every tree and every set of names", "why_tests_cant": "Eight trees in a table; the walk crosses spans and levels and changes texts while walking.", "anchors": ["internal/domutils/add_space.go: AddSpace", "internal/domutils/domutils.go", "plugin/commonmark/handle_pre_render.go"]}
{"id": "C74", "title": "Paths and fragments of addresses keep what they stand for", "statement": "The path of an address (spaces, brackets, UTF-8 and percent triples included) stands after encoding for the same characters, in front of it scheme and host are the same, and behind it only query and fragment follow; the fragment stands for the same characters, with or without a domain; what needs no encoding stays as it was, and a first segment that has a colon gets a dot segment before it.", "quantifier": "every path, query and fragment; for the path: no domain, nothing, a host or a scheme with a host before it", "why_tests_cant": "A table of example strings cannot cover every byte string (any length, invalid UTF-8, any position of the special byte).", "anchors": ["converter/url.go: defaultAssembleAbsoluteURL, percentEncodingReplacer"]}
{"id": "C75", "title": "At any moment of a run the outputs are those of a beginning of the inputs", "statement": "Converting into a directory, at every moment of a run (also of one that fails or is interrupted) the files read are the first ones that the pattern found, in order, the outputs written are the conversions of the data read, in order and under the names of the inputs, at most one input was read whose output is not written yet, and nothing was printed. Without overwriting every output written so far is complete on disk.", "quantifier": "every world (conversion, operating system), list of arguments and moment; on disk: nobody else acting", "why_tests_cant": "Runs that fail or stop half way have no golden output; a run can stop after each of unboundedly many operations.", "anchors": ["cli/html2markdown/cmd/exec.go: run", "cli/html2markdown/cmd/io_input.go", "cli/html2markdown/cmd/io_output.go"]}
{"id": "C76", "title": "Registrations and conversions at the same time", "statement": "While goroutines register handlers and others convert with the same converter, no data race on the handlers happens; each list of handlers that a conversion gets is the sorted list of one moment between asking and getting; what was registered stays and nothing is lost; there is no deadlock, and every run ends. (Refuted for the names of the plugins, which a conversion looks at without the lock.)", "quantifier": "every number of goroutines, every program of registrations and lookups, every schedule, every sort", "why_tests_cant": "The race detector sees only the schedules that happen; the tests register before they convert.", "anchors": ["converter/register.go", "converter/convert.go: ConvertNode", "converter/converter.go: Converter"]}
