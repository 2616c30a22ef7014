{"id": "C01", "title": "Parsing always terminates", "statement": "For every source text and every starting state, the line-by-line parse returns one of its three results (end of input, empty state stack, failure) or panics; it never runs forever. In particular an iteration that does not move to a new source line can happen only boundedly many times in a row.", "quantifier": "every list of source lines, every starting state, every base indentation and base line", "why_tests_cant": "non-termination is a property of infinitely many inputs; a test can only show that one input stops", "anchors": ["src/parser/mod.rs: Parser::parse", "src/parser/line_cursor.rs: LineCursor"]}
{"id": "C02", "title": "The parser only moves forward", "statement": "The source line cursor of a parse never decreases from one iteration to the next, and the result is 'end of input' only when every source line has been passed.", "quantifier": "every source, every run started in a state that has transitions, every iteration of the run", "why_tests_cant": "a regression would show only on the particular line combinations that trigger the backward move", "anchors": ["src/parser/mod.rs: Parser::parse", "src/parser/line_cursor.rs"]}
{"id": "C03", "title": "Stuck parses are reported, not retried forever", "statement": "An iteration in which a transition matched but the cursor did not move to another line adds one to a counter that any movement resets; iterations in which no transition matched (and the innermost state is left) are not counted. The parse ends in a failure that still carries the tree built so far as soon as the counter exceeds ten, and no failure of this kind is reported before that.", "quantifier": "every run of the parse loop", "why_tests_cant": "depends on the whole history of the run", "anchors": ["src/parser/mod.rs: Parser::parse"]}
{"id": "C04", "title": "Focusing on a child and back is the identity", "statement": "In a document tree, moving the focus to any existing child and then back to the parent restores exactly the same tree (same nodes, same order, same focus); moving to a child that does not exist leaves the tree unchanged and reports an error.", "quantifier": "every tree, every focus position, every child index", "why_tests_cant": "trees are unbounded; an index-dependent swap error shows only for particular arities", "anchors": ["src/doctree/tree_zipper.rs: focus_on_child, focus_on_parent", "src/doctree/mod.rs"]}
{"id": "C05", "title": "Walking never alters the document", "statement": "Walking to the root, to an enclosing section or to a node with a given id never adds, removes, reorders or changes nodes: the document seen from the root is the same before and after, whether or not the walk finds its target.", "quantifier": "every tree and focus position, every id, every level", "why_tests_cant": "an unsuccessful search must undo an unbounded number of moves", "anchors": ["src/doctree/tree_zipper.rs", "src/doctree/walkers.rs"]}
{"id": "C06", "title": "Search by node id is exact", "statement": "Walking to a node id succeeds exactly when a node with that id is in the document below the point searched from, and then the focused node has that id.", "quantifier": "every document with distinct ids, every id", "why_tests_cant": "both directions quantify over all trees", "anchors": ["src/doctree/tree_zipper.rs: walk_to_node_with_id", "src/doctree/walkers.rs"]}
{"id": "C07", "title": "Adding a node changes nothing else", "statement": "Pushing a node that the focused node may contain appends exactly that node as its last child and leaves every other node of the document as it was; pushing a node that may not be contained leaves the document's nodes exactly as they were and is reported as an error.", "quantifier": "every document, focus position and node", "why_tests_cant": "frame property over all trees", "anchors": ["src/doctree/mod.rs: push_data, push_data_and_focus", "src/doctree/tree_node.rs: push_child"]}
{"id": "C08", "title": "Node ids are unique and follow document order", "statement": "In any document built by the parser, no two nodes have the same id, and reading the document from beginning to end (parents before children) the ids strictly increase.", "quantifier": "every history of tree-building operations", "why_tests_cant": "an invariant over all histories", "anchors": ["src/doctree/mod.rs: push_data, push_data_and_focus", "src/doctree/tree_node.rs: TreeNode::new"]}
{"id": "C09", "title": "Only permitted nesting is ever built", "statement": "In any document built by the parser, every child is of a kind its parent is declared to accept (for example list nodes contain only their own items and blank lines, and sections appear only in documents and sections), and nodes that cannot have children have none.", "quantifier": "every history of tree-building operations", "why_tests_cant": "an invariant over all histories and about 100 x 100 node kinds", "anchors": ["src/doctree/tree_node.rs: child_is_allowed, children_or_none, push_child"]}
{"id": "C10", "title": "A section style means one level throughout the document", "statement": "The level given to a section depends only on its line style: a style keeps the level it got the first time it was seen, different styles get different levels, and each newly seen style gets the next deeper level, starting from 1 with no gaps.", "quantifier": "every sequence of section titles", "why_tests_cant": "depends on the whole history of titles seen", "anchors": ["src/doctree/section_data.rs", "src/doctree/mod.rs: section_level, add_section_level"]}
{"id": "C11", "title": "Sections nest by level", "statement": "In the document any source parses to, every section is directly in the document or directly in a section of strictly smaller level, and its level is determined by the order in which the line styles first appeared.", "quantifier": "every source text and every result of parsing it", "why_tests_cant": "depends on the whole history of titles seen", "anchors": ["src/parser/state_machine/body.rs: text, line", "src/doctree/tree_zipper.rs: walk_to_parent_section_level"]}
{"id": "C12", "title": "Anonymous references pair with anonymous targets in order", "statement": "The n-th anonymous hyperlink reference and the n-th anonymous target of a document get the same internal label, and any two different anonymous targets get different labels.", "quantifier": "every n, every interleaving of references and targets", "why_tests_cant": "unbounded counters", "anchors": ["src/doctree/hyperref_data.rs", "src/doctree/mod.rs: next_anon_target_label, next_anon_reference_label"]}
{"id": "C13", "title": "Automatic footnote numbers are the smallest free ones", "statement": "An automatically numbered footnote receives the smallest positive number not yet used as a target in the document, so no two automatically numbered footnotes ever share a number.", "quantifier": "every set of already used labels", "why_tests_cant": "depends on the history of all targets", "anchors": ["src/doctree/mod.rs: hyperref_actions", "src/doctree/hyperref_data.rs"]}
{"id": "C14", "title": "Automatic footnote symbols never repeat", "statement": "The labels generated for symbol footnotes follow the documented sequence (ten symbols, then doubled, then tripled, ...), and no two different positions in the sequence give the same label.", "quantifier": "every number of symbol footnotes", "why_tests_cant": "unbounded sequence", "anchors": ["src/common.rs: FOOTNOTE_SYMBOLS", "src/doctree/mod.rs: hyperref_actions"]}
{"id": "C15", "title": "Symbol footnote references point to their footnotes", "statement": "The n-th symbol footnote reference of a document carries the label of the n-th symbol footnote, regardless of how references and footnotes interleave.", "quantifier": "every interleaving of symbol footnotes and references", "why_tests_cant": "depends on the order of all footnotes and references", "anchors": ["src/doctree/mod.rs: hyperref_actions", "src/doctree/hyperref_data.rs"]}
{"id": "C16", "title": "Pending target labels reach the next node, once", "statement": "Internal hyperlink target labels that have been collected are attached, in order, to the next node that is added other than a blank line or white space, and after that none of them is pending.", "quantifier": "every sequence of labels and nodes", "why_tests_cant": "depends on the history of pushes", "anchors": ["src/doctree/mod.rs: hyperref_actions, push_to_internal_target_stack"]}
{"id": "C17", "title": "Reference names are normalised canonically", "statement": "Two reference names that differ only in letter case or in the amount and kind of white space normalise to the same name; normalising twice is the same as once; the normalised name has no leading, trailing or repeated white space.", "quantifier": "every string", "why_tests_cant": "strings are unbounded", "anchors": ["src/common.rs: normalize_refname"]}
{"id": "C18", "title": "Roman numerals convert correctly", "statement": "For every number from 1 to 4999 the converter maps its standard Roman numeral, in upper and lower case, to that number, so different numbers never collide; every accepted numeral has a value at most 4999; upper and lower case spellings convert alike.", "quantifier": "every number 1..4999 and every string", "why_tests_cant": "the string domain is unbounded and the number domain is too large for listed tests", "anchors": ["src/parser/converters.rs: upper_roman_to_usize, lower_roman_to_usize"]}
{"id": "C19", "title": "Only standard Roman numerals are accepted", "statement": "A string is accepted as a Roman numeral only if it is the standard spelling of its value.", "quantifier": "every string", "why_tests_cant": "the set of malformed numerals is infinite", "anchors": ["src/parser/converters.rs: upper_roman_to_usize, lower_roman_to_usize"]}
{"id": "C20", "title": "Alphabetic enumerators count letters", "statement": "A single ASCII letter, in either case, converts to its position 1..26 in the alphabet and every other string is rejected.", "quantifier": "every string", "why_tests_cant": "the set of rejected strings is infinite", "anchors": ["src/parser/converters.rs: alpha_to_usize"]}
{"id": "C21", "title": "Enumerators are classified as written", "statement": "The number, numbering style and delimiters derived from a list enumerator are those of the marker text: decimal digits give that decimal number, a Roman marker its Roman value, and the delimiters are exactly the ones in the source.", "quantifier": "every line that starts with a list enumerator", "why_tests_cant": "enumerators are unbounded strings", "anchors": ["src/parser/regex_patterns.rs: ENUMERATOR_PATTERN", "src/parser/converters.rs: enum_captures_to_int_kind_and_delims"]}
{"id": "C22", "title": "Consecutive enumerators form a list", "statement": "Lines enumerated n and n+1 in the same style directly after one another are recognised as consecutive items of an enumerated list, and a line whose successor does not continue the numbering is not.", "quantifier": "every pair of adjacent lines", "why_tests_cant": "pairs of unbounded lines", "anchors": ["src/parser/state_machine/enumerated_list.rs", "src/parser/mod.rs / body.rs: is_enumerated_list_item"]}
{"id": "C23", "title": "Lengths, percentages and alignments are read exactly", "statement": "A length option is accepted exactly when, apart from surrounding white space, it is an unsigned decimal number directly followed by one of the eight units, and the value and unit read are the ones written; likewise for percentages with '%'; an alignment is accepted exactly when, apart from surrounding white space, it is one of the six names (three for horizontal alignments), and the alignment read is the one named.", "quantifier": "every string", "why_tests_cant": "strings are unbounded", "anchors": ["src/parser/converters.rs: str_to_length, str_to_percentage", "src/parser/converters.rs: str_to_html_alignment, str_to_horizontal_alignment"]}
{"id": "C24", "title": "A text block is the maximal run of lines", "statement": "Reading a text block returns exactly the lines from the start up to the first blank line (or the end), reports how many lines were read, and every returned line is the source line with at most its indentation removed.", "quantifier": "every list of lines and every start line", "why_tests_cant": "lines and lists are unbounded", "anchors": ["src/parser/mod.rs: read_text_block"]}
{"id": "C25", "title": "An indented block is read and dedented faithfully", "statement": "Reading an indented block takes a contiguous run of source lines that stops before the first non-blank line indented less than the block, and removes the same number of leading characters from every non-first line, so relative indentation and text are preserved; characters removed are white space.", "quantifier": "every list of lines, start line and option combination", "why_tests_cant": "lines and lists are unbounded", "anchors": ["src/parser/mod.rs: read_indented_block"]}
{"id": "C26", "title": "Directive arguments stop at options or blank line", "statement": "Scanning directive arguments collects exactly the consecutive lines up to the first blank, option-like or differently indented line, advances the cursor past exactly those lines, and returns nothing when there are none.", "quantifier": "every list of lines and every cursor position", "why_tests_cant": "lines and lists are unbounded", "anchors": ["src/parser/directive_parsers.rs: scan_directive_arguments"]}
{"id": "C27", "title": "Directive options are read as written", "statement": "Scanning directive options yields, for each option name, the trimmed value of the last line that sets it; scanning stops at the first line that is blank, not an option or not aligned; the cursor is left after the option lines and, if there were any, past the blank line that ends them.", "quantifier": "every list of lines and every cursor position", "why_tests_cant": "lines and lists are unbounded", "anchors": ["src/parser/directive_parsers.rs: scan_directive_options"]}
{"id": "C28", "title": "Inline parsing terminates and consumes the whole text", "statement": "Inline parsing of any text finishes, having consumed every character of it, and the line cursor advances by exactly the number of line breaks consumed.", "quantifier": "every string", "why_tests_cant": "strings are unbounded; a zero-width match would loop forever", "anchors": ["src/parser/mod.rs: inline_parse, match_inline_str", "src/parser/state_machine/inline.rs"]}
{"id": "C29", "title": "Plain text survives inline parsing", "statement": "Text without any inline markup is turned into text and white-space nodes only, whose written contents, in order, are the LaTeX-escaped words of the text separated by the original white space.", "quantifier": "every text free of markup characters", "why_tests_cant": "strings are unbounded", "anchors": ["src/parser/state_machine/inline.rs: text, whitespace", "src/parser/mod.rs: inline_parse"]}
{"id": "C30", "title": "Text is escaped so LaTeX reads it as text", "statement": "After text conversion no LaTeX special character (# $ % & ~ _ ^ { } \\) appears except as part of an escape sequence the converter itself produced, and undoing the escapes gives back the text's characters.", "quantifier": "every string", "why_tests_cant": "strings are unbounded", "anchors": ["src/utf8_to_latex.rs: unicode_text_to_latex"]}
{"id": "C31", "title": "Math conversion is character by character", "statement": "Converting math text replaces each character that has a LaTeX equivalent by it and leaves all others in place and in order; in particular ASCII math without # $ % ~ is unchanged, and converting a concatenation is the concatenation of the conversions.", "quantifier": "every string", "why_tests_cant": "strings are unbounded", "anchors": ["src/utf8_to_latex.rs: unicode_math_to_latex"]}
{"id": "C32", "title": "Different math symbols stay distinguishable", "statement": "A math symbol is written as the LaTeX command for that symbol, so two symbols with different meaning are never written the same, and a command is never glued to the letter that follows it.", "quantifier": "every pair of characters", "why_tests_cant": "the table has 300 rows and the texts are unbounded", "anchors": ["src/utf8_to_latex.rs: UTF8_MATH_TO_LATEX_MAP, unicode_math_to_latex"]}
{"id": "C33", "title": "Environments are opened and closed in matching pairs", "statement": "In the LaTeX written for any document whose texts contain no raw environment commands, every \\begin{e} has its matching \\end{e}, properly nested.", "quantifier": "every document tree", "why_tests_cant": "trees are unbounded", "anchors": ["src/doctree/larst_writer.rs: larst_pre_order_string, larst_post_order_string"]}
{"id": "C34", "title": "Everything is written in document order", "statement": "The output is, for each node, its opening text, then the output of its children in order, then its closing text; nothing is written for nodes outside the document and each node is written exactly once.", "quantifier": "every document tree and focus position", "why_tests_cant": "trees are unbounded", "anchors": ["src/doctree/larst_writer.rs: write_to_larst"]}
{"id": "C35", "title": "Body text is never silently dropped by the writer", "statement": "The text carried by a text-bearing node (paragraph text, emphasis, literal, code, math, comments, titles) appears in the output.", "quantifier": "every document tree", "why_tests_cant": "trees are unbounded; one forgotten field on one node kind is enough", "anchors": ["src/doctree/larst_writer.rs"]}
{"id": "C36", "title": "Every link target that can be referred to is anchored", "statement": "For each section, figure and display equation, every one of its reference names, including the name given with an option, is written as an anchor command (\\rstlabel{name} or \\label{name}).", "quantifier": "every node with any number of reference names", "why_tests_cant": "number of names is unbounded", "anchors": ["src/doctree/larst_writer.rs: anchor_string"]}
{"id": "C37", "title": "Any document that parses can be written", "statement": "Writing a document produced by the parser does not panic.", "quantifier": "every document the parser can produce", "why_tests_cant": "one node kind without an implementation is enough", "anchors": ["src/doctree/larst_writer.rs"]}
{"id": "C38", "title": "The output file is complete", "statement": "After a successful run the output holds every byte of the generated LaTeX, however the operating system splits the writes.", "quantifier": "every document and every sequence of accepted byte counts", "why_tests_cant": "write splitting is a schedule chosen by the environment", "anchors": ["src/doctree/larst_writer.rs: larst_pre_order_write, larst_post_order_write"]}
{"id": "C39", "title": "Output is deterministic", "statement": "Converting the same source twice gives the same LaTeX.", "quantifier": "every document and every hash iteration order", "why_tests_cant": "iteration order of a hash map is chosen at run time", "anchors": ["src/doctree/larst_writer.rs: UnknownDirective", "src/parser/directive_parsers.rs: scan_directive_options"]}
{"id": "C40", "title": "Command line flags are order independent except for output choice", "statement": "Unknown arguments are ignored; --full-doc and --aplus-cls take effect wherever they stand; of --to-stdout and --to-file the last one wins; without either, output goes to stdout.", "quantifier": "every argument list", "why_tests_cant": "argument lists are unbounded", "anchors": ["src/rustla_options.rs", "src/lib.rs: run"]}
{"id": "C41", "title": "List tables keep their cells", "statement": "Turning a list-table's nested bullet lists into a table gives one row per outer item and one cell per inner item, in order, with the cell contents unchanged, and exactly the last cell of each row marked as last.", "quantifier": "every list-table tree", "why_tests_cant": "tables are unbounded", "anchors": ["src/doctree/restructuredtext_transforms.rs"]}
{"id": "C42", "title": "Transforms leave the rest of the document alone", "statement": "The post-parse transforms change only figures' captions and list-table structure; every other node keeps its kind, data, id and position.", "quantifier": "every document tree", "why_tests_cant": "frame property over all trees", "anchors": ["src/doctree/restructuredtext_transforms.rs"]}
{"id": "C43", "title": "Questionnaire points add up", "statement": "If parsing does not fail, the points a questionnaire without a maximum is written with are the sum of the points of its questions; a questionnaire with a maximum is written with that. If parsing fails the total kept is never below that sum.", "quantifier": "every source text, every questionnaire anywhere in the document it parses to", "why_tests_cant": "sequences are unbounded", "anchors": ["src/parser/directive_parsers.rs: parse_aplus_pick_one, parse_aplus_pick_any, parse_aplus_freetext", "src/doctree/larst_writer.rs: AplusQuestionnaire"]}
{"id": "C44", "title": "Stripping indentation is exact", "statement": "Stripping n characters of indentation from a line either returns the line without exactly its first n white-space characters, or reports that the line is not indented that far; it never removes text.", "quantifier": "every line and amount", "why_tests_cant": "strings are unbounded", "anchors": ["src/common.rs: strip_indent"]}
{"id": "C45", "title": "Line splitting loses nothing", "statement": "Splitting a text into lines and joining them with line feeds gives back the text up to carriage returns before line feeds and one final line break, and no line contains a line feed.", "quantifier": "every string", "why_tests_cant": "strings are unbounded", "anchors": ["src/common.rs: str_to_lines"]}
{"id": "C46", "title": "Special characters in math stay escaped", "statement": "Every # $ % in math content is escaped in the written LaTeX, whether or not the author already escaped it.", "quantifier": "every math text", "why_tests_cant": "math texts are unbounded and the escaping must respect backslashes already there", "anchors": ["src/utf8_to_latex.rs: unicode_math_to_latex"]}
{"id": "C47", "title": "Simple documents are translated exactly", "statement": "A document made of titles (underlined or over- and underlined, with any internal hyperlink targets in front of them: C57), paragraphs, transitions, one-line comments, literal blocks, code-block (or sourcecode), code (its lines are not written: C70), image, math, ae-input and ae-output directives with options, bullet lists, numbered lists (Arabic numbers, Roman numbers or letters from any start, or #, in any of the three delimiter styles; two of them one after the other if the second does not go on with the first: C58), field lists, block quotes with or without an attribution (C62) and boxes (the nine standard admonitions, admonition with a title, only, submit, point-of-interest (at the top level also in columns: C69), and directives the program does not know, with their options), figures with a caption, questionnaires (paragraphs, pick-one and pick-any questions with answers and hints, free text questions), list tables whose cells are paragraphs, numbered footnotes and citations, these last eight nested in each other (a questionnaire contains only its own parts) (no boxes inside numbered lists or inside standard admonitions: C49) and containing any of the others but titles, transitions, literal blocks and definition lists, and definition lists with terms, classifiers and any such blocks as definitions, at the top level and followed by a paragraph, an underlined title or nothing (C55), is read to its end, transformed and written, and the written file is exactly: the frame of a full document if asked for, one heading per title at the level its style has in the document, with the labels of its targets, each paragraph's text with special characters escaped and its inline markup (C48) as LaTeX commands, code listings verbatim under their language, images with the options that make sense, one labelled equation per formula, active elements with the options that make sense, itemize environments for bullet, field and definition lists (with the names and terms in bold), enumerate and quotation environments and one environment per box, with its title, condition, key and points, argument and options, centred pictures with their caption and label, one quiz environment per questionnaire with its points, questions, answers and hints, \\footnote and \\bibitem commands, nested as in the source with one \\item per item, comments as LaTeX comments, rules for transitions, all in source order. Empty lines between blocks do not matter. Limit: lists (counted twice) and quotes, boxes and notes around a line plus the number of title styles are at most nine.", "quantifier": "every such document: any number of blocks, any texts with inline markup as in C48, any number of empty lines between them, with and without the frame, for every iteration order of hash maps", "why_tests_cant": "the parser is a state machine over unbounded sources; indentation, nesting and order interact, and a test fixes one document", "anchors": ["src/parser/mod.rs: Parser::parse", "src/parser/state_machine: body.rs, bullet_list.rs, enumerated_list.rs, field_list.rs, definition_list.rs, block_quote.rs, common.rs, inline.rs", "src/doctree/mod.rs: push_data, push_data_and_focus, focus_on_parent", "src/doctree/larst_writer.rs: write_to_larst", "src/utf8_to_latex.rs: unicode_text_to_latex", "src/parser/directive_parsers.rs: parse_sphinx_code_block, parse_image, parse_math_block, parse_standard_admonition, parse_generic_admonition, parse_sphinx_only, parse_unknown_directive, scan_directive_options, parse_aplus_submit, parse_aplus_point_of_interest, parse_aplus_active_element_input, parse_aplus_active_element_output, parse_aplus_questionnaire, parse_aplus_pick_one, parse_aplus_pick_any, parse_aplus_freetext"]}
{"id": "C48", "title": "Inline markup means what it says", "statement": "A text made of plain words and inline markup -- emphasis, strong emphasis, literals, title references, roles before or after their text, named and phrase references, citation, footnote and substitution references -- each opened after white space or at the start and followed by white space, closing punctuation or the end, is read as exactly the nodes of its pieces in order, with contents as written (escaped for LaTeX where the program escapes), whatever document it is read into; a paragraph of these nodes is written as exactly the LaTeX commands of the pieces in order.", "quantifier": "every list of such pieces, of any length and content, in any document, at any line, with any labels on the nodes", "why_tests_cant": "the inline patterns are tried in a fixed order on unbounded texts and each may swallow text meant for another; a test fixes one text", "anchors": ["src/parser/mod.rs: inline_parse, match_inline_str", "src/parser/state_machine/inline.rs", "src/parser/regex_patterns.rs", "src/doctree/larst_writer.rs"]}
{"id": "C49", "title": "A directive ends where the indentation of its contents ends", "statement": "What follows a directive with contents (an admonition, only, a directive the program does not know) and is not indented more than the directive's marker is written after the end of the directive's environment, never inside it.", "quantifier": "every document, every such directive at any place in it, and everything after it", "why_tests_cant": "where the contents end is found by comparing indentations recorded by nested runs of the parser; it depends on everything around the directive", "anchors": ["src/parser/state_machine/body.rs: directive", "src/parser/directive_parsers.rs: parse_standard_admonition, parse_generic_admonition, parse_sphinx_only, parse_unknown_directive", "src/common.rs / src/parser: indent_on_subsequent_lines, read_indented_block"]}
{"id": "C50", "title": "The contents of a directive are written once", "statement": "The blocks inside a directive (an admonition, only, class, a directive the program does not know) are written exactly once, between what is written for the beginning and for the end of the directive.", "quantifier": "every such directive and all blocks inside it", "why_tests_cant": "the contents are of any length and nesting, and are handed from one run of the parser to another", "anchors": ["src/parser/directive_parsers.rs: parse_standard_admonition, parse_generic_admonition, parse_sphinx_only, parse_unknown_directive, parse_class"]}
{"id": "C51", "title": "Key, difficulty and points of an exercise", "statement": "The argument of a submit directive is a key, optionally followed by spaces and a difficulty letter and a number of points. The exercise is written with that key and that number of points (10 if none is given).", "quantifier": "every argument text", "why_tests_cant": "arguments are arbitrary texts and the division is done by one regular expression whose parts are all optional", "anchors": ["src/parser/directive_parsers.rs: parse_aplus_submit, aplus_key_difficulty_and_max_points", "src/doctree/larst_writer.rs: AplusSubmit"]}
{"id": "C52", "title": "A literal block is written with all its characters", "statement": "After a paragraph that ends with two colons, the indented lines that follow (blank lines included) are written in one code environment: every line, in order, without the indentation they share, and nothing in them is taken for markup.", "quantifier": "every document, every announcing paragraph and every list of lines", "why_tests_cant": "the lines are arbitrary texts, and the block may stand anywhere in the document", "anchors": ["src/parser/state_machine/body.rs: paragraph", "src/parser/state_machine/literal_block.rs: literal_block, parse_indented_literal", "src/doctree/larst_writer.rs: LiteralBlock"]}
{"id": "C53", "title": "A footnote or citation keeps its whole body", "statement": "A footnote definition or citation definition (an explicit marker with a bracketed label, text on the marker line, further lines and blocks indented below it) is written as one \\footnote or \\bibitem command with its label, containing the text of all its lines and all its blocks in order, and nothing after it in the source is inside.", "quantifier": "every document, every position of the note in it, every label, text and list of blocks", "why_tests_cant": "bodies have any number of lines and blocks, nested in any way, and the note may stand inside any other block", "anchors": ["src/parser/state_machine/body.rs: footnote, citation", "src/parser/mod.rs: parse_first_node_block, indent_on_subsequent_lines", "src/doctree/larst_writer.rs: Footnote, Citation"]}
{"id": "C54", "title": "Questions keep their points, answers and hints", "statement": "A questionnaire directive becomes one quiz environment worth the points its argument gives, or, if it gives none, the sum of the points of its questions. Every pick-one and pick-any question in it becomes one pick environment with its own points, the assignment text, and one line per answer in source order, marked right, wrong or neutral as in the source, with its escaped text and its label; and one line per hint in source order, addressed to those who chose the answer, or (! in the source) to those who did not.", "quantifier": "every questionnaire in a document as in C47: any number of questions, answers and hints, any texts, and every document around it", "why_tests_cant": "the answers are recognised by three regular expressions tried line after line, on any number of lines, and the points are summed through updates of a node further up in the tree", "anchors": ["src/parser/directive_parsers.rs: parse_aplus_questionnaire, parse_aplus_pick_one, parse_aplus_pick_any, parse_aplus_freetext", "src/parser/state_machine/aplus_questionnaire.rs", "src/doctree/larst_writer.rs: AplusQuestionnaire, AplusPickOne, AplusPickAny, AplusPickChoice, AplusQuestionnaireHint"]}
{"id": "C55", "title": "A definition list keeps its terms and definitions, and the document goes on", "statement": "A definition list (lines that are each followed by more indented lines) is written as one itemize environment with one item per term, in source order: the term in bold type with its special characters escaped, its classifiers (after ' : ' on the term line) with commas between, and all the blocks of its definition; nothing else is inside, and whatever follows the list in the source, lists, directives, comments and titles included, is translated after it.", "quantifier": "every document with a definition list anywhere in it: any number of terms, any classifiers, any blocks as definitions, anything after the list", "why_tests_cant": "the list is recognised by looking ahead one line, the definitions nest other blocks without limit, and what ends the list depends on the kind of the line that follows; a test fixes one of each", "anchors": ["src/parser/state_machine/body.rs: text", "src/parser/state_machine/definition_list.rs: text", "src/parser/state_machine/transitions.rs: DEFINITION_LIST_TRANSITIONS", "src/doctree/larst_writer.rs: DefinitionList, DefinitionListItem"]}
{"id": "C56", "title": "A field list keeps its names and bodies", "statement": "A field list is written as one itemize environment with one item per field, in source order: the name in bold type, translated like other text, and the whole body of the field (the text after the marker, its further lines, and all blocks indented more than the marker); nothing else is inside, and the document goes on after it.", "quantifier": "every document with a field list anywhere in it: any names, any number of fields, any bodies and indentations", "why_tests_cant": "the indentation of a body is guessed from the line after the marker, and bodies nest other blocks without limit", "anchors": ["src/parser/state_machine/body.rs: field_marker", "src/parser/state_machine/field_list.rs: field_marker", "src/parser/mod.rs: indent_from_next_line, parse_first_node_block", "src/doctree/larst_writer.rs: FieldList, FieldListItem"]}
{"id": "C57", "title": "A hyperlink target labels what follows it, and references find it", "statement": "An internal hyperlink target (`.. _name:`) becomes a label, with the normalized name, directly at the element that follows it; several targets in a row all label that element; and a reference to the name anywhere in the document is written as a LaTeX reference to exactly that label, so no reference to a name defined in the document is left without its label.", "quantifier": "every document with internal targets: any names, any number of targets in a row, any element after them, references before or after", "why_tests_cant": "labels wait for an element that may be any number of lines away, and names are compared after normalization", "anchors": ["src/parser/state_machine/body.rs: hyperlink_target", "src/doctree/hyperref_data.rs: accumulated_internal_target_label", "src/doctree/mod.rs: push_data", "src/doctree/larst_writer.rs: anchor_string"]}
{"id": "C58", "title": "Numbered items form lists by style and number", "statement": "Items numbered n, n+1, n+2, ... in one style (digits, Roman numbers or letters in upper or lower case, with a point, a parenthesis or two) form one list, however many empty lines are between them; an item with another style, other delimiters or a number that is not the next one begins a new list; and the written list shows the numbers and the style of the source.", "quantifier": "every sequence of numbered items: any length, any styles and numbers, any texts", "why_tests_cant": "whether an item belongs to a list depends on all the items before it, on five overlapping readings of its number and on unbounded numbers", "anchors": ["src/parser/state_machine/enumerated_list.rs", "src/parser/state_machine/body.rs: enumerator", "src/parser/converters.rs: enum_captures_to_int_kind_and_delims"]}
{"id": "C59", "title": "A list table keeps its rows, its cells and their order", "statement": "A list table (`.. list-table::`) becomes one LaTeX tabular with one row for every item of its outer list, in order, and in every row the cells of that item in order, each with its text as LaTeX, with one column for every cell of the longest row; the columns are all equally wide and fill the width of the text unless the table asks for other widths, which are then used; and the title, header rows and alignment the table asks for are kept.", "quantifier": "every list table: any number of rows, any number of cells in each row, any texts over any number of lines, any number of empty lines between rows, anywhere in a document", "why_tests_cant": "the cells are found by a nested parse whose state depends on the indentation of all the lines before, and the number of columns is a maximum over all the rows", "anchors": ["src/parser/directive_parsers.rs: parse_list_table", "src/parser/state_machine/body.rs: bullet", "src/doctree/restructuredtext_transforms.rs", "src/doctree/larst_writer.rs: ListTable, TRow, Entry"]}
{"id": "C60", "title": "Layout that says nothing changes nothing", "statement": "Two sources that differ only in layout without meaning give the same LaTeX: the number of empty lines between blocks, the sign used as bullet, the numbers, delimiters and style of numbered items, the indentation of a block quote, the length of the lines around titles and transitions, and the signs of title lines and whether there is a line above the title, as long as titles of the same style stay of the same style and those of different styles of different ones.", "quantifier": "all pairs of documents that differ in such ways anywhere, at any depth, any number of times", "why_tests_cant": "it compares the translations of infinitely many pairs of documents, and layout is exactly what the parser's decisions depend on", "anchors": ["src/parser/state_machine/mod.rs", "src/parser/state_machine/body.rs: bullet, enumerator, text, line", "src/parser/state_machine/bullet_list.rs", "src/doctree/section_data.rs", "src/doctree/larst_writer.rs"]}
{"id": "C61", "title": "What comes later does not change what came before", "statement": "If blocks are added at the end of a document, after an empty line, what is written for the blocks before stays as it is and the LaTeX for the new ones follows it; if no titles are involved it is what would be written for the new part alone.", "quantifier": "all pairs of documents, one added after the other", "why_tests_cant": "the end of every construct is found by looking at the lines after it, so any later line might change any earlier result", "anchors": ["src/parser/mod.rs: parse", "src/parser/state_machine/mod.rs", "src/doctree/larst_writer.rs"]}
{"id": "C62", "title": "A quote keeps who said it", "statement": "A block quote that ends in an attribution (`-- name` after an empty line) becomes one quotation: what is said in it, then the attribution, inside the quotation and nowhere else, with the name as it is written in the source, its lines joined by single spaces; and what is quoted after the attribution is another quotation.", "quantifier": "every such quote: any blocks in it, nested to any depth the translator allows, any name, any indentation, anywhere in a document and with any blocks around it", "why_tests_cant": "whether a line is an attribution depends on the stack of states and the open node at that line, hence on all the lines before; and the attribution closes nodes that the rest of the source depends on", "anchors": ["src/parser/state_machine/block_quote.rs: attribution", "src/parser/state_machine/common.rs", "src/doctree/larst_writer.rs: Attribution, BlockQuote"]}
{"id": "C63", "title": "What stands inside other blocks is translated like what stands alone", "statement": "For every place inside a document -- in a block quote, a box, a footnote, a figure's legend, an item of a list, a column or a definition, however deeply nested -- there is one LaTeX text before it and one after it such that whatever blocks are put there, the document is written as the text before, exactly what is written for these blocks when they are a source of their own, and the text after.", "quantifier": "every place, every sequence of blocks put there, and every document around it", "why_tests_cant": "blocks further in are read with another indentation, another stack of states and often by a nested run of the parser with positions of its own, so the same block takes another path in every place", "anchors": ["src/parser/mod.rs: parse, nested_parse", "src/parser/state_machine/body.rs", "src/parser/state_machine/mod.rs", "src/doctree/larst_writer.rs"]}
{"id": "C64", "title": "The items of a list belong together", "statement": "In the document read from any source, whether or not reading it succeeded, the items of a bullet list all have the bullet of the list and stand at its position, with their text at one position; the fields of a field list stand where the list stands; and a numbered list has exactly as many numbered items as it counts, in order, with the numbers that follow each other from its first number on, all with its delimiters, its kind of numerals and its position.", "quantifier": "every source text, every run of the parser on it (also failed ones), every node of the document", "why_tests_cant": "a list is continued by one transition at a time, between which nested runs of the parser and other blocks come and go; that no path puts an item in another list's place, skips a number or forgets the count is an invariant of all transitions", "anchors": ["src/parser/state_machine/bullet_list.rs: bullet", "src/parser/state_machine/enumerated_list.rs: enumerator", "src/parser/state_machine/field_list.rs: field_marker", "src/parser/state_machine/body.rs: bullet, enumerator, field_marker"]}
{"id": "C65", "title": "Paragraphs, lists and quotes stand in the column of the block they are in", "statement": "In the document read from any source, a paragraph or a list that is directly in another block (the document, a section, a quote, an item, a footnote, a box, a question, ...) stands exactly in the column where the content of that block starts, and a block quote stands to the right of that column.", "quantifier": "every source text, every run of the parser on it, every block and every block directly in it", "why_tests_cant": "which block a line belongs to depends on all lines before it: the stack of states, the focused node and the positions handed to nested runs must agree after any sequence of transitions", "anchors": ["src/parser/mod.rs: parent_indent_matches, parse_first_node_block", "src/parser/state_machine/body.rs", "src/parser/state_machine/aplus_questionnaire.rs", "src/parser/directive_parsers.rs: parse_aplus_pick_one, parse_aplus_pick_any, parse_aplus_freetext", "src/doctree/tree_node_types.rs: body_indent"]}
{"id": "C66", "title": "Items stand in the column of the block their list is in", "statement": "In the document read from any source, every item of a list, also every term of a definition list, stands in the column where the content of the block starts that the list is directly in; a line further to the left ends the list.", "quantifier": "every source text, every run of the parser, every list and every item of it", "why_tests_cant": "the item may come any number of lines after the list began, after other blocks and nested lists have been opened and left", "anchors": ["src/parser/state_machine/bullet_list.rs: bullet", "src/parser/state_machine/enumerated_list.rs: enumerator", "src/parser/state_machine/field_list.rs: field_marker", "src/parser/state_machine/definition_list.rs: text"]}
{"id": "C67", "title": "A quoted literal block is written without its signs", "statement": "After a paragraph that ends with two colons, lines without indentation that all begin with the same sign of punctuation are written in one code environment: every line, in order, without the sign, and nothing in them is taken for markup. Which sign it is makes no difference.", "quantifier": "every document, every announcing paragraph, every sign and every list of lines", "why_tests_cant": "the lines are arbitrary texts, and the block may stand anywhere in the document", "anchors": ["src/parser/state_machine/literal_block.rs: literal_block, parse_quoted_literal", "src/parser/mod.rs: read_text_block", "src/parser/regex_patterns.rs: QUOTED_LITERAL_BLOCK_PATTERN"]}
{"id": "C68", "title": "Who a quote is attributed to stands at its end", "statement": "In the document read from any source, an attribution stands directly inside a block quote and nowhere else, a block quote has at most one, and nothing in the quote comes after it.", "quantifier": "every source, every run that ends with a document, every node of that document", "why_tests_cant": "an attribution may be met at any depth, in any list, and followed by any text; a test sees only a few quotes", "anchors": ["src/parser/state_machine/block_quote.rs: attribution", "src/doctree/tree_node_types.rs: child_is_allowed", "src/parser/mod.rs: parse"]}
{"id": "C69", "title": "Columns of a point of interest", "statement": "In a document made of the elements of C47, the line ::newcol, indented like the contents of a point of interest and after an empty line, starts a new column: the columns are written in order inside the one box, with \\newcol between each two, and what follows the box follows it. The number of empty lines around ::newcol says nothing. In the document read from any source, a column break stands directly in a point of interest and nowhere else.", "quantifier": "every source (place); every simple document, every point of interest in it with any options, any number of columns of any blocks and any empty lines between them, every order of hash maps and both output modes", "why_tests_cant": "the columns may hold any nesting of lists, quotes and boxes, each of which has to be left exactly at the column break", "anchors": ["src/parser/state_machine/aplus.rs: aplus_col_break", "src/parser/regex_patterns.rs: APLUS_COL_BREAK_PATTERN", "src/parser/directive_parsers.rs: parse_aplus_point_of_interest", "src/doctree/larst_writer.rs: AplusColBreak"]}
{"id": "C70", "title": "A block of code keeps its code", "statement": "In a document made of the elements of C47, the lines of a code directive are written in order and character by character between the beginning and the end of one code environment that names its language, whatever options the directive has and by whichever of its names (code, code-block, sourcecode) it is called.", "quantifier": "every simple document, every block of code in it at the top level, any lines, language and options, every order of hash maps and both output modes", "why_tests_cant": "code may contain any characters, also those that mean something to reStructuredText or LaTeX, and any indentation; a test sees a few listings", "anchors": ["src/parser/directive_parsers.rs: parse_sphinx_code_block, parse_code", "src/parser/state_machine/body.rs: parse_directive", "src/doctree/larst_writer.rs: SphinxCodeBlock, Code"]}
