{
 "claims": [
  {
   "property": "C01",
   "status": "proved",
   "theorems": [
    "C01_parse_terminates",
    "C01_no_infinite_run",
    "C01_bounded_stalls"
   ],
   "note": "For the modelled transition tables with explicit fuel; also for every transition table whose transitions are safe."
  },
  {
   "property": "C02",
   "status": "proved",
   "theorems": [
    "C02_result_reached",
    "C02_forward",
    "C02_base_line",
    "C02_never_back",
    "C02_end_of_input",
    "C02_past_end_stops"
   ],
   "note": ""
  },
  {
   "property": "C03",
   "status": "proved",
   "theorems": [
    "C03_stuck_fails",
    "C03_not_before"
   ],
   "note": "C03_ex: leaving ten nested levels on one line is reported as stuck."
  },
  {
   "property": "C04",
   "status": "proved",
   "theorems": [
    "C04_round_trip",
    "C04_focused_child",
    "C04_existing",
    "C04_missing"
   ],
   "note": "Holds for every zipper, with no well-formedness hypothesis."
  },
  {
   "property": "C05",
   "status": "proved",
   "theorems": [
    "C05_root",
    "C05_parent",
    "C05_section",
    "C05_id",
    "C05_section_where"
   ],
   "note": "For every history of operations (reachable); the document is what walk_to_root shows."
  },
  {
   "property": "C06",
   "status": "proved",
   "theorems": [
    "C06_found",
    "C06_absent",
    "C06_never_given",
    "C06_subtree"
   ],
   "note": "Ids above the node counter make the walk panic (C06_never_given)."
  },
  {
   "property": "C07",
   "status": "proved",
   "theorems": [
    "C07_push",
    "C07_push_and_focus",
    "C07_refused",
    "C07_decided"
   ],
   "note": "Footnotes and footnote references have their labels filled in while being pushed; all other payloads are kept as given."
  },
  {
   "property": "C08",
   "status": "proved",
   "theorems": [
    "C08_unique",
    "C08_document_order",
    "C08_counter"
   ],
   "note": "Order holds for histories of parser operations; uniqueness also with arbitrary walks in between."
  },
  {
   "property": "C09",
   "status": "proved",
   "theorems": [
    "C09_table",
    "C09_rules",
    "C09_leaves"
   ],
   "note": "C09_table against the code's own table, C09_rules against a separate hand-written list of reStructuredText rules."
  },
  {
   "property": "C10",
   "status": "proved",
   "theorems": [
    "C10_level",
    "C10_level_means",
    "C10_in_document"
   ],
   "note": "Levels are characterised from the list of styles seen so far."
  },
  {
   "property": "C11",
   "status": "proved",
   "theorems": [
    "C11_parsed_is_built",
    "C11_sections_nest",
    "C11_levels"
   ],
   "note": "Also: the parser changes documents only by the operations of History.v, so every theorem about built documents (C05-C16) applies to parsed ones (C11_parsed_is_built)."
  },
  {
   "property": "C12",
   "status": "proved",
   "theorems": [
    "C12_nth_target",
    "C12_nth_reference",
    "C12_pairs",
    "C12_distinct"
   ],
   "note": "Over every interleaving of operations."
  },
  {
   "property": "C13",
   "status": "proved",
   "theorems": [
    "C13_least",
    "C13_distinct",
    "C13_manual_collision"
   ],
   "note": "While at least one number up to u32::MAX is unused. C13_manual_collision: a hand-written number given later may repeat an automatic one."
  },
  {
   "property": "C14",
   "status": "proved",
   "theorems": [
    "C14_sequence",
    "C14_distinct",
    "C14_always_some"
   ],
   "note": "Positions count refused pushes too; each refused push uses up a symbol."
  },
  {
   "property": "C15",
   "status": "partial",
   "theorems": [
    "C15_refuted",
    "C15_partial"
   ],
   "note": "False: references take the label of the next footnote, and the reference counter is never used, so two references before their footnotes get the same label (C15_refuted). C15_partial says which label a reference gets."
  },
  {
   "property": "C16",
   "status": "partial",
   "theorems": [
    "C16_refuted",
    "C16_attached_partial",
    "C16_blank_takes_none",
    "C16_resolvable"
   ],
   "note": "False in general: a push that is refused still discards the pending labels (C16_refuted). Without refused pushes it holds (C16_attached_partial)."
  },
  {
   "property": "C17",
   "status": "proved",
   "theorems": [
    "C17_case",
    "C17_ascii_case",
    "C17_inner_space",
    "C17_outer_space",
    "C17_idempotent",
    "C17_shape"
   ],
   "note": ""
  },
  {
   "property": "C18",
   "status": "proved",
   "theorems": [
    "C18_roman",
    "C18_no_collision",
    "C18_bounded",
    "C18_case"
   ],
   "note": "Sweep of the 4999 numerals evaluated by the kernel and lifted to all n; bound and case theorems by induction."
  },
  {
   "property": "C19",
   "status": "partial",
   "theorems": [
    "C19_refuted",
    "C19_roman_tokens_partial",
    "C19_lower_roman_tokens_partial"
   ],
   "note": "False: IIII is accepted as 4 (C19_refuted). Proved instead: accepted strings are sequences of Roman tokens with additive value."
  },
  {
   "property": "C20",
   "status": "proved",
   "theorems": [
    "C20_alpha"
   ],
   "note": ""
  },
  {
   "property": "C21",
   "status": "proved",
   "theorems": [
    "C21_enumerator",
    "C21_decimal"
   ],
   "note": ""
  },
  {
   "property": "C22",
   "status": "partial",
   "theorems": [
    "C22_refuted",
    "C22_successor_partial",
    "C22_auto_successor_partial",
    "C22_not_an_enumerator_partial",
    "C22_free_successor_partial"
   ],
   "note": "False: '1.' directly followed by '2.' is rejected and '1.' followed by '1.' accepted (C22_refuted). Proved instead: the exact decision for digit, '#', non-enumerator and blank/indented successors."
  },
  {
   "property": "C23",
   "status": "proved",
   "theorems": [
    "C23_length",
    "C23_percentage",
    "C23_units",
    "C23_alignment",
    "C23_side"
   ],
   "note": ""
  },
  {
   "property": "C24",
   "status": "proved",
   "theorems": [
    "C24_maximal_run",
    "C24_defined",
    "C24_until_blank"
   ],
   "note": "Maximal run for every combination of the reader's options; C24_until_blank is the English case. C24_defined: it panics exactly when started past the end."
  },
  {
   "property": "C25",
   "status": "proved",
   "theorems": [
    "C25_maximal_run",
    "C25_dedented",
    "C25_indent",
    "C25_defined",
    "C25_blank_finish"
   ],
   "note": "Maximal run, what is stripped from each line, which indentation is used, when it panics, and the blank-finish flag."
  },
  {
   "property": "C26",
   "status": "proved",
   "theorems": [
    "C26_arguments"
   ],
   "note": "Exact set of lines taken, where the cursor ends, nothing else changed."
  },
  {
   "property": "C27",
   "status": "proved",
   "theorems": [
    "C27_options"
   ],
   "note": "Exact set of lines taken, last value wins, where the cursor ends."
  },
  {
   "property": "C28",
   "status": "partial",
   "theorems": [
    "C28_inline_parsing_ends",
    "C28_inline_parsing_never_panics",
    "C28_nodes_of_the_pieces",
    "C28_pep_panics_refuted"
   ],
   "note": "For every text: the loop ends, nothing is left, pieces concatenate to the text, cursor moves by the line breaks. The only panics are a PEP role with more than four characters (witness C28_pep_panics_refuted) and an overflow of the u32 anonymous-reference counter; C28_inline_parsing_never_panics excludes all others."
  },
  {
   "property": "C29",
   "status": "proved",
   "theorems": [
    "C29_plain_text_survives",
    "C29_plain_text_written"
   ],
   "note": "Plain means free of * ` _ | : @ (every markup pattern needs one of them)."
  },
  {
   "property": "C30",
   "status": "partial",
   "theorems": [
    "C30_only_escapes",
    "C30_special_is_escaped",
    "C30_reads_back_partial",
    "C30_refuted"
   ],
   "note": "False in general: a_b is typeset as a_ b, the escape for ~ is an accent, different texts are written alike (C30_refuted). Proved: every character is written as itself or its escape; read-back under the stated side conditions."
  },
  {
   "property": "C31",
   "status": "proved",
   "theorems": [
    "C31_concatenation",
    "C31_each_character",
    "C31_ascii_unchanged",
    "C31_greek",
    "C31_braces"
   ],
   "note": ""
  },
  {
   "property": "C32",
   "status": "partial",
   "theorems": [
    "C32_distinct_partial",
    "C32_not_glued_partial",
    "C32_refuted"
   ],
   "note": "False: Psi is written as Omega, less-or-equal as \\gg, and a letter after a command is absorbed (C32_refuted). Proved: all characters outside the listed families are distinguishable."
  },
  {
   "property": "C33",
   "status": "partial",
   "theorems": [
    "C33_from_source_partial",
    "C33_balanced_partial",
    "C33_converted_text",
    "C33_refuted"
   ],
   "note": "False for raw nodes, which open codeblock and close raw (C33_refuted). The parser never makes one, so for documents that come from a source this is excluded (C33_from_source_partial); what remains assumed is that unconverted texts are balanced. Converted text always is (C33_converted_text)."
  },
  {
   "property": "C34",
   "status": "proved",
   "theorems": [
    "C34_document_order",
    "C34_each_once",
    "C34_focus"
   ],
   "note": "Opening and closing texts depend only on a node's own payload and names; strings are written in visiting order; each node is opened and closed exactly once; independent of the focus."
  },
  {
   "property": "C35",
   "status": "partial",
   "theorems": [
    "C35_shown_partial",
    "C35_refuted",
    "C35_footnote_refuted"
   ],
   "note": "False: the text of code nodes and the number shown for a footnote reference are not written (C35_refuted, C35_footnote_refuted). Proved for every text listed in shown_texts of every other node."
  },
  {
   "property": "C36",
   "status": "proved",
   "theorems": [
    "C36_anchored"
   ],
   "note": "Textual anchors only. Finding: the generated class file defines \\rstlabel to store into \\labelhere, which it never uses."
  },
  {
   "property": "C37",
   "status": "partial",
   "theorems": [
    "C37_kinds_made",
    "C37_from_source_partial",
    "C37_parsed_is_written_partial",
    "C37_sources_refuted",
    "C37_writable_partial",
    "C37_refuted"
   ],
   "note": "False: link targets with an address and substitution references, which the parser makes from ordinary sources, hit todo!() (C37_refuted, C37_sources_refuted: five sources). Proved: writing succeeds exactly when no node of 57 kinds and no list table without widths is present, and otherwise panics (C37_writable_partial); of these kinds the parser makes only three whatever the source (C37_kinds_made), so a parsed document without them and without a broken list table is written (C37_from_source_partial, C37_parsed_is_written_partial)."
  },
  {
   "property": "C38",
   "status": "partial",
   "theorems": [
    "C38_complete_partial",
    "C38_refuted"
   ],
   "note": "False: write() may accept fewer bytes and the count is ignored (C38_refuted). Proved under the hypothesis that each call takes all bytes."
  },
  {
   "property": "C39",
   "status": "partial",
   "theorems": [
    "C39_deterministic_partial",
    "C39_refuted"
   ],
   "note": "False for unknown directives with two or more options (C39_refuted). Proved for all other documents."
  },
  {
   "property": "C40",
   "status": "proved",
   "theorems": [
    "C40_flags",
    "C40_last_output_choice",
    "C40_default_stdout",
    "C40_unknown_ignored"
   ],
   "note": ""
  },
  {
   "property": "C41",
   "status": "partial",
   "theorems": [
    "C41_cells",
    "C41_in_place",
    "C41_no_panic",
    "C41_empty_row_refuted",
    "C41_rest_refuted"
   ],
   "note": "False: a list-table row without entries panics (C41_empty_row_refuted) and content after the nested list is dropped (C41_rest_refuted). Proved for tables whose rows are bullet lists with entries."
  },
  {
   "property": "C42",
   "status": "proved",
   "theorems": [
    "C42_elsewhere",
    "C42_terminates"
   ],
   "note": "Frame theorem over every tree (no bound on size or depth), plus termination."
  },
  {
   "property": "C43",
   "status": "proved",
   "theorems": [
    "C43_points_add_up",
    "C43_failed_at_least",
    "C43_written"
   ],
   "note": "Invariant over every run of the parser. C43_failed_ex: with a failing question the total is too high."
  },
  {
   "property": "C44",
   "status": "partial",
   "theorems": [
    "C44_removes_only_space",
    "C44_not_indented",
    "C44_empty",
    "C44_total_refuted",
    "C44_panics",
    "C44_terminates"
   ],
   "note": "Includes the exact panic condition: a non-empty white-space-only line shorter than the amount panics."
  },
  {
   "property": "C45",
   "status": "proved",
   "theorems": [
    "C45_lossless",
    "C45_no_newline"
   ],
   "note": ""
  },
  {
   "property": "C46",
   "status": "partial",
   "theorems": [
    "C46_specials_partial",
    "C46_refuted"
   ],
   "note": "False when the author already escaped the character (C46_refuted). Proved otherwise."
  },
  {
   "property": "C47",
   "status": "proved",
   "theorems": [
    "C47_simple_documents"
   ],
   "note": "End to end (figures: FigureProofs.v; their align, figwidth and figclass options are never written): parse_source, perform_transforms and write_to_larst on the source lines of the document. Plain text in paragraphs is as in C48 (words that do not look like markup; a colon ends a word); a line may start with markup or with punctuation other than .:(#- once or twice before a word. C47_limit: one level deeper and the parser reports failure. Directives are followed by an empty line or the end of the source; their options are :name: value lines below the marker, the text below an empty line. An item of a numbered list that is not the last is followed by an empty line or has a second line; the number a list starts with is not written (the source says so: document_latex drops it). Footnotes have numbers and citations letter labels; in nested runs they have one line only (C53). Literal blocks stand at the top level only (C52). Boxes: contents three columns to the right, after an empty line; an unknown directive has at most one option (several would be written in the order of a hash map); ord is any function that permutes. Questionnaires (QuizProofs.v, QuestionProofs.v, QuizRunProofs.v): an empty line between the assignment, the answers and the hints; answers and hints one line each; the options of the questionnaire directive, and the dropdown option, are never written. Field lists (FieldProofs.v): names are plain text without colons and backslashes and are written as they are; the body stands to the right of the marker. Definition lists (TermProofs.v): at the top level, terms and classifiers without colons, written as they are. Columns of points of interest (NewcolProofs.v): at the top level. Code: code-block and sourcecode with their lines, code without (the program does not write them: C70)."
  },
  {
   "property": "C48",
   "status": "proved",
   "theorems": [
    "C48_markup_read",
    "C48_markup_written"
   ],
   "note": "Texts are lists of chunks (MarkupSpec.v). Back-quoted title references are excluded when a later phrase reference would swallow them (shown by the example); phrase references with embedded URIs, inline targets, standalone links and the PEP role are outside. Substitution references are read but not written (the writer panics). Plain words: none of * ` | among the first two characters, no @, a colon only at the end of the word, an underscore only before a letter or digit (plain_text)."
  },
  {
   "property": "C49",
   "status": "partial",
   "theorems": [
    "C49_contents_end_partial",
    "C49_contents_end_refuted"
   ],
   "note": "False of the code (four runs in C49_contents_end_refuted): the directive function takes the indentation of the next non-blank line, whichever it is, without the base of a nested run. Proved for the documents of C47."
  },
  {
   "property": "C50",
   "status": "partial",
   "theorems": [
    "C50_contents_once_partial",
    "C50_contents_once_refuted"
   ],
   "note": "False of the code for the class directive, whose contents are parsed by a nested run and then again by the outer one (C50_contents_once_refuted). Proved for all others in the documents of C47."
  },
  {
   "property": "C51",
   "status": "partial",
   "theorems": [
    "C51_division",
    "C51_one_division",
    "C51_exercise_partial",
    "C51_keys_refuted"
   ],
   "note": "C51_division characterizes, for every argument text, what the regular expression takes for key, difficulty and points. The English property is false of the code: a key with _ or - is cut there and the points are lost (C51_keys_refuted; A+ keys often contain _). Proved for keys of letters and digits in the documents of C47. The difficulty letter is never written."
  },
  {
   "property": "C52",
   "status": "partial",
   "theorems": [
    "C52_literal_block_partial",
    "C52_literal_block_refuted"
   ],
   "note": "False of the code where a nested run is at work (an item of a numbered list, an admonition): the first characters of the lines are lost and deeper lines fall out (C52_literal_block_refuted). Proved at the top level of the documents of C47, for arbitrary lines, indentation of three."
  },
  {
   "property": "C53",
   "status": "partial",
   "theorems": [
    "C53_note_body_partial",
    "C53_note_body_refuted"
   ],
   "note": "False of the code in nested runs (items of numbered lists, standard admonitions): C53_note_body_refuted. Proved for the documents of C47, where notes may nest and have any number of blocks. References to footnotes are written as \\footnotemark without their number."
  },
  {
   "property": "C54",
   "status": "partial",
   "theorems": [
    "C54_questions_partial",
    "C54_hints_refuted"
   ],
   "note": "The hints are written with the exclamation marks turned around (C54_hints_refuted: larst_writer.rs writes ! when show_when_not_selected is false), hints to free texts lose the answer they are for, and the mark for answers ticked from the start is lost; the rest is proved for the questionnaires of C47. Class of a question is written as id=."
  },
  {
   "property": "C55",
   "status": "partial",
   "theorems": [
    "C55_definitions_partial",
    "C55_lost_refuted"
   ],
   "note": "Proved for the documents of C47: definition lists at the top level followed by a paragraph, an underlined title, a literal block or the end. Refuted in general (C55_lost_refuted): the transition table of definition lists leaves the list without moving the focus to its parent (back_up), so a following bullet list, numbered list or comment ends the run with a failure, an over-lined title ends the output silently, a next bullet item panics; terms are not escaped."
  },
  {
   "property": "C56",
   "status": "partial",
   "theorems": [
    "C56_fields_partial",
    "C56_bodies_refuted"
   ],
   "note": "Proved for the documents of C47: bodies indented to the end of the marker. Refuted in general (C56_bodies_refuted): if the text is one line long the body is taken to be as indented as the text, so a further paragraph indented less falls out of the list and becomes a block quote; names are written unescaped and untranslated."
  },
  {
   "property": "C57",
   "status": "partial",
   "theorems": [
    "C57_targets_partial",
    "C57_references_partial",
    "C57_lost_refuted"
   ],
   "note": "Proved for the documents of C47: targets in front of section titles, and references in paragraphs to targets or titles. Refuted in general (C57_lost_refuted): in front of a paragraph, list or image, or at the end of the source, the label is never written although the reference to it is; names of one letter, or with one letter after the last hyphen, are taken for comments; aliases and addresses make the program panic; targets inside a paragraph vanish with their text."
  },
  {
   "property": "C58",
   "status": "partial",
   "theorems": [
    "C58_groups_partial",
    "C58_one_list_partial",
    "C58_numbering_refuted"
   ],
   "note": "Proved for items with a text of any length separated by at least one empty line, Roman numbers up to 4999 and letters that are not Roman digits (C58_groups_partial: the grouping into lists for every sequence of items), and inside the documents of C47 with nested blocks (C58_one_list_partial). Refuted in general (C58_numbering_refuted): a letter that is a Roman digit (c, d, i, l, m, v, x) is always read as a Roman number, so an alphabetical list breaks at c; items on adjacent lines are a paragraph (C22); the first number and the style are never written; a number that does not fit in usize ends the translation with an empty result."
  },
  {
   "property": "C59",
   "status": "partial",
   "theorems": [
    "C59_tables_partial",
    "C59_tables_refuted"
   ],
   "note": "Proved for the tables of C47: cells that are paragraphs of any length, rows of any and different lengths, no `widths` setting. Refuted in general (C59_tables_refuted): given widths are written as multiples of the width of the text (`p{10.00\\textwidth}`) and not compared with the number of columns, `widths: auto` gives no columns at all, header-rows, stub-columns, align and width are never written, the title is not escaped, an empty cell swallows the cells after it, and six columns are wider than the text because of the rounding."
  },
  {
   "property": "C60",
   "status": "partial",
   "theorems": [
    "C60_layout_partial",
    "C60_layout_refuted"
   ],
   "note": "Proved for all pairs of documents of C47 (same_element: the layouts that are compared). Refuted in general (C60_layout_refuted): the empty lines after a literal block are written inside it, and a bullet item with another number of spaces after the bullet begins a new list. Tables and questionnaires may differ in bullets and empty lines too."
  },
  {
   "property": "C61",
   "status": "partial",
   "theorems": [
    "C61_growing_partial",
    "C61_growing_refuted"
   ],
   "note": "Proved for all pairs of documents of C47. Refuted in general (C61_growing_refuted): a note on one line takes in the blocks after it; an empty note, a substitution or a number that does not fit in usize at the end takes the whole output or the rest of it away."
  },
  {
   "property": "C62",
   "status": "partial",
   "theorems": [
    "C62_attributions_partial",
    "C62_quotes_apart_partial",
    "C62_attributions_refuted"
   ],
   "note": "Proved for the documents of C47: quotes around bullet lists, boxes, notes and further quotes, at any depth, with an attribution of any number of lines whose first characters are letters or the like, the further ones indented alike. Refuted in general (C62_attributions_refuted): markup in the name is not read and not escaped, three hyphens leave one in the name, and in items of numbered lists the name is cut off (positions of the nested run used in the line of the source)."
  },
  {
   "property": "C63",
   "status": "partial",
   "theorems": [
    "C63_nesting_partial",
    "C63_nesting_refuted"
   ],
   "note": "Proved for the documents of C47: blocks as in C47 in any place nested in each other at the top level, in a column of a point of interest or in a definition (the text before and after depends on the place only, it is chosen before the blocks). Refuted in general (C63_nesting_refuted): in items of numbered lists literal blocks and footnotes lose characters or lines that they keep elsewhere."
  },
  {
   "property": "C64",
   "status": "proved",
   "theorems": [
    "C64_items_agree",
    "C64_number_in_place"
   ],
   "note": "Proved for every source and every run, failed ones included."
  },
  {
   "property": "C65",
   "status": "proved",
   "theorems": [
    "C65_columns",
    "C65_quotes_inwards"
   ],
   "note": "Proved for every source and every run, failed ones included."
  },
  {
   "property": "C66",
   "status": "partial",
   "theorems": [
    "C66_items_partial",
    "C66_refuted"
   ],
   "note": "False for definition lists: the definition-list transition does not look at the column, so a term that should end a quote becomes a term of the list inside the quote (C66_refuted). Proved for bullet, numbered and field lists (C66_items_partial)."
  },
  {
   "property": "C67",
   "status": "partial",
   "theorems": [
    "C67_quoted_block_partial",
    "C67_sign_partial",
    "C67_quoted_block_refuted"
   ],
   "note": "Proved at the top level of the documents of C47 for every sign of ASCII punctuation and arbitrary texts after it. All white space after the sign is lost, not only one space, so the indentation inside the block is lost (C67_quoted_block_refuted); a line that begins with something else makes the parser report failure."
  },
  {
   "property": "C68",
   "status": "proved",
   "theorems": [
    "C68_attribution_last",
    "C68_nothing_after"
   ],
   "note": ""
  },
  {
   "property": "C69",
   "status": "partial",
   "theorems": [
    "C69_columns_partial",
    "C69_empty_lines_partial",
    "C69_place",
    "C69_columns_refuted"
   ],
   "note": "C69_place is for every source: a column break stands directly in a point of interest and has no contents. The rest is for the simple documents of C47 (a column holds any blocks of C47). Refuted: ::newcol directly after a line of a paragraph or at another indentation is text, and what follows ::newcol on its line is lost. Not proved: what is written for sources outside C47, and columns of a point of interest that stands inside another block."
  },
  {
   "property": "C70",
   "status": "partial",
   "theorems": [
    "C70_code_block_partial",
    "C70_names_partial",
    "C70_code_refuted"
   ],
   "note": "Proved for code-block and sourcecode in the simple documents of C47. False for the code directive: its lines are never written (C70_code_refuted, for every document, every code and every option), a defect of the writer. The first and the last line of the code are not empty and the first is not indented further (the program drops empty lines there). Line numbers, emphasized lines, caption and name are not written."
  }
 ]
}