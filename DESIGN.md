# A Rocq model of SeSodesa/rustla

`/repo` (reStructuredText → LaTeX, Rust) is modelled function by function in
`rocq/theories`. The model is executable Gallina (Coq 8.16.1, standard library
only). `&mut` arguments become returned values, `Result`/`Option` stay data,
every panic (`unwrap` on `None`, slice out of range, `todo!()`,
`unimplemented!()`, `usize` underflow in a debug build) is the explicit value
`Panic`. Every definition cites the file and lines it models.

## Conventions of the model

* `char` is `N` (a Unicode scalar value), `str` is `list N`. Byte lengths are
  computed with `utf8_len` where the code uses byte lengths.
* Line and column numbers are `nat` (Rust `usize`; overflow of 2^64 lines is not
  modelled).
* Loops without a structural bound take fuel and return `OutOfFuel` when it is
  exhausted; each such loop has a theorem that some explicit fuel is enough.
* `eprintln!` and failure message texts are not modelled.
* `f64` is modelled as the exact decimal that was written.
* The `regex` crate is modelled by a backtracking leftmost-first matcher
  (`Regex.v`), proved sound and complete against a declarative match relation;
  the patterns of `regex_patterns.rs` are transcribed into it.

## Plan per property

| id | what is modelled | how it is proved |
|----|------------------|------------------|
| C01–C03 | the loop of `Parser::parse` over an arbitrary transition oracle, and its instance with the modelled transitions | measure (lines left, stall counter, stack length); invariant over iterations |
| C04–C07 | `TreeZipper`, walkers, `push_child`/`push_data` | zipper denotation "plug": whole document; induction on paths and trees |
| C08, C09 | all tree-building operations as an inductive step relation | invariant over every history |
| C10, C11 | `SectionLineStyle` map, walk to level, push section | induction over sequence of styles |
| C12–C16 | `HyperrefData` counters, labels, `push_data` | induction over histories; C15 expected false: witness |
| C17 | `normalize_refname` | list induction, relative to an idempotent character-wise lower-casing |
| C18–C22 | `converters.rs` | C18 finite sweep 1..4999 lifted; C19, C22 expected false: witness + true part |
| C23 | length converters with regex model, alignment converters | both directions |
| C24, C25, C44, C45 | `read_text_block`, `read_indented_block`, `strip_indent`, `str::lines` | list induction |
| C26, C27 | `scan_directive_arguments/options` | list induction |
| C28, C29 | inline parser | fuel bound; induction on text |
| C30–C32, C46 | `utf8_to_latex.rs` | independent LaTeX reader as spec; C30, C32, C46 false in general: witness + true part |
| C33–C37 | `larst_writer.rs` | tree induction; stack-checker spec for balance; C35, C37 false: witness + true part; which kinds of nodes the parser makes from any source: invariant of all transitions (`BornProofs.v`) |
| C38 | `write` versus `write_all` | writer oracle; expected false: witness + true part |
| C39 | unknown directive options in hash order | order oracle; expected false: witness + true part |
| C40 | option folding | list induction |
| C41, C42 | `restructuredtext_transforms.rs` | tree induction |
| C43 | `points_from_children` accumulation | invariant over every run of the parser (`Hoare.v`) |
| C47 | everything from source lines to LaTeX, for a grammar of documents (`SimpleSpec.v`) | simulation: induction over documents, one lemma per transition taken |
| C48 | `inline_parse` with all inline patterns; the writer on inline nodes | texts as lists of chunks (`MarkupSpec.v`); one regex lemma per markup kind, induction over the list |
| C49 | the same as C47 | from C47 for its documents; four literal runs refute the general claim |
| C50 | the same as C47, and `parse_class` | from C47 for its documents; literal runs of `class` refute the general claim |
| C51 | `exercise_args` (the regex), `submit` and its writer | greedy-run lemmas on the regex give a characterization (`ExerciseSpec.v`) for every text; the written form from C47; literal runs refute keys with other signs |
| C52 | the same as C47, `literal_block` functions | from C47, whose documents contain literal blocks (`VerbatimProofs.v`); two literal runs refute the general claim |
| C53 | the same as C47, `footnote` and `citation` | from C47, whose documents contain footnotes and citations (`EntryProofs.v`); two literal runs refute the general claim |
| C54 | the same as C47, the questionnaire functions | from C47, whose documents contain questionnaires (`GreedyProofs.v`, `ChoiceProofs.v`, `QuizProofs.v`, `QuestionProofs.v`, `QuizRunProofs.v`); two literal runs refute the general claim |
| C55 | the same as C47, `definition_text` and the tables of definition lists | from C47, whose documents contain definition lists at the top level (`TermProofs.v`); six literal runs refute the general claim |
| C56 | the same as C47, the field list functions | from C47, whose documents contain field lists (`FieldProofs.v`); two literal runs refute the general claim |
| C57 | the same as C47, `body_hyperlink_target`, the labels waiting in the document, `anchor_string` | from C47, whose documents contain targets in front of titles (`TargetProofs.v`); nine literal runs refute the general claim |
| C58 | the same as C47, `list_enumerator`, `body_enumerator`, the readings of enumerators | the grouping of a list of items into documents of C47 (`NumberProofs.v` reads each of the five kinds of numbers, `LeaveProofs.v` ends a list); eight literal runs refute the general claim |
| C59 | the same as C47, `parse_list_table`, the table transforms, the column specification of the writer | from C47, whose documents contain list tables (`TableProofs.v`: the nested parse of the rows as a chain of open nodes, the transforms on the finished table); four literal runs refute the general claim |
| C60 | the same as C47 | a relation between documents of C47 that differ in layout (`Properties23.v`), preserved by the LaTeX of C47: induction over the relation; literal runs refute the general claim |
| C61 | the same as C47 | from C47 for three documents (the parts and the whole); literal runs refute the general claim |
| C62 | the same as C47, `attribution` in block_quote.rs | from C47, whose documents contain quotes with attributions (`CiteProofs.v`: the step that reads an attribution and closes the quote); literal runs refute the general claim |
| C63 | the same as C47 | from C47 for two documents: the LaTeX of a document with a hole (`Properties25.v`: places, induction over them); literal runs refute the general claim |
| C64 | list transitions, all other transitions | invariant of a node and its children kept by all transitions (`Hoare.v`, `LocalProofs.v`, `ItemProofs.v`) |
| C65, C66 | all transitions, directives, question parsers | as C64, with the column of the focused node known in each transition (`ColumnProofs.v`); C66 false for terms of definition lists: witness |
| C67 | the same as C47, `parse_quoted_literal` | from C47, whose documents contain quoted blocks (`VerbatimProofs.v`); two literal runs: indentation is lost, a line with another sign stops the translation |
| C68 | the whole block parser, every transition | invariant as in C64, a rule on each node and its children, with "no node on the path to the focus has an attribution" (`AttributionProofs.v`); every source |
| C69 | the same as C47, `aplus_col_break` | from C47, whose documents contain points of interest in columns at the top level (`NewcolProofs.v`: the line ends what is indented more, in every body state, then adds the break); three literal runs refute the general claim |
| C70 | the same as C47, `parse_sphinx_code_block`, `parse_code` | from C47, whose documents contain both kinds of code blocks (`LeafProofs.v`); the code directive loses its lines: proved for two documents |

## Files

Model (each definition cites `/repo` lines):

| file | models |
|------|--------|
| Base, Unicode | `outcome` (value, panic, out of fuel), strings, `char::is_whitespace`, `trim`, `lines`, UTF-8 lengths |
| Regex, Patterns | the `regex` crate's leftmost-first matching; `parser/regex_patterns.rs` |
| Common, Converters | `common.rs`, `parser/converters.rs` |
| NodeTypes, Tree, DocTree | `doctree/*.rs`: payloads, zipper, ids, sections, hyperref data, allowed children |
| Blocks | `parser/line_cursor.rs` and the text block readers of `parser/mod.rs` |
| Prog, ParseLoop | transition functions as programs over (document, cursor); the loop `Parser::parse` and its stack |
| Inline, Body, Directives, Parser | `parser/state_machine/*.rs`, `parser/automata.rs`, `parser/directive_parsers.rs`: inline parsing, every transition of every state, the tables |
| Transforms | `doctree/restructuredtext_transforms.rs` |
| Utf8Latex, Writer | `utf8_to_latex.rs`, `doctree/larst_writer.rs` |

Specifications, written without the model's helpers: `Spec`, `History`,
`TexSpec`, `WriterSpec`, `TransformSpec`, `BlockSpec`, `InlineSpec`,
`ParserSpec`, `DirectiveSpec`, `PointsSpec`, `MarkupSpec`, `SimpleSpec`,
`ExerciseSpec`, `ListSpec`, `ColumnSpec`, `AttributionSpec`.

Theorems named after properties are in `Properties1.v` … `Properties30.v`;
`*Proofs.v`, `RegexGroups.v` and `Hoare.v` hold lemmas. `Conformance.v` is
generated by `tools/conformance.py` from the tests of `/repo`: the model is run
on the sources of 64 parser tests and gives the node kinds the tests expect
(243 checks). These are tests of the model, not proofs about it.

`seeded/mutate.py` edits one definition in a scratch copy and rebuilds;
`seeded/LOG.jsonl` lists each edit with the theorems that failed.

## Trusted base

* Coq's kernel (8.16.1) with `vm_compute`; no native compilation.
* Axioms: `Print Assumptions` says *Closed under the global context* for every
  theorem of `MANIFEST.json`. (A scan of everything loaded also shows the
  standard library's `Coq.ssr.ssrunder.Under_rel.*`, an opaque module of
  ssreflect that `lia` pulls in; no theorem depends on it.) No axioms of our own.
* The reading of `/repo` into the model, and of `rustc`/`std` behaviour:
  debug-build arithmetic (underflow panics), `str`/`char` functions, `HashMap`
  iteration order (an arbitrary permutation, the parameter `ord`), and the regex
  crate's leftmost-first semantics.
* `f64` values are the exact decimals written; `usize` is `nat`.

Not modelled: `eprintln!` texts; reading files and the command line beyond the
folding of options (C40); `parser/table_parsers.rs`, `parse_include`, and parser
functions whose body is `todo!()`, none of which is called; `Drop`, memory and
stack limits (deep recursion is total in the model); the class and style files
the program writes beside its output.

The model is of the source at the pinned commit and says nothing about what the
compiler or the operating system make of it.
