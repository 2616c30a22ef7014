(* Parser.v -- the transition tables of /repo/src/parser/state_machine
   (transitions.rs and mod.rs:158-262) and the whole parser. *)
From Verif Require Import Base Regex Patterns Common NodeTypes Tree DocTree Prog ParseLoop Body Directives.

(* transitions.rs:11-70 BODY_TRANSITIONS without the empty line *)
Definition body_rest : transition_table :=
  [(BULLET, body_bullet); (ENUMERATOR, body_enumerator); (FIELD_MARKER, body_field_marker);
   (FOOTNOTE, body_footnote); (CITATION, body_citation); (HYPERLINK_TARGET, body_hyperlink_target);
   (DIRECTIVE, directive); (COMMENT, body_comment); (LINE, body_line); (TEXT, body_text)].
Definition empty_line_entry : re * transition := (BLANK_LINE, empty_line).
Definition BODY_TRANSITIONS : transition_table := empty_line_entry :: body_rest.
(* transitions.rs:72-137 *)
Definition BLOCK_QUOTE_TRANSITIONS : transition_table :=
  empty_line_entry :: (ATTRIBUTION, attribution) :: body_rest.
(* transitions.rs:139-151 *)
Definition BULLET_LIST_TRANSITIONS : transition_table := [empty_line_entry; (BULLET, list_bullet)].
(* transitions.rs:153-210 *)
Definition DEFINITION_LIST_TRANSITIONS : transition_table :=
  [empty_line_entry; (BULLET, back_up); (ENUMERATOR, back_up); (FIELD_MARKER, back_up);
   (FOOTNOTE, back_up); (CITATION, back_up); (HYPERLINK_TARGET, back_up); (DIRECTIVE, back_up);
   (COMMENT, back_up); (LINE, back_up); (TEXT, definition_text)].
(* transitions.rs:212-224, 226-238 *)
Definition ENUMERATED_LIST_TRANSITIONS : transition_table := [empty_line_entry; (ENUMERATOR, list_enumerator)].
Definition FIELD_LIST_TRANSITIONS : transition_table := [empty_line_entry; (FIELD_MARKER, list_field_marker)].
(* transitions.rs LITERAL_BLOCK_TRANSITIONS, LIST_TABLE_TRANSITIONS,
   APLUS_MULTICOL_TRANSITIONS, APLUS_QUESTIONNAIRE_TRANSITIONS *)
Definition LITERAL_BLOCK_TRANSITIONS : transition_table :=
  [empty_line_entry; (QUOTED_LITERAL_BLOCK, literal_block true); (INDENTED_LITERAL_BLOCK, literal_block false)].
Definition LIST_TABLE_TRANSITIONS : transition_table := [empty_line_entry; (BULLET, body_bullet)].
Definition APLUS_MULTICOL_TRANSITIONS : transition_table :=
  empty_line_entry :: (APLUS_COL_BREAK, aplus_col_break) :: body_rest.
Definition APLUS_QUESTIONNAIRE_TRANSITIONS : transition_table :=
  [empty_line_entry; (APLUS_QUESTIONNAIRE_DIRECTIVE, questionnaire_directive); (TEXT, questionnaire_text)].

(* mod.rs:158-186 get_transitions and 207-262 TRANSITION_MAP.  The loop never
   asks for the table of EOF or Failure. *)
Definition table (s : State) : option transition_table :=
  match s with
  | SBody | SSection | SListItem | SFootnote | SCitation | SAdmonition | SFigure => Some BODY_TRANSITIONS
  | SBlockQuote => Some BLOCK_QUOTE_TRANSITIONS
  | SBulletList => Some BULLET_LIST_TRANSITIONS
  | SDefinitionList => Some DEFINITION_LIST_TRANSITIONS
  | SEnumeratedList => Some ENUMERATED_LIST_TRANSITIONS
  | SFieldList => Some FIELD_LIST_TRANSITIONS
  | SOptionList | SLineBlock | SExtensionOptions | SLine => Some []
  | SLiteralBlock => Some LITERAL_BLOCK_TRANSITIONS
  | SListTable => Some LIST_TABLE_TRANSITIONS
  | SAplusMultiCol => Some APLUS_MULTICOL_TRANSITIONS
  | SAplusQuestionnaire => Some APLUS_QUESTIONNAIRE_TRANSITIONS
  | SAplusPickOne | SAplusPickAny | SHyperlinkTarget | SInternalHyperlinkTarget | SFailure | SEOF => None
  end.

(* main.rs: the parser started on a whole source, Parser::new(lines, DocTree::new,
   0, 0, State::Body, 0).parse() *)
Definition parse_source (fuel : nat) (src : list str) : outcome (presult * DocTree) :=
  parse table fuel src 0 0 SBody new_doctree.
