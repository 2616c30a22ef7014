(* ColumnSpec.v -- what C65 says about the columns blocks stand in *)
From Verif Require Import Base Common Converters NodeTypes Tree.

(* the column in which the content of a block starts *)
Definition text_column (x : TreeNodeType) : option nat :=
  match x with
  | NDocument | NSection _ _ _ => Some 0
  | NBlockQuote c | NBulletListItem _ _ c | NEnumeratedListItem _ _ _ _ c | NFieldListItem _ _ _ c | NDefinitionListItem _ _ c
  | NFootnote c _ _ _ | NCitation c _ | NAdmonition c _ _ _ | NClass c _ | NFigure c _ _ _ _ | NListTable c _ _ _ _ _ _
  | NUnknownDirective _ _ _ c | NSphinxOnly _ c | NAplusPOI _ c _ _ _ _ _ _ _ _ _ _ _
  | NAplusQuestionnaire c _ _ _ _ _ _ _ _ _ _ _ _ _ _ _ _ _ | NAplusPickOne c _ _ _ _ _ | NAplusPickAny c _ _ _ _ _ _ _ _
  | NAplusFreeText c _ _ _ _ _ _ _ _ | NAplusPickChoices c | NAplusQuestionnaireHints c
  | NAplusSubmit c _ _ _ _ _ _ _ _ _ _ _ _ _ _ _ _ _ _ _ _ _ => Some c
  (* lists and paragraphs: the column they stand in *)
  | NParagraph c | NBulletList _ c _ | NEnumeratedList _ _ _ _ c | NFieldList c | NDefinitionList c => Some c
  (* nodes the parser does not make *)
  | NCompoundParagraph c _ _ | NContainer c _ _ | NFooter c | NHeader c | NLegend c | NOptionList c | NOptionListItem c | NSidebar c => Some c
  | _ => None
  end.
(* a block in the block it is directly in: paragraphs and lists stand in the column
   where the content of the other starts, quotes further to the right *)
Definition stands (outer inner : TreeNodeType) : Prop :=
  match inner with
  | NParagraph c | NBulletList _ c _ | NEnumeratedList _ _ _ _ c | NFieldList c | NDefinitionList c => text_column outer = Some c
  | NBlockQuote c => exists c', text_column outer = Some c' /\ c' < c
  | _ => True
  end.
