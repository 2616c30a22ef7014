(* NodeTypes.v -- /repo/src/doctree/tree_node_types.rs, node_categories.rs and the
   nesting table of tree_node.rs.  The tables below were transcribed by a script
   from the Rust source, one line per variant. *)
From Verif Require Import Base Common.

(* doctree/directives.rs:43-54 AdmonitionType *)
Inductive AdmonitionType :=
| AdmAttention | AdmCaution | AdmDanger | AdmError | AdmHint | AdmImportant | AdmNote | AdmTip | AdmWarning
| AdmAdmonition (title : str).
(* common.rs:334-345 ToCBacklinks *)
Inductive ToCBacklinks := BEntry | BTop | BNone.

(* tree_node_types.rs:21-925 TreeNodeType.  Indents and section levels are nat,
   other integers N; a HashMap is an association list without duplicate keys. *)
Inductive TreeNodeType : Type :=
| NAbbreviation (name : option str) (classes : option str)
| NAbsoluteURI (text : str)
| NAcronym
| NAddress
| NAdmonition (content_indent : nat) (classes : option str) (name : option str) (variant : AdmonitionType)
| NAttribution (raw_text : str)
| NAuthor
| NAuthors
| NAutomaticSectionNumbering (depth : option N) (prefix : option str) (suffix : option str) (start : option N)
| NBlockQuote (body_indent : nat)
| NBulletList (bullet : char) (bullet_indent : nat) (text_indent : nat)
| NBulletListItem (bullet : char) (bullet_indent : nat) (text_indent : nat)
| NCaption (indent : nat)
| NCitation (body_indent : nat) (label : str)
| NCitationReference (displayed_text : str) (target_label : str)
| NClass (body_indent : nat) (classes : list str)
| NClassifier
| NCode (text : str) (language : option str) (name : option str) (class : option str) (number_lines : option str)
| NColSpec
| NComment (text : option str)
| NCompoundParagraph (body_indent : nat) (name : option str) (class : option str)
| NContact
| NContainer (body_indent : nat) (class_names : option (list str)) (name : option str)
| NCopyright
| NCSVTable (name : option str) (class : option str) (widths : option TableColWidths) (width : option MetricType) (header_rows : option N) (stub_columns : option N) (header : option (list str)) (file : option str) (url : option str) (encoding : option str) (delim : option char) (quote : option char) (keepspace : option bool) (escape : option char) (align : option HorizontalAlignment)
| NDate
| NDecoration
| NDefinition
| NDefinitionList (term_indent : nat)
| NDefinitionListItem (term : str) (classifiers : list str) (body_indent : nat)
| NDescription
| NDocInfo
| NDoctestBlock
| NDocument
| NEmphasis (text : str)
| NEmptyLine
| NEntry (is_last : bool)
| NEnumeratedList (delims : EnumDelims) (kind : EnumKind) (start_index : N) (n_of_items : N) (enumerator_indent : nat)
| NEnumeratedListItem (delims : EnumDelims) (kind : EnumKind) (index_in_list : N) (enumerator_indent : nat) (text_indent : nat)
| NExternalHyperlinkTarget (marker_indent : nat) (target : str) (uri : str)
| NField
| NFieldBody (indentation : nat)
| NFieldList (marker_indent : nat)
| NFieldListItem (raw_marker_name : str) (marker_name_as_inline_nodes : list TreeNodeType) (marker_indent : nat) (body_indent : nat)
| NFigure (body_indent : nat) (align : option HorizontalAlignment) (figwidth : option Length) (figclass : option str) (name : option str)
| NFooter (body_indent : nat)
| NFootnote (body_indent : nat) (kind : FootnoteKind) (label : str) (target : str)
| NFootnoteReference (displayed_text : str) (target_label : str) (kind : FootnoteKind)
| NGenerated
| NHeader (body_indent : nat)
| NImage (uri : str) (alt : option str) (height : option Length) (width : option Length) (scale : option fnum) (align : option HTMLAlignment) (target : option str) (name : option str) (class : option str) (inline : bool)
| NInclude (uri : str) (start_line : option N) (end_line : option N) (start_after : option N) (end_before : option N) (literal : bool) (code : option (option str)) (number_lines : option (option N)) (encoding : option str) (tab_width : option N) (name : option str) (class : option str)
| NIndirectHyperlinkTarget (marker_indent : nat) (target : str) (indirect_target : str)
| NInline
| NInlineTarget (target_label : str)
| NInterpretedText (role : str) (content : str)
| NLabel
| NLegend (body_indent : nat)
| NLine
| NLineBlock
| NListTable (body_indent : nat) (title : option str) (widths : option TableColWidths) (width : option MetricType) (header_rows : option N) (stub_columns : option N) (align : option HorizontalAlignment)
| NLiteral (text : str)
| NLiteralBlock (text : str)
| NMath (text : str) (name : option str) (class : option str)
| NMathBlock (math_block : str) (name : option str) (class : option str)
| NOptionList (option_indent : nat)
| NOptionListItem (body_indent : nat)
| NOptionString
| NOrganization
| NParagraph (indent : nat)
| NParsedLiteralBlock
| NPending
| NProblematic
| NRaw
| NReference (displayed_text : option str) (reference : Reference)
| NRevision
| NRow
| NRubric (name : option str) (class : option str)
| NSection (title_text : str) (level : nat) (line_style : SectionLineStyle)
| NSidebar (body_indent : nat)
| NStatus
| NStrongEmphasis (text : str)
| NSubscript (text : str)
| NSubstitutionDefinition
| NSubstitutionReference (substitution_label : str) (target_label : option str)
| NSubtitle
| NSuperscript (text : str)
| NSystemMessage
| NTable (name : option str) (class : option str) (align : option HorizontalAlignment) (widths : option (list N)) (width : option Length)
| NTarget
| NTBody
| NTerm
| NText (text : str)
| NTGroup
| NTHead
| NTRow
| NTitle
| NTitleReference (displayed_text : str) (target_label : str)
| NTopic (title : str) (depth : option N) (local : option bool) (backlinks : option ToCBacklinks) (class : option str)
| NTransition
| NUnknownDirective (directive_name : str) (argument : str) (options : list (str * str)) (body_indent : nat)
| NVersion
| NWhiteSpace (text : str)
| NSphinxOnly (expression : str) (body_indent : nat)
| NSphinxCodeBlock (language : str) (linenos : bool) (lineno_start : option N) (emphasize_lines : option (list N)) (caption : option str) (name : option str) (dedent : option N) (force : bool) (code_text : str)
| NAplusPOI (title : str) (body_indent : nat) (id : option str) (previous : option str) (next : option str) (hidden : option str) (class : option str) (height : option Length) (columns : option str) (bgimg : option str) (not_in_slides : option str) (not_in_book : option str) (no_poi_box : option str)
| NAplusColBreak
| NAplusQuestionnaire (body_indent : nat) (points_from_children : N) (key : str) (max_points : option N) (difficulty : option str) (submissions : option str) (points_to_pass : option str) (feedback : option str) (title : option str) (no_override : option str) (pick_randomly : option str) (preserve_questions_between_attempts : option str) (category : option str) (status : option str) (reveal_model_at_max_submissions : option str) (show_model : option str) (allow_assistant_viewing : option str) (allow_assistant_grading : option str)
| NAplusPickOne (body_indent : nat) (points : N) (class : option str) (required : bool) (key : option str) (dropdown : bool)
| NAplusPickAny (body_indent : nat) (points : N) (class : option str) (required : bool) (key : option str) (partial_points : bool) (randomized : bool) (correct_count : option N) (preserve_questions_between_attempts : bool)
| NAplusFreeText (body_indent : nat) (points : N) (compare_method : str) (model_answer : str) (class : option str) (required : option str) (key : option str) (length : option str) (height : option str)
| NAplusPickChoices (body_indent : nat)
| NAplusPickChoice (label : str) (is_correct : bool) (is_pre_selected : bool) (is_neutral : bool)
| NAplusQuestionnaireHints (body_indent : nat)
| NAplusQuestionnaireHint (label : str) (show_when_not_selected : bool) (question_type : AplusQuestionnaireType)
| NAplusSubmit (body_indent : nat) (key : str) (difficulty : str) (max_points : N) (config : str) (submissions : N) (points_to_pass : N) (class : str) (title : str) (category : str) (status : AplusExerciseStatus) (ajax : bool) (allow_assistant_viewing : bool) (allow_assistant_grading : bool) (quiz : bool) (url : str) (radar_tokenizer : AplusRadarTokenizer) (radar_minimum_match_tokens : option N) (lti : str) (lti_resource_link_id : str) (lti_open_in_iframe : bool) (lti_aplus_get_and_post : bool)
| NAplusActiveElementInput (key_for_input : str) (title : option str) (default : option str) (class : option str) (width : option Length) (height : option Length) (clear : option AplusActiveElementClear) (input_type : option AplusActiveElementInputType) (file : option str)
| NAplusActiveElementOutput (key_for_output : str) (config : str) (inputs : str) (title : option str) (class : option str) (width : option Length) (height : option Length) (clear : option AplusActiveElementClear) (output_type : AplusActiveElementOutputType) (submissions : option N) (scale_size : bool) (status : AplusExerciseStatus).

(* the variant of a node, without its data *)
Inductive NodeKind :=
| KAbbreviation
| KAbsoluteURI
| KAcronym
| KAddress
| KAdmonition
| KAttribution
| KAuthor
| KAuthors
| KAutomaticSectionNumbering
| KBlockQuote
| KBulletList
| KBulletListItem
| KCaption
| KCitation
| KCitationReference
| KClass
| KClassifier
| KCode
| KColSpec
| KComment
| KCompoundParagraph
| KContact
| KContainer
| KCopyright
| KCSVTable
| KDate
| KDecoration
| KDefinition
| KDefinitionList
| KDefinitionListItem
| KDescription
| KDocInfo
| KDoctestBlock
| KDocument
| KEmphasis
| KEmptyLine
| KEntry
| KEnumeratedList
| KEnumeratedListItem
| KExternalHyperlinkTarget
| KField
| KFieldBody
| KFieldList
| KFieldListItem
| KFigure
| KFooter
| KFootnote
| KFootnoteReference
| KGenerated
| KHeader
| KImage
| KInclude
| KIndirectHyperlinkTarget
| KInline
| KInlineTarget
| KInterpretedText
| KLabel
| KLegend
| KLine
| KLineBlock
| KListTable
| KLiteral
| KLiteralBlock
| KMath
| KMathBlock
| KOptionList
| KOptionListItem
| KOptionString
| KOrganization
| KParagraph
| KParsedLiteralBlock
| KPending
| KProblematic
| KRaw
| KReference
| KRevision
| KRow
| KRubric
| KSection
| KSidebar
| KStatus
| KStrongEmphasis
| KSubscript
| KSubstitutionDefinition
| KSubstitutionReference
| KSubtitle
| KSuperscript
| KSystemMessage
| KTable
| KTarget
| KTBody
| KTerm
| KText
| KTGroup
| KTHead
| KTRow
| KTitle
| KTitleReference
| KTopic
| KTransition
| KUnknownDirective
| KVersion
| KWhiteSpace
| KSphinxOnly
| KSphinxCodeBlock
| KAplusPOI
| KAplusColBreak
| KAplusQuestionnaire
| KAplusPickOne
| KAplusPickAny
| KAplusFreeText
| KAplusPickChoices
| KAplusPickChoice
| KAplusQuestionnaireHints
| KAplusQuestionnaireHint
| KAplusSubmit
| KAplusActiveElementInput
| KAplusActiveElementOutput.
Definition kind (d : TreeNodeType) : NodeKind :=
  match d with
  | NAbbreviation _ _ => KAbbreviation
  | NAbsoluteURI _ => KAbsoluteURI
  | NAcronym => KAcronym
  | NAddress => KAddress
  | NAdmonition _ _ _ _ => KAdmonition
  | NAttribution _ => KAttribution
  | NAuthor => KAuthor
  | NAuthors => KAuthors
  | NAutomaticSectionNumbering _ _ _ _ => KAutomaticSectionNumbering
  | NBlockQuote _ => KBlockQuote
  | NBulletList _ _ _ => KBulletList
  | NBulletListItem _ _ _ => KBulletListItem
  | NCaption _ => KCaption
  | NCitation _ _ => KCitation
  | NCitationReference _ _ => KCitationReference
  | NClass _ _ => KClass
  | NClassifier => KClassifier
  | NCode _ _ _ _ _ => KCode
  | NColSpec => KColSpec
  | NComment _ => KComment
  | NCompoundParagraph _ _ _ => KCompoundParagraph
  | NContact => KContact
  | NContainer _ _ _ => KContainer
  | NCopyright => KCopyright
  | NCSVTable _ _ _ _ _ _ _ _ _ _ _ _ _ _ _ => KCSVTable
  | NDate => KDate
  | NDecoration => KDecoration
  | NDefinition => KDefinition
  | NDefinitionList _ => KDefinitionList
  | NDefinitionListItem _ _ _ => KDefinitionListItem
  | NDescription => KDescription
  | NDocInfo => KDocInfo
  | NDoctestBlock => KDoctestBlock
  | NDocument => KDocument
  | NEmphasis _ => KEmphasis
  | NEmptyLine => KEmptyLine
  | NEntry _ => KEntry
  | NEnumeratedList _ _ _ _ _ => KEnumeratedList
  | NEnumeratedListItem _ _ _ _ _ => KEnumeratedListItem
  | NExternalHyperlinkTarget _ _ _ => KExternalHyperlinkTarget
  | NField => KField
  | NFieldBody _ => KFieldBody
  | NFieldList _ => KFieldList
  | NFieldListItem _ _ _ _ => KFieldListItem
  | NFigure _ _ _ _ _ => KFigure
  | NFooter _ => KFooter
  | NFootnote _ _ _ _ => KFootnote
  | NFootnoteReference _ _ _ => KFootnoteReference
  | NGenerated => KGenerated
  | NHeader _ => KHeader
  | NImage _ _ _ _ _ _ _ _ _ _ => KImage
  | NInclude _ _ _ _ _ _ _ _ _ _ _ _ => KInclude
  | NIndirectHyperlinkTarget _ _ _ => KIndirectHyperlinkTarget
  | NInline => KInline
  | NInlineTarget _ => KInlineTarget
  | NInterpretedText _ _ => KInterpretedText
  | NLabel => KLabel
  | NLegend _ => KLegend
  | NLine => KLine
  | NLineBlock => KLineBlock
  | NListTable _ _ _ _ _ _ _ => KListTable
  | NLiteral _ => KLiteral
  | NLiteralBlock _ => KLiteralBlock
  | NMath _ _ _ => KMath
  | NMathBlock _ _ _ => KMathBlock
  | NOptionList _ => KOptionList
  | NOptionListItem _ => KOptionListItem
  | NOptionString => KOptionString
  | NOrganization => KOrganization
  | NParagraph _ => KParagraph
  | NParsedLiteralBlock => KParsedLiteralBlock
  | NPending => KPending
  | NProblematic => KProblematic
  | NRaw => KRaw
  | NReference _ _ => KReference
  | NRevision => KRevision
  | NRow => KRow
  | NRubric _ _ => KRubric
  | NSection _ _ _ => KSection
  | NSidebar _ => KSidebar
  | NStatus => KStatus
  | NStrongEmphasis _ => KStrongEmphasis
  | NSubscript _ => KSubscript
  | NSubstitutionDefinition => KSubstitutionDefinition
  | NSubstitutionReference _ _ => KSubstitutionReference
  | NSubtitle => KSubtitle
  | NSuperscript _ => KSuperscript
  | NSystemMessage => KSystemMessage
  | NTable _ _ _ _ _ => KTable
  | NTarget => KTarget
  | NTBody => KTBody
  | NTerm => KTerm
  | NText _ => KText
  | NTGroup => KTGroup
  | NTHead => KTHead
  | NTRow => KTRow
  | NTitle => KTitle
  | NTitleReference _ _ => KTitleReference
  | NTopic _ _ _ _ _ => KTopic
  | NTransition => KTransition
  | NUnknownDirective _ _ _ _ => KUnknownDirective
  | NVersion => KVersion
  | NWhiteSpace _ => KWhiteSpace
  | NSphinxOnly _ _ => KSphinxOnly
  | NSphinxCodeBlock _ _ _ _ _ _ _ _ _ => KSphinxCodeBlock
  | NAplusPOI _ _ _ _ _ _ _ _ _ _ _ _ _ => KAplusPOI
  | NAplusColBreak => KAplusColBreak
  | NAplusQuestionnaire _ _ _ _ _ _ _ _ _ _ _ _ _ _ _ _ _ _ => KAplusQuestionnaire
  | NAplusPickOne _ _ _ _ _ _ => KAplusPickOne
  | NAplusPickAny _ _ _ _ _ _ _ _ _ => KAplusPickAny
  | NAplusFreeText _ _ _ _ _ _ _ _ _ => KAplusFreeText
  | NAplusPickChoices _ => KAplusPickChoices
  | NAplusPickChoice _ _ _ _ => KAplusPickChoice
  | NAplusQuestionnaireHints _ => KAplusQuestionnaireHints
  | NAplusQuestionnaireHint _ _ _ => KAplusQuestionnaireHint
  | NAplusSubmit _ _ _ _ _ _ _ _ _ _ _ _ _ _ _ _ _ _ _ _ _ _ => KAplusSubmit
  | NAplusActiveElementInput _ _ _ _ _ _ _ _ _ => KAplusActiveElementInput
  | NAplusActiveElementOutput _ _ _ _ _ _ _ _ _ _ _ _ => KAplusActiveElementOutput
  end.

(* tree_node_types.rs:930-1062 body_indent *)
Definition body_indent (d : TreeNodeType) : option nat :=
  match d with
  | NAdmonition content_indent _ _ _ => Some content_indent
  | NBlockQuote body_indent => Some body_indent
  | NBulletList _ bullet_indent _ => Some bullet_indent
  | NBulletListItem _ _ text_indent => Some text_indent
  | NCitation body_indent _ => Some body_indent
  | NClass body_indent _ => Some body_indent
  | NCompoundParagraph body_indent _ _ => Some body_indent
  | NContainer body_indent _ _ => Some body_indent
  | NDefinitionList term_indent => Some term_indent
  | NDefinitionListItem _ _ body_indent => Some body_indent
  | NDocument => Some 0
  | NEnumeratedList _ _ _ _ enumerator_indent => Some enumerator_indent
  | NEnumeratedListItem _ _ _ _ text_indent => Some text_indent
  | NFieldList marker_indent => Some marker_indent
  | NFieldListItem _ _ _ body_indent => Some body_indent
  | NFigure body_indent _ _ _ _ => Some body_indent
  | NFooter body_indent => Some body_indent
  | NFootnote body_indent _ _ _ => Some body_indent
  | NHeader body_indent => Some body_indent
  | NLegend body_indent => Some body_indent
  | NListTable body_indent _ _ _ _ _ _ => Some body_indent
  | NOptionList option_indent => Some option_indent
  | NOptionListItem body_indent => Some body_indent
  | NParagraph indent => Some indent
  | NSection _ _ _ => Some 0
  | NSidebar body_indent => Some body_indent
  | NUnknownDirective _ _ _ body_indent => Some body_indent
  | NSphinxOnly _ body_indent => Some body_indent
  | NAplusPOI _ body_indent _ _ _ _ _ _ _ _ _ _ _ => Some body_indent
  | NAplusQuestionnaire body_indent _ _ _ _ _ _ _ _ _ _ _ _ _ _ _ _ _ => Some body_indent
  | NAplusPickOne body_indent _ _ _ _ _ => Some body_indent
  | NAplusPickAny body_indent _ _ _ _ _ _ _ _ => Some body_indent
  | NAplusFreeText body_indent _ _ _ _ _ _ _ _ => Some body_indent
  | NAplusPickChoices body_indent => Some body_indent
  | NAplusQuestionnaireHints body_indent => Some body_indent
  | NAplusSubmit body_indent _ _ _ _ _ _ _ _ _ _ _ _ _ _ _ _ _ _ _ _ _ => Some body_indent
  | _ => None
  end.

(* node_categories.rs:11-83 NodeCategory *)
Inductive NodeCategory :=
| CRoot | CTitular | CPreBibliographic | CBibliographic | CDecorative | CStructural
| CCompoundStructural | CSimpleStructural | CSubStructural | CBody | CSubBody | CSimpleSubBody
| CCompoundSubBody | CSimpleBody | CCompoundBody | CSequential | CSpecial | CInline
| CReferential | CRaw.
Definition cat_eqb (a b : NodeCategory) : bool :=
  match a, b with
  | CRoot, CRoot | CTitular, CTitular | CPreBibliographic, CPreBibliographic
  | CBibliographic, CBibliographic | CDecorative, CDecorative | CStructural, CStructural
  | CCompoundStructural, CCompoundStructural | CSimpleStructural, CSimpleStructural
  | CSubStructural, CSubStructural | CBody, CBody | CSubBody, CSubBody
  | CSimpleSubBody, CSimpleSubBody | CCompoundSubBody, CCompoundSubBody
  | CSimpleBody, CSimpleBody | CCompoundBody, CCompoundBody | CSequential, CSequential
  | CSpecial, CSpecial | CInline, CInline | CReferential, CReferential | CRaw, CRaw => true
  | _, _ => false
  end.

(* node_categories.rs:87-317 and tree_node_types.rs:1066-1197 node_categories *)
Definition node_categories (k : NodeKind) : list NodeCategory :=
  match k with
  | KAbbreviation => [CInline]
  | KAbsoluteURI => [CInline]
  | KAcronym => [CInline]
  | KAddress => [CBibliographic]
  | KAdmonition => [CBody; CCompoundBody]
  | KAttribution => [CSubBody; CSimpleSubBody]
  | KAuthor => [CBibliographic]
  | KAuthors => [CBibliographic]
  | KAutomaticSectionNumbering => [CInline]
  | KBlockQuote => [CBody; CCompoundBody]
  | KBulletList => [CBody; CCompoundBody]
  | KBulletListItem => [CSubBody; CCompoundSubBody]
  | KCaption => [CSubBody; CSimpleSubBody]
  | KCitation => [CBody; CCompoundBody]
  | KCitationReference => [CInline]
  | KClass => [CBody; CCompoundBody]
  | KClassifier => [CSubBody; CSimpleSubBody]
  | KCode => [CBody; CSimpleBody]
  | KColSpec => [CSubBody; CSimpleSubBody]
  | KComment => [CBody; CSimpleBody]
  | KCompoundParagraph => [CBody; CCompoundBody]
  | KContact => [CBibliographic]
  | KContainer => [CBody; CCompoundBody]
  | KCopyright => [CBibliographic]
  | KCSVTable => []
  | KDate => [CBibliographic]
  | KDecoration => [CSubStructural]
  | KDefinition => [CSubBody; CCompoundSubBody]
  | KDefinitionList => [CBody; CCompoundBody]
  | KDefinitionListItem => [CSubBody; CCompoundSubBody]
  | KDescription => [CSubBody; CCompoundSubBody]
  | KDocInfo => [CSubStructural]
  | KDoctestBlock => [CBody; CSimpleBody]
  | KDocument => [CRoot; CStructural; CCompoundStructural]
  | KEmphasis => [CInline]
  | KEmptyLine => [CStructural; CSimpleStructural; CBody; CSimpleBody; CSubBody; CSimpleSubBody]
  | KEntry => [CSubBody; CCompoundSubBody]
  | KEnumeratedList => [CBody; CCompoundBody]
  | KEnumeratedListItem => [CSubBody; CCompoundSubBody]
  | KExternalHyperlinkTarget => [CBody; CSimpleBody]
  | KField => [CBibliographic; CSubBody; CCompoundSubBody]
  | KFieldBody => [CSubBody; CCompoundSubBody]
  | KFieldList => [CBody; CCompoundBody]
  | KFieldListItem => [CSubBody; CCompoundSubBody]
  | KFigure => [CBody; CCompoundBody]
  | KFooter => [CDecorative]
  | KFootnote => [CBody; CCompoundBody]
  | KFootnoteReference => [CInline]
  | KGenerated => [CInline]
  | KHeader => [CDecorative]
  | KImage => [CBody; CSimpleBody; CInline]
  | KInclude => [CBody; CSimpleBody]
  | KIndirectHyperlinkTarget => [CBody; CSimpleBody]
  | KInline => [CInline]
  | KInlineTarget => []
  | KInterpretedText => [CInline]
  | KLabel => [CSubBody; CSimpleSubBody]
  | KLegend => [CSubBody; CCompoundSubBody]
  | KLine => [CSubBody; CSimpleSubBody]
  | KLineBlock => [CBody; CCompoundBody]
  | KListTable => [CBody; CCompoundBody]
  | KLiteral => [CInline]
  | KLiteralBlock => [CBody; CSimpleBody]
  | KMath => [CInline]
  | KMathBlock => [CBody; CSimpleBody]
  | KOptionList => [CBody; CCompoundBody]
  | KOptionListItem => [CSubBody; CCompoundSubBody]
  | KOptionString => [CSubBody; CSimpleSubBody]
  | KOrganization => [CBibliographic]
  | KParagraph => [CBody; CSimpleBody]
  | KParsedLiteralBlock => [CBody; CCompoundBody]
  | KPending => [CBody; CSimpleBody]
  | KProblematic => [CInline]
  | KRaw => [CBody; CSimpleBody]
  | KReference => [CInline; CReferential]
  | KRevision => [CBibliographic]
  | KRow => [CSubBody; CCompoundSubBody]
  | KRubric => [CBody; CSimpleBody]
  | KSection => [CStructural; CCompoundStructural; CTitular]
  | KSidebar => [CStructural; CCompoundStructural]
  | KStatus => [CBibliographic]
  | KStrongEmphasis => [CInline]
  | KSubscript => [CInline]
  | KSubstitutionDefinition => [CBody; CSimpleBody]
  | KSubstitutionReference => [CInline]
  | KSubtitle => [CSubStructural]
  | KSuperscript => [CInline]
  | KSystemMessage => [CBody; CCompoundBody]
  | KTable => [CBody; CCompoundBody]
  | KTarget => [CInline]
  | KTBody => [CSubBody; CCompoundSubBody]
  | KTerm => [CSubBody; CSimpleSubBody]
  | KText => [CInline]
  | KTGroup => [CSubBody; CCompoundSubBody]
  | KTHead => [CSubBody; CCompoundSubBody]
  | KTRow => [CSubBody; CCompoundSubBody]
  | KTitle => [CSubStructural]
  | KTitleReference => [CInline]
  | KTopic => [CStructural]
  | KTransition => [CStructural]
  | KUnknownDirective => [CBody; CCompoundBody]
  | KVersion => [CBibliographic]
  | KWhiteSpace => [CInline]
  | KSphinxOnly => [CBody; CCompoundBody]
  | KSphinxCodeBlock => [CBody; CSimpleBody]
  | KAplusPOI => [CBody; CCompoundBody]
  | KAplusColBreak => []
  | KAplusQuestionnaire => [CBody; CCompoundBody]
  | KAplusPickOne => [CSubBody; CCompoundSubBody]
  | KAplusPickAny => [CSubBody; CCompoundSubBody]
  | KAplusFreeText => [CSubBody; CCompoundSubBody]
  | KAplusPickChoices => [CSubBody; CCompoundSubBody]
  | KAplusPickChoice => [CSubBody; CSimpleSubBody]
  | KAplusQuestionnaireHints => [CSubBody; CCompoundSubBody]
  | KAplusQuestionnaireHint => [CSubBody; CSimpleSubBody]
  | KAplusSubmit => [CBody; CCompoundBody]
  | KAplusActiveElementInput => [CBody; CSimpleBody]
  | KAplusActiveElementOutput => [CBody; CSimpleBody]
  end.
Definition has_cat (c : NodeCategory) (k : NodeKind) : bool := existsb (cat_eqb c) (node_categories k).

(* tree_node.rs:41-60 children_or_none: may the node have children at all? *)
Definition can_have_children (k : NodeKind) : bool :=
  has_cat CCompoundStructural k || has_cat CCompoundBody k || has_cat CCompoundSubBody k
  || match k with KParagraph | KAplusPickChoice | KAplusQuestionnaireHint => true | _ => false end.

(* tree_node.rs:152-996 child_is_allowed; todo!() is Panic *)
Definition child_is_allowed (parent child : NodeKind) : outcome bool :=
  match parent with
  | KAbbreviation | KAddress | KAttribution | KAuthor | KAuthors
  | KCaption | KClassifier | KCode | KCopyright | KDate
  | KDoctestBlock | KLine | KLiteralBlock | KOrganization | KParagraph
  | KParsedLiteralBlock | KRevision | KStatus | KSubscript | KSubtitle
  | KSuperscript | KTitle | KTopic | KAplusPickChoice | KAplusQuestionnaireHint =>
      Ret (has_cat CInline child)
  | KAbsoluteURI | KAcronym | KAutomaticSectionNumbering | KCitationReference | KColSpec
  | KContact | KEmphasis | KEmptyLine | KExternalHyperlinkTarget | KImage
  | KInclude | KIndirectHyperlinkTarget | KInline | KInlineTarget | KInterpretedText
  | KLiteral | KMath | KMathBlock | KReference | KRubric
  | KStrongEmphasis | KSubstitutionDefinition | KSubstitutionReference | KTarget | KText
  | KTitleReference | KVersion | KWhiteSpace | KSphinxCodeBlock | KAplusColBreak
  | KAplusActiveElementInput | KAplusActiveElementOutput =>
      Ret false
  | KAdmonition | KBulletListItem | KCitation | KClass | KComment
  | KCompoundParagraph | KContainer | KDefinition | KDefinitionListItem | KDescription
  | KEntry | KEnumeratedListItem | KFieldListItem | KFooter | KFootnote
  | KHeader | KLegend | KOptionListItem | KUnknownDirective | KSphinxOnly
  | KAplusSubmit =>
      Ret (has_cat CBody child)
  | KBlockQuote =>
      Ret (has_cat CBody child || match child with KAttribution => true | _ => false end)
  | KBulletList =>
      Ret (match child with KEmptyLine | KBulletListItem => true | _ => false end)
  | KCSVTable | KField | KFieldBody | KFootnoteReference | KGenerated
  | KLabel | KOptionString | KPending | KProblematic | KRaw
  | KRow | KSystemMessage | KTable | KTBody | KTerm
  | KTGroup | KTHead | KTransition =>
      Panic
  | KDecoration =>
      Ret (match child with KFooter | KHeader => true | _ => false end)
  | KDefinitionList =>
      Ret (match child with KEmptyLine | KDefinitionListItem => true | _ => false end)
  | KDocInfo =>
      Ret (has_cat CBibliographic child)
  | KDocument =>
      Ret (has_cat CStructural child || has_cat CSubStructural child || has_cat CBody child)
  | KEnumeratedList =>
      Ret (match child with KEmptyLine | KEnumeratedListItem => true | _ => false end)
  | KFieldList =>
      Ret (match child with KEmptyLine | KFieldListItem => true | _ => false end)
  | KFigure =>
      Ret (has_cat CBody child || match child with KCaption | KLegend => true | _ => false end)
  | KLineBlock =>
      Ret (match child with KEmptyLine | KLine => true | _ => false end)
  | KListTable =>
      Ret (match child with KBulletList => true | _ => false end)
  | KOptionList =>
      Ret (match child with KEmptyLine | KOptionListItem => true | _ => false end)
  | KSection =>
      Ret (has_cat CBody child || match child with KTransition | KSection | KTopic | KSidebar => true | _ => false end)
  | KSidebar =>
      Ret (has_cat CBody child || match child with KTopic => true | _ => false end)
  | KTRow =>
      Ret (match child with KEntry => true | _ => false end)
  | KAplusPOI =>
      Ret (has_cat CBody child || match child with KAplusColBreak => true | _ => false end)
  | KAplusQuestionnaire =>
      Ret (match child with KEmptyLine | KParagraph | KAplusPickOne | KAplusPickAny | KAplusFreeText => true | _ => false end)
  | KAplusPickOne | KAplusPickAny | KAplusFreeText =>
      Ret (match child with KParagraph | KAplusPickChoices | KAplusQuestionnaireHints => true | _ => false end)
  | KAplusPickChoices =>
      Ret (match child with KAplusPickChoice => true | _ => false end)
  | KAplusQuestionnaireHints =>
      Ret (match child with KAplusQuestionnaireHint => true | _ => false end)
  end.
