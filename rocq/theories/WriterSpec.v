(* WriterSpec.v -- what C33-C39 say about the written LaTeX.  The definitions
   list, per kind of node, which of its texts are written and how; they do not
   use the writer's own functions. *)
From Coq Require Import Permutation.
From Verif Require Import Base Unicode Common NodeTypes Tree Utf8Latex TexSpec.
Local Open Scope N_scope.

Definition contains (s t : str) : Prop := exists a b, s = a ++ t ++ b.

(* ---------- C34: the visits of a document ---------- *)
Inductive visit := Open (p : list nat) | Close (p : list nat).
(* the node at path p is opened, its children are visited in order, it is
   closed *)
Fixpoint visits (p : list nat) (n : TreeNode) : list visit :=
  match n with
  | Node _ _ _ _ cs =>
      Open p ::
      match cs with
      | None => []
      | Some l => (fix go (i : nat) (l : list TreeNode) : list visit :=
                     match l with
                     | [] => []
                     | c :: t => visits (p ++ [i]) c ++ go (S i) t
                     end) 0%nat l
      end ++ [Close p]
  end.

(* ---------- C37: what can be written ---------- *)
Definition unwritable_kinds : list NodeKind :=
  [KAbbreviation; KAcronym; KAddress; KAuthor; KAuthors; KAutomaticSectionNumbering; KClassifier; KColSpec;
   KCompoundParagraph; KContact; KContainer; KCopyright; KCSVTable; KDate; KDecoration; KDefinition;
   KDescription; KDocInfo; KDoctestBlock; KExternalHyperlinkTarget; KField; KFieldBody; KFooter; KHeader;
   KGenerated; KIndirectHyperlinkTarget; KInline; KInlineTarget; KLabel; KLegend; KLine; KLineBlock;
   KOptionList; KOptionListItem; KOptionString; KOrganization; KParsedLiteralBlock; KPending; KProblematic;
   KRevision; KRow; KRubric; KSidebar; KStatus; KSubstitutionDefinition; KSubstitutionReference; KSubtitle;
   KSystemMessage; KTable; KTarget; KTerm; KTGroup; KTHead; KTitle; KTopic; KVersion].
Definition writable (n : TreeNode) : Prop :=
  ~ In (node_kind n) unwritable_kinds /\
  (forall bi t w hr sc al, node_data n <> NListTable bi t None w hr sc al).

(* ---------- C35: the texts a node shows ---------- *)
Definition shown_texts (d : TreeNodeType) : list str :=
  match d with
  | NText t | NWhiteSpace t | NEmphasis t | NStrongEmphasis t | NLiteral t | NSubscript t | NSuperscript t
  | NAbsoluteURI t | NAttribution t => [t]
  | NMath t _ _ | NMathBlock t _ _ => [unicode_math_to_latex t]
  | NLiteralBlock t => [unicode_text_to_latex t]
  | NCode t _ _ _ _ => [t]
  | NSphinxCodeBlock _ _ _ _ _ _ _ _ t => [t]
  | NComment (Some t) => map (fun l => lit "% " ++ l) (lines t)
  | NSection title _ _ => [title]
  | NAdmonition _ _ _ (AdmAdmonition title) => [title]
  | NDefinitionListItem term classifiers _ => term :: classifiers
  | NFieldListItem name _ _ _ => [name]
  | NReference (Some t) _ => [t]
  | NTitleReference t _ => [t]
  | NCitationReference t _ => [t]
  | NInterpretedText _ t => [t]
  | NListTable _ (Some title) _ _ _ _ _ => [title]
  | NImage uri (Some alt) _ _ _ _ _ _ _ _ => [uri; alt]
  | NImage uri None _ _ _ _ _ _ _ _ => [uri]
  | NAplusPOI title _ _ _ _ _ _ _ _ _ _ _ _ => [title]
  | NAplusFreeText _ _ compare_method answer _ _ _ _ _ => [compare_method; answer]
  | NAplusActiveElementInput key (Some title) _ _ _ _ _ _ _ => [key; title]
  | NAplusActiveElementOutput key _ inputs (Some title) _ _ _ _ _ _ _ _ => [key; inputs; title]
  | NUnknownDirective _ argument _ _ => if blank argument then [] else [argument]
  | _ => []
  end.

(* ---------- C36: anchors ---------- *)
(* the names by which a section, equation or figure can be referred to, each
   with the text of its anchor *)
Definition anchors (n : TreeNode) : list str :=
  let names := match node_refnames n with Some l => l | None => [] end in
  let own (o : option str) := match o with Some x => [x] | None => [] end in
  match node_data n with
  | NSection _ _ _ => map (fun r => lit "\rstlabel{" ++ r ++ lit "}") names
  | NMathBlock _ name _ => map (fun r => lit "\rstlabel{" ++ r ++ lit "}") (own name ++ names)
  | NFigure _ _ _ _ name => map (fun r => lit "\label{" ++ r ++ lit "}") (own name ++ names)
  | _ => []
  end.

(* ---------- C33: texts of the document that are written unconverted ---------- *)
Definition opt_texts (l : list (option str)) : list str :=
  flat_map (fun o => match o with Some t => [t] | None => [] end) l.
Definition raw_texts (n : TreeNode) : list str :=
  match node_refnames n with Some l => l | None => [] end ++
  match node_data n with
  | NText t | NWhiteSpace t | NEmphasis t | NStrongEmphasis t | NLiteral t | NSubscript t | NSuperscript t
  | NAbsoluteURI t | NAttribution t => [t]
  | NMath t _ _ => [unicode_math_to_latex t]
  | NMathBlock t name _ => unicode_math_to_latex t :: opt_texts [name]
  | NFigure _ _ _ _ name => opt_texts [name]
  | NCode _ language _ _ _ => opt_texts [language]
  | NSphinxCodeBlock language _ _ _ _ _ _ _ t => [language; t]
  | NComment (Some t) => lines t
  | NSection title _ _ => [title]
  | NAdmonition _ _ _ (AdmAdmonition title) => [title]
  | NCitation _ label => [label]
  | NDefinitionListItem term classifiers _ => term :: classifiers
  | NFieldListItem name _ _ _ => [name]
  | NReference t r => opt_texts [t] ++ match r with RInternal x | RURI x | REMail x => [x] end
  | NTitleReference t l => [t; l]
  | NCitationReference t _ => [t]
  | NInterpretedText role t => [lit "\" ++ role ++ lit "{" ++ t ++ lit "}"]
  | NInclude uri _ _ _ _ _ _ _ _ _ _ _ => [uri]
  | NListTable _ title _ _ _ _ _ => opt_texts [title]
  | NImage uri alt _ _ _ _ _ _ _ _ => uri :: opt_texts [alt]
  | NSphinxOnly e _ => [e]
  | NAplusPOI title _ id previous next _ class _ columns bgimg _ _ _ =>
      title :: opt_texts [id; previous; next; class; columns; bgimg]
  | NAplusQuestionnaire _ _ key _ _ _ _ _ _ _ _ _ _ _ _ _ _ _ => [key]
  | NAplusPickOne _ _ class _ key _ => opt_texts [class; key]
  | NAplusPickAny _ _ class _ key _ _ _ _ => opt_texts [class; key]
  | NAplusFreeText _ _ compare_method answer _ _ _ _ _ => [compare_method; answer]
  | NAplusPickChoice label _ _ _ => [label]
  | NAplusQuestionnaireHint label _ _ => [label]
  | NAplusSubmit _ key _ _ config _ _ class title category _ _ _ _ _ _ _ _ _ lti_id _ _ =>
      [key; config; class; title; category; lti_id]
  | NAplusActiveElementInput key title default class _ _ _ input_type file =>
      key :: opt_texts [title; default; class; file] ++
      match input_type with Some (AEDropdown t) => [t] | _ => [] end
  | NAplusActiveElementOutput key config inputs title class _ _ _ _ _ _ _ =>
      key :: config :: inputs :: opt_texts [title; class]
  | NUnknownDirective _ argument options _ => argument :: flat_map (fun kv => [fst kv; snd kv]) options
  | _ => []
  end.
(* the only environment name taken from the document *)
Definition env_names (d : TreeNodeType) : list str :=
  match d with NUnknownDirective name _ _ _ => [to_lowercase name] | _ => [] end.

(* ---------- C39: the order of a HashMap ---------- *)
(* an iteration order lists exactly the entries of the map *)
Definition is_order (ord : list (str * str) -> list (str * str)) : Prop := forall l, Permutation l (ord l).
(* a directive the program does not know, written with at most one option *)
Definition few_options (n : TreeNode) : Prop :=
  match node_data n with
  | NUnknownDirective _ _ (_ :: _ :: _) _ => False
  | _ => True
  end.
