(* Writer.v -- model of /repo/src/doctree/larst_writer.rs: the text written for
   each node and the recursive writer.  `todo!()`, `unimplemented!()` and
   `panic!` are Panic. *)
From Verif Require Import Base Unicode Common NodeTypes Tree DocTree Utf8Latex.

(* The iteration order of a HashMap is not determined by its contents; the
   writer takes it as a parameter. *)
Definition hash_order := list (str * str) -> list (str * str).

(* ---------- string pieces ---------- *)
(* {text} and [text] *)
Definition braces (t : str) : str := lit "{" ++ t ++ lit "}".
Definition brackets (t : str) : str := lit "[" ++ t ++ lit "]".
Definition nl : str := [newline].
Definition begin_env (e : str) : str := lit "\begin{" ++ e ++ lit "}".
Definition end_env (e : str) : str := lit "\end{" ++ e ++ lit "}".
Definition comma : str := lit ",".
(* `if let Some(v) = o { options = options + key + v + "," }` *)
Definition opt_part (key : str) (o : option str) : str :=
  match o with Some v => key ++ v ++ comma | None => [] end.
(* the same for a flag *)
Definition flag_part (key : str) (b : bool) : str := if b then key ++ comma else [].
Definition some_flag {A} (o : option A) : bool := match o with Some _ => true | None => false end.
(* `if !options.is_empty() { format!("[{}]", options) }` *)
Definition bracketed (t : str) : str := match t with [] => [] | _ => brackets t end.
(* an option vector: the entries that are present *)
Definition opt_item {A} (f : A -> str) (o : option A) : list str :=
  match o with Some v => [f v] | None => [] end.
Definition flag_item (b : bool) (t : str) : list str := if b then [t] else [].
Definition nonempty_item (f : str -> str) (t : str) : list str := match t with [] => [] | _ => [f t] end.
Definition option_list (l : list str) : str := match l with [] => [] | _ => brackets (join comma l) end.

(* `{:.2}` for an f64.  Simplification: the exact quotient rounded half up. *)
Definition fmt2 (num den : N) : str :=
  let h := ((200 * num + den) / (2 * den))%N in
  let f := dec (h mod 100)%N in
  dec (h / 100)%N ++ lit "." ++ zeros (2 - length f) ++ f.
Fixpoint pow10 (n : nat) : N := match n with 0 => 1%N | S n' => (10 * pow10 n')%N end.
Definition fmt2_fnum (f : fnum) : str := fmt2 (mantissa f) (pow10 (scale f)).

(* directives.rs 58-75: Display for AdmonitionType *)
Definition admonition_display (a : AdmonitionType) : str :=
  match a with
  | AdmAttention => lit "attention" | AdmCaution => lit "caution" | AdmDanger => lit "danger"
  | AdmError => lit "error" | AdmHint => lit "hint" | AdmImportant => lit "important"
  | AdmNote => lit "note" | AdmTip => lit "tip" | AdmWarning => lit "warning"
  | AdmAdmonition t => lit "admonition: " ++ t
  end.
(* larst_writer.rs 1740-1754: rst_length_to_string *)
Definition rst_length_to_string (l : Length) : str := length_display l.
(* larst_writer.rs 876-896 and 1076-1095: exercise status names *)
Definition submit_status (s : AplusExerciseStatus) : str :=
  match s with
  | Ready => lit "status=ready" | Unlisted => lit "status=unlisted" | Hidden => lit "status=hidden"
  | Enrollment => lit "status=enrollment" | EnrollmentExt => lit "status=enrollment_ext"
  | Maintenance => lit "status=maintenance"
  end.
Definition output_status (s : AplusExerciseStatus) : str :=
  match s with
  | EnrollmentExt => lit "status=enrollment-ext" | _ => submit_status s
  end.
Definition clear_str (c : AplusActiveElementClear) : str :=
  match c with ClBoth => lit "clear=both" | ClLeft => lit "clear=left" | ClRight => lit "clear=right" end.

(* larst_writer.rs 1294-1467: anchor_string.  Only Figure, MathBlock and
   Section have an anchor command. *)
Definition anchor_kind (d : TreeNodeType) : option str * str :=
  match d with
  | NFigure _ _ _ _ name => (name, lit "label")
  | NMathBlock _ name _ => (name, lit "rstlabel")
  | NSection _ _ _ => (None, lit "rstlabel")
  | _ => (None, [])
  end.
Definition anchor1 (command name : str) : str :=
  match command with
  | [] => []
  | _ => lit "\" ++ command ++ braces name ++ nl
  end.
Definition anchor_string (d : TreeNodeType) (refnames : option (list str)) : str :=
  let (name, command) := anchor_kind d in
  match name with Some n => anchor1 command n | None => [] end ++
  match refnames with Some names => concat (map (anchor1 command) names) | None => [] end.

(* larst_writer.rs 180-1122: larst_pre_order_string *)
Definition pre_string (ord : hash_order) (full_doc : bool) (d : TreeNodeType)
    (refnames : option (list str)) : outcome str :=
  match d with
  | NAbsoluteURI text => Ret (lit "\url" ++ braces text)
  | NAdmonition _ _ _ variant =>
      match variant with
      | AdmAdmonition title => Ret (begin_env (lit "admonition") ++ braces title ++ nl)
      | _ => Ret (begin_env (admonition_display variant) ++ nl)
      end
  | NAttribution raw_text => Ret (lit "-- " ++ raw_text)
  | NBlockQuote _ => Ret (begin_env (lit "quotation") ++ nl)
  | NBulletList _ _ _ => Ret (begin_env (lit "itemize") ++ nl)
  | NBulletListItem _ _ _ => Ret (lit "\item ")
  | NCaption _ => Ret (lit "\captionof{figure}{")
  | NCitation _ label => Ret (lit "\bibitem" ++ braces label ++ nl)
  | NCitationReference displayed_text _ => Ret (lit "\cite" ++ braces displayed_text)
  | NClass _ _ => Ret []
  | NCode _ language _ _ _ =>
      Ret (begin_env (lit "codeblock") ++ match language with Some l => brackets l | None => [] end ++ nl)
  | NComment text =>
      match text with
      | Some comment => Ret (concat (map (fun l => lit "% " ++ l ++ nl) (lines comment)) ++ nl)
      | None => Ret []
      end
  | NDefinitionList _ => Ret (begin_env (lit "itemize") ++ nl)
  | NDefinitionListItem term classifiers _ =>
      Ret (lit "\item \textbf" ++ braces term ++
           match classifiers with [] => [] | _ => lit ": " ++ join (lit ", ") classifiers end ++ nl ++ nl)
  | NDocument =>
      if full_doc then Ret (lit "\documentclass{aplus}" ++ nl ++ begin_env (lit "document") ++ nl ++ nl)
      else Ret []
  | NEmphasis text => Ret (lit "\textit" ++ braces text)
  | NEmptyLine => Ret []
  | NEntry _ => Ret []
  | NEnumeratedList _ _ _ _ _ => Ret (begin_env (lit "enumerate") ++ nl)
  | NEnumeratedListItem _ _ _ _ _ => Ret (lit "\item ")
  | NFieldList _ => Ret (begin_env (lit "itemize") ++ nl)
  | NFieldListItem raw_marker_name _ _ _ => Ret (lit "\item \textbf" ++ braces raw_marker_name ++ nl ++ nl)
  | NFigure _ _ _ _ _ => Ret (begin_env (lit "center") ++ nl)
  | NFootnote _ _ _ _ => Ret (lit "\footnote{" ++ nl)
  | NFootnoteReference _ _ _ => Ret (lit "\footnotemark")
  | NImage uri alt height width scale align _ _ _ _ =>
      Ret (lit "\includegraphics" ++
           option_list (opt_item (fun v => v) alt
             ++ opt_item (fun h => lit "height=" ++ length_display h) height
             ++ opt_item (fun w => lit "width=" ++ length_display w) width
             ++ opt_item (fun v => lit "scale=" ++ fmt2_fnum v ++ lit "%") scale
             ++ opt_item (fun v => lit "align=" ++ html_align_display v) align) ++
           braces uri)
  | NInclude uri _ _ _ _ _ _ _ _ _ _ _ => Ret (lit "\input" ++ braces uri ++ nl)
  | NInterpretedText role content => Ret (lit "\" ++ role ++ braces content)
  | NListTable _ title widths _ _ _ _ =>
      match widths with
      | Some w =>
          let widths := match w with
                        | AutoWidths => []
                        | Columns vals => concat (map (fun v => lit "p" ++ braces (fmt2 (fr_num v) (fr_den v) ++ lit "\textwidth")) vals)
                        end in
          Ret (begin_env (lit "tabular") ++ option_list (opt_item (fun t => lit "title=" ++ t) title) ++
               braces widths ++ nl)
      | None => Panic
      end
  | NLiteral text => Ret (lit "\texttt" ++ braces text)
  | NLiteralBlock text => Ret (begin_env (lit "codeblock") ++ nl ++ unicode_text_to_latex text)
  | NMath text _ _ => Ret (lit "\(" ++ unicode_math_to_latex text ++ lit "\)")
  | NMathBlock math_block _ _ =>
      Ret (anchor_string d refnames ++ begin_env (lit "equation") ++ nl ++
           unicode_math_to_latex math_block ++ nl)
  | NParagraph _ => Ret []
  | NRaw => Ret (begin_env (lit "codeblock") ++ nl)
  | NReference displayed_text reference =>
      match reference, displayed_text with
      | RInternal r, Some t => Ret (lit "\hyperref" ++ brackets r ++ braces t)
      | RInternal r, None => Ret (lit "\ref" ++ braces r)
      | RURI r, Some t => Ret (lit "\href" ++ braces r ++ braces t)
      | RURI r, None => Ret (lit "\url" ++ braces r)
      | REMail r, Some t => Ret (lit "\href" ++ braces r ++ braces t)
      | REMail r, None => Ret (lit "\href" ++ braces r ++ braces r)
      end
  | NSection title_text level _ =>
      let command := match level with
                     | 1 => lit "chapter" | 2 => lit "section" | 3 => lit "subsection"
                     | _ => lit "subsubsection"
                     end in
      Ret (anchor_string d refnames ++ lit "\" ++ command ++ braces title_text ++ nl ++ nl)
  | NStrongEmphasis text => Ret (lit "\textbf" ++ braces text)
  | NSubscript text => Ret (lit "\textsubscript" ++ braces text)
  | NSuperscript text => Ret (lit "\textsuperscript" ++ braces text)
  | NTBody => Ret []
  | NText text => Ret text
  | NTRow => Ret []
  | NTitleReference displayed_text target_label =>
      Ret (lit "\hyperref" ++ brackets target_label ++ braces displayed_text)
  | NTransition => Ret (lit "\hrulefill" ++ nl)
  | NUnknownDirective directive_name argument options _ =>
      Ret (begin_env (to_lowercase directive_name) ++
           option_list (map (fun kv => fst kv ++ lit "=" ++ snd kv) (ord options)) ++
           (if blank argument then [] else braces argument) ++ nl)
  | NWhiteSpace text => Ret text
  | NSphinxOnly expression _ => Ret (begin_env (lit "only") ++ brackets expression ++ nl)
  | NSphinxCodeBlock language _ _ _ _ _ _ _ code_text =>
      Ret (begin_env (lit "codeblock") ++ brackets language ++ nl ++ code_text)
  | NAplusPOI title _ id previous next hidden class height columns bgimg not_in_slides not_in_book no_poi_box =>
      Ret (begin_env (lit "poi") ++
           bracketed (opt_part (lit "id=") id ++ opt_part (lit "previous=") previous
             ++ opt_part (lit "next=") next ++ flag_part (lit "hidden") (some_flag hidden)
             ++ opt_part (lit "class=") class
             ++ opt_part (lit "height=") (option_map rst_length_to_string height)
             ++ opt_part (lit "columns=") columns ++ opt_part (lit "bgimg=") bgimg
             ++ flag_part (lit "not_in_slides") (some_flag not_in_slides)
             ++ flag_part (lit "not_in_book") (some_flag not_in_book)
             ++ flag_part (lit "no_poi_box") (some_flag no_poi_box)) ++
           braces title ++ nl ++ nl)
  | NAplusColBreak => Ret (lit "\newcol" ++ nl ++ nl)
  | NAplusQuestionnaire _ points_from_children key max_points _ _ _ _ _ _ _ _ _ _ _ _ _ _ =>
      let points := match max_points with Some p => p | None => points_from_children end in
      Ret (begin_env (lit "quiz") ++ braces key ++ braces (dec points) ++ nl)
  | NAplusPickOne _ points class required key _ =>
      Ret (begin_env (lit "pick") ++
           bracketed (opt_part (lit "id=") class ++ flag_part (lit "required") required
             ++ opt_part (lit "key=") key) ++
           lit "{one}" ++ braces (dec points) ++ nl)
  | NAplusPickAny _ points class required key partial_points randomized correct_count preserve =>
      Ret (begin_env (lit "pick") ++
           bracketed (opt_part (lit "id=") class ++ flag_part (lit "required") required
             ++ opt_part (lit "key=") key ++ flag_part (lit "partial-points") partial_points
             ++ flag_part (lit "randomized") randomized
             ++ opt_part (lit "correct-count=") (option_map dec correct_count)
             ++ flag_part (lit "preserve-questions-between-attempts") preserve) ++
           lit "{any}" ++ braces (dec points) ++ nl)
  | NAplusFreeText _ points compare_method model_answer _ _ _ _ _ =>
      Ret (begin_env (lit "freetext") ++ braces compare_method ++ braces (dec points) ++ braces model_answer ++ nl)
  | NAplusPickChoices _ => Ret (begin_env (lit "answers") ++ nl)
  | NAplusPickChoice _ is_correct _ is_neutral =>
      Ret ((if is_neutral then lit "\undet" else if is_correct then lit "\right" else lit "\wrong") ++ lit " ")
  | NAplusQuestionnaireHints _ => Ret []
  | NAplusQuestionnaireHint label show_when_not_selected question_type =>
      Ret (lit "\feedback" ++
           braces ((if show_when_not_selected then [] else lit "!") ++
                   match question_type with
                   | PickOne | PickAny => lit "\ref" ++ braces label
                   | FreeText => []
                   end) ++ lit "{")
  | NAplusSubmit _ key _ max_points config submissions points_to_pass class title category status ajax
      viewing grading quiz _ _ _ lti lti_id lti_iframe lti_get_post =>
      let options :=
        nonempty_item (fun t => lit "config=" ++ t) config
        ++ [lit "submissions=" ++ dec submissions] ++ [lit "points-to-pass=" ++ dec points_to_pass]
        ++ nonempty_item (fun t => lit "class=" ++ t) class
        ++ nonempty_item (fun t => lit "title=" ++ t) title
        ++ nonempty_item (fun t => lit "category=" ++ t) category
        ++ [submit_status status]
        ++ flag_item ajax (lit "ajax")
        ++ flag_item viewing (lit "allow-assistant-viewing")
        ++ flag_item grading (lit "allow-assistant-grading")
        ++ flag_item quiz (lit "quiz")
        ++ nonempty_item (fun _ => lit "lti") lti
        ++ nonempty_item (fun t => lit "resource_link_id=" ++ t) lti_id
        ++ flag_item lti_iframe (lit "lti_open_in_iframe")
        ++ flag_item lti_get_post (lit "lti_aplus_get_and_post") in
      Ret (begin_env (lit "submit") ++ brackets (join comma options) ++ braces key ++ braces (dec max_points) ++ nl)
  | NAplusActiveElementInput key title default class width height clear input_type file =>
      let options :=
        opt_part (lit "default=") default ++ opt_part (lit "class=") class
        ++ opt_part (lit "width=") (option_map rst_length_to_string width)
        ++ opt_part (lit "height=") (option_map rst_length_to_string height)
        ++ opt_part [] (option_map clear_str clear)
        ++ match input_type with
           | Some AEFile => lit "type=file" ++ comma
           | Some AEClickable => lit "type=clickable" ++ comma
           | Some (AEDropdown o) => lit "type=dropdown:" ++ o ++ comma
           | None => []
           end
        ++ match input_type, file with
           | Some AEClickable, Some f => lit "file=" ++ f ++ comma
           | _, _ => []
           end in
      Ret (lit "\aeinput" ++ bracketed options ++ braces key ++
           braces match title with Some t => t | None => [] end)
  | NAplusActiveElementOutput key config inputs title class width height clear output_type submissions
      scale_size status =>
      let options :=
        lit "config=" ++ config ++ comma ++ opt_part (lit "class=") class
        ++ opt_part (lit "width=") (option_map rst_length_to_string width)
        ++ opt_part (lit "height=") (option_map rst_length_to_string height)
        ++ opt_part [] (option_map clear_str clear)
        ++ match output_type with AEText => lit "type=text" ++ comma | AEImage => lit "type=image" ++ comma end
        ++ opt_part (lit "submissions=") (option_map dec submissions)
        ++ flag_part (lit "scale-size") scale_size
        ++ output_status status ++ comma in
      Ret (lit "\aeoutput" ++ bracketed options ++ braces key ++ braces inputs ++
           braces match title with Some t => t | None => [] end)
  (* todo!() / unimplemented!() *)
  | NAbbreviation _ _ | NAcronym | NAddress | NAuthor | NAuthors | NAutomaticSectionNumbering _ _ _ _
  | NClassifier | NColSpec | NCompoundParagraph _ _ _ | NContact | NContainer _ _ _ | NCopyright
  | NCSVTable _ _ _ _ _ _ _ _ _ _ _ _ _ _ _ | NDate | NDecoration | NDefinition | NDescription
  | NDocInfo | NDoctestBlock | NExternalHyperlinkTarget _ _ _ | NField | NFieldBody _ | NFooter _
  | NHeader _ | NGenerated | NIndirectHyperlinkTarget _ _ _ | NInline | NInlineTarget _ | NLabel
  | NLegend _ | NLine | NLineBlock | NOptionList _ | NOptionListItem _ | NOptionString | NOrganization
  | NParsedLiteralBlock | NPending | NProblematic | NRevision | NRow | NRubric _ _ | NSidebar _ | NStatus
  | NSubstitutionDefinition | NSubstitutionReference _ _ | NSubtitle | NSystemMessage
  | NTable _ _ _ _ _ | NTarget | NTerm | NTGroup | NTHead | NTitle | NTopic _ _ _ _ _ | NVersion => Panic
  end.

(* larst_writer.rs 1125-1292: larst_post_order_string *)
Definition post_string (full_doc : bool) (d : TreeNodeType) (refnames : option (list str)) : outcome str :=
  match d with
  | NAbsoluteURI _ => Ret []
  | NAdmonition _ _ _ variant =>
      match variant with
      | AdmAdmonition _ => Ret (end_env (lit "admonition") ++ nl ++ nl)
      | _ => Ret (end_env (admonition_display variant) ++ nl ++ nl)
      end
  | NAttribution _ => Ret nl
  | NBlockQuote _ => Ret (end_env (lit "quotation") ++ nl ++ nl)
  | NBulletList _ _ _ => Ret (end_env (lit "itemize") ++ nl ++ nl)
  | NBulletListItem _ _ _ => Ret []
  | NCaption _ => Ret (lit "}" ++ nl)
  | NCitation _ _ => Ret nl
  | NCitationReference _ _ => Ret []
  | NClass _ _ => Ret []
  | NCode _ _ _ _ _ => Ret (end_env (lit "codeblock") ++ nl ++ nl)
  | NComment _ => Ret []
  | NCompoundParagraph _ _ _ => Ret nl
  | NDefinitionList _ => Ret (end_env (lit "itemize") ++ nl ++ nl)
  | NDefinitionListItem _ _ _ => Ret nl
  | NDocument => if full_doc then Ret (end_env (lit "document") ++ nl) else Ret []
  | NEmphasis _ => Ret []
  | NEmptyLine => Ret []
  | NEntry is_last => Ret (if is_last then [] else lit "&" ++ nl)
  | NEnumeratedList _ _ _ _ _ => Ret (end_env (lit "enumerate") ++ nl ++ nl)
  | NEnumeratedListItem _ _ _ _ _ => Ret []
  | NExternalHyperlinkTarget _ _ _ => Ret nl
  | NFieldList _ => Ret (end_env (lit "itemize") ++ nl ++ nl)
  | NFieldListItem _ _ _ _ => Ret nl
  | NFigure _ _ _ _ _ => Ret (anchor_string d refnames ++ end_env (lit "center") ++ nl ++ nl)
  | NFootnote _ _ _ _ => Ret (lit "}" ++ nl ++ nl)
  | NFootnoteReference _ _ _ => Ret []
  | NImage _ _ _ _ _ _ _ _ _ inline => Ret (if inline then [] else nl)
  | NInclude _ _ _ _ _ _ _ _ _ _ _ _ => Ret []
  | NInterpretedText _ _ => Ret []
  | NLegend _ => Ret nl
  | NLine => Ret nl
  | NLineBlock => Ret nl
  | NListTable _ _ _ _ _ _ _ => Ret (end_env (lit "tabular") ++ nl ++ nl)
  | NLiteral _ => Ret []
  | NLiteralBlock _ => Ret (nl ++ end_env (lit "codeblock") ++ nl ++ nl)
  | NMath _ _ _ => Ret []
  | NMathBlock _ _ _ => Ret (end_env (lit "equation") ++ nl ++ nl)
  | NOptionList _ => Ret nl
  | NOptionListItem _ => Ret nl
  | NParagraph _ => Ret (nl ++ nl)
  | NParsedLiteralBlock => Ret (nl ++ nl)
  | NRaw => Ret (end_env (lit "raw") ++ nl ++ nl)
  | NReference _ _ => Ret []
  | NRubric _ _ => Ret nl
  | NSection _ _ _ => Ret []
  | NSidebar _ => Ret nl
  | NStrongEmphasis _ => Ret []
  | NSubscript _ => Ret []
  | NSubstitutionDefinition => Ret nl
  | NSubstitutionReference _ _ => Ret []
  | NSubtitle => Ret []
  | NSuperscript _ => Ret []
  | NTable _ _ _ _ _ => Ret nl
  | NTarget => Ret nl
  | NTBody => Ret nl
  | NText _ => Ret []
  | NTHead => Ret nl
  | NTRow => Ret (lit "\\" ++ nl)
  | NTitleReference _ _ => Ret []
  | NTransition => Ret nl
  | NUnknownDirective directive_name _ _ _ => Ret (end_env (to_lowercase directive_name) ++ nl ++ nl)
  | NWhiteSpace _ => Ret []
  | NSphinxOnly _ _ => Ret (end_env (lit "only") ++ nl ++ nl)
  | NSphinxCodeBlock _ _ _ _ _ _ _ _ _ => Ret (end_env (lit "codeblock") ++ nl ++ nl)
  | NAplusPOI _ _ _ _ _ _ _ _ _ _ _ _ _ => Ret (end_env (lit "poi") ++ nl ++ nl)
  | NAplusColBreak => Ret []
  | NAplusQuestionnaire _ _ _ _ _ _ _ _ _ _ _ _ _ _ _ _ _ _ => Ret (end_env (lit "quiz") ++ nl ++ nl)
  | NAplusPickOne _ _ _ _ _ _ => Ret (end_env (lit "pick") ++ nl ++ nl)
  | NAplusPickAny _ _ _ _ _ _ _ _ _ => Ret (end_env (lit "pick") ++ nl ++ nl)
  | NAplusFreeText _ _ _ _ _ _ _ _ _ => Ret (end_env (lit "freetext") ++ nl ++ nl)
  | NAplusPickChoices _ => Ret (end_env (lit "answers") ++ nl ++ nl)
  | NAplusPickChoice label _ _ _ => Ret (lit " \label" ++ braces label ++ nl)
  | NAplusQuestionnaireHints _ => Ret nl
  | NAplusQuestionnaireHint _ _ _ => Ret (lit "}" ++ nl)
  | NAplusSubmit _ _ _ _ _ _ _ _ _ _ _ _ _ _ _ _ _ _ _ _ _ _ => Ret (end_env (lit "submit") ++ nl ++ nl)
  | NAplusActiveElementInput _ _ _ _ _ _ _ _ _ => Ret (nl ++ nl)
  | NAplusActiveElementOutput _ _ _ _ _ _ _ _ _ _ _ _ => Ret (nl ++ nl)
  (* todo!() *)
  | NAbbreviation _ _ | NAcronym | NAddress | NAuthor | NAuthors | NAutomaticSectionNumbering _ _ _ _
  | NClassifier | NColSpec | NContact | NContainer _ _ _ | NCopyright
  | NCSVTable _ _ _ _ _ _ _ _ _ _ _ _ _ _ _ | NDate | NDecoration | NDefinition | NDescription
  | NDocInfo | NDoctestBlock | NField | NFieldBody _ | NFooter _
  | NHeader _ | NGenerated | NIndirectHyperlinkTarget _ _ _ | NInline | NInlineTarget _ | NLabel
  | NOptionString | NOrganization
  | NPending | NProblematic | NRevision | NRow | NStatus
  | NSystemMessage | NTerm | NTGroup | NTitle | NTopic _ _ _ _ _ | NVersion => Panic
  end.

(* larst_writer.rs 121-134: write_to_larst of a node.  The result is the list
   of strings handed to the output stream, one per call of `write`, in order. *)
Fixpoint write_node (ord : hash_order) (full_doc : bool) (n : TreeNode) : outcome (list str) :=
  let 'Node _ refs _ d cs := n in
  let! pre := pre_string ord full_doc d refs in
  let! mid := (match cs with
               | Some l =>
                   (fix go l := match l with
                                | [] => Ret []
                                | c :: t => let! a := write_node ord full_doc c in
                                            let! b := go t in Ret (a ++ b)
                                end) l
               | None => Ret []
               end) in
  let! post := post_string full_doc d refs in
  Ret (pre :: mid ++ [post]).

(* larst_writer.rs 102-115: TreeZipper::write_to_larst, which starts at the
   root wherever the focus is; 21-64: the call from DocTree::write_to_larst *)
Definition write_tree (ord : hash_order) (full_doc : bool) (z : TreeZipper) : outcome (list str) :=
  let! root := z_walk_to_root z in
  write_node ord full_doc (z_node root).
Definition write_to_larst (ord : hash_order) (o : Options) (d : DocTree) : outcome (list str) :=
  write_tree ord (print_full_document o) (tree d).

(* ---------- the bytes that reach the output ---------- *)
(* UTF-8 encoding of a character (`str::as_bytes`) *)
Definition utf8_bytes (c : char) : list N :=
  (if c <? 0x80 then [c]
   else if c <? 0x800 then [0xC0 + c / 0x40; 0x80 + c mod 0x40]
   else if c <? 0x10000 then [0xE0 + c / 0x1000; 0x80 + (c / 0x40) mod 0x40; 0x80 + c mod 0x40]
   else [0xF0 + c / 0x40000; 0x80 + (c / 0x1000) mod 0x40; 0x80 + (c / 0x40) mod 0x40; 0x80 + c mod 0x40])%N.
Definition bytes (s : str) : list N := flat_map utf8_bytes s.
(* larst_writer.rs 142-150, 160-167: one call of `write` per string; the
   returned count is ignored.  `accepted` gives the number of bytes the
   operating system takes from each call (all of them when the list ends). *)
Fixpoint written_bytes (chunks : list str) (accepted : list nat) : list N :=
  match chunks with
  | [] => []
  | c :: t =>
      match accepted with
      | [] => bytes c ++ written_bytes t []
      | k :: ks => firstn k (bytes c) ++ written_bytes t ks
      end
  end.
