(* Body.v -- the transition functions of /repo/src/parser/state_machine other
   than the directives: body.rs, bullet_list.rs, enumerated_list.rs,
   definition_list.rs, field_list.rs, literal_block.rs, block_quote.rs,
   common.rs, unknown_transitions.rs, aplus.rs and the text transition of
   aplus_questionnaire.rs.

   Failure messages and eprintln! output are not modelled.  The section level
   (written at body.rs:1652-1690 and 1896-1960, never read) is left out. *)
From Verif Require Import Base Unicode Regex Patterns Common Converters NodeTypes Tree DocTree
  History Blocks Prog ParseLoop Inline.

(* ---------- shared pieces ---------- *)
(* captures.get(n).unwrap().as_str().chars().count() *)
Definition cap_len (n : nat) (cs : caps) : prog nat := let* s := get_cap n cs in PRet (length s).
(* captures.get(0).unwrap().as_str().chars().count() *)
Definition match_len (cs : caps) : nat := length (whole cs).
(* chars().next().unwrap() *)
Definition first_char (s : str) : prog char := match s with c :: _ => PRet c | [] => PPanic end.

(* mod.rs:748-762 parent_indent_matches on the focused node *)
Definition focus_matches (child_indent : nat) : prog IndentationMatch :=
  let* d := get_doc in
  match NodeTypes.body_indent (focused_data d) with
  | Some p => PRet (indent_match p child_indent)
  | None => PPanic
  end.

(* The arms IndentationMatch::TooMuch and TooLittle that almost every transition
   has, e.g. body.rs:62-90: open a block quote, or leave the current node. *)
Definition open_block_quote (indent : nat) : prog tresult :=
  let* ok := pushed (DPushFocus (NBlockQuote indent)) in
  PRet (if ok then TSuccess (Push [SBlockQuote]) None else TFailure).
Definition leave : prog tresult :=
  let* _ := focus_parent in PRet (TSuccess Pop None).
Definition by_indent (indent : nat) (just_right : prog tresult) : prog tresult :=
  let* m := focus_matches indent in
  match m with
  | JustRight => just_right
  | TooMuch => open_block_quote indent
  | TooLittle => leave
  end.
(* push_data_and_focus a list node, push its state, stay on the line *)
Definition open_list (x : TreeNodeType) (s : State) : prog tresult :=
  let* ok := pushed (DPushFocus x) in
  PRet (if ok then TSuccess (Push [s]) None else TFailure).

(* mod.rs:447-524 parse_first_node_block.  None: a failure. *)
Definition parse_first_node_block (src : list str) (base text_indent : nat)
    (first_indent : option nat) (start : State) (force : bool)
    : prog (option (list State * nat)) :=
  let* c := get_cursor in
  let* rel_first := lift (checked_sub (match first_indent with Some f => f | None => text_indent end) base) in
  let* rel_block := lift (checked_sub text_indent base) in
  let* b := lift (read_indented_block src (cur_offset c) true true (Some rel_block) (Some rel_first) force) in
  match b with
  | None => PRet None
  | Some ib =>
      PParse (ib_lines ib) text_indent (cur_sum c) start (fun r =>
        PRet (match r with
              | REOF stack | REmptyStateStack stack => Some (stack, ib_offset ib)
              | RFailure => None
              end))
  end.
(* what the callers do with it, e.g. body.rs:371-392 *)
Definition finish_first_block (r : option (list State * nat)) : tresult :=
  match r with
  | Some (stack, offset) => TSuccess (Push stack) (Some offset)
  | None => TFailure
  end.

(* Vec<String>::join with a newline *)
Definition join_lines (ls : list str) : str := join [newline] ls.

(* push_data of every node in order; false: one of them was refused *)
Fixpoint push_all (l : list TreeNodeType) : prog bool :=
  match l with
  | [] => PRet true
  | x :: l' => let* ok := pushed (DPush x) in if ok then push_all l' else PRet false
  end.

(* ---------- common.rs:10-25 empty_line, unknown_transitions.rs:19-34 back_up ---------- *)
Definition empty_line : transition := fun _ _ _ => PRet (TSuccess Neither (Some 1)).
Definition back_up : transition := fun _ _ _ => PRet (TSuccess Pop None).

(* ---------- body.rs ---------- *)
(* body.rs:14-90 bullet *)
Definition body_bullet : transition := fun _ base cs =>
  let* marker := get_cap 2 cs in
  let* bullet := first_char marker in
  let* i := cap_len 1 cs in
  let indent := i + base in
  let text_indent := match_len cs + base in
  by_indent indent (open_list (NBulletList bullet indent text_indent) SBulletList).

(* body.rs:2168-2326 parse_paragraph *)
Definition strip_indicator (block : str) : str * bool :=
  match find_from LITERAL_BLOCK_INDICATOR block 0 with
  | Some (_, cs) =>
      let n := if blank (opt_cap 1 cs) then 2 else 1 in
      (firstn (length block - n) block, true)
  | None => (block, false)
  end.
Definition parse_paragraph (src : list str) (base indent : nat) : prog tresult :=
  by_indent indent (
    let* c := get_cursor in
    let* relative := lift (checked_sub indent base) in
    let* b := lift (read_text_block src (cur_offset c) true true (Some relative) true) in
    let '(block, literal_next) := strip_indicator (trim_end (join_lines (tb_lines b))) in
    let* ok := pushed (DPushFocus (NParagraph indent)) in
    if negb ok then PRet TFailure else
    let* nodes := inline_parse true block in
    let done := PRet (TSuccess (if literal_next then Push [SLiteralBlock] else Neither) (Some 1)) in
    match nodes with
    | [] => let* _ := focus_parent in let* _ := doc_op DPop in done
    | _ => let* ok := push_all nodes in
           if ok then let* _ := focus_parent in done else PRet TFailure
    end).

(* body.rs:1643-1705, 1890-1960, 2000-2065: where a section with the given title
   and style goes.  A section of the same or a higher rank than the focused one
   leaves it first; any other node that is not the document is left too. *)
Definition open_section (title : str) (style : SectionLineStyle) (lines_used : nat) : prog tresult :=
  let* d := get_doc in
  let push :=
    let* ok := pushed (DSection title style) in
    PRet (if ok then TSuccess (Push [SSection]) (Some lines_used) else TFailure) in
  match focused_data d with
  | NDocument => push
  | NSection _ level _ =>
      if line_style_section_level (sections d) style <=? level then leave else push
  | _ => leave
  end.

(* body.rs:1608-1811 text *)
Definition body_text : transition := fun src base cs =>
  let* i := cap_len 1 cs in
  let indent := i + base in
  let* c := get_cursor in
  match nth_error src (S (cur_offset c)) with
  | None => parse_paragraph src base indent
  | Some next =>
      match captures LINE next with
      | Some _ =>
          if 0 <? indent then PRet TFailure else
          let* ch := first_char next in
          let* line := lift (unwrap (nth_error src (cur_offset c))) in
          open_section (trim line) (Under ch) 2
      | None =>
          match captures TEXT next with
          | Some tcs =>
              let* ni := cap_len 1 tcs in
              if indent <? ni + base
              then by_indent indent (open_list (NDefinitionList indent) SDefinitionList)
              else parse_paragraph src base indent
          | None => parse_paragraph src base indent
          end
      end
  end.

(* body.rs:94-205 enumerator *)
Definition body_enumerator : transition := fun src base cs =>
  let* i := cap_len 1 cs in
  let indent := i + base in
  let* c := get_cursor in
  let* r := lift (enum_captures_to_int_kind_and_delims cs None false false 0 1) in
  match r with
  | None => PRet TFailure
  | Some (number, kind, delims) =>
      let* is_item := lift (is_enumerated_list_item src c base indent number kind delims kind false 0 1) in
      if negb is_item then body_text src base cs else
      by_indent indent (open_list (NEnumeratedList delims kind number 0 indent) SEnumeratedList)
  end.

(* body.rs:210-279 field_marker *)
Definition body_field_marker : transition := fun _ base cs =>
  let* i := cap_len 1 cs in
  by_indent (i + base) (open_list (NFieldList (i + base)) SFieldList).

(* body.rs:2111-2164 detected_footnote_label_to_ref_label: (label, target) *)
Definition footnote_label (d : DocTree) (k : FootnoteKind) (detected : str) : outcome (option (str * str)) :=
  let name := normalize_refname detected in
  match k with
  | FManual => Ret (Some (name, name))
  | FAutoNumbered =>
      let! n := new_autonumber_footnote_label d in
      Ret (match n with Some n => Some (n, n) | None => None end)
  | FSimpleRefName =>
      let! n := new_autonumber_footnote_label d in
      Ret (match n with Some n => Some (n, name) | None => None end)
  | FAutoSymbol => Ret (match new_symbolic_footnote_label d with Some l => Some (l, l) | None => None end)
  end.
(* body.rs:304-320: which of the named groups took part *)
Definition footnote_kind (cs : caps) : option (FootnoteKind * str) :=
  match cap 2 cs, cap 3 cs, cap 4 cs, cap 5 cs with
  | Some l, _, _, _ => Some (FManual, l)
  | None, Some l, _, _ => Some (FAutoNumbered, l)
  | None, None, Some l, _ => Some (FSimpleRefName, l)
  | None, None, None, Some l => Some (FAutoSymbol, l)
  | None, None, None, None => None
  end.
(* body.rs:321-336 and 444-458 *)
Definition marker_body_indent (src : list str) (line marker_indent after_marker : nat) : nat :=
  match indent_on_subsequent_lines src line with
  | Some (i, _) => if marker_indent <? i then i else after_marker
  | None => after_marker
  end.

(* body.rs:283-424 footnote *)
Definition body_footnote : transition := fun src base cs =>
  let after_marker := match_len cs + base in
  let* c := get_cursor in
  match cap 1 cs with
  | None => PRet TFailure
  | Some ws =>
      let marker_indent := length ws + base in
      match footnote_kind cs with
      | None => PRet TFailure
      | Some (kind, detected) =>
          let body := marker_body_indent src (cur_offset c) marker_indent after_marker in
          let* d := get_doc in
          let* r := lift (footnote_label d kind detected) in
          match r with
          | None => PRet TFailure
          | Some (label, target) =>
              by_indent marker_indent (
                let* ok := pushed (DPushFocus (NFootnote body kind label target)) in
                if negb ok then PRet TFailure else
                let* r := parse_first_node_block src base body (Some after_marker) SFootnote false in
                PRet (finish_first_block r))
          end
      end
  end.

(* body.rs:427-534 citation *)
Definition body_citation : transition := fun src base cs =>
  let after_marker := match_len cs + base in
  let* i := cap_len 1 cs in
  let marker_indent := i + base in
  let* label := get_cap 2 cs in
  let* c := get_cursor in
  let body := marker_body_indent src (cur_offset c) marker_indent after_marker in
  by_indent marker_indent (
    let* ok := pushed (DPushFocus (NCitation body (trim label))) in
    if negb ok then PRet TFailure else
    let* r := parse_first_node_block src base body (Some after_marker) SCitation false in
    PRet (finish_first_block r)).

(* body.rs:537-733 hyperlink_target.  The indents leave out the base indent. *)
Definition body_hyperlink_target : transition := fun src base cs =>
  let* marker_indent := cap_len 1 cs in
  let text_indent := match_len cs in
  let* detected := get_cap 2 cs in
  let* c := get_cursor in
  let* label := if str_eqb detected (lit "_") then label_of DAnonTarget
                else PRet (normalize_refname detected) in
  let body := match nth_error src (S (cur_offset c)) with
              | Some l => if blank l then text_indent
                          else let i := indent_of l + base in
                               if i <? marker_indent + 3 then text_indent else i
              | None => text_indent
              end in
  by_indent marker_indent (
    let* b := lift (read_indented_block src (cur_offset c) true true (Some body) (Some text_indent) false) in
    match b with
    | None => PRet TFailure
    | Some ib =>
        let block := filter (fun ch => negb (is_whitespace ch)) (join_lines (ib_lines ib)) in
        match block with
        | [] => let* _ := doc_op (DLabel label) in PRet (TSuccess Neither (Some 1))
        | _ =>
            let* nodes := inline_parse true block in
            match nodes with
            | [] => PPanic
            | [NReference _ r] =>
                let* ok := pushed (DPushChild (match r with
                  | RInternal s => NIndirectHyperlinkTarget marker_indent label s
                  | RURI s | REMail s => NExternalHyperlinkTarget marker_indent label s
                  end)) in
                PRet (if ok then TSuccess Neither (Some 1) else TFailure)
            | _ => PRet TFailure
            end
        end
    end).

(* body.rs:1496-1604 comment *)
Definition body_comment : transition := fun src base cs =>
  let match_len := match_len cs + base in
  let* i := cap_len 1 cs in
  let marker_indent := i + base in
  let* c := get_cursor in
  let next_indent := match nth_error src (S (cur_offset c)) with
                     | Some l => if blank l then match_len
                                 else let i := indent_of l + base in
                                      if i <? marker_indent + 1 then match_len else i
                     | None => match_len
                     end in
  by_indent marker_indent (
    let* block_indent := lift (checked_sub next_indent base) in
    let* first_indent := lift (checked_sub match_len base) in
    let* b := lift (read_indented_block src (cur_offset c) false true (Some block_indent) (Some first_indent) false) in
    match b with
    | None => PRet TFailure
    | Some ib =>
        let text := trim (join_lines (ib_lines ib)) in
        let* ok := pushed (DPush (NComment (match text with [] => None | _ => Some text end))) in
        PRet (if ok then TSuccess Neither (Some (ib_offset ib)) else TFailure)
    end).

(* body.rs:1815-2107 line; TRANSITION_LINE_LENGTH is 4 *)
Definition body_line : transition := fun src base cs =>
  let* detected := get_cap 1 cs in
  let* ch := first_char detected in
  let len := length (trim_end detected) in
  let* c := get_cursor in
  let cur := cur_offset c in
  let prev := match cur with 0 => None | S n => nth_error src n end in
  match nth_error src (S cur) with
  | None => PRet TFailure
  | Some next =>
      if (match prev with Some p => blank p | None => false end) && blank next && (4 <=? len)
      then
        let* ok := pushed (DPush NTransition) in
        if ok then PRet (TSuccess Neither (Some 2)) else leave
      else if is_match TEXT next then
        match nth_error src (S (S cur)) with
        | None => PRet TFailure
        | Some under =>
            if negb (is_match LINE under) then PRet TFailure else
            let* uch := first_char (trim_end under) in
            if (ch =? uch)%N && (len =? length (trim_end under)) && (length (trim_end next) <=? len)
            then open_section (trim next) (OverAndUnder ch) 3
            else PRet TFailure
        end
      else if str_eqb (trim (whole cs)) (lit "::") then parse_paragraph src base 0
      else PRet TFailure
  end.

(* ---------- bullet_list.rs:13-84 bullet ---------- *)
(* The text indent of the item is a byte offset here. *)
Definition list_bullet : transition := fun src base cs =>
  let* marker := get_cap 2 cs in
  let* bullet := first_char marker in
  let* i := cap_len 1 cs in
  let indent := i + base in
  let text_indent := byte_len (whole cs) + base in
  let* d := get_doc in
  match focused_data d with
  | NBulletList b bi ti =>
      if (b =? bullet)%N && (bi =? indent) && (ti =? text_indent) then
        let* ok := pushed (DPushFocus (NBulletListItem b indent text_indent)) in
        if negb ok then PRet TFailure else
        let* r := parse_first_node_block src base text_indent None SListItem false in
        PRet (finish_first_block r)
      else leave
  | _ => PPanic
  end.

(* ---------- enumerated_list.rs:10-149 enumerator ---------- *)
Definition list_enumerator : transition := fun src base cs =>
  let* d := get_doc in
  match focused_data d with
  | NEnumeratedList list_delims list_kind start n_items list_indent =>
      let* i := cap_len 1 cs in
      let indent := i + base in
      let text_indent := match_len cs + base in
      let* c := get_cursor in
      let* r := lift (enum_captures_to_int_kind_and_delims cs (Some list_kind) true false n_items start) in
      match r with
      | None => PRet TFailure
      | Some (number, kind, delims) =>
          let* is_item := lift (is_enumerated_list_item src c base indent number kind delims list_kind true n_items start) in
          if negb is_item then body_text src base cs else
          if delims_eqb list_delims delims && kind_eqb kind list_kind && (list_indent =? indent)
             && (number =? n_items + start)%N
          then
            let* _ := doc_op DCountItem in
            let* ok := pushed (DPushFocus (NEnumeratedListItem list_delims kind number indent text_indent)) in
            if negb ok then PRet TFailure else
            let* rel := lift (checked_sub text_indent base) in
            let* b := lift (read_indented_block src (cur_offset c) false true (Some rel) (Some rel) false) in
            match b with
            | None => PRet TFailure
            | Some ib =>
                PParse (ib_lines ib) text_indent (cur_sum c) SListItem (fun r =>
                  PRet (match r with
                        | REOF stack | REmptyStateStack stack => TSuccess (Push stack) (Some (ib_offset ib))
                        | RFailure => TFailure
                        end))
            end
          else leave
      end
  | _ => PRet TFailure
  end.

(* ---------- definition_list.rs:11-104 text ---------- *)
(* str::split with a string separator: pieces between non-overlapping
   occurrences, found from the left.  `skip` counts the characters of an
   occurrence still to be dropped. *)
Fixpoint split_str_aux (sep s cur : str) (skip : nat) : list str :=
  match s with
  | [] => [rev cur]
  | c :: t =>
      match skip with
      | S k => split_str_aux sep t cur k
      | 0 => if starts_with sep s then rev cur :: split_str_aux sep t [] (length sep - 1)
             else split_str_aux sep t (c :: cur) 0
      end
  end.
Definition split_str (sep s : str) : list str := split_str_aux sep s [] 0.

Definition definition_text : transition := fun src base cs =>
  let* i := cap_len 1 cs in
  let indent := i + base in
  let* c := get_cursor in
  match nth_error src (S (cur_offset c)) with
  | None => leave
  | Some next =>
      let next_indent := indent_of next + base in
      if next_indent <=? indent then leave else
      match nth_error src (cur_offset c) with
      | None => PRet TFailure
      | Some line =>
          match split_str (lit " : ") line with
          | [] => PRet TFailure
          | term :: classifiers =>
              let* ok := pushed (DPushFocus (NDefinitionListItem term
                           (filter (fun s => negb (blank s)) classifiers) next_indent)) in
              PRet (if ok then TSuccess (Push [SListItem]) (Some 1) else TFailure)
          end
      end
  end.

(* ---------- field_list.rs:9-109 field_marker ---------- *)
Definition list_field_marker : transition := fun src base cs =>
  let after_marker := match_len cs + base in
  let* i := cap_len 1 cs in
  let indent := i + base in
  let* name := get_cap 2 cs in
  let* c := get_cursor in
  let body := indent_from_next_line src base indent after_marker c in
  let* d := get_doc in
  match focused_data d with
  | NFieldList marker_indent =>
      if marker_indent =? indent then
        let* nodes := inline_parse false name in
        match nodes with
        | [] => PRet TFailure
        | _ =>
            let* ok := pushed (DPushFocus (NFieldListItem name nodes indent body)) in
            if negb ok then PRet TFailure else
            let* r := parse_first_node_block src base body (Some after_marker) SListItem false in
            PRet (finish_first_block r)
        end
      else leave
  | _ => PRet TFailure
  end.

(* ---------- literal_block.rs ---------- *)
(* literal_block.rs:57-108 parse_indented_literal.  The detected indent, base
   indent included, is used as the block indent. *)
Definition parse_indented_literal (src : list str) (indent : nat) : prog tresult :=
  let* c := get_cursor in
  let* b := lift (read_indented_block src (cur_offset c) false true (Some indent) None false) in
  match b with
  | None => PRet TFailure
  | Some ib =>
      let* ok := pushed (DPush (NLiteralBlock (join_lines (ib_lines ib)))) in
      PRet (if ok then TSuccess Pop (Some (ib_offset ib)) else TFailure)
  end.
(* literal_block.rs:155-178: the quote character and the white space after it are
   removed from every line; None: a line starts with something else *)
Fixpoint unquote (q : char) (ls : list str) : option (list str) :=
  match ls with
  | [] => Some []
  | l :: ls' =>
      match l with
      | [] => match unquote q ls' with Some r => Some ([] :: r) | None => None end
      | c :: t => if (c =? q)%N
                  then match unquote q ls' with Some r => Some (trim_start t :: r) | None => None end
                  else None
      end
  end.
(* literal_block.rs:111-215 parse_quoted_literal *)
Definition parse_quoted_literal (src : list str) (cs : caps) (indent : nat) : prog tresult :=
  match cap 2 cs with
  | None => PRet TFailure
  | Some s =>
      let* q := first_char s in
      if negb (is_quote_char q) then PRet TFailure else
      let* c := get_cursor in
      let* b := lift (read_text_block src (cur_offset c) true true (Some indent) true) in
      match unquote q (tb_lines b) with
      | None => PRet TFailure
      | Some ls =>
          let* ok := pushed (DPush (NLiteralBlock (join_lines ls))) in
          PRet (if ok then TSuccess Pop (Some (tb_offset b)) else TFailure)
      end
  end.
(* literal_block.rs:18-54 literal_block; `quoted` tells the two pattern names
   apart *)
Definition literal_block (quoted : bool) : transition := fun src base cs =>
  let* i := cap_len 1 cs in
  let indent := i + base in
  let* d := get_doc in
  match NodeTypes.body_indent (focused_data d) with
  | None => PRet TFailure
  | Some body =>
      if body <? indent then parse_indented_literal src indent
      else if quoted && (indent =? body) then parse_quoted_literal src cs indent
      else PRet TFailure
  end.

(* ---------- block_quote.rs:12-133 attribution ---------- *)
Definition attribution : transition := fun src base cs =>
  let match_len := match_len cs + base in
  let* i := cap_len 1 cs in
  let indent := i + base in
  by_indent indent (
    let* c := get_cursor in
    let* line := lift (unwrap (nth_error src (cur_offset c))) in
    let* n := lift (checked_sub match_len base) in
    let* suffix := lift (line_suffix line n) in
    let first_indent := if blank suffix then None else Some match_len in
    let next_indent := match indent_on_subsequent_lines src (cur_offset c) with
                       | Some (i, o) => if (o =? 0) && (indent <=? i) then i else match_len
                       | None => match_len
                       end in
    let* b := lift (read_indented_block src (cur_offset c) true true (Some next_indent) first_indent true) in
    match b with
    | None => PPanic
    | Some ib =>
        let* ok := pushed (DPush (NAttribution (trim (join (lit " ") (ib_lines ib))))) in
        if negb ok then PRet TFailure else
        let* _ := focus_parent in
        PRet (TSuccess Pop (Some (ib_offset ib)))
    end).

(* ---------- aplus.rs:10-78 aplus_col_break ---------- *)
Definition aplus_col_break : transition := fun _ _ cs =>
  let* indent := cap_len 1 cs in
  by_indent indent (
    let* ok := pushed (DPush NAplusColBreak) in
    PRet (if ok then TSuccess Neither (Some 1) else TFailure)).

(* ---------- aplus_questionnaire.rs:10-93 parse_aplus_questionnaire_text ---------- *)
Definition questionnaire_text : transition := fun src base cs =>
  let* indent := cap_len 1 cs in
  let* m := focus_matches indent in
  match m with
  | JustRight =>
      let* c := get_cursor in
      let* b := lift (read_text_block src (cur_offset c) true true (Some indent) true) in
      let* nodes := inline_parse false (join_lines (tb_lines b)) in
      match nodes with
      | [] => PPanic
      | _ =>
          let* ok := pushed (DPushFocus (NParagraph indent)) in
          if negb ok then PRet TFailure else
          let* ok := push_all nodes in
          if negb ok then PRet TFailure else
          let* _ := focus_parent in
          PRet (TSuccess Neither (Some 1))
      end
  | _ => leave
  end.
