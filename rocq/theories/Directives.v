(* Directives.v -- the directive transition of /repo/src/parser/state_machine/body.rs
   (737-1493), the questionnaire directive of aplus_questionnaire.rs (98-177) and
   the parsers of /repo/src/parser/directive_parsers.rs they call.

   Not modelled: the parsers of that file that are never called (parse_include)
   or whose body is todo!(), and messages. *)
From Verif Require Import Base Unicode Regex Patterns Common Converters NodeTypes Tree DocTree
  History Blocks Prog ParseLoop Inline Body.

(* ---------- arguments and options ---------- *)
(* directive_parsers.rs:3764-3802: the argument lines at the head of `rest`.  The
   first of them is on the marker line if on_marker is set: its first
   first_indent characters are dropped.  The others have to be indented by
   exactly body_indent. *)
Fixpoint argument_lines (rest : list str) (body_indent first_indent : nat) (on_marker : bool) : list str :=
  match rest with
  | [] => []
  | line :: rest' =>
      if negb on_marker && negb (indent_of line =? body_indent) then [] else
      let text := if on_marker then skipn first_indent line else trim line in
      if blank text || is_match FIELD_MARKER text then []
      else text :: argument_lines rest' body_indent first_indent false
  end.
(* directive_parsers.rs:3744-3811 scan_directive_arguments.  first_indent is
   Some at every call.  The empty list stands for None. *)
Definition scan_arguments (src : list str) (body_indent first_indent : nat) (empty_after_marker : bool)
    : prog (list str) :=
  let* _ := advance (if empty_after_marker then 1 else 0) in
  let* c := get_cursor in
  let args := argument_lines (skipn (cur_offset c) src) body_indent first_indent (negb empty_after_marker) in
  let* _ := advance (length args) in
  PRet args.

(* directive_parsers.rs:3825-3855: the options at the head of `rest`, in order,
   and whether a blank line ended them *)
Fixpoint option_lines (rest : list str) (body_indent : nat) : list (str * str) * bool :=
  match rest with
  | [] => ([], false)
  | line :: rest' =>
      if blank line then ([], true) else
      match captures FIELD_MARKER line with
      | None => ([], false)
      | Some cs =>
          if negb (length (opt_cap 1 cs) =? body_indent) then ([], false) else
          let '(l, b) := option_lines rest' body_indent in
          ((trim (opt_cap 2 cs), trim (skipn (length (whole cs)) line)) :: l, b)
      end
  end.
(* HashMap::insert, one after the other.  Groups 1 and 2 of the field marker
   pattern always take part in a match, so opt_cap stands for unwrap above. *)
Definition option_map := list (str * str).
Definition insert_all (l : list (str * str)) : option_map :=
  fold_left (fun m kv => map_set m (fst kv) (snd kv)) l [].
(* directive_parsers.rs:3814-3863 scan_directive_options.  The empty map stands
   for None. *)
Definition scan_options (src : list str) (body_indent : nat) : prog option_map :=
  let* c := get_cursor in
  let '(l, ended_with_blank) := option_lines (skipn (cur_offset c) src) body_indent in
  let* _ := advance (length l) in
  match l with
  | [] => PRet []
  | _ => let* _ := advance (if ended_with_blank then 1 else 0) in PRet (insert_all l)
  end.
(* options.remove(key); no key is removed twice *)
Definition opt (m : option_map) (k : string) : option str := map_get m (lit k).
Definition has_opt (m : option_map) (k : string) : bool :=
  match opt m k with Some _ => true | None => false end.
Definition opt_or (m : option_map) (k : string) (default : str) : str :=
  match opt m k with Some v => v | None => default end.
Definition and_then {A B} (o : option A) (f : A -> option B) : option B :=
  match o with Some a => f a | None => None end.
Definition map_opt {A B} (f : A -> B) (o : option A) : option B :=
  match o with Some a => Some (f a) | None => None end.

(* directive_parsers.rs:3868-3901 aplus_key_difficulty_and_max_points *)
Definition exercise_args (s : str) : str * str * str :=
  match captures EXERCISE_ARGS s with
  | Some cs => (opt_cap 1 cs, opt_cap 2 cs, opt_cap 3 cs)
  | None => ([], [], [])
  end.

(* mod.rs:808-822 skip_empty_lines *)
Definition skip_empty (src : list str) : prog unit :=
  let* c := get_cursor in advance (blank_prefix (skipn (cur_offset c) src)).

(* the indents and the flag every directive parser is given *)
Record marker := MkMarker { m_body : nat; m_first : nat; m_empty : bool }.
Definition directive_parser := list str -> marker -> prog tresult.
Definition arguments (src : list str) (m : marker) : prog (list str) :=
  scan_arguments src (m_body m) (m_first m) (m_empty m).
Definition options (src : list str) (m : marker) : prog option_map := scan_options src (m_body m).

(* push_data_and_focus x, then go on in state s without moving *)
Definition open_node (x : TreeNodeType) (s : State) (adv : option nat) : prog tresult :=
  let* ok := pushed (DPushFocus x) in
  PRet (if ok then TSuccess (Push [s]) adv else TFailure).
(* push_data x *)
Definition add_node (x : TreeNodeType) (adv : option nat) : prog tresult :=
  let* ok := pushed (DPush x) in
  PRet (if ok then TSuccess Neither adv else TFailure).
(* read_indented_block(src, cursor, false, true, Some(body), first, false) *)
Definition body_block (src : list str) (m : marker) (first : option nat) : prog (option IndentedBlock) :=
  let* c := get_cursor in
  lift (read_indented_block src (cur_offset c) false true (Some (m_body m)) first false).
Definition space_join (ls : list str) : str := join (lit " ") ls.
Definition concat_lines (ls : list str) : str := join [] ls.

(* ---------- docutils directives ---------- *)
(* directive_parsers.rs:32-160 parse_standard_admonition *)
Definition parse_standard_admonition (variant : AdmonitionType) : directive_parser := fun src m =>
  let* args := arguments src m in
  let* opts := options src m in
  let* b := body_block src m (Some (m_body m)) in
  match b with
  | None => PRet TFailure
  | Some ib =>
      let* ok := pushed (DPushFocus (NAdmonition (m_body m) (opt opts "class") (opt opts "name") variant)) in
      if negb ok then PRet TFailure else
      let* c := get_cursor in
      PParse (args ++ ib_lines ib) (m_body m) (cur_sum c) SAdmonition (fun r =>
        PRet (match r with
              | REOF stack | REmptyStateStack stack => TSuccess (Push stack) (Some (ib_offset ib))
              | RFailure => TFailure
              end))
  end.

(* directive_parsers.rs:167-225 parse_generic_admonition *)
Definition parse_generic_admonition : directive_parser := fun src m =>
  let* args := arguments src m in
  match args with
  | [] => PRet TFailure
  | _ =>
      let* opts := options src m in
      open_node (NAdmonition (m_body m) (opt opts "class") (opt opts "name")
                   (AdmAdmonition (space_join args))) SAdmonition None
  end.

(* directive_parsers.rs:228-313 parse_image *)
Definition parse_image : directive_parser := fun src m =>
  let* args := arguments src m in
  match args with
  | [] => PRet TFailure
  | _ =>
      let* o := options src m in
      add_node (NImage (concat_lines args) (opt o "alt")
                  (and_then (opt o "height") str_to_length)
                  (and_then (opt o "width") str_to_length)
                  (and_then (opt o "scale") str_to_percentage)
                  (and_then (opt o "align") str_to_html_alignment)
                  (opt o "target") (opt o "name") (opt o "class") false) None
  end.

(* directive_parsers.rs:316-434 parse_figure *)
Definition parse_figure : directive_parser := fun src m =>
  let* args := arguments src m in
  match args with
  | [] => PRet TFailure
  | _ =>
      let* o := options src m in
      let image := NImage (concat_lines args) (opt o "alt")
                     (and_then (opt o "height") str_to_length)
                     (and_then (opt o "width") str_to_length)
                     (and_then (opt o "scale") str_to_percentage)
                     None (opt o "target") None (opt o "class") false in
      let figure := NFigure (m_body m)
                      (and_then (opt o "align") str_to_horizontal_alignment)
                      (and_then (opt o "figwidth") str_to_length)
                      (opt o "figclass")
                      (map_opt normalize_refname (opt o "name")) in
      let* ok := pushed (DPushFocus figure) in
      if negb ok then PRet TFailure else
      let* ok := pushed (DPush image) in
      PRet (if ok then TSuccess (Push [SFigure]) None else TFailure)
  end.

(* directive_parsers.rs:456-535 parse_code *)
Definition parse_code : directive_parser := fun src m =>
  let* args := arguments src m in
  let language := match args with [] => None | _ => Some (concat_lines args) end in
  let* o := options src m in
  let* b := body_block src m None in
  match b with
  | None => PRet TFailure
  | Some ib =>
      add_node (NCode (join_lines (ib_lines ib)) language (opt o "name") (opt o "class")
                  (opt o "number-lines")) (Some (ib_offset ib))
  end.

(* directive_parsers.rs:610-632: runs of lines that are not blank, each line
   preceded by a newline *)
Fixpoint math_blocks (ls : list str) (block : str) : list str :=
  match ls with
  | [] => if blank block then [] else [block]
  | l :: ls' =>
      if negb (blank l) then math_blocks ls' (block ++ newline :: l)
      else if negb (blank block) then block :: math_blocks ls' []
      else math_blocks ls' block
  end.
(* directive_parsers.rs:643-680: the nodes pushed, numbered from `counter` if
   there is more than one *)
Fixpoint math_nodes (blocks : list str) (name class : option str) (counter : option N) : list TreeNodeType :=
  match blocks with
  | [] => []
  | b :: bs =>
      let counter' := match name with Some _ => map_opt N.succ counter | None => counter end in
      NMathBlock (trim b)
        (map_opt (fun n => match counter' with Some k => n ++ dec k | None => n end) name) class
      :: math_nodes bs name class counter'
  end.
(* directive_parsers.rs:537-687 parse_math_block *)
Definition parse_math_block : directive_parser := fun src m =>
  let* args := arguments src m in
  let* o := options src m in
  match args with
  | _ :: _ => add_node (NMathBlock (join_lines args) (opt o "name") (opt o "class")) None
  | [] =>
      let* b := body_block src m (Some (m_body m)) in
      match b with
      | None => PRet TFailure
      | Some ib =>
          let blocks := math_blocks (ib_lines ib) [] in
          match blocks with
          | [] => PRet TFailure
          | _ =>
              let* ok := push_all (math_nodes blocks (opt o "name") (opt o "class")
                           (match blocks with [_] => None | _ => Some 0%N end)) in
              PRet (if ok then TSuccess Neither (Some (ib_offset ib)) else TFailure)
          end
      end
  end.

(* ---------- list tables ---------- *)
(* str::parse::<f64> on a word.  Simplification: only unsigned decimals with an
   optional plus sign; exponents, negative numbers, inf and nan, which Rust also
   accepts, are treated as words it refuses. *)
Definition decimal_word (s : str) : option frac :=
  let s := match s with c :: t => if N.eqb c (ch "+") then t else s | [] => s end in
  let digits := filter is_ascii_digit s in
  if forallb (fun c => is_ascii_digit c || N.eqb c (ch ".")) s
     && (length s <=? S (length digits)) && nonempty digits
  then let f := parse_f64 s in Some (Frac (mantissa f) (10 ^ N.of_nat (scale f))%N)
  else None.
Fixpoint decimal_words (l : list str) : outcome (list frac) :=
  match l with
  | [] => Ret []
  | w :: l' => let! f := unwrap (decimal_word w) in
               let! fs := decimal_words l' in Ret (f :: fs)
  end.
(* directive_parsers.rs:768-798 *)
Definition table_widths (w : option str) : outcome (option TableColWidths) :=
  match w with
  | None => Ret None
  | Some w =>
      if str_eqb (trim w) (lit "auto") then Ret (Some AutoWidths)
      else let! ws := decimal_words (split_whitespace w) in
           Ret (match ws with [] => None | _ => Some (Columns ws) end)
  end.
(* directive_parsers.rs:799-810 *)
Definition table_width (w : str) : option MetricType :=
  match str_to_length w with
  | Some l => Some (Lenght l)
  | None => map_opt Percentage (str_to_percentage w)
  end.
(* directive_parsers.rs:835-850 *)
Definition table_align (s : str) : option HorizontalAlignment :=
  if str_eqb s (lit "left") then Some HLeft
  else if str_eqb s (lit "center") then Some HCenter
  else if str_eqb s (lit "right") then Some HRight
  else None.

Definition is_bullet_list (n : TreeNode) : bool :=
  match node_data n with NBulletList _ _ _ => true | _ => false end.
Definition is_bullet_item (n : TreeNode) : bool :=
  match node_data n with NBulletListItem _ _ _ => true | _ => false end.
(* children.get(0), which has to be a bullet list: its children.
   directive_parsers.rs:921-1002; None: a failure *)
Definition first_list (n : TreeNode) : option (list TreeNode) :=
  match node_children n with
  | Some (l :: _) => if is_bullet_list l then node_children l else None
  | _ => None
  end.
Fixpoint max_columns (rows : list TreeNode) (acc : nat) : option nat :=
  match rows with
  | [] => Some acc
  | row :: rows' =>
      match first_list row with
      | None => None
      | Some items => max_columns rows' (Nat.max acc (length (filter is_bullet_item items)))
      end
  end.
Definition columns_of (table : TreeNode) : option nat :=
  match first_list table with Some rows => max_columns rows 0 | None => None end.
Definition even_widths (n : nat) : TableColWidths :=
  Columns (repeat (Frac 1 (N.of_nat n)) n).

(* directive_parsers.rs:900-904: focus on the parent once for every state but one *)
Fixpoint unwind (n : nat) : prog unit :=
  match n with 0 => PRet tt | S n' => let* _ := focus_parent in unwind n' end.

(* directive_parsers.rs:719-1036 parse_list_table *)
Definition parse_list_table : directive_parser := fun src m =>
  let* args := arguments src m in
  let title := space_join args in
  let* o := options src m in
  let* widths := lift (table_widths (opt o "widths")) in
  let* _ := skip_empty src in
  let* ok := pushed (DPushFocus (NListTable (m_body m)
               (match title with [] => None | _ => Some title end) widths
               (and_then (opt o "width") table_width)
               (and_then (opt o "header-rows") parse_u32)
               (and_then (opt o "stub-columns") parse_u32)
               (and_then (opt o "align") table_align))) in
  if negb ok then PRet TFailure else
  let* b := body_block src m None in
  match b with
  | None => PRet TFailure
  | Some ib =>
      let* c := get_cursor in
      PParse (ib_lines ib) (m_body m) (cur_sum c) SListTable (fun r =>
        match r with
        | RFailure => PRet TFailure
        | REOF stack | REmptyStateStack stack =>
            let* _ := unwind (length stack - 1) in
            let* d := get_doc in
            match focused_data d with
            | NListTable _ _ _ _ _ _ _ =>
                match columns_of (z_node (tree d)) with
                | None => PRet TFailure
                | Some n =>
                    let* _ := doc_op (DSetWidths (even_widths n)) in
                    PRet (TSuccess (Push [SListTable]) (Some (ib_offset ib)))
                end
            | _ => PRet TFailure
            end
        end)
  end.

(* directive_parsers.rs:1222-1324 parse_class.  The cursor is left before the
   contents. *)
Definition parse_class : directive_parser := fun src m =>
  let* args := arguments src m in
  match args with
  | [] => PRet TFailure
  | _ =>
      let* ok := pushed (DPushFocus (NClass (m_body m) (filter nonempty args))) in
      if negb ok then PRet TFailure else
      let* b := body_block src m None in
      match b with
      | None => PRet TFailure
      | Some ib =>
          let* c := get_cursor in
          PParse (ib_lines ib) (m_body m) (cur_sum c) SBody (fun r =>
            PRet (match r with
                  | REOF stack | REmptyStateStack stack => TSuccess (Push stack) None
                  | RFailure => TFailure
                  end))
      end
  end.

(* ---------- Sphinx directives ---------- *)
(* directive_parsers.rs:1477-1495: without the empty lines at both ends *)
Fixpoint drop_empty (ls : list str) : list str :=
  match ls with [] :: ls' => drop_empty ls' | _ => ls end.
Definition trim_empty (ls : list str) : list str := rev (drop_empty (rev (drop_empty ls))).
(* filter_map(|s| s.parse::<usize>().ok()) *)
Fixpoint numbers (l : list str) : list N :=
  match l with
  | [] => []
  | s :: l' => match parse_usize s with Some n => n :: numbers l' | None => numbers l' end
  end.
(* directive_parsers.rs:1420-1430 *)
Definition emphasized (s : str) : list N :=
  numbers (map trim (filter (fun p => negb (blank p)) (split_on (ch ",") s))).
(* directive_parsers.rs:1380-1540 parse_sphinx_code_block *)
Definition parse_sphinx_code_block : directive_parser := fun src m =>
  let* args := arguments src m in
  let language := match args with [] => lit "python" | _ => concat_lines args end in
  let* o := options src m in
  let lineno_start := and_then (opt o "lineno-start") parse_usize in
  let linenos := has_opt o "linenos" || match lineno_start with Some _ => true | None => false end in
  let* b := body_block src m None in
  match b with
  | None => PRet TFailure
  | Some ib =>
      add_node (NSphinxCodeBlock language linenos lineno_start
                  (map_opt emphasized (opt o "emphasize-lines")) (opt o "caption")
                  (map_opt normalize_refname (opt o "name"))
                  (and_then (opt o "dedent") parse_usize) (has_opt o "force")
                  (join_lines (trim_empty (ib_lines ib)) ++ [newline])) (Some (ib_offset ib))
  end.

(* directive_parsers.rs:1562-1617 parse_sphinx_only *)
Definition parse_sphinx_only : directive_parser := fun src m =>
  let* args := arguments src m in
  match space_join args with
  | [] => PRet TFailure
  | expression => open_node (NSphinxOnly expression (m_body m)) SBody (Some 1)
  end.

(* ---------- A+ directives ---------- *)
(* directive_parsers.rs:1635-1745 parse_aplus_questionnaire *)
Definition parse_aplus_questionnaire : directive_parser := fun src m =>
  let* args := arguments src m in
  match args with
  | [] => PRet TFailure
  | _ =>
      let '(key, difficulty, max_points) := exercise_args (space_join args) in
      let* o := options src m in
      open_node (NAplusQuestionnaire (m_body m) 0 key (parse_u32 max_points)
                   (match difficulty with [] => None | _ => Some difficulty end)
                   (opt o "submissions") (opt o "points-to-pass") (opt o "feedback") (opt o "title")
                   (opt o "no_override") (opt o "pick_randomly")
                   (opt o "preserve-questions-between-attempts") (opt o "category") (opt o "status")
                   (opt o "reveal-model-at-max-submissions") (opt o "show-model")
                   (opt o "allow-assistant-viewing") (opt o "allow-assistant-grading"))
        SAplusQuestionnaire None
  end.

(* push_data_and_focus x, push_data of the nodes, focus on the parent *)
Definition push_filled (x : TreeNodeType) (nodes : list TreeNodeType) : prog bool :=
  let* ok := pushed (DPushFocus x) in
  if negb ok then PRet false else
  let* ok := push_all nodes in
  if negb ok then PRet false else
  let* _ := focus_parent in PRet true.

(* The loops over the choices (directive_parsers.rs:1944-2031, 2371-2461) and the
   hints (2061-2160, 2491-2607, 2842-2955) of a question: as long as the line is
   indented by body_indent and matches, `item` makes a node and the text of its
   content; None is a failure.  Every round moves at least one line, so S
   (length src) rounds are enough.  The special case of the empty line at 2062
   makes no difference: the pattern does not match it. *)
Fixpoint items_loop (fuel : nat) (src : list str) (body_indent : nat) (r : re)
    (item : caps -> prog (option (TreeNodeType * str))) : prog bool :=
  match fuel with
  | 0 => PFuel
  | S f =>
      let* c := get_cursor in
      match nth_error src (cur_offset c) with
      | None => PRet true
      | Some line =>
          if negb (indent_of line =? body_indent) then PRet true else
          match captures r line with
          | None => PRet true
          | Some cs =>
              let* i := item cs in
              match i with
              | None => PRet false
              | Some (x, text) =>
                  let* nodes := inline_parse false text in
                  match nodes with
                  | [] => PRet false
                  | _ =>
                      let* ok := push_filled x nodes in
                      if negb ok then PRet false else
                      let* _ := advance 1 in
                      items_loop f src body_indent r item
                  end
              end
          end
      end
  end.
Definition items (src : list str) (m : marker) (r : re)
    (item : caps -> prog (option (TreeNodeType * str))) : prog bool :=
  items_loop (S (length src)) src (m_body m) r item.

Definition took_part (n : nat) (cs : caps) : bool := match cap n cs with Some _ => true | None => false end.
Definition pick_one_item (cs : caps) : prog (option (TreeNodeType * str)) :=
  let* label := get_cap 4 cs in
  let answer := opt_cap 5 cs in
  PRet (if blank answer then None
        else Some (NAplusPickChoice label (took_part 3 cs) (took_part 2 cs) false, answer)).
Definition pick_any_item (cs : caps) : prog (option (TreeNodeType * str)) :=
  let* label := get_cap 5 cs in
  let answer := opt_cap 6 cs in
  PRet (if blank answer then None
        else Some (NAplusPickChoice label (took_part 4 cs) (took_part 2 cs) (took_part 3 cs), answer)).
Definition hint_item (type : AplusQuestionnaireType) (cs : caps) : prog (option (TreeNodeType * str)) :=
  PRet (match cap 3 cs, cap 4 cs with
        | Some label, Some hint =>
            let label := match type with FreeText => trim label | _ => label end in
            let hint := trim hint in
            if blank hint then None
            else Some (NAplusQuestionnaireHint label (took_part 2 cs) type, hint)
        | _, _ => None
        end).

(* The hints and the way back to the questionnaire: directive_parsers.rs:2042-2177,
   2472-2622, 2822-2962 *)
Definition finish_question (src : list str) (m : marker) (type : AplusQuestionnaireType) : prog tresult :=
  let* _ := skip_empty src in
  let* ok := pushed (DPushFocus (NAplusQuestionnaireHints (m_body m))) in
  if negb ok then PRet TFailure else
  let* ok := items src m (match type with FreeText => FREETEXT_HINT | _ => PICK_HINT end) (hint_item type) in
  if negb ok then PRet TFailure else
  let* _ := skip_empty src in
  let* _ := focus_parent in
  let* _ := focus_parent in
  PRet (TSuccess Neither None).

(* The assignment read as a text block: its inline nodes, or None for a failure.
   directive_parsers.rs:1868-1890, 2308-2328, 2738-2757 *)
Definition assignment (src : list str) (m : marker) : prog (option (list TreeNodeType)) :=
  let* c := get_cursor in
  let* b := lift (read_text_block src (cur_offset c) true true (Some (m_body m)) true) in
  let* nodes := inline_parse false (join_lines (tb_lines b)) in
  match nodes with
  | [] => PRet None
  | _ => let* _ := advance 1 in PRet (Some nodes)
  end.
(* The optional assignment of a pick question, pushed as a paragraph.
   directive_parsers.rs:1852-1926 and 2292-2358; the additional skips over empty
   lines of pick-one have no other effect since one follows here. *)
Definition pick_assignment (src : list str) (m : marker) (choice : re) : prog bool :=
  let* _ := skip_empty src in
  let* c := get_cursor in
  match nth_error src (cur_offset c) with
  | None => PRet false
  | Some line =>
      if is_match choice line then PRet true else
      let* a := assignment src m in
      match a with
      | None => PRet false
      | Some nodes => push_filled (NParagraph (m_body m)) nodes
      end
  end.
(* The choices: directive_parsers.rs:1928-2041 and 2360-2471 *)
Definition pick_choices (src : list str) (m : marker) (choice : re)
    (item : caps -> prog (option (TreeNodeType * str))) : prog bool :=
  let* _ := skip_empty src in
  let* ok := pushed (DPushFocus (NAplusPickChoices (m_body m))) in
  if negb ok then PRet false else
  let* ok := items src m choice item in
  if negb ok then PRet false else
  let* d := get_doc in
  let* n := lift (z_n_of_children (tree d)) in
  if n =? 0 then PRet false else
  let* _ := focus_parent in PRet true.
(* everything after the question node itself has been made *)
Definition pick_question (src : list str) (m : marker) (node : TreeNodeType) (choice : re)
    (item : caps -> prog (option (TreeNodeType * str))) (type : AplusQuestionnaireType) : prog tresult :=
  let* ok := pushed (DPushFocus node) in
  if negb ok then PRet TFailure else
  let* ok := pick_assignment src m choice in
  if negb ok then PRet TFailure else
  let* ok := pick_choices src m choice item in
  if negb ok then PRet TFailure else
  finish_question src m type.

(* directive_parsers.rs:1749-2178 parse_aplus_pick_one *)
Definition parse_aplus_pick_one : directive_parser := fun src m =>
  let* args := arguments src m in
  match args with
  | [] => PRet TFailure
  | _ =>
      match parse_u32 (space_join args) with
      | None => PRet TFailure
      | Some points =>
          let* _ := doc_op (DAddPoints points) in
          let* o := options src m in
          let* _ := skip_empty src in
          pick_question src m
            (NAplusPickOne (m_body m) points (opt o "class") (has_opt o "required") (opt o "key")
               (has_opt o "dropdown")) PICK_ONE_CHOICE pick_one_item PickOne
      end
  end.

(* directive_parsers.rs:2181-2625 parse_aplus_pick_any *)
Definition parse_aplus_pick_any : directive_parser := fun src m =>
  let* args := arguments src m in
  match args with
  | [] => PRet TFailure
  | _ =>
      match parse_u32 (space_join args) with
      | None => PRet TFailure
      | Some points =>
          let* _ := doc_op (DAddPoints points) in
          let* o := options src m in
          let randomized := has_opt o "randomized" && has_opt o "correct-count" in
          let count := and_then (opt o "correct-count") parse_u32 in
          if randomized && negb (match count with Some _ => true | None => false end) then PRet TFailure else
          pick_question src m
            (NAplusPickAny (m_body m) points (opt o "class") (has_opt o "required") (opt o "key")
               (has_opt o "partial-points") randomized (if randomized then count else None)
               (has_opt o "preserve-questions-between-attempts")) PICK_ANY_CHOICE pick_any_item PickAny
      end
  end.

(* directive_parsers.rs:2628-2963 parse_aplus_freetext *)
Definition parse_aplus_freetext : directive_parser := fun src m =>
  let* args := arguments src m in
  match args with
  | [] => PRet TFailure
  | _ =>
      let words := split_whitespace (space_join args) in
      match and_then (hd_error words) parse_u32 with
      | None => PRet TFailure
      | Some points =>
          let method := match words with _ :: w :: _ => w | _ => [] end in
          let* _ := doc_op (DAddPoints points) in
          let* o := options src m in
          let* ok := pushed (DPushFocus (NAplusFreeText (m_body m) points method [] (opt o "class")
                       (opt o "required") (opt o "key") (opt o "length") (opt o "height"))) in
          if negb ok then PRet TFailure else
          let* _ := skip_empty src in
          let* a := assignment src m in
          match a with
          | None => PRet TFailure
          | Some nodes =>
              let* ok := push_filled (NParagraph (m_body m)) nodes in
              if negb ok then PRet TFailure else
              let* _ := skip_empty src in
              let* c := get_cursor in
              match nth_error src (cur_offset c) with
              | None => PRet TFailure
              | Some line =>
                  if negb (indent_of line =? m_body m) then PRet TFailure else
                  let* ok := pushed (DAddAnswer (trim line)) in
                  if negb ok then PRet TFailure else
                  let* _ := advance 1 in
                  finish_question src m FreeText
              end
          end
      end
  end.

(* directive_parsers.rs:3056-3071 and 3452-3465 *)
Definition exercise_status (s : option str) : AplusExerciseStatus :=
  match s with
  | None => Unlisted
  | Some s =>
      let s := trim s in
      if str_eqb s (lit "ready") then Ready
      else if str_eqb s (lit "hidden") then Hidden
      else if str_eqb s (lit "enrollment") then Enrollment
      else if str_eqb s (lit "enrollment_ext") then EnrollmentExt
      else if str_eqb s (lit "maintenance") then Maintenance
      else Unlisted
  end.
(* directive_parsers.rs:3073-3093; None: a failure *)
Definition tokenizer (s : option str) : option AplusRadarTokenizer :=
  match s with
  | None => Some NoTokenizer
  | Some s =>
      let s := trim s in
      if str_eqb s (lit "python") then Some Python3
      else if str_eqb s (lit "scala") then Some Scala
      else if str_eqb s (lit "javascript") then Some JavaScript
      else if str_eqb s (lit "css") then Some CSS
      else if str_eqb s (lit "html") then Some HTML
      else None
  end.
Definition number_or (o : option str) (default : N) : N :=
  match and_then o parse_u32 with Some n => n | None => default end.
(* directive_parsers.rs:2966-3195 parse_aplus_submit *)
Definition parse_aplus_submit : directive_parser := fun src m =>
  let* args := arguments src m in
  match args with
  | [] => PRet TFailure
  | _ =>
      let '(key, difficulty, max_points) := exercise_args (space_join args) in
      let* _ := skip_empty src in
      let* o := options src m in
      match opt o "config", tokenizer (opt o "radar-tokenizer") with
      | Some config, Some tok =>
          open_node (NAplusSubmit (m_body m) key difficulty (number_or (Some max_points) 10) config
                       (number_or (opt o "submissions") 10) (number_or (opt o "points-to-pass") 0)
                       (opt_or o "class" []) (opt_or o "title" []) (opt_or o "category" (lit "submit"))
                       (exercise_status (opt o "status")) (has_opt o "ajax")
                       (has_opt o "allow-assistant-viewing") (has_opt o "allow-assistant-grading")
                       (has_opt o "quiz") (opt_or o "url" []) tok
                       (match tok with
                        | NoTokenizer => None
                        | _ => and_then (opt o "radar_minimum_match_tokens") parse_u32
                        end)
                       (opt_or o "lti" []) (opt_or o "lti_resource_link_id" [])
                       (has_opt o "lti_open_in_iframe") (has_opt o "lti_aplus_get_and_post"))
            SBody None
      | _, _ => PRet TFailure
      end
  end.

(* directive_parsers.rs:3257-3268, 3413-3423 *)
Definition clear_of (s : str) : option AplusActiveElementClear :=
  if str_eqb s (lit "both") then Some ClBoth
  else if str_eqb s (lit "left") then Some ClLeft
  else if str_eqb s (lit "right") then Some ClRight
  else None.
(* directive_parsers.rs:3269-3297 *)
Definition input_type_of (s : str) : option AplusActiveElementInputType :=
  if str_eqb s (lit "file") then Some AEFile
  else if str_eqb s (lit "clickable") then Some AEClickable
  else if starts_with (lit "dropdown:") s then Some (AEDropdown (last (split_on (ch ":") s) []))
  else None.
(* an option that is given but invalid *)
Definition invalid {A} (f : str -> option A) (o : option str) : bool :=
  match o with Some s => match f s with Some _ => false | None => true end | None => false end.
(* directive_parsers.rs:3201-3328 parse_aplus_active_element_input *)
Definition parse_ae_input : directive_parser := fun src m =>
  let* args := arguments src m in
  match args with
  | [] => PRet TFailure
  | _ =>
      let* o := options src m in
      if invalid clear_of (opt o "clear") || invalid input_type_of (opt o "type") then PRet TFailure else
      add_node (NAplusActiveElementInput (space_join args) (opt o "title") (opt o "default") (opt o "class")
                  (and_then (opt o "width") str_to_length) (and_then (opt o "height") str_to_length)
                  (and_then (opt o "clear") clear_of) (and_then (opt o "type") input_type_of)
                  (match opt o "type" with
                   | Some t => if str_eqb t (lit "clickable") then opt o "file" else None
                   | None => None
                   end)) None
  end.
(* directive_parsers.rs:3331-3492 parse_aplus_active_element_output *)
Definition parse_ae_output : directive_parser := fun src m =>
  let* args := arguments src m in
  match args with
  | [] => PRet TFailure
  | _ =>
      let* o := options src m in
      match opt o "config", opt o "inputs" with
      | Some config, Some inputs =>
          add_node (NAplusActiveElementOutput (space_join args) config inputs (opt o "title") (opt o "class")
                      (and_then (opt o "width") str_to_length) (and_then (opt o "height") str_to_length)
                      (and_then (opt o "clear") clear_of)
                      (match opt o "type" with
                       | Some t => if str_eqb t (lit "image") then AEImage else AEText
                       | None => AEText
                       end)
                      (and_then (opt o "submissions") parse_u32) (has_opt o "scale-size")
                      (exercise_status (opt o "status"))) None
      | _, _ => PRet TFailure
      end
  end.
(* directive_parsers.rs:3502-3600 parse_aplus_point_of_interest *)
Definition parse_poi : directive_parser := fun src m =>
  let* args := arguments src m in
  let* o := options src m in
  open_node (NAplusPOI (space_join args) (m_body m) (opt o "id") (opt o "previous") (opt o "next")
               (opt o "hidden") (opt o "class") (and_then (opt o "height") str_to_length) (opt o "columns")
               (opt o "bgimg") (opt o "not_in_slides") (opt o "not_in_book") (opt o "no_poi_box"))
    SAplusMultiCol None.
(* directive_parsers.rs:3647-3703 parse_unknown_directive *)
Definition parse_unknown_directive (name : str) : directive_parser := fun src m =>
  let* args := arguments src m in
  let* o := options src m in
  open_node (NUnknownDirective name (trim (space_join args)) o (m_body m)) SBody None.

(* ---------- dispatch ---------- *)
(* body.rs:748-755 *)
Definition directive_label (s : str) : str := to_lowercase (concat (split_whitespace (to_lowercase s))).
(* body.rs:757-765: the rest of the line after the marker is blank or absent *)
Definition empty_after (line : str) (first_indent : nat) : bool := blank (skipn first_indent line).
Definition standard_admonition (label : str) : option AdmonitionType :=
  if str_eqb label (lit "attention") then Some AdmAttention
  else if str_eqb label (lit "caution") then Some AdmCaution
  else if str_eqb label (lit "danger") then Some AdmDanger
  else if str_eqb label (lit "error") then Some AdmError
  else if str_eqb label (lit "hint") then Some AdmHint
  else if str_eqb label (lit "important") then Some AdmImportant
  else if str_eqb label (lit "note") then Some AdmNote
  else if str_eqb label (lit "tip") then Some AdmTip
  else if str_eqb label (lit "warning") then Some AdmWarning
  else None.
Definition directive_parsers : list (string * directive_parser) :=
  [("admonition", parse_generic_admonition); ("image", parse_image); ("figure", parse_figure);
   ("code", parse_code); ("math", parse_math_block); ("list-table", parse_list_table);
   ("footnotes", fun _ _ => PPanic); ("citations", fun _ _ => PPanic);
   ("class", parse_class); ("code-block", parse_sphinx_code_block); ("sourcecode", parse_sphinx_code_block);
   ("only", parse_sphinx_only); ("questionnaire", parse_aplus_questionnaire);
   ("submit", parse_aplus_submit); ("ae-input", parse_ae_input); ("ae-output", parse_ae_output);
   ("point-of-interest", parse_poi)]%string.
Fixpoint find_parser (l : list (string * directive_parser)) (label : str) : directive_parser :=
  match l with
  | [] => parse_unknown_directive label
  | (name, p) :: l' => if str_eqb label (lit name) then p else find_parser l' label
  end.
(* body.rs:773-1460: the arms of the match; every name not listed goes to
   parse_unknown_directive, most of them by arms of their own *)
Definition parser_for (label : str) : directive_parser :=
  match standard_admonition label with
  | Some v => parse_standard_admonition v
  | None => find_parser directive_parsers label
  end.
(* body.rs:737-1493 directive *)
Definition directive : transition := fun src base cs =>
  let* i := cap_len 1 cs in
  let marker_indent := i + base in
  let* name := get_cap 2 cs in
  let first_indent := match_len cs in
  let* c := get_cursor in
  let* line := lift (unwrap (nth_error src (cur_offset c))) in
  let body := match indent_on_subsequent_lines src (cur_offset c) with
              | Some (i, _) => i
              | None => first_indent
              end in
  by_indent marker_indent
    (parser_for (directive_label name) src (MkMarker body first_indent (empty_after line first_indent))).

(* aplus_questionnaire.rs:98-177 parse_aplus_questionnaire_directive *)
Definition questionnaire_directive : transition := fun src base cs =>
  let* i := cap_len 1 cs in
  let marker_indent := i + base in
  let* name := get_cap 2 cs in
  let label := to_lowercase (concat (split_whitespace name)) in
  let first_indent := match_len cs + base in
  let* c := get_cursor in
  let* line := lift (unwrap (nth_error src (cur_offset c))) in
  let body := match indent_on_subsequent_lines src (S (cur_offset c)) with
              | Some (i, _) => i + base
              | None => first_indent
              end in
  let mk := MkMarker body first_indent (empty_after line first_indent) in
  let* r := focus_matches marker_indent in
  match r with
  | JustRight =>
      if str_eqb label (lit "pick-one") then parse_aplus_pick_one src mk
      else if str_eqb label (lit "pick-any") then parse_aplus_pick_any src mk
      else if str_eqb label (lit "freetext") then parse_aplus_freetext src mk
      else leave
  | _ => leave
  end.
