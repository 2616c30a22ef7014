(* Blocks.v -- the block reading functions of /repo/src/parser/mod.rs. *)
From Verif Require Import Base Common NodeTypes.

(* types_and_aliases.rs:43-54 TextBlockResult.  Only Ok is ever returned: the
   Err arm (mod.rs:561-567) needs a line below src_lines.len() to be missing. *)
Record TextBlock := MkTextBlock { tb_lines : list str; tb_offset : nat }.

(* mod.rs:558-605, the `while` loop of read_text_block, from the current line
   on. *)
Fixpoint text_block_loop (rest : list str) (indent_allowed remove_indent : bool)
    (alignment : option nat) (until_blank : bool) : list str :=
  match rest with
  | [] => []
  | line :: rest' =>
      if blank line then
        if until_blank then []
        else trim line :: text_block_loop rest' indent_allowed remove_indent alignment until_blank
      else
        let line_indent := indent_of line in
        if negb indent_allowed && (0 <? line_indent) then []
        else if match alignment with Some a => negb (a =? line_indent) | None => false end then []
        else (if remove_indent then trim_start line else line)
             :: text_block_loop rest' indent_allowed remove_indent alignment until_blank
  end.

(* mod.rs:545-613 read_text_block *)
Definition read_text_block (src_lines : list str) (start_line : nat)
    (indent_allowed remove_indent : bool) (alignment : option nat) (until_blank : bool)
  : outcome TextBlock :=
  let! _ := checked_sub (length src_lines) start_line in
  let ls := text_block_loop (skipn start_line src_lines) indent_allowed remove_indent
              alignment until_blank in
  Ret (MkTextBlock ls (length ls)).

(* types_and_aliases.rs:56-70 IndentedBlockResult; None stands for
   EmptyLinesErr, the other error is never constructed. *)
Record IndentedBlock := MkIndentedBlock {
  ib_lines : list str; ib_min_indent : nat; ib_offset : nat; ib_blank_finish : bool }.

(* mod.rs:664-715, the `while` loop of read_indented_block, from the current
   line on.  `prev` is the line before the current one when the current line is
   not the start line.  Returns the lines pushed, the minimal indent and
   blank_finish (mod.rs:717-719 included). *)
Fixpoint indented_loop (rest : list str) (prev : option str) (until_blank : bool)
    (block_indent : option nat) (force_alignment : bool) (minimal : option nat)
  : list str * option nat * bool :=
  match rest with
  | [] => ([], minimal, true)
  | line :: rest' =>
      let line_is_empty := blank line in
      let line_indent := indent_of line in
      let misaligned :=
        match block_indent with
        | Some b => if force_alignment then negb (line_indent =? b) else line_indent <? b
        | None => false
        end in
      if negb line_is_empty && ((line_indent <? 1) || misaligned)
      then ([], minimal, match prev with Some p => blank p | None => false end)
      else if line_is_empty && until_blank then ([], minimal, true)
      else
        let minimal' :=
          match block_indent with
          | Some _ => minimal
          | None => match minimal with
                    | None => Some line_indent
                    | Some m => if 0 <? line_indent then Some (Nat.min m line_indent) else Some m
                    end
          end in
        let '(ls, m, bf) :=
          indented_loop rest' (Some line) until_blank block_indent force_alignment minimal' in
        (line :: ls, m, bf)
  end.

(* mod.rs:722-734: stripping *)
Definition strip_block (first_indent : option nat) (min_indent : nat) (ls : list str) : list str :=
  match first_indent, ls with
  | Some f, l :: ls' => skipn f l :: map (skipn min_indent) ls'
  | _, _ => map (skipn min_indent) ls
  end.

(* mod.rs:618-745 read_indented_block *)
Definition read_indented_block (src_lines : list str) (start_line : nat)
    (until_blank strip : bool) (block_indent first_indent : option nat)
    (force_alignment : bool) : outcome (option IndentedBlock) :=
  match src_lines with
  | [] => Ret None
  | _ =>
      let! _ := checked_sub (length src_lines) start_line in
      let first_indent :=
        match block_indent, first_indent with
        | Some b, None => Some b
        | _, _ => first_indent
        end in
      let! (ls, minimal, bf) :=
        match first_indent with
        | Some _ =>
            let! line := unwrap (nth_error src_lines start_line) in
            let '(ls, m, bf) := indented_loop (skipn (S start_line) src_lines) (Some line)
                                  until_blank block_indent force_alignment block_indent in
            Ret (line :: ls, m, bf)
        | None => Ret (indented_loop (skipn start_line src_lines) None
                         until_blank block_indent force_alignment block_indent)
        end in
      let ls := match minimal with
                | Some m => if strip then strip_block first_indent m ls else ls
                | None => ls
                end in
      let! m := unwrap minimal in
      Ret (Some (MkIndentedBlock ls m (length ls) bf))
  end.

(* mod.rs:528-541 skip_to_next_block and mod.rs:808-822 skip_empty_lines: the
   number of blank lines at the head. *)
Fixpoint blank_prefix (ls : list str) : nat :=
  match ls with
  | l :: ls' => if blank l then S (blank_prefix ls') else 0
  | [] => 0
  end.
Definition skip_empty_lines (src_lines : list str) (c : LineCursor) : LineCursor :=
  cur_add c (blank_prefix (skipn (cur_offset c) src_lines)).
(* The boolean says whether a non-empty line was found (Some(())). *)
Definition skip_to_next_block (src_lines : list str) (c : LineCursor) : LineCursor * bool :=
  let c' := skip_empty_lines src_lines c in
  (c', cur_offset c' <? length src_lines).

(* types_and_aliases.rs:90-95 IndentationMatch; mod.rs:748-762
   parent_indent_matches *)
Inductive IndentationMatch := TooLittle | JustRight | TooMuch.
Definition indent_match (parent_indent child_indent : nat) : IndentationMatch :=
  if child_indent <? parent_indent then TooLittle
  else if parent_indent =? child_indent then JustRight else TooMuch.

(* mod.rs:765-785 indent_on_subsequent_lines: the indent of the first line
   after current_line that is not blank (the second component is always 0). *)
Fixpoint first_indent_of (ls : list str) : option nat :=
  match ls with
  | l :: ls' => if blank l then first_indent_of ls' else Some (indent_of l)
  | [] => None
  end.
Definition indent_on_subsequent_lines (src_lines : list str) (current_line : nat)
  : option (nat * nat) :=
  match first_indent_of (skipn (S current_line) src_lines) with
  | Some i => Some (i, 0)
  | None => None
  end.

(* mod.rs:833-855 indent_from_next_line *)
Definition indent_from_next_line (src_lines : list str) (base_indent marker_indent
    indent_after_marker : nat) (c : LineCursor) : nat :=
  match nth_error src_lines (S (cur_offset c)) with
  | Some line =>
      if blank line then indent_after_marker
      else let indent := indent_of line + base_indent in
           if indent <? marker_indent + 1 then indent_after_marker else indent
  | None => indent_after_marker
  end.

(* mod.rs:801-813 line_suffix: drops the first start_index characters;
   `start_index - 1` underflows for 0. *)
Definition line_suffix (line : str) (start_index : nat) : outcome str :=
  let! _ := checked_sub start_index 1 in Ret (skipn start_index line).
(* mod.rs:788-798 line_prefix: drops the LAST end_index characters. *)
Definition line_prefix (line : str) (end_index : nat) : outcome str :=
  let! _ := checked_sub end_index 1 in Ret (firstn (length line - end_index) line).
