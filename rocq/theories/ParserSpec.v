(* ParserSpec.v -- what the parser properties talk about: runs of the parse
   loop, seen from outside.  Nothing here refers to how the loop is proved. *)
From Verif Require Import Base Common NodeTypes Tree DocTree History Regex Prog ParseLoop Parser.

(* one pass of the loop of /repo/src/parser/mod.rs:96-302 that does not return:
   from the variables c to the variables c'.  (The number only bounds how long
   nested parsers may take.) *)
Definition iteration (src : list str) (base_indent : nat) (c c' : config) : Prop :=
  exists fuel, iterate table (parse table fuel) src base_indent c = Ret (More c').
(* a pass that returns a result and a tree *)
Definition returns (src : list str) (base_indent : nat) (c : config) (r : presult) (d : DocTree) : Prop :=
  exists fuel, iterate table (parse table fuel) src base_indent c = Ret (Done r d).

(* the configurations a parse goes through *)
Inductive reached (src : list str) (base_indent base_line : nat) (start : State) (d0 : DocTree)
  : config -> Prop :=
| r_start : reached src base_indent base_line start d0 (initial base_line start d0)
| r_next c c' : reached src base_indent base_line start d0 c -> iteration src base_indent c c' ->
    reached src base_indent base_line start d0 c'.

(* the source line a configuration is at *)
Definition line_of (c : config) : nat := cur_offset (cf_cur c).

(* the topmost state has a transition whose pattern matches the current line *)
Definition some_pattern_matches (src : list str) (c : config) : Prop :=
  exists s rest tbl line r t, cf_stack c = s :: rest /\ table s = Some tbl /\
    nth_error src (line_of c) = Some line /\ In (r, t) tbl /\ captures r line <> None.

(* the same, counting the iterations that matched something but stayed on the line;
   iterations in which the topmost state matches nothing and is popped are not
   counted, and moving to another line starts again from 0 *)
Inductive stalled (src : list str) (base_indent base_line : nat) (start : State) (d0 : DocTree)
  : config -> nat -> Prop :=
| st_start : stalled src base_indent base_line start d0 (initial base_line start d0) 0
| st_moved c c' k : stalled src base_indent base_line start d0 c k -> iteration src base_indent c c' ->
    line_of c' <> line_of c -> stalled src base_indent base_line start d0 c' 0
| st_stayed c c' k : stalled src base_indent base_line start d0 c k -> iteration src base_indent c c' ->
    line_of c' = line_of c -> some_pattern_matches src c ->
    stalled src base_indent base_line start d0 c' (S k)
| st_popped c c' k : stalled src base_indent base_line start d0 c k -> iteration src base_indent c c' ->
    line_of c' = line_of c -> ~ some_pattern_matches src c ->
    stalled src base_indent base_line start d0 c' k.
