(* ParseLoop.v -- /repo/src/parser/mod.rs:92-303 Parser::parse, for an arbitrary
   table of transitions (the tables of /repo are in Parser.v). *)
From Verif Require Import Base Common NodeTypes Tree DocTree History Regex Prog.

(* state_machine/transitions.rs: a transition function takes the source lines,
   the base indent and the captures; the cursor and the document are the machine
   state.  The section level is only ever written and the pattern name only used
   by the literal block transitions, which get their own functions here. *)
Definition transition := list str -> nat -> caps -> prog tresult.
Definition transition_table := list (re * transition).

Section Loop.
  (* state_machine/mod.rs:158-186 get_transitions; None: no table, a panic *)
  Variable table : State -> option transition_table.

  (* The parser's variables between two iterations of the loop: mod.rs:38-66 and
     93-94.  The stack is listed top first. *)
  Record config := MkCfg {
    cf_stack : list State;
    cf_doc : DocTree;
    cf_cur : LineCursor;
    cf_changed : bool;
    cf_count : nat }.
  (* mod.rs:74-90 new *)
  Definition initial (base_line : nat) (start : State) (d : DocTree) : config :=
    MkCfg [start] d (MkCursor 0 base_line) false 0.

  Inductive next := Done (r : presult) (d : DocTree) | More (c : config).

  (* mod.rs:173-199: the first transition whose pattern matches the line *)
  Fixpoint find_transition (line : str) (tbl : transition_table) : option (transition * caps) :=
    match tbl with
    | [] => None
    | (r, t) :: tbl' => match captures r line with
                        | Some cs => Some (t, cs)
                        | None => find_transition line tbl'
                        end
    end.

  (* mod.rs:298-301: past the end, push EOF *)
  Definition end_check (src : list str) (c : config) : next :=
    More (if length src <=? cur_offset (cf_cur c)
          then MkCfg (SEOF :: cf_stack c) (cf_doc c) (cf_cur c) (cf_changed c) (cf_count c)
          else c).

  (* mod.rs:218-262: what a transition's result does to the stack and cursor *)
  Definition after_transition (c : config) (rest : list State) (t : tresult) (d : DocTree)
      (cur : LineCursor) : next :=
    match t with
    | TFailure => Done RFailure d
    | TSuccess pp adv =>
        let stack := match pp with
                     | Push states => rev states ++ cf_stack c
                     | Pop => rest
                     | Neither => cf_stack c
                     end in
        let cur := match adv with Some n => cur_add cur n | None => cur end in
        More (if cur_sum cur =? cur_sum (cf_cur c)
              then MkCfg stack d cur false (S (cf_count c))
              else MkCfg stack d cur true 0)
    end.

  Definition check_end (src : list str) (n : next) : next :=
    match n with Done r d => Done r d | More c => end_check src c end.

  (* mod.rs:96-302: one iteration of the loop *)
  Definition iterate (call : parse_call) (src : list str) (base_indent : nat) (c : config)
      : outcome next :=
    if negb (cf_changed c) && (10 <=? cf_count c) then Ret (Done RFailure (cf_doc c))
    else match cf_stack c with
    | [] => Ret (Done (REmptyStateStack []) (cf_doc c))
    | SEOF :: rest => Ret (Done (REOF (rev rest)) (cf_doc c))
    | SFailure :: rest => Ret (Done RFailure (cf_doc c))
    | s :: rest =>
        match table s with
        | None => Panic
        | Some tbl =>
            let no_match :=
              let! d := d_focus_on_parent (cf_doc c) in
              Ret (end_check src (MkCfg rest d (cf_cur c) false (cf_count c))) in
            match tbl with
            | [] => no_match
            | _ =>
                match nth_error src (cur_offset (cf_cur c)) with
                | None => Ret (Done RFailure (cf_doc c))
                | Some line =>
                    match find_transition line tbl with
                    | None => no_match
                    | Some (t, cs) =>
                        let! (r, d, cur) := pexec call (t src base_indent cs) (cf_doc c) (cf_cur c) in
                        Ret (check_end src (after_transition c rest r d cur))
                    end
                end
            end
        end
    end.

  (* mod.rs:92-303 the loop.  Fuel bounds the number of iterations plus the
     nesting of parsers; running out of it is not a result (OutOfFuel). *)
  Fixpoint parse_loop (fuel : nat) (src : list str) (base_indent : nat) (c : config)
      : outcome (presult * DocTree) :=
    match fuel with
    | 0 => OutOfFuel
    | S f =>
        let! n := iterate (fun src' bi bl st d => parse_loop f src' bi (initial bl st d)) src base_indent c in
        match n with
        | Done r d => Ret (r, d)
        | More c' => parse_loop f src base_indent c'
        end
    end.
  (* Parser::new(..).parse() *)
  Definition parse (fuel : nat) : parse_call :=
    fun src base_indent base_line start d => parse_loop fuel src base_indent (initial base_line start d).
End Loop.
