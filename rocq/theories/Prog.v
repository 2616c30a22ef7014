(* Prog.v -- the language the parser's transition functions are modelled in.

   In /repo every transition function owns the DocTree (it is moved in and moved
   out again, so it is threaded linearly) and holds the LineCursor by mutable
   reference.  All it does to them is call DocTree methods and
   LineCursor::increment_by; the parser's private functions that could set the
   cursor back (parser/mod.rs:306-356 jump_to_line, nth_next_line,
   nth_previous_line) have no callers.  A program is therefore a tree of such
   calls; nested parser runs (Parser::new(..).parse()) are calls too. *)
From Verif Require Import Base Common NodeTypes Tree DocTree History.

(* state_machine/mod.rs:34-139 State *)
Inductive State :=
| SAdmonition | SAplusMultiCol | SAplusQuestionnaire | SAplusPickOne | SAplusPickAny
| SBody | SSection | SBlockQuote | SBulletList | SCitation | SDefinitionList | SEnumeratedList
| SHyperlinkTarget | SListItem | SFieldList | SFigure | SFootnote | SInternalHyperlinkTarget
| SOptionList | SLineBlock | SListTable | SExtensionOptions | SLine | SLiteralBlock
| SFailure | SEOF.

(* common.rs:120-140 ParsingResult; the document is part of the machine state,
   failure messages are not modelled.  The stack is listed bottom first. *)
Inductive presult := REOF (stack : list State) | REmptyStateStack (stack : list State) | RFailure.

(* The DocTree methods used by src/parser. *)
Inductive dop :=
| DPush (x : TreeNodeType)                          (* push_data *)
| DPushFocus (x : TreeNodeType)                     (* push_data_and_focus *)
| DSection (title : str) (style : SectionLineStyle) (* push_data_and_focus(new_section_data(..)) *)
| DPushChild (x : TreeNodeType)                     (* push_child of a fresh node *)
| DPop                                              (* pop_child *)
| DParent                                           (* focus_on_parent *)
| DCountItem                                        (* mut_node_data, enumerated_list.rs:76 *)
| DSetWidths (w : TableColWidths)                   (* mut_node_data, directive_parsers.rs:1014 *)
| DAddPoints (n : N)                                (* mut_node_data, directive_parsers.rs:1804,2225,2687 *)
| DAddAnswer (s : str)                              (* mut_node_data, directive_parsers.rs:2805 *)
| DLabel (l : str)                                  (* push_to_internal_target_stack *)
| DAnonTarget | DAnonRef.                           (* next_anon_*_label *)
Inductive answer :=
| AOk | AErr                    (* the Result of a push *)
| AStr (s : str)                (* a label *)
| ANode (n : option TreeNode).  (* a popped child *)

Definition is_section (x : TreeNodeType) : bool :=
  match x with NSection _ _ _ => true | _ => false end.

(* The updates made through mut_node_data (doctree/mod.rs:432-434): the new data
   of the focused node, or None if it is not of the expected variant.
   enumerated_list.rs:76-78, directive_parsers.rs:1014-1023, 1804-1809,
   2805-2806.  `points_from_children += points` is u32 arithmetic. *)
Definition count_item (x : TreeNodeType) : outcome (option TreeNodeType) :=
  match x with
  | NEnumeratedList delims kind start n indent => Ret (Some (NEnumeratedList delims kind start (n + 1)%N indent))
  | _ => Ret None
  end.
Definition set_widths (w : TableColWidths) (x : TreeNodeType) : outcome (option TreeNodeType) :=
  match x with
  | NListTable bi title widths width hr sc align =>
      Ret (Some (NListTable bi title (match widths with Some _ => widths | None => Some w end) width hr sc align))
  | _ => Ret None
  end.
Definition add_points (p : N) (x : TreeNodeType) : outcome (option TreeNodeType) :=
  match x with
  | NAplusQuestionnaire bi n key mp df sb pp fb t no pr pq ct st rm sm av ag =>
      let! n := u32_add n p in
      Ret (Some (NAplusQuestionnaire bi n key mp df sb pp fb t no pr pq ct st rm sm av ag))
  | _ => Ret None
  end.
Definition add_answer (a : str) (x : TreeNodeType) : outcome (option TreeNodeType) :=
  match x with
  | NAplusFreeText bi p cm ma cl rq key len h => Ret (Some (NAplusFreeText bi p cm (ma ++ a) cl rq key len h))
  | _ => Ret None
  end.
Definition update_data (f : TreeNodeType -> outcome (option TreeNodeType)) (d : DocTree)
    : outcome (answer * DocTree) :=
  let! r := f (focused_data d) in
  Ret (match r with Some x => (AOk, set_focused_data d x) | None => (AErr, d) end).

(* The effect of a method.  Sections are made only with DSection (see
   History.v); a program that did otherwise would show up here as a panic. *)
Definition dop_exec (o : dop) (d : DocTree) : outcome (answer * DocTree) :=
  match o with
  | DPush x =>
      if is_section x then Panic else
      let! r := push_data d x in
      Ret (match r with Ok d' => (AOk, d') | Err d' => (AErr, d') end)
  | DPushFocus x =>
      if is_section x then Panic else
      let! r := push_data_and_focus d x in
      Ret (match r with Ok d' => (AOk, d') | Err d' => (AErr, d') end)
  | DSection title style =>
      let! r := push_data_and_focus d (new_section_data d title style) in
      Ret (match r with Ok d' => (AOk, d') | Err d' => (AErr, d') end)
  | DPushChild x =>
      if is_section x then Panic else
      let! (d', r) := push_child d (new_node x (node_count d) None None) in
      Ret (match r with Ok _ => (AOk, d') | Err _ => (AErr, d') end)
  | DPop => let '(c, d') := pop_child d in Ret (ANode c, d')
  | DParent => let! d' := d_focus_on_parent d in Ret (AOk, d')
  | DCountItem => update_data count_item d
  | DSetWidths w => update_data (set_widths w) d
  | DAddPoints n => update_data (add_points n) d
  | DAddAnswer a => update_data (add_answer a) d
  | DLabel l => Ret (AOk, push_to_internal_target_stack d l)
  | DAnonTarget => let! (d', l) := next_anon_target_label d in Ret (AStr l, d')
  | DAnonRef => let! (d', l) := next_anon_reference_label d in Ret (AStr l, d')
  end.

(* ---------- programs ---------- *)
Inductive prog (A : Type) : Type :=
| PRet (a : A)
| PPanic
| PFuel                                                  (* a loop of the model ran out of fuel *)
| PGet (k : DocTree -> LineCursor -> prog A)             (* look at the document and the cursor *)
| PDoc (o : dop) (k : answer -> prog A)                  (* a DocTree method *)
| PAdvance (n : nat) (k : prog A)                        (* LineCursor::increment_by *)
| PParse (src : list str) (base_indent base_line : nat) (start : State)
         (k : presult -> prog A).                        (* Parser::new(..).parse() *)
Arguments PRet {A}. Arguments PPanic {A}. Arguments PFuel {A}. Arguments PGet {A}.
Arguments PDoc {A}. Arguments PAdvance {A}. Arguments PParse {A}.

Fixpoint pbind {A B} (p : prog A) (f : A -> prog B) : prog B :=
  match p with
  | PRet a => f a
  | PPanic => PPanic
  | PFuel => PFuel
  | PGet k => PGet (fun d c => pbind (k d c) f)
  | PDoc o k => PDoc o (fun a => pbind (k a) f)
  | PAdvance n k => PAdvance n (pbind k f)
  | PParse src bi bl st k => PParse src bi bl st (fun r => pbind (k r) f)
  end.
Notation "'let*' x ':=' m 'in' k" := (pbind m (fun x => k))
  (at level 200, x pattern, m at level 100, k at level 200, right associativity).

Definition lift {A} (m : outcome A) : prog A :=
  match m with Ret a => PRet a | Panic => PPanic | OutOfFuel => PFuel end.
Definition get_doc : prog DocTree := PGet (fun d _ => PRet d).
Definition get_cursor : prog LineCursor := PGet (fun _ c => PRet c).
Definition advance (n : nat) : prog unit := PAdvance n (PRet tt).
Definition doc_op (o : dop) : prog answer := PDoc o PRet.
(* whether a push succeeded *)
Definition pushed (o : dop) : prog bool :=
  PDoc o (fun a => PRet (match a with AOk => true | _ => false end)).
Definition focus_parent : prog unit := PDoc DParent (fun _ => PRet tt).
Definition label_of (o : dop) : prog str :=
  PDoc o (fun a => match a with AStr l => PRet l | _ => PPanic end).

(* ---------- running a program ---------- *)
Definition parse_call := list str -> nat -> nat -> State -> DocTree -> outcome (presult * DocTree).
Fixpoint pexec {A} (call : parse_call) (p : prog A) (d : DocTree) (c : LineCursor)
    : outcome (A * DocTree * LineCursor) :=
  match p with
  | PRet a => Ret (a, d, c)
  | PPanic => Panic
  | PFuel => OutOfFuel
  | PGet k => pexec call (k d c) d c
  | PDoc o k => let! (a, d') := dop_exec o d in pexec call (k a) d' c
  | PAdvance n k => pexec call k d (cur_add c n)
  | PParse src bi bl st k => let! (r, d') := call src bi bl st d in pexec call (k r) d' c
  end.

(* types_and_aliases.rs: PushOrPop, LineAdvance, TransitionResult *)
Inductive PushOrPop := Push (states : list State) | Pop | Neither.
Inductive tresult := TSuccess (pp : PushOrPop) (line_advance : option nat) | TFailure.
