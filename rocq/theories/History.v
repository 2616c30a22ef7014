(* History.v -- the ways the parser changes a document, as a transition system.
   Every call the parser makes on a DocTree is one of these steps; the event
   records what was asked for and what the document answered. *)
From Verif Require Import Base Common NodeTypes Tree DocTree.

Inductive event :=
| EPush (asked : TreeNodeType) (added : option TreeNode)  (* a node was pushed; None: refused *)
| EAnonTarget (label : str)
| EAnonRef (label : str)
| ELabel (label : str)                                     (* an internal target label was collected *)
| EMove.                                                   (* anything else *)

Definition last_child (n : TreeNode) : option TreeNode :=
  match node_children n with Some cs => last (map Some cs) None | None => None end.

(* body.rs:1893-2120 (text, line) and directive_parsers.rs build a Section node
   only with DocTree::new_section_data, doctree/mod.rs:675-687: its level is the
   one the document gives to its line style. *)
Definition section_level_ok (d : DocTree) (x : TreeNodeType) : Prop :=
  forall title level style, x = NSection title level style -> level = line_style_section_level (sections d) style.

(* the calls made by src/parser; citations are of the callee *)
Inductive step : DocTree -> event -> DocTree -> Prop :=
(* doctree/mod.rs:192-205 *)
| s_push d x d' : section_level_ok d x -> push_data d x = Ret (Ok d') ->
    step d (EPush x (last_child (z_node (tree d')))) d'
| s_push_err d x d' : section_level_ok d x -> push_data d x = Ret (Err d') -> step d (EPush x None) d'
(* doctree/mod.rs:170-187 *)
| s_push_focus d x d' : section_level_ok d x -> push_data_and_focus d x = Ret (Ok d') ->
    step d (EPush x (Some (z_node (tree d')))) d'
| s_push_focus_err d x d' : section_level_ok d x -> push_data_and_focus d x = Ret (Err d') ->
    step d (EPush x None) d'
(* doctree/mod.rs:209-221 with the node built as in body.rs:681 *)
| s_push_child d x d' : section_level_ok d x ->
    push_child d (new_node x (node_count d) None None) = Ret (d', Ok tt) ->
    step d (EPush x (last_child (z_node (tree d')))) d'
| s_push_child_err d x n d' : section_level_ok d x ->
    push_child d (new_node x (node_count d) None None) = Ret (d', Err n) -> step d (EPush x None) d'
(* doctree/mod.rs:223-228 *)
| s_pop d c d' : pop_child d = (c, d') -> step d EMove d'
(* doctree/mod.rs:154-165 *)
| s_parent d d' : d_focus_on_parent d = Ret d' -> step d EMove d'
(* walkers.rs:20-23 *)
| s_root d d' : d_walk_to_root d = Ret d' -> step d EMove d'
(* doctree/mod.rs:701-704 *)
| s_section_parent d l d' : d_walk_to_parent_section_level d l = Ret d' -> step d EMove d'
(* doctree/mod.rs:432-434 mut_node_data: enumerated_list.rs:76 and
   directive_parsers.rs:1014,1807,2228,2690,2805 change fields of the focused
   node, never its variant, and never of a section *)
| s_data d x : kind x = kind (focused_data d) -> kind x <> KSection -> step d EMove (set_focused_data d x)
(* doctree/mod.rs:580-582 *)
| s_label d l : step d (ELabel l) (push_to_internal_target_stack d l)
(* class_data.rs: classes collected for the next node (no caller in src/parser today) *)
| s_classes d cs : step d EMove (d_set_classes d cs)
(* doctree/mod.rs:616-645 *)
| s_anon_target d d' l : next_anon_target_label d = Ret (d', l) -> step d (EAnonTarget l) d'
| s_anon_ref d d' l : next_anon_reference_label d = Ret (d', l) -> step d (EAnonRef l) d'.

(* what users of a finished DocTree can do besides: walk to ids *)
Inductive step_any : DocTree -> event -> DocTree -> Prop :=
| any_parse d e d' : step d e d' -> step_any d e d'
(* walkers.rs:28-54 *)
| any_walk_id d id d' : d_walk_to_id d id = Ret d' -> step_any d EMove d'
(* tree_zipper.rs:73-97 *)
| any_child d i t : focus_on_child (tree d) i = Ok t -> step_any d EMove (d_set_tree d t).

(* histories, oldest event first *)
Inductive run (R : DocTree -> event -> DocTree -> Prop) : DocTree -> list event -> DocTree -> Prop :=
| run_nil d : run R d [] d
| run_snoc d d' d'' es e : run R d es d' -> R d' e d'' -> run R d (es ++ [e]) d''.

(* the document d was built by the parser's operations, with this history *)
Definition built (es : list event) (d : DocTree) : Prop := run step new_doctree es d.
Definition reachable (es : list event) (d : DocTree) : Prop := run step_any new_doctree es d.

(* projections of a history *)
Definition styles_of (es : list event) : list SectionLineStyle :=
  flat_map (fun e => match e with EPush (NSection _ _ s) _ => [s] | _ => [] end) es.
Definition anon_targets_of (es : list event) : list str :=
  flat_map (fun e => match e with EAnonTarget l => [l] | _ => [] end) es.
Definition anon_refs_of (es : list event) : list str :=
  flat_map (fun e => match e with EAnonRef l => [l] | _ => [] end) es.

(* labels collected and not yet given to a node, by the documented rule: the next
   node that is added, blank lines and white space aside, takes them all *)
Definition pending (es : list event) : list str :=
  fold_left (fun p e => match e with
    | ELabel l => p ++ [l]
    | EPush NEmptyLine _ | EPush (NWhiteSpace _) _ => p
    | EPush _ (Some _) => []
    | _ => p end) es [].

(* running a list of operations, for examples *)
Inductive op :=
| OPush (x : TreeNodeType) | OFocus (x : TreeNodeType) | OSection (title : str) (style : SectionLineStyle)
| OChild (x : TreeNodeType) | OPop | OParent | ORoot | OLabel (l : str) | OTarget | ORef.
Definition exec1 (d : DocTree) (o : op) : option (event * DocTree) :=
  match o with
  | OPush (NSection _ _ _) | OFocus (NSection _ _ _) | OChild (NSection _ _ _) => None
  | OPush x => match push_data d x with
               | Ret (Ok d') => Some (EPush x (last_child (z_node (tree d'))), d')
               | Ret (Err d') => Some (EPush x None, d') | _ => None end
  | OFocus x => match push_data_and_focus d x with
               | Ret (Ok d') => Some (EPush x (Some (z_node (tree d'))), d')
               | Ret (Err d') => Some (EPush x None, d') | _ => None end
  | OSection t s => let x := new_section_data d t s in
               match push_data_and_focus d x with
               | Ret (Ok d') => Some (EPush x (Some (z_node (tree d'))), d')
               | Ret (Err d') => Some (EPush x None, d') | _ => None end
  | OChild x => match push_child d (new_node x (node_count d) None None) with
               | Ret (d', Ok tt) => Some (EPush x (last_child (z_node (tree d'))), d')
               | Ret (d', Err _) => Some (EPush x None, d') | _ => None end
  | OPop => Some (EMove, snd (pop_child d))
  | OParent => match d_focus_on_parent d with Ret d' => Some (EMove, d') | _ => None end
  | ORoot => match d_walk_to_root d with Ret d' => Some (EMove, d') | _ => None end
  | OLabel l => Some (ELabel l, push_to_internal_target_stack d l)
  | OTarget => match next_anon_target_label d with Ret (d', l) => Some (EAnonTarget l, d') | _ => None end
  | ORef => match next_anon_reference_label d with Ret (d', l) => Some (EAnonRef l, d') | _ => None end
  end.
Fixpoint exec (es : list event) (d : DocTree) (os : list op) : option (list event * DocTree) :=
  match os with
  | [] => Some (es, d)
  | o :: t => match exec1 d o with Some (e, d') => exec (es ++ [e]) d' t | None => None end
  end.
Lemma exec1_step d o e d' : exec1 d o = Some (e, d') -> step d e d'.
Proof.
  assert (NS : forall x, kind x <> KSection -> section_level_ok d x) by (intros x H t l s ->; cbn in H; congruence).
  destruct o; cbn [exec1]; intros H.
  - assert (K : kind x <> KSection) by (intros K; destruct x; try discriminate K; discriminate H).
    assert (H' : match push_data d x with
               | Ret (Ok d') => Some (EPush x (last_child (z_node (tree d'))), d')
               | Ret (Err d') => Some (EPush x None, d') | _ => None end = Some (e, d')) by (destruct x; exact H || discriminate H).
    destruct (push_data d x) as [[a|a]| |] eqn:E; try discriminate; injection H' as <- <-; [apply s_push|apply s_push_err]; auto.
  - assert (K : kind x <> KSection) by (intros K; destruct x; try discriminate K; discriminate H).
    assert (H' : match push_data_and_focus d x with
               | Ret (Ok d') => Some (EPush x (Some (z_node (tree d'))), d')
               | Ret (Err d') => Some (EPush x None, d') | _ => None end = Some (e, d')) by (destruct x; exact H || discriminate H).
    destruct (push_data_and_focus d x) as [[a|a]| |] eqn:E; try discriminate; injection H' as <- <-; [apply s_push_focus|apply s_push_focus_err]; auto.
  - assert (S : section_level_ok d (new_section_data d title style)) by (intros t l s [= -> <- ->]; reflexivity).
    destruct (push_data_and_focus _ _) as [[a|a]| |] eqn:E; try discriminate; injection H as <- <-; [apply s_push_focus|apply s_push_focus_err]; auto.
  - assert (K : kind x <> KSection) by (intros K; destruct x; try discriminate K; discriminate H).
    assert (H' : match push_child d (new_node x (node_count d) None None) with
               | Ret (d', Ok tt) => Some (EPush x (last_child (z_node (tree d'))), d')
               | Ret (d', Err _) => Some (EPush x None, d') | _ => None end = Some (e, d')) by (destruct x; exact H || discriminate H).
    destruct (push_child _ _) as [[a [[]|b]]| |] eqn:E; try discriminate; injection H' as <- <-; [apply s_push_child|eapply s_push_child_err]; eauto.
  - injection H as <- <-. destruct (pop_child d) as [c d1] eqn:E. eapply s_pop. exact E.
  - destruct (d_focus_on_parent d) eqn:E; try discriminate. injection H as <- <-. apply s_parent. exact E.
  - destruct (d_walk_to_root d) eqn:E; try discriminate. injection H as <- <-. apply s_root. exact E.
  - injection H as <- <-. apply s_label.
  - destruct (next_anon_target_label d) as [[a b]| |] eqn:E; try discriminate. injection H as <- <-. apply s_anon_target. exact E.
  - destruct (next_anon_reference_label d) as [[a b]| |] eqn:E; try discriminate. injection H as <- <-. apply s_anon_ref. exact E.
Qed.
Lemma exec_run d0 os : forall es d es' d', run step d0 es d -> exec es d os = Some (es', d') -> run step d0 es' d'.
Proof.
  induction os as [|o os IH]; intros es d es' d' R; cbn [exec]; [intros [= <- <-]; exact R|].
  destruct (exec1 d o) as [[e d1]|] eqn:E; [|discriminate]. apply IH. econstructor; [exact R|]. eapply exec1_step; exact E.
Qed.
Lemma exec_built os es d : exec [] new_doctree os = Some (es, d) -> built es d.
Proof. apply exec_run. constructor. Qed.
