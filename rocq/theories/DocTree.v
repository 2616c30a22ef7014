(* DocTree.v -- /repo/src/doctree/mod.rs, hyperref_data.rs, class_data.rs,
   section_data.rs. *)
From Verif Require Import Base Common NodeTypes Tree.
Local Open Scope N_scope.

(* HashMap<String, V> as an association list: lookup and insert (replace) *)
Fixpoint map_get {V} (m : list (str * V)) (k : str) : option V :=
  match m with
  | [] => None
  | (k', v) :: t => if str_eqb k k' then Some v else map_get t k
  end.
Fixpoint map_set {V} (m : list (str * V)) (k : str) (v : V) : list (str * V) :=
  match m with
  | [] => [(k, v)]
  | (k', v') :: t => if str_eqb k k' then (k, v) :: t else (k', v') :: map_set t k v
  end.

(* hyperref_data.rs:11-47 HyperrefData *)
Record HyperrefData := MkHyperref {
  targets : list (str * N);
  references : list (str * list N);
  n_of_sym_footnotes : N;
  n_of_sym_footnote_refs : N;
  n_of_anon_targets : N;
  n_of_anon_references : N;
  accumulated : list str }.
(* hyperref_data.rs:52-62 new *)
Definition new_hyperref : HyperrefData := MkHyperref [] [] 0 0 0 0 [].
Definition h_set_targets h t := MkHyperref t (references h) (n_of_sym_footnotes h) (n_of_sym_footnote_refs h)
  (n_of_anon_targets h) (n_of_anon_references h) (accumulated h).
Definition h_set_references h r := MkHyperref (targets h) r (n_of_sym_footnotes h) (n_of_sym_footnote_refs h)
  (n_of_anon_targets h) (n_of_anon_references h) (accumulated h).
Definition h_set_sym h n := MkHyperref (targets h) (references h) n (n_of_sym_footnote_refs h)
  (n_of_anon_targets h) (n_of_anon_references h) (accumulated h).
Definition h_set_anon_targets h n := MkHyperref (targets h) (references h) (n_of_sym_footnotes h)
  (n_of_sym_footnote_refs h) n (n_of_anon_references h) (accumulated h).
Definition h_set_anon_references h n := MkHyperref (targets h) (references h) (n_of_sym_footnotes h)
  (n_of_sym_footnote_refs h) (n_of_anon_targets h) n (accumulated h).
Definition h_set_accumulated h a := MkHyperref (targets h) (references h) (n_of_sym_footnotes h)
  (n_of_sym_footnote_refs h) (n_of_anon_targets h) (n_of_anon_references h) a.

(* section_data.rs:10-20 SectionData *)
Record SectionData := MkSections {
  section_levels : list (SectionLineStyle * nat);
  highest_level : nat }.
(* section_data.rs:25-30 new *)
Definition new_sections : SectionData := MkSections [] 0.
Fixpoint style_get (m : list (SectionLineStyle * nat)) (k : SectionLineStyle) : option nat :=
  match m with
  | [] => None
  | (k', v) :: t => if style_eqb k k' then Some v else style_get t k
  end.
(* section_data.rs:44-49 line_style_section_level *)
Definition line_style_section_level (s : SectionData) (style : SectionLineStyle) : nat :=
  match style_get (section_levels s) style with
  | Some l => l
  | None => S (highest_level s)
  end.
(* section_data.rs:52-63 add_section_level *)
Definition add_section_level (s : SectionData) (style : SectionLineStyle) : SectionData :=
  match style_get (section_levels s) style with
  | Some _ => s
  | None => MkSections (section_levels s ++ [(style, S (highest_level s))]) (highest_level s)
  end.
(* section_data.rs:33-35 increment_encountered_section_number *)
Definition increment_section_number (s : SectionData) : SectionData :=
  MkSections (section_levels s) (S (highest_level s)).

(* doctree/mod.rs:41-67 DocTree.  filename_stem and file_folder are used only to
   name output files and are not modelled. *)
Record DocTree := MkDoc {
  tree : TreeZipper;
  node_count : N;
  hyperref : HyperrefData;
  incoming_classes : list str;
  sections : SectionData }.
(* doctree/mod.rs:75-113 new: the root gets id 0, the counter starts at 1 *)
Definition new_doctree : DocTree :=
  MkDoc (Zip (new_node NDocument 0 None None) None None) 1 new_hyperref [] new_sections.
Definition d_set_tree d t := MkDoc t (node_count d) (hyperref d) (incoming_classes d) (sections d).
Definition d_set_hyperref d h := MkDoc (tree d) (node_count d) h (incoming_classes d) (sections d).
Definition d_set_sections d s := MkDoc (tree d) (node_count d) (hyperref d) (incoming_classes d) s.
Definition d_set_classes d c := MkDoc (tree d) (node_count d) (hyperref d) c (sections d).
Definition d_set_count d n := MkDoc (tree d) n (hyperref d) (incoming_classes d) (sections d).
(* doctree/mod.rs:421-434 shared_node_data, mut_node_data *)
Definition focused_data (d : DocTree) : TreeNodeType := node_data (z_node (tree d)).
Definition set_focused_data (d : DocTree) (x : TreeNodeType) : DocTree :=
  d_set_tree d (z_with_node (tree d) (with_data (z_node (tree d)) x)).

(* doctree/mod.rs:154-165 focus_on_parent: stays put when there is no parent *)
Definition d_focus_on_parent (d : DocTree) : outcome DocTree :=
  let! r := focus_on_parent (tree d) in
  Ret (d_set_tree d (match r with Ok t => t | Err t => t end)).

(* doctree/mod.rs:551-558 add_target *)
Definition add_target (d : DocTree) (label : str) (id : N) : DocTree :=
  d_set_hyperref d (h_set_targets (hyperref d) (map_set (targets (hyperref d)) label id)).
(* doctree/mod.rs:562-575 add_reference *)
Definition add_reference (d : DocTree) (label : str) (id : N) : DocTree :=
  let refs := references (hyperref d) in
  d_set_hyperref d (h_set_references (hyperref d)
    (match map_get refs label with
     | Some ids => map_set refs label (ids ++ [id])
     | None => map_set refs label [id]
     end)).
Definition add_targets (d : DocTree) (ls : list str) : DocTree :=
  fold_left (fun d l => add_target d l (node_count d)) ls d.
Definition add_references (d : DocTree) (ls : list str) : DocTree :=
  fold_left (fun d l => add_reference d l (node_count d)) ls d.
(* doctree/mod.rs:530-541 has_target_label, has_reference_label *)
Definition has_target_label (d : DocTree) (l : str) : bool :=
  match map_get (targets (hyperref d)) l with Some _ => true | None => false end.
Definition has_reference_label (d : DocTree) (l : str) : bool :=
  match map_get (references (hyperref d)) l with Some _ => true | None => false end.

(* doctree/mod.rs:775-808 new_autonumber_footnote_label, ..._ref_label: the first
   n in 1..=u32::MAX whose numeral is not `used`.  The search takes fuel; one more
   than the number of used labels is enough (proved). *)
Fixpoint first_free (fuel : nat) (used : str -> bool) (n : N) : outcome (option str) :=
  match fuel with
  | O => OutOfFuel
  | S f => if u32_max <? n then Ret None
           else if used (dec n) then first_free f used (n + 1) else Ret (Some (dec n))
  end.
Definition new_autonumber_footnote_label (d : DocTree) : outcome (option str) :=
  first_free (S (length (targets (hyperref d)))) (has_target_label d) 1.
Definition new_autonumber_footnote_ref_label (d : DocTree) : outcome (option str) :=
  first_free (S (length (references (hyperref d)))) (has_reference_label d) 1.

(* doctree/mod.rs:729-748 new_symbolic_footnote_label *)
Definition symbol_label (n : N) : option str :=
  let len := N.of_nat (length FOOTNOTE_SYMBOLS) in
  match nth_error FOOTNOTE_SYMBOLS (N.to_nat (n mod len)) with
  | Some c => Some (repeat c (S (N.to_nat (n / len))))
  | None => None
  end.
Definition new_symbolic_footnote_label (d : DocTree) : option str :=
  symbol_label (n_of_sym_footnotes (hyperref d)).

(* hyperref_data.rs:123-130 increment_symbolic_footnote_counter_by(1) *)
Definition increment_symbolic_footnotes (d : DocTree) : outcome DocTree :=
  let! n := u32_add (n_of_sym_footnotes (hyperref d)) 1 in
  Ret (d_set_hyperref d (h_set_sym (hyperref d) n)).

(* doctree/mod.rs:231-383 hyperref_actions: the updated tree data, the node data
   (footnote labels are filled in) and the labels the node gets *)
Definition opt_labels (l : list str) : option (list str) := match l with [] => None | _ => Some l end.
Definition hyperref_actions (d : DocTree) (x : TreeNodeType)
    : outcome (DocTree * TreeNodeType * option (list str)) :=
  let acc := accumulated (hyperref d) in
  let '(d, labels) :=
    match acc, x with
    | [], _ => (d, [])
    | _, NEmptyLine | _, NWhiteSpace _ => (d, [])
    | _, _ => (d_set_hyperref d (h_set_accumulated (hyperref d) []), acc)
    end in
  match x with
  | NCitation bi label =>
      let r := normalize_refname label in
      Ret (add_target d r (node_count d), x, Some (labels ++ [r]))
  | NCitationReference displayed _ =>
      let r := normalize_refname displayed in
      Ret (add_reference d r (node_count d), x, opt_labels labels)
  | NFootnote bi k label target =>
      let! (x, labels) :=
        match k with
        | FManual => Ret (x, labels ++ [normalize_refname label])
        | FAutoNumbered | FSimpleRefName =>
            let! n := new_autonumber_footnote_label d in
            Ret (match n with
                 | Some n => (NFootnote bi k n n, labels ++ [n])
                 | None => (x, labels)
                 end)
        | FAutoSymbol =>
            Ret (match new_symbolic_footnote_label d with
                 | Some s => (NFootnote bi k s s, labels ++ [s])
                 | None => (x, labels)
                 end)
        end in
      let d := add_targets d labels in
      let! d := match k with FAutoSymbol => increment_symbolic_footnotes d | _ => Ret d end in
      Ret (d, x, opt_labels labels)
  | NFootnoteReference displayed target k =>
      match k with
      | FManual =>
          let labels := labels ++ [normalize_refname displayed] in
          Ret (add_references d labels, x, opt_labels labels)
      | FAutoNumbered =>
          let! n := new_autonumber_footnote_ref_label d in
          match n with
          | Some n =>
              let labels := labels ++ [n] in
              Ret (add_references d labels, NFootnoteReference n n k, opt_labels labels)
          | None => Ret (d, x, None)
          end
      | FSimpleRefName =>
          let! n := new_autonumber_footnote_ref_label d in
          match n with
          | Some n =>
              let labels := labels ++ [n; normalize_refname displayed] in
              Ret (add_references d labels, NFootnoteReference displayed n k, opt_labels labels)
          | None => Ret (d, x, None)
          end
      | FAutoSymbol =>
          match new_symbolic_footnote_label d with
          | Some s =>
              let labels := labels ++ [s] in
              Ret (add_references d labels, x, opt_labels labels)
          | None => Ret (d, x, None)
          end
      end
  | NExternalHyperlinkTarget _ target _ =>
      let labels := labels ++ [normalize_refname target] in
      Ret (add_targets d labels, x, opt_labels labels)
  | NIndirectHyperlinkTarget _ target _ =>
      let d := add_targets d labels in
      Ret (add_reference d (normalize_refname (normalize_refname target)) (node_count d), x, opt_labels labels)
  | NSection title level style =>
      let labels := labels ++ [normalize_refname title] in
      let d := add_targets d labels in
      let s := add_section_level (sections d) style in
      let s := if (highest_level s <? level)%nat then increment_section_number s else s in
      Ret (d_set_sections d s, x, opt_labels labels)
  | _ => Ret (add_targets d labels, x, opt_labels labels)
  end.

(* doctree/mod.rs:387-394 classes *)
Definition take_classes (d : DocTree) : DocTree * option (list str) :=
  match incoming_classes d with
  | [] => (d, None)
  | cs => (d_set_classes d [], Some cs)
  end.

(* doctree/mod.rs:192-205 push_data *)
Definition push_data (d : DocTree) (x : TreeNodeType) : outcome (result DocTree DocTree) :=
  let! (d, x, labels) := hyperref_actions d x in
  let '(d, classes) := take_classes d in
  let! r := z_push_data (tree d) x (node_count d) labels classes in
  Ret (match r with
       | Ok t => Ok (d_set_count (d_set_tree d t) (node_count d + 1))
       | Err t => Err (d_set_tree d t)
       end).
(* doctree/mod.rs:170-187 push_data_and_focus *)
Definition push_data_and_focus (d : DocTree) (x : TreeNodeType) : outcome (result DocTree DocTree) :=
  let! (d, x, labels) := hyperref_actions d x in
  let '(d, classes) := take_classes d in
  let! r := z_push_data_and_focus (tree d) x (node_count d) labels classes in
  Ret (match r with
       | Ok t => Ok (d_set_count (d_set_tree d t) (node_count d + 1))
       | Err t => Err (d_set_tree d t)
       end).
(* doctree/mod.rs:209-221 push_child *)
Definition push_child (d : DocTree) (n : TreeNode) : outcome (DocTree * result unit TreeNode) :=
  let! (d, x, labels) := hyperref_actions d (node_data n) in
  let n := with_refnames (with_data n x) labels in
  let! r := z_push_child (tree d) n in
  Ret (match r with
       | Ok t => (d_set_count (d_set_tree d t) (node_count d + 1), Ok tt)
       | Err n => (d, Err n)
       end).
(* doctree/mod.rs:223-228 pop_child *)
Definition pop_child (d : DocTree) : option TreeNode * DocTree :=
  let (c, t) := z_pop_child (tree d) in (c, d_set_tree d t).

(* doctree/mod.rs:580-582 push_to_internal_target_stack *)
Definition push_to_internal_target_stack (d : DocTree) (label : str) : DocTree :=
  d_set_hyperref d (h_set_accumulated (hyperref d) (accumulated (hyperref d) ++ [label])).

(* hyperref_data.rs:168-182 *)
Definition anon_label (n : N) : str := lit "[[-ANON-LABEL-" ++ dec n ++ lit "-]]".
(* doctree/mod.rs:616-635 next_anon_target_label *)
Definition next_anon_target_label (d : DocTree) : outcome (DocTree * str) :=
  let! n := u32_add (n_of_anon_targets (hyperref d)) 1 in
  Ret (d_set_hyperref d (h_set_anon_targets (hyperref d) n), anon_label n).
(* doctree/mod.rs:622-645 next_anon_reference_label *)
Definition next_anon_reference_label (d : DocTree) : outcome (DocTree * str) :=
  let! n := u32_add (n_of_anon_references (hyperref d)) 1 in
  Ret (d_set_hyperref d (h_set_anon_references (hyperref d) n), anon_label n).

(* doctree/mod.rs:675-687 new_section_data *)
Definition new_section_data (d : DocTree) (title : str) (style : SectionLineStyle) : TreeNodeType :=
  NSection title (line_style_section_level (sections d) style) style.

(* walkers.rs:20-23 walk_to_root, doctree/mod.rs:701-704 *)
Definition d_walk_to_root (d : DocTree) : outcome DocTree :=
  let! t := z_walk_to_root (tree d) in Ret (d_set_tree d t).
Definition d_walk_to_parent_section_level (d : DocTree) (level : nat) : outcome DocTree :=
  let! t := z_walk_to_parent_section_level (tree d) level in Ret (d_set_tree d t).
(* walkers.rs:28-54 walk(TraversalType::ID(id)) *)
Definition d_walk_to_id (d : DocTree) (id : N) : outcome DocTree :=
  let! t := z_walk_to_root (tree d) in
  if node_count d <? id then Panic
  else
    let! r := z_walk_to_id (height (z_node t)) t id in
    Ret (d_set_tree d (match r with Ok z => z | Err z => z end)).
(* doctree/mod.rs:523-527 append_children *)
Definition append_children (d : DocTree) (new : list TreeNode) : outcome DocTree :=
  let! n := node_append_children (z_node (tree d)) new in
  Ret (d_set_count (d_set_tree d (z_with_node (tree d) n)) (node_count d + N.of_nat (length new))).
