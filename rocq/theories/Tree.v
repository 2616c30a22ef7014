(* Tree.v -- /repo/src/doctree/tree_node.rs, tree_zipper.rs, walkers.rs. *)
From Verif Require Import Base Common NodeTypes.

(* `Result<A, B>` *)
Inductive result (A B : Type) := Ok (a : A) | Err (b : B).
Arguments Ok {A B} a.
Arguments Err {A B} b.

(* tree_node.rs:11-18 TreeNode.  NodeId is u32; overflow of 2^32 nodes is not
   modelled. *)
Inductive TreeNode : Type :=
| Node (id : N) (refnames : option (list str)) (classes : option (list str))
       (data : TreeNodeType) (children : option (list TreeNode)).
Definition node_id (n : TreeNode) : N := let 'Node i _ _ _ _ := n in i.
Definition node_refnames (n : TreeNode) : option (list str) := let 'Node _ r _ _ _ := n in r.
Definition node_classes (n : TreeNode) : option (list str) := let 'Node _ _ c _ _ := n in c.
Definition node_data (n : TreeNode) : TreeNodeType := let 'Node _ _ _ d _ := n in d.
Definition node_children (n : TreeNode) : option (list TreeNode) := let 'Node _ _ _ _ c := n in c.
Definition with_children (n : TreeNode) (c : option (list TreeNode)) : TreeNode :=
  let 'Node i r k d _ := n in Node i r k d c.
Definition with_data (n : TreeNode) (d : TreeNodeType) : TreeNode :=
  let 'Node i r k _ c := n in Node i r k d c.
Definition with_refnames (n : TreeNode) (r : option (list str)) : TreeNode :=
  let 'Node i _ k d c := n in Node i r k d c.
Definition node_kind (n : TreeNode) : NodeKind := kind (node_data n).

(* tree_node.rs:23-36 new, 41-60 children_or_none *)
Definition new_node (d : TreeNodeType) (id : N) (refs classes : option (list str)) : TreeNode :=
  Node id refs classes d (if can_have_children (kind d) then Some [] else None).

(* tree_node.rs:75-95 push_child.  Err gives the child back; the parent is
   unchanged.  Messages are not modelled. *)
Definition node_push_child (p c : TreeNode) : outcome (result TreeNode TreeNode) :=
  let! ok := child_is_allowed (node_kind p) (node_kind c) in
  if ok then
    match node_children p with
    | Some cs => Ret (Ok (with_children p (Some (cs ++ [c]))))
    | None => Ret (Err c)
    end
  else Ret (Err c).

(* tree_node.rs:99-109 pop_child: the removed child and the node left *)
Definition node_pop_child (n : TreeNode) : option TreeNode * TreeNode :=
  match node_children n with
  | Some cs =>
      match rev cs with
      | [] => (None, n)
      | c :: r => (Some c, with_children n (Some (rev r)))
      end
  | None => (None, n)
  end.

(* tree_node.rs:112-131 append_children: panics on a child that is not allowed *)
Fixpoint all_allowed (p : NodeKind) (cs : list TreeNode) : outcome bool :=
  match cs with
  | [] => Ret true
  | c :: t => let! ok := child_is_allowed p (node_kind c) in
              if ok then all_allowed p t else Ret false
  end.
Definition node_append_children (p : TreeNode) (new : list TreeNode) : outcome TreeNode :=
  let! ok := all_allowed (node_kind p) new in
  if ok then
    match node_children p with
    | Some cs => Ret (with_children p (Some (cs ++ new)))
    | None => Panic
    end
  else Panic.

(* Vec::swap_remove: element i, its place taken by the last element *)
Fixpoint set_nth {A} (l : list A) (i : nat) (x : A) : list A :=
  match l, i with
  | [], _ => []
  | _ :: t, 0 => x :: t
  | y :: t, S j => y :: set_nth t j x
  end.
Definition swap_remove {A} (l : list A) (i : nat) : option (A * list A) :=
  match nth_error l i, rev l with
  | Some x, last :: _ => Some (x, removelast (set_nth l i last))
  | _, _ => None
  end.
(* Vec::swap; None is the out-of-bounds panic *)
Definition swap {A} (l : list A) (i j : nat) : option (list A) :=
  match nth_error l i, nth_error l j with
  | Some x, Some y => Some (set_nth (set_nth l i y) j x)
  | _, _ => None
  end.

(* tree_zipper.rs:14-18 TreeZipper *)
Inductive TreeZipper : Type :=
| Zip (node : TreeNode) (parent : option TreeZipper) (index_in_parent : option nat).
Definition z_node (z : TreeZipper) : TreeNode := let 'Zip n _ _ := z in n.
Definition z_parent (z : TreeZipper) : option TreeZipper := let 'Zip _ p _ := z in p.
Definition z_index (z : TreeZipper) : option nat := let 'Zip _ _ i := z in i.
Definition z_with_node (z : TreeZipper) (n : TreeNode) : TreeZipper :=
  let 'Zip _ p i := z in Zip n p i.

(* tree_zipper.rs:39-44 push_child *)
Definition z_push_child (z : TreeZipper) (c : TreeNode) : outcome (result TreeZipper TreeNode) :=
  let! r := node_push_child (z_node z) c in
  Ret (match r with Ok n => Ok (z_with_node z n) | Err c => Err c end).
(* tree_zipper.rs:47-52 pop_child *)
Definition z_pop_child (z : TreeZipper) : option TreeNode * TreeZipper :=
  let (c, n) := node_pop_child (z_node z) in (c, z_with_node z n).

(* tree_zipper.rs:73-97 focus_on_child *)
Definition focus_on_child (z : TreeZipper) (index : nat) : result TreeZipper TreeZipper :=
  match node_children (z_node z) with
  | Some cs =>
      match cs with
      | [] => Err z
      | _ => if index <? length cs then
               match swap_remove cs index with
               | Some (c, rest) =>
                   Ok (Zip c (Some (z_with_node z (with_children (z_node z) (Some rest)))) (Some index))
               | None => Err z (* index < length: does not happen *)
               end
             else Err z
      end
  | None => Err z
  end.

(* tree_zipper.rs:102-157 focus_on_parent.  In the two error branches after the
   parent has been taken apart the code returns a zipper without that parent. *)
Definition focus_on_parent (z : TreeZipper) : outcome (result TreeZipper TreeZipper) :=
  let 'Zip node parent index_in_parent := z in
  match parent with
  | None => Ret (Err (Zip node parent index_in_parent))
  | Some (Zip parent_node parent_parent parent_index) =>
      match index_in_parent with
      | None => Ret (Err (Zip node parent_parent index_in_parent))
      | Some index =>
          match node_children parent_node with
          | Some cs =>
              let cs := cs ++ [node] in
              let! cs := unwrap (swap cs index (length cs - 1)) in
              Ret (Ok (Zip (with_children parent_node (Some cs)) parent_parent parent_index))
          | None => Ret (Err (Zip node parent_parent index_in_parent))
          end
      end
  end.

(* number of ancestors: fuel for upward walks *)
Fixpoint z_depth (z : TreeZipper) : nat :=
  match z with
  | Zip _ None _ => 0
  | Zip _ (Some p) _ => S (z_depth p)
  end.

(* tree_zipper.rs:160-172 walk_to_root: a loop, fuel = number of ancestors + 1 *)
Fixpoint walk_to_root_loop (fuel : nat) (z : TreeZipper) : outcome TreeZipper :=
  match fuel with
  | 0 => OutOfFuel
  | S f => let! r := focus_on_parent z in
           match r with Ok p => walk_to_root_loop f p | Err z => Ret z end
  end.
Definition z_walk_to_root (z : TreeZipper) : outcome TreeZipper :=
  walk_to_root_loop (S (z_depth z)) z.

(* tree_zipper.rs:175-205 walk_to_parent_section_level.  The branch with the
   panic (section_level > level after level > section_level) is unreachable. *)
Fixpoint walk_to_section_loop (fuel : nat) (z : TreeZipper) (section_level : nat) : outcome TreeZipper :=
  match fuel with
  | 0 => OutOfFuel
  | S f =>
      let up := let! r := focus_on_parent z in
                match r with Ok p => walk_to_section_loop f p section_level | Err z => Ret z end in
      match node_data (z_node z) with
      | NDocument => Ret z
      | NSection _ level _ => if level <=? section_level then Ret z else up
      | _ => up
      end
  end.
Definition z_walk_to_parent_section_level (z : TreeZipper) (level : nat) : outcome TreeZipper :=
  walk_to_section_loop (S (z_depth z)) z level.

(* tree_zipper.rs:314-320 n_of_children *)
Definition z_n_of_children (z : TreeZipper) : outcome nat :=
  match node_children (z_node z) with Some cs => Ret (length cs) | None => Panic end.

(* tree_zipper.rs:208-222 focus_on_last_child: `children_len - 1` underflows
   (panics) on an empty child list *)
Definition focus_on_last_child (z : TreeZipper) : outcome (result TreeZipper TreeZipper) :=
  match node_children (z_node z) with
  | None => Ret (Err z)
  | Some cs => let! i := checked_sub (length cs) 1 in Ret (focus_on_child z i)
  end.

(* tree_zipper.rs:225-243 focus_on_sibling *)
Definition focus_on_sibling (z : TreeZipper) (sibling : nat) : outcome (result TreeZipper TreeZipper) :=
  match z_parent z with
  | None => Ret (Err z)
  | Some _ =>
      let! r := focus_on_parent z in
      match r with
      | Ok p => Ret (focus_on_child p sibling)
      | Err z => Ret (Err z)
      end
  end.

(* tree_zipper.rs:247-260 push_data *)
Definition z_push_data (z : TreeZipper) (d : TreeNodeType) (id : N) (refs classes : option (list str))
    : outcome (result TreeZipper TreeZipper) :=
  let! r := z_push_child z (new_node d id refs classes) in
  Ret (match r with Ok z' => Ok z' | Err _ => Err z end).

(* tree_zipper.rs:264-291 push_data_and_focus *)
Definition z_push_data_and_focus (z : TreeZipper) (d : TreeNodeType) (id : N)
    (refs classes : option (list str)) : outcome (result TreeZipper TreeZipper) :=
  let! r := z_push_child z (new_node d id refs classes) in
  match r with
  | Ok z' => focus_on_last_child z'
  | Err _ => Ret (Err z)
  end.

(* tree_zipper.rs:296-311 shared_sibling_data *)
Definition shared_sibling_data (z : TreeZipper) (sibling : nat) : option TreeNodeType :=
  let? p := z_parent z in
  let? cs := node_children (z_node p) in
  let? s := nth_error cs sibling in Some (node_data s).

(* walkers.rs:73-106 TreeZipper::walk_to_node_with_id.  Recursion over the
   focused subtree; fuel bounds its height.  `unreachable!` is Panic. *)
Fixpoint z_walk_to_id (fuel : nat) (z : TreeZipper) (id : N) {struct fuel}
    : outcome (result TreeZipper TreeZipper) :=
  match fuel with
  | 0 => OutOfFuel
  | S f =>
      if N.eqb (node_id (z_node z)) id then Ret (Ok z)
      else
        let up z := let! r := focus_on_parent z in
                    match r with Ok z' => Ret (Err z') | Err z' => Ret (Err z') end in
        match node_children (z_node z) with
        | None => up z
        | Some cs =>
            (fix loop (inds : list nat) (z : TreeZipper) : outcome (result TreeZipper TreeZipper) :=
               match inds with
               | [] => up z
               | ind :: inds' =>
                   match focus_on_child z ind with
                   | Err _ => Panic
                   | Ok child =>
                       let! r := z_walk_to_id f child id in
                       match r with
                       | Ok found => Ret (Ok found)
                       | Err z' => loop inds' z'
                       end
                   end
               end) (seq 0 (length cs)) z
        end
  end.
(* height of a tree *)
Fixpoint height (n : TreeNode) : nat :=
  match n with
  | Node _ _ _ _ None => 1
  | Node _ _ _ _ (Some cs) => S (fold_right (fun c m => Nat.max (height c) m) 0 cs)
  end.
