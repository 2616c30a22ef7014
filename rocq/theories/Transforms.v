(* Transforms.v -- model of /repo/src/doctree/restructuredtext_transforms.rs:
   the tree rewriting between parsing and writing.  Messages printed to stderr
   are not modelled. *)
From Verif Require Import Base Common NodeTypes Tree DocTree.

(* restructuredtext_transforms.rs 141-155: all cells but the last become
   Entry { is_last: false }, the last one Entry { is_last: true } *)
Fixpoint mark_entries (cells : list TreeNode) : list TreeNode :=
  match cells with
  | [] => []
  | [c] => [with_data c (NEntry true)]
  | c :: t => with_data c (NEntry false) :: mark_entries t
  end.
(* 111-170: one child of the outer list.  `n_of_entries - 1` underflows for a
   nested list without items. *)
Definition transform_item (item : TreeNode) : outcome TreeNode :=
  match node_data item with
  | NBulletListItem _ _ _ =>
      let row := with_data item NTRow in
      match node_children row with
      | Some (nested :: _) =>
          match node_data nested with
          | NBulletList _ _ _ =>
              match node_children nested with
              | Some cells =>
                  let! _ := checked_sub (length cells) 1 in
                  node_append_children (with_children row (Some [])) (mark_entries cells)
              | None => Panic
              end
          | _ => Ret row
          end
      | _ => Ret row
      end
  | _ => Ret item
  end.
Fixpoint omap {A B} (f : A -> outcome B) (l : list A) : outcome (list B) :=
  match l with
  | [] => Ret []
  | x :: t => let! y := f x in let! ys := omap f t in Ret (y :: ys)
  end.
(* 81-93 (Figure) and 100-183 (ListTable): what happens to the node itself and
   the levels directly below it *)
Definition transform_here (n : TreeNode) : outcome TreeNode :=
  match node_data n, node_children n with
  | NFigure _ _ _ _ _, Some (a :: b :: rest) =>
      match node_data b with
      | NParagraph indent => Ret (with_children n (Some (a :: with_data b (NCaption indent) :: rest)))
      | _ => Ret n
      end
  | NListTable _ _ _ _ _ _ _, Some (list :: rest) =>
      match node_data list with
      | NBulletList _ _ _ =>
          let body := with_data list NTBody in
          match node_children body with
          | Some items =>
              let! rows := omap transform_item items in
              Ret (with_children n (Some (with_children body (Some rows) :: rest)))
          | None => Ret (with_children n (Some (body :: rest)))
          end
      | _ => Ret n
      end
  | _, _ => Ret n
  end.
(* 34-259: TreeNode::perform_restructuredtext_transforms; the recursion is on
   the rewritten children, which are never deeper than the original ones, so
   the height is enough fuel *)
Fixpoint transform (fuel : nat) (n : TreeNode) : outcome TreeNode :=
  match fuel with
  | 0 => OutOfFuel
  | S f =>
      let! n1 := transform_here n in
      match node_children n1 with
      | Some cs => let! cs' := omap (transform f) cs in Ret (with_children n1 (Some cs'))
      | None => Ret n1
      end
  end.
Definition transform_node (n : TreeNode) : outcome TreeNode := transform (height n) n.
(* 23-30: TreeZipper, 12-21: DocTree::perform_restructuredtext_transforms *)
Definition perform_transforms (d : DocTree) : outcome DocTree :=
  let! d := d_walk_to_root d in
  let! n := transform_node (z_node (tree d)) in
  d_walk_to_root (d_set_tree d (z_with_node (tree d) n)).
