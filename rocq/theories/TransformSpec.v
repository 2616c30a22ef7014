(* TransformSpec.v -- what C41 and C42 say about the transforms *)
From Verif Require Import Base Common NodeTypes Tree Spec Transforms.

(* no node above the position p is a list table *)
Definition outside_tables (root : TreeNode) (p : list nat) : Prop :=
  forall q i r n, p = q ++ i :: r -> node_at root q = Some n -> node_kind n <> KListTable.
(* the node at p is the second child of a figure and a paragraph *)
Definition caption_at (root : TreeNode) (p : list nat) (k : nat) : Prop :=
  exists q f c, p = q ++ [1] /\ node_at root q = Some f /\ node_kind f = KFigure /\
    node_at root p = Some c /\ node_data c = NParagraph k.
(* cells of one row of a list table: the items of the list that is the first
   child of the row's item *)
Definition row_cells (item : TreeNode) (cells : list TreeNode) : Prop :=
  node_kind item = KBulletListItem /\
  exists nested more, node_children item = Some (nested :: more) /\ node_kind nested = KBulletList /\
    node_children nested = Some cells.
Definition same_names (a b : TreeNode) : Prop :=
  node_id a = node_id b /\ node_refnames a = node_refnames b /\ node_classes a = node_classes b.
Definition transformed_children (a b : TreeNode) : Prop :=
  match node_children a, node_children b with
  | Some cs, Some cs' => Forall2 (fun c c' => transform_node c = Ret c') cs cs'
  | None, None => True
  | _, _ => False
  end.
Definition row_of (item row : TreeNode) : Prop := forall cells, row_cells item cells ->
  same_names row item /\ node_data row = NTRow /\
  exists entries, node_children row = Some entries /\ length entries = length cells /\
    forall j c, nth_error cells j = Some c -> exists e, nth_error entries j = Some e /\ same_names e c /\
      node_data e = NEntry (j =? length cells - 1) /\ transformed_children c e.
(* lists have items *)
Definition nonempty_list (n : TreeNode) : Prop := node_kind n = KBulletList -> exists c cs, node_children n = Some (c :: cs).
