(* Properties5.v -- C41, C42: the transforms between parsing and writing *)
From Verif Require Import Base Common NodeTypes Tree DocTree History Spec TreeProofs DocTreeProofs Transforms
  TransformSpec TransformProofs Properties2.

(* ===== C41 list tables ===== *)
(* A list table whose first child is a bullet list becomes a list table whose
   first child is a table body with one row per item, in order; each row whose
   item starts with a list of cells gets one entry per cell, in order, with the
   cell's (transformed) content, and exactly the last entry is marked. *)
Theorem C41_cells n m lst rest items : node_kind n = KListTable -> node_children n = Some (lst :: rest) ->
  node_kind lst = KBulletList -> node_children lst = Some items -> transform_node n = Ret m ->
  own_content m = own_content n /\
  exists body rest' rows, node_children m = Some (body :: rest') /\ Forall2 (fun c c' => transform_node c = Ret c') rest rest' /\
    same_names body lst /\ node_data body = NTBody /\ node_children body = Some rows /\ Forall2 row_of items rows.
Proof. exact (table_spec n m lst rest items). Qed.
(* a table anywhere in a document, outside other tables, is treated like this *)
Theorem C41_in_place root root' p n : transform_node root = Ret root' -> outside_tables root p ->
  node_at root p = Some n -> node_kind n = KListTable -> exists m, node_at root' p = Some m /\ transform_node n = Ret m.
Proof.
  intros T O A K. pose proof (transform_at root root' T p O) as X. rewrite A in X.
  destruct (node_at root' p) as [m|]; [|contradiction]. exists m. split; [reflexivity|].
  destruct X as [(k & n0 & (q & f & c & _ & _ & _ & B & D) & _)|[_ X]]; [|exact X].
  assert (c = n) by congruence. subst c. unfold node_kind in K. rewrite D in K. discriminate.
Qed.
(* the transforms succeed when no bullet list is empty *)
Theorem C41_no_panic root : Forall nonempty_list (preorder root) -> exists root', transform_node root = Ret root'.
Proof. exact (transform_ok root). Qed.
Definition cell (i : N) (t : str) : TreeNode :=
  Node i None None (NBulletListItem 45%N 2 4) (Some [Node (i + 1)%N None None (NParagraph 4) (Some [Node (i + 2)%N None None (NText t) None])]).
Definition table_row (i : N) (cells : list TreeNode) : TreeNode :=
  Node i None None (NBulletListItem 42%N 0 2) (Some [Node (i + 1)%N None None (NBulletList 45%N 2 4) (Some cells)]).
Definition table_ex : TreeNode :=
  Node 1%N (Some [lit "t"]) None (NListTable 3 None (Some AutoWidths) None None None None)
    (Some [Node 2%N None None (NBulletList 42%N 0 2)
       (Some [table_row 3%N [cell 5%N (lit "a"); cell 8%N (lit "b")]; table_row 11%N [cell 13%N (lit "c"); cell 16%N (lit "d")]])]).
Definition entry (i : N) (last : bool) (t : str) : TreeNode :=
  Node i None None (NEntry last) (Some [Node (i + 1)%N None None (NParagraph 4) (Some [Node (i + 2)%N None None (NText t) None])]).
Example C41_ex : transform_node table_ex = Ret
  (Node 1%N (Some [lit "t"]) None (NListTable 3 None (Some AutoWidths) None None None None)
    (Some [Node 2%N None None NTBody
       (Some [Node 3%N None None NTRow (Some [entry 5%N false (lit "a"); entry 8%N true (lit "b")]);
              Node 11%N None None NTRow (Some [entry 13%N false (lit "c"); entry 16%N true (lit "d")])])])).
Proof. vm_compute. reflexivity. Qed.
Example C41_ex_hyp : Forall (fun it => exists cells, row_cells it cells /\ length cells = 2)
  [table_row 3%N [cell 5%N (lit "a"); cell 8%N (lit "b")]; table_row 11%N [cell 13%N (lit "c"); cell 16%N (lit "d")]].
Proof.
  repeat constructor; eexists; (split; [split; [reflexivity|eexists; eexists; split; [reflexivity|split; reflexivity]]|reflexivity]).
Qed.
(* a row whose list of cells is empty stops the program, and what follows the
   list of cells in its row is lost *)
Theorem C41_empty_row_refuted : exists n, node_kind n = KListTable /\ transform_node n = Panic.
Proof.
  exists (Node 1%N None None (NListTable 3 None (Some AutoWidths) None None None None)
    (Some [Node 2%N None None (NBulletList 42%N 0 2) (Some [table_row 3%N []])])). split; vm_compute; reflexivity.
Qed.
Theorem C41_rest_refuted : exists n m, node_kind n = KListTable /\ transform_node n = Ret m /\
  In (NText (lit "lost")) (map node_data (preorder n)) /\ ~ In (NText (lit "lost")) (map node_data (preorder m)).
Proof.
  eexists (Node 1%N None None (NListTable 3 None (Some AutoWidths) None None None None)
    (Some [Node 2%N None None (NBulletList 42%N 0 2) (Some [
      Node 3%N None None (NBulletListItem 42%N 0 2) (Some [Node 4%N None None (NBulletList 45%N 2 4) (Some [cell 5%N (lit "a")]);
        Node 8%N None None (NParagraph 2) (Some [Node 9%N None None (NText (lit "lost")) None])])])])).
  eexists. split; [reflexivity|]. split; [vm_compute; reflexivity|]. split.
  - vm_compute. tauto.
  - vm_compute. intuition discriminate.
Qed.
Print Assumptions C41_cells.

(* ===== C42 the rest of the document ===== *)
(* Outside list tables every node keeps its position, id, names, classes and
   data, except that a paragraph that is the second child of a figure becomes
   a caption of the same indentation; no node appears or disappears; labels,
   section levels and the node counter stay. *)
Theorem C42_elsewhere d d' root : seen_from_root (tree d) root -> perform_transforms d = Ret d' ->
  exists root', d' = d_set_tree d (Zip root' None None) /\
  forall p, outside_tables root p ->
    match node_at root p, node_at root' p with
    | Some n, Some m => same_names m n /\
        ((exists k, caption_at root p k /\ node_data m = NCaption k) \/
         ((forall k, ~ caption_at root p k) /\ node_data m = node_data n))
    | None, None => True
    | _, _ => False
    end.
Proof.
  unfold seen_from_root, perform_transforms, d_walk_to_root. intros S. rewrite S. cbn [obind z_node tree d_set_tree z_with_node].
  intro H. apply obind_inv in H as [root' [T H]].
  exists root'. split.
  - cbn in H. apply ret_eq in H. subst d'. destruct d; reflexivity.
  - intros p O. pose proof (transform_at root root' T p O) as X.
    destruct (node_at root p) as [n|], (node_at root' p) as [m|]; try contradiction; [|exact I].
    destruct X as [(k & n0 & C & A & ->)|[C A]].
    + apply transform_own, own_same in A as [A _]. split; [destruct n0; exact A|]. left. exists k. split; [exact C|destruct n0; reflexivity].
    + apply transform_own, own_same in A as [A B]. auto.
Qed.
(* the transforms always stop *)
Theorem C42_terminates root : transform_node root <> OutOfFuel.
Proof. exact (transform_enough (height root) root (le_n _)). Qed.
Definition figure_doc : list op :=
  [OPush (NComment None); OFocus (NFigure 3 None None None None); OPush (NImage (lit "a.png") None None None None None None None None false);
   OFocus (NParagraph 3); OPush (NText (lit "cap")); OParent; OFocus (NParagraph 3); OPush (NText (lit "legend"))].
Example C42_ex : exists d', perform_transforms (doc_of figure_doc) = Ret d' /\
  map node_data (preorder (z_node (tree d'))) =
  [NDocument; NComment None; NFigure 3 None None None None; NImage (lit "a.png") None None None None None None None None false;
   NCaption 3; NText (lit "cap"); NParagraph 3; NText (lit "legend")].
Proof. eexists. split; vm_compute; reflexivity. Qed.
Example C42_ex_hyp : exists k, caption_at (document (tree (doc_of figure_doc))) [1; 1] k.
Proof.
  exists 3. exists [1]. eexists. eexists. split; [reflexivity|]. split; [vm_compute; reflexivity|]. split; [reflexivity|].
  split; [vm_compute; reflexivity|]. vm_compute. reflexivity.
Qed.
Print Assumptions C42_elsewhere.
