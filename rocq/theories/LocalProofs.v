(* LocalProofs.v -- rules that relate each node only to what its children say, and
   how the parser's operations on documents affect them *)
From Verif Require Import Base Common NodeTypes Tree DocTree History Spec TreeProofs DocTreeProofs BlockProofs Prog PointsSpec.
Require Import Lia.

Section Local.
  Variable L : TreeNodeType -> list TreeNodeType -> Prop.
  Definition local_ok (n : TreeNode) : Prop := L (node_data n) (child_data n).
  Definition all_local (n : TreeNode) : Prop := Forall local_ok (preorder n).
  Lemma all_local_unfold n : all_local n <->
    local_ok n /\ match node_children n with Some cs => Forall all_local cs | None => True end.
  Proof.
    unfold all_local at 1. rewrite preorder_unfold, Forall_cons_iff.
    destruct (node_children n) as [cs|]; [|intuition]. rewrite Forall_flat_map. reflexivity.
  Qed.
  Lemma child_data_with n cs : child_data (with_children n (Some cs)) = map node_data cs.
  Proof. unfold child_data. rewrite children_with_children. reflexivity. Qed.
  Lemma child_data_data n x : child_data (with_data n x) = child_data n.
  Proof. destruct n; reflexivity. Qed.
  Lemma data_with_data n x : node_data (with_data n x) = x.
  Proof. destruct n; reflexivity. Qed.
  (* replacing the focused node by one that its parent sees as the same *)
  Lemma rebuild_local z : wf z -> forall n m,
    (forall q u v, L q (u ++ node_data n :: v) -> L q (u ++ node_data m :: v)) -> all_local (rebuild z n) ->
    all_local n /\ (all_local m -> all_local (rebuild z m)).
  Proof.
    induction z as [y i|y p i IH] using zip_ind'; intros Hw n m Hk; destruct i as [i|]; try contradiction.
    { cbn. auto. }
    destruct Hw as [Hp Hi]. cbn [rebuild]. intros H.
    destruct (IH Hp (put_back (z_node p) i n) (put_back (z_node p) i m)) as [G1 G2]; [|exact H|].
    { unfold put_back. intros q u v. rewrite !node_data_with_children. auto. }
    clear IH. unfold put_back in G1, G2. destruct (node_children (z_node p)) as [cs|] eqn:Ec; [|contradiction].
    destruct (unswap_split cs i Hi) as (u & v & Huv & _).
    rewrite Huv in G1. rewrite Huv in G2.
    apply all_local_unfold in G1. destruct G1 as [B C]. unfold local_ok in B. rewrite node_data_with_children, child_data_with in B.
    rewrite children_with_children in C. rewrite Forall_app, Forall_cons_iff in C. destruct C as (C1 & C2 & C3). split; [exact C2|].
    intros Hm. unfold put_back. rewrite Ec, Huv. apply G2. apply all_local_unfold. split.
    - unfold local_ok. rewrite node_data_with_children, child_data_with. rewrite map_app in *. cbn [map] in *. apply Hk. exact B.
    - rewrite children_with_children, Forall_app, Forall_cons_iff. auto.
  Qed.
  Lemma all_local_add p c : all_local p -> all_local c -> node_children p <> None ->
    (L (node_data p) (child_data p) -> L (node_data p) (child_data p ++ [node_data c])) -> all_local (add_last p c).
  Proof.
    rewrite (all_local_unfold p), (all_local_unfold (add_last p c)). intros [B C] Hc Hn Ha. unfold add_last.
    destruct (node_children p) as [cs|] eqn:Ec; [|congruence]. split.
    - unfold local_ok in *. rewrite node_data_with_children, child_data_with, map_app. cbn [map].
      unfold child_data in *. rewrite Ec in *. auto.
    - rewrite children_with_children. apply Forall_app. auto.
  Qed.
  Lemma all_local_new x i rs cs : L x [] -> all_local (new_node x i rs cs).
  Proof.
    intros H. apply all_local_unfold. unfold new_node, local_ok, child_data. destruct (can_have_children (kind x)); cbn [node_children node_data]; auto.
  Qed.
  Lemma all_local_data n x : all_local n -> (L (node_data n) (child_data n) -> L x (child_data n)) -> all_local (with_data n x).
  Proof.
    rewrite !all_local_unfold, children_with_data. intros [A B] H. split; auto.
    unfold local_ok. rewrite data_with_data, child_data_data. auto.
  Qed.

  (* a document all of whose nodes obey the rule *)
  Definition doc_local (d : DocTree) : Prop := all_local (document (tree d)).
  Lemma doc_same d d' : doc_local d -> document (tree d') = document (tree d) -> doc_local d'.
  Proof. unfold doc_local. intros H ->. exact H. Qed.
  Lemma doc_focus d : wf (tree d) -> doc_local d -> all_local (z_node (tree d)).
  Proof.
    intros Hw H. unfold doc_local, document in H.
    apply (rebuild_local _ Hw (z_node (tree d)) (z_node (tree d))) in H; [apply H|auto].
  Qed.
  Lemma doc_pushed d d' x n : wf (tree d) -> doc_local d -> DocTreeProofs.pushed d d' x n ->
    (forall x', kind x' = kind x -> (kind x <> KFootnote -> kind x <> KFootnoteReference -> x' = x) ->
       L x' [] /\ (L (focused_data d) (child_data (z_node (tree d))) -> L (focused_data d) (child_data (z_node (tree d)) ++ [x']))) ->
    document (tree d') = rebuild (tree d) (add_last (z_node (tree d)) n) -> doc_local d'.
  Proof.
    intros Hw H (x' & rs & cs & -> & K & S & A & Hc & N) HL D. unfold doc_local. rewrite D.
    destruct (HL x' K S) as [L1 L2].
    destruct (rebuild_local (tree d) Hw (z_node (tree d)) (add_last (z_node (tree d)) (new_node x' (node_count d) rs cs))) as [G1 G2].
    - intros q u v. unfold add_last. rewrite node_data_with_children. auto.
    - exact H.
    - apply G2. apply all_local_add; auto. now apply all_local_new.
  Qed.
  Lemma doc_data d x : wf (tree d) -> doc_local d ->
    (L (focused_data d) (child_data (z_node (tree d))) -> L x (child_data (z_node (tree d)))) ->
    (forall q u v, L q (u ++ focused_data d :: v) -> L q (u ++ x :: v)) -> doc_local (set_focused_data d x).
  Proof.
    intros Hw H H1 H2. unfold doc_local, set_focused_data. cbn [tree d_set_tree]. rewrite document_with.
    destruct (rebuild_local (tree d) Hw (z_node (tree d)) (with_data (z_node (tree d)) x)) as [G1 G2].
    - intros q u v. rewrite data_with_data. apply H2.
    - exact H.
    - apply G2. apply all_local_data; auto.
  Qed.
End Local.
