(* NestProofs.v -- how the parser's document operations keep sections nested by
   level. *)
From Verif Require Import Base Common NodeTypes Tree DocTree History Spec TreeProofs DocTreeProofs BlockProofs Prog LoopProofs.
Require Import Lia.

Section Edges.
  (* a relation between what a parent and its child say *)
  Variable R : TreeNodeType -> TreeNodeType -> Prop.
  Definition edge_ok (n : TreeNode) : Prop :=
    forall cs c, node_children n = Some cs -> In c cs -> R (node_data n) (node_data c).
  Definition edges_ok (n : TreeNode) : Prop := Forall edge_ok (preorder n).
  Lemma edges_unfold n : edges_ok n <->
    edge_ok n /\ match node_children n with Some cs => Forall edges_ok cs | None => True end.
  Proof.
    unfold edges_ok at 1. rewrite preorder_unfold. rewrite Forall_cons_iff.
    destruct (node_children n) as [cs|]; [|intuition]. rewrite Forall_flat_map. reflexivity.
  Qed.
  Lemma rebuild_edges z : wf z -> forall n m, (forall p, R p (node_data n) -> R p (node_data m)) -> edges_ok (rebuild z n) ->
    edges_ok n /\ (edges_ok m -> edges_ok (rebuild z m)).
  Proof.
    induction z as [y i|y p i IH] using zip_ind'; intros Hw n m Hk; destruct i as [i|]; try contradiction.
    { cbn. auto. }
    destruct Hw as [Hp Hi]. cbn [rebuild]. intros H.
    assert (Hk' : forall q, R q (node_data (put_back (z_node p) i n)) -> R q (node_data (put_back (z_node p) i m))).
    { unfold put_back. intros q. rewrite !node_data_with_children. auto. }
    destruct (IH Hp _ _ Hk' H) as [G1 G2]. clear IH.
    unfold put_back in G1, G2. destruct (node_children (z_node p)) as [cs|] eqn:Ec; [|contradiction].
    destruct (unswap_split cs i Hi) as (u & v & Huv & _).
    rewrite Huv in G1. rewrite Huv in G2.
    apply edges_unfold in G1. destruct G1 as [B C]. rewrite children_with_children in *.
    rewrite Forall_app, Forall_cons_iff in C. destruct C as (C1 & C2 & C3). split; [exact C2|].
    intros Hm. unfold put_back. rewrite Ec, Huv. apply G2. apply edges_unfold. rewrite children_with_children. split.
    - intros cs' c. rewrite children_with_children, node_data_with_children. intros [= <-] Hin.
      unfold edge_ok in B. rewrite node_data_with_children in B. setoid_rewrite children_with_children in B.
      apply in_app_or in Hin as [Hin|[<-|Hin]].
      + eapply B; [reflexivity|]. apply in_or_app. auto.
      + apply Hk. eapply B; [reflexivity|]. apply in_or_app. right. left. reflexivity.
      + eapply B; [reflexivity|]. apply in_or_app. right. right. exact Hin.
    - rewrite Forall_app, Forall_cons_iff. auto.
  Qed.
  Lemma edges_add_last p c : edges_ok p -> edges_ok c -> R (node_data p) (node_data c) -> edges_ok (add_last p c).
  Proof.
    rewrite (edges_unfold p), (edges_unfold (add_last p c)). intros [B C] Hc Ha. unfold add_last.
    rewrite children_with_children. destruct (node_children p) as [cs|] eqn:Ec.
    - split.
      + intros cs' c'. rewrite children_with_children, node_data_with_children. intros [= <-] Hin.
        apply in_app_or in Hin as [Hin|[<-|[]]]; eauto.
      + rewrite Forall_app. auto.
    - split; auto. intros cs' c'. rewrite children_with_children. discriminate.
  Qed.
  Lemma edges_del_last p c : node_children p <> None -> edges_ok (add_last p c) -> edges_ok p.
  Proof.
    rewrite (edges_unfold p), (edges_unfold (add_last p c)). unfold add_last. intros Hn.
    destruct (node_children p) as [cs|] eqn:Ec; [|congruence]. rewrite children_with_children. intros [B C].
    rewrite Forall_app in C. destruct C as [C _]. split; [|exact C].
    intros cs' c' E Hin. unfold edge_ok in B. rewrite node_data_with_children in B. setoid_rewrite children_with_children in B.
    eapply B; [reflexivity|]. apply in_or_app. left. rewrite Ec in E. apply some_inj in E. now subst.
  Qed.
  Lemma edges_new x i rs cs : edges_ok (new_node x i rs cs).
  Proof.
    apply edges_unfold. unfold new_node, edge_ok. destruct (can_have_children (kind x)); cbn [node_children].
    - split; [|constructor]. intros cs' c [= <-] [].
    - split; [discriminate|constructor].
  Qed.
  Lemma edges_with_data n x : edges_ok n -> (forall c, R (node_data n) c -> R x c) -> edges_ok (with_data n x).
  Proof.
    rewrite !edges_unfold, children_with_data. intros [A B] H. split; auto.
    intros cs c. rewrite children_with_data. replace (node_data (with_data n x)) with x by (destruct n; reflexivity). eauto.
  Qed.
End Edges.

(* a section is directly in the document or in a section of a lower level *)
Definition under (p c : TreeNodeType) : Prop :=
  forall t l s, c = NSection t l s -> p = NDocument \/ exists t' l' s', p = NSection t' l' s' /\ l' < l.
Lemma under_other p c : kind c <> KSection -> under p c.
Proof. intros H t l s ->. exfalso. apply H. reflexivity. Qed.
Definition nested (d : DocTree) : Prop := edges_ok under (document (tree d)).
Lemma nested_new : nested new_doctree.
Proof. apply edges_new. Qed.
Lemma is_section_kind x : is_section x = false -> kind x <> KSection.
Proof. destruct x; cbn; congruence. Qed.

Lemma nested_pushed d d' x n : inv d -> nested d -> DocTreeProofs.pushed d d' x n ->
  (kind x <> KSection \/ under (focused_data d) x) ->
  document (tree d') = rebuild (tree d) (add_last (z_node (tree d)) n) -> nested d'.
Proof.
  intros I H (x' & rs & cs & -> & K & S & A & Hc & N) HU D. unfold nested. rewrite D.
  destruct (rebuild_edges under (tree d) (inv_wf _ I) (z_node (tree d))
    (add_last (z_node (tree d)) (new_node x' (node_count d) rs cs))) as [G1 G2].
  - intros p. unfold add_last. rewrite node_data_with_children. auto.
  - exact H.
  - apply G2. apply edges_add_last; auto; [apply edges_new|]. unfold new_node. cbn [node_data].
    destruct HU as [HU|HU].
    + apply under_other. congruence.
    + destruct (kind x) eqn:E; try (apply under_other; congruence). rewrite (S ltac:(discriminate) ltac:(discriminate)). exact HU.
Qed.
Lemma nested_data d x : inv d -> nested d -> kind x = kind (focused_data d) -> kind x <> KSection -> nested (set_focused_data d x).
Proof.
  intros I H K KS. unfold nested, set_focused_data. cbn [tree d_set_tree]. rewrite document_with.
  destruct (rebuild_edges under (tree d) (inv_wf _ I) (z_node (tree d)) (with_data (z_node (tree d)) x)) as [G1 G2].
  - intros p _. apply under_other. replace (node_data _) with x by (destruct (z_node (tree d)); reflexivity). exact KS.
  - exact H.
  - apply G2. apply edges_with_data; auto. intros c Hc t l s ->. specialize (Hc t l s eq_refl).
    change (node_data (z_node (tree d))) with (focused_data d) in Hc. destruct Hc as [Hc|(t' & l' & s' & Hc & _)].
    + rewrite Hc in K. left. destruct x; cbn in K; try discriminate. reflexivity.
    + rewrite Hc in K. contradiction.
Qed.
Lemma nested_tree d d' : nested d -> document (tree d') = document (tree d) -> nested d'.
Proof. unfold nested. intros H ->. exact H. Qed.
Lemma nested_update f d a d' : inv d -> nested d ->
  (forall x y, f x = Ret (Some y) -> kind y = kind x /\ is_section y = false) -> update_data f d = Ret (a, d') -> nested d'.
Proof.
  intros I H Hf E. unfold update_data in E. destruct (f (focused_data d)) as [[y|]| |] eqn:Ef; cbn [obind] in E; try discriminate;
    apply Ret_inj in E; injection E as <- <-; auto.
  apply Hf in Ef as [E1 E2]. apply nested_data; auto. now apply is_section_kind.
Qed.
Lemma dop_nested o d a d' : inv d -> nested d -> dpre o d -> dop_exec o d = Ret (a, d') -> nested d'.
Proof.
  intros I H HP E. pose proof (inv_wf _ I) as W. destruct o; cbn [dop_exec] in E.
  - destruct (is_section x) eqn:S; try discriminate. apply is_section_kind in S.
    destruct (push_data d x) as [[y|y]| |] eqn:Ep; cbn [obind] in E; try discriminate; apply Ret_inj in E; injection E as <- <-.
    + apply push_data_spec in Ep as (n & P & T). eapply nested_pushed; eauto. rewrite T. apply document_with.
    + apply push_data_spec in Ep as (T & _). eapply nested_tree; eauto. now rewrite T.
  - destruct (is_section x) eqn:S; try discriminate. apply is_section_kind in S.
    destruct (push_data_and_focus d x) as [[y|y]| |] eqn:Ep; cbn [obind] in E; try discriminate; apply Ret_inj in E; injection E as <- <-.
    + apply push_data_and_focus_spec in Ep as (n & ks & P & Ek & T); [|exact W]. eapply nested_pushed; eauto. rewrite T. apply focus_push_doc; auto.
    + apply push_data_and_focus_spec in Ep as (T & _); [|exact W]. eapply nested_tree; eauto. now rewrite T.
  - destruct (push_data_and_focus _ _) as [[y|y]| |] eqn:Ep; cbn [obind] in E; try discriminate; apply Ret_inj in E; injection E as <- <-.
    + apply push_data_and_focus_spec in Ep as (n & ks & P & Ek & T); [|exact W]. eapply nested_pushed; eauto.
      * right. intros t l s [= <- <- <-]. destruct HP as [HP|(t' & l' & s' & HP & Hl)]; [left; auto|right]. eauto.
      * rewrite T. apply focus_push_doc; auto.
    + apply push_data_and_focus_spec in Ep as (T & _); [|exact W]. eapply nested_tree; eauto. now rewrite T.
  - destruct (is_section x) eqn:S; try discriminate. apply is_section_kind in S.
    destruct (push_child _ _) as [[y [[]|z]]| |] eqn:Ep; cbn [obind] in E; try discriminate; apply Ret_inj in E; injection E as <- <-.
    + apply push_child_spec in Ep as (n & P & T). eapply nested_pushed; eauto. rewrite T. apply document_with.
    + apply push_child_spec in Ep as (T & _). eapply nested_tree; eauto. now rewrite T.
  - destruct (pop_child d) as [c d1] eqn:Ep. apply Ret_inj in E. injection E as <- <-.
    apply pop_spec in Ep as (_ & _ & _ & Ep). destruct c as [c|]; [|eapply nested_tree; eauto; now rewrite Ep].
    destruct Ep as (p & T & Ep & Hn). unfold nested. rewrite T, document_with.
    destruct (rebuild_edges under (tree d) W (z_node (tree d)) p) as [G1 G2].
    + intros q. rewrite Ep. unfold add_last. rewrite node_data_with_children. auto.
    + exact H.
    + apply G2. rewrite Ep in G1. eapply edges_del_last; eauto.
  - destruct (d_focus_on_parent d) eqn:Ep; cbn [obind] in E; try discriminate. apply Ret_inj in E. injection E as <- <-.
    apply d_parent_spec in Ep as (_ & D & _); [|exact W]. eapply nested_tree; eauto.
  - eapply nested_update; eauto. intros x y. destruct x; cbn; intros E'; try discriminate.
    apply Ret_inj, some_inj in E'. subst. auto.
  - eapply nested_update; eauto. intros x y. destruct x; cbn; intros E'; try discriminate.
    apply Ret_inj, some_inj in E'. subst. auto.
  - eapply nested_update; eauto. intros x y. destruct x; cbn [add_points]; intros E'; try discriminate.
    destruct (u32_add _ _); cbn [obind] in E'; try discriminate. apply Ret_inj, some_inj in E'. subst. auto.
  - eapply nested_update; eauto. intros x y. destruct x; cbn; intros E'; try discriminate.
    apply Ret_inj, some_inj in E'. subst. auto.
  - apply Ret_inj in E. injection E as <- <-. exact H.
  - destruct (next_anon_target_label d) as [[y l]| |] eqn:Ep; cbn [obind] in E; try discriminate.
    apply Ret_inj in E. injection E as <- <-. unfold next_anon_target_label in Ep.
    destruct (u32_add _ _); cbn [obind] in Ep; try discriminate. apply Ret_inj in Ep. injection Ep as <- <-. exact H.
  - destruct (next_anon_reference_label d) as [[y l]| |] eqn:Ep; cbn [obind] in E; try discriminate.
    apply Ret_inj in E. injection E as <- <-. unfold next_anon_reference_label in Ep.
    destruct (u32_add _ _); cbn [obind] in Ep; try discriminate. apply Ret_inj in Ep. injection Ep as <- <-. exact H.
Qed.
Lemma dsteps_inv d d' : inv d -> dsteps d d' -> inv d'.
Proof.
  intros I H. induction H as [|d d1 o a d2 H IH Hp E]; auto.
  specialize (IH I). apply dop_run in E as [->|[e E]]; [exact IH|]. eapply step_inv; eauto.
Qed.
Lemma dsteps_nested d d' : inv d -> nested d -> dsteps d d' -> nested d'.
Proof.
  intros I H S. induction S as [|d d1 o a d2 S IH Hp E]; auto.
  apply (dop_nested o d1 a d2); auto. eapply dsteps_inv; eauto.
Qed.
