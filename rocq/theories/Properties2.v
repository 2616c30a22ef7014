(* Properties2.v -- C04-C10, C12-C16: document trees, sections, labels *)
From Coq Require Import Sorted.
From Verif Require Import Base Common NodeTypes Tree DocTree History Spec TreeProofs DocTreeProofs HyperrefProofs.
Local Open Scope N_scope.

(* documents used in examples *)
Definition events_of (os : list op) : list event := match exec [] new_doctree os with Some (es, _) => es | None => [] end.
Definition doc_of (os : list op) : DocTree := match exec [] new_doctree os with Some (_, d) => d | None => new_doctree end.
Definition demo : list op :=
  [OFocus (NParagraph 0); OPush (NText (lit "a")); OPush (NEmphasis (lit "b")); OParent;
   OSection (lit "One") (Under 61); OFocus (NBulletList 45 0 2); OFocus (NBulletListItem 45 0 2);
   OFocus (NParagraph 2); OPush (NText (lit "c")); OParent; OParent].
Lemma demo_built : built (events_of demo) (doc_of demo).
Proof. apply exec_built with (os := demo). vm_compute. reflexivity. Qed.
Lemma built_reachable es d : built es d -> reachable es d.
Proof. unfold built, reachable. generalize new_doctree. intros d0. induction 1; [constructor|]. econstructor; [eassumption|]. constructor. assumption. Qed.

(* ===== C04 ===== *)
Theorem C04_round_trip z i z' : focus_on_child z i = Ok z' -> focus_on_parent z' = Ret (Ok z).
Proof. exact (focus_child_parent z i z'). Qed.
Theorem C04_focused_child z i z' : focus_on_child z i = Ok z' ->
  exists cs, node_children (z_node z) = Some cs /\ nth_error cs i = Some (z_node z').
Proof. exact (focus_child_node z i z'). Qed.
Theorem C04_existing z cs i : node_children (z_node z) = Some cs -> (i < length cs)%nat -> exists z', focus_on_child z i = Ok z'.
Proof. exact (focus_child_ok z cs i). Qed.
Theorem C04_missing z i : (forall cs, node_children (z_node z) = Some cs -> (length cs <= i)%nat) -> focus_on_child z i = Err z.
Proof. exact (focus_child_err z i). Qed.
(* the parent's other children are all still there, in order, when the child is put back *)
Example C04_ex : exists z', focus_on_child (tree (doc_of (demo ++ [ORoot]))) 0 = Ok z' /\
  node_kind (z_node z') = KParagraph /\ focus_on_parent z' = Ret (Ok (tree (doc_of (demo ++ [ORoot])))).
Proof. eexists. split; [vm_compute; reflexivity|]. split; vm_compute; reflexivity. Qed.
Print Assumptions C04_round_trip.

(* ===== C05 ===== *)
Lemma seen_document z : wf z -> seen_from_root z (document z).
Proof. exact (walk_to_root_wf z). Qed.
Lemma seen_unique z a b : seen_from_root z a -> seen_from_root z b -> a = b.
Proof. unfold seen_from_root. congruence. Qed.
Lemma seen_is_document z r : wf z -> seen_from_root z r -> r = document z.
Proof. intros W H. eapply seen_unique; [exact H|apply seen_document; exact W]. Qed.
Theorem C05_root es d : reachable es d -> exists root, seen_from_root (tree d) root /\
  d_walk_to_root d = Ret (d_set_tree d (Zip root None None)).
Proof.
  intros H. pose proof (inv_wf _ (reachable_inv _ _ H)) as W. exists (document (tree d)).
  split; [apply seen_document; exact W|apply d_root_spec; exact W].
Qed.
Theorem C05_parent es d d' root : reachable es d -> seen_from_root (tree d) root ->
  d_focus_on_parent d = Ret d' -> seen_from_root (tree d') root /\ hyperref d' = hyperref d /\ sections d' = sections d.
Proof.
  intros H S E. pose proof (inv_wf _ (reachable_inv _ _ H)) as W. apply d_parent_spec in E as (W' & D & _ & A & B & _); [|exact W].
  apply seen_is_document in S; [|exact W]. subst. rewrite <- D. split; [apply seen_document; exact W'|auto].
Qed.
Theorem C05_section es d level root : reachable es d -> seen_from_root (tree d) root ->
  exists d', d_walk_to_parent_section_level d level = Ret d' /\ seen_from_root (tree d') root /\ d' = d_set_tree d (tree d').
Proof.
  intros H S. pose proof (inv_wf _ (reachable_inv _ _ H)) as W.
  destruct (walk_to_section_wf (tree d) level W) as (z & E & W' & D). apply seen_is_document in S; [|exact W]. subst.
  exists (d_set_tree d z). unfold d_walk_to_parent_section_level. rewrite E. split; [reflexivity|].
  split; [|reflexivity]. cbn [tree d_set_tree]. rewrite <- D. apply seen_document. exact W'.
Qed.
Theorem C05_id es d id d' root : reachable es d -> seen_from_root (tree d) root -> d_walk_to_id d id = Ret d' ->
  seen_from_root (tree d') root /\ d' = d_set_tree d (tree d').
Proof.
  intros H S E. pose proof (inv_wf _ (reachable_inv _ _ H)) as W. apply d_walk_to_id_spec in E as (E & W' & D); [|exact W].
  apply seen_is_document in S; [|exact W]. subst. split; [|exact E]. rewrite <- D. apply seen_document. exact W'.
Qed.
Theorem C05_section_where es d level d' : reachable es d -> d_walk_to_parent_section_level d level = Ret d' ->
  climbs (document_or_section_of level) (tree d) (tree d').
Proof.
  intros H. pose proof (inv_wf _ (reachable_inv _ _ H)) as W. unfold d_walk_to_parent_section_level, z_walk_to_parent_section_level.
  assert (G : forall f z z', wf z -> walk_to_section_loop f z level = Ret z' -> climbs (document_or_section_of level) z z').
  { induction f as [|f IH]; intros z z' Hw E; [discriminate|]. cbn [walk_to_section_loop] in E.
    assert (Up : document_or_section_of level (node_data (z_node z)) = false ->
      (let! r := focus_on_parent z in match r with Ok p => walk_to_section_loop f p level | Err z => Ret z end) = Ret z' ->
      climbs (document_or_section_of level) z z').
    { intros Hs Eu. destruct (focus_parent_total z Hw) as [[p|y] Ep]; rewrite Ep in Eu; cbn [obind] in Eu.
      - pose proof (focus_parent_wf _ _ Hw Ep) as (Hp & _). eapply climb_up; eauto.
      - pose proof (focus_parent_wf _ _ Hw Ep) as (-> & _). injection Eu as <-. now apply climb_root. }
    destruct (node_data (z_node z)) eqn:D; try (apply Up; [reflexivity|exact E]).
    - injection E as <-. apply climb_here. now rewrite D.
    - destruct (level0 <=? level)%nat eqn:L.
      + injection E as <-. apply climb_here. rewrite D. exact L.
      + apply Up; [exact L|exact E]. }
  destruct (walk_to_section_loop (S (z_depth (tree d))) (tree d) level) as [z| |] eqn:E; try discriminate.
  cbn [obind]. intros E'. injection E' as <-. eapply G; [exact W|exact E].
Qed.
Example C05_ex : exists d', d_walk_to_id (doc_of demo) 3 = Ret d' /\ node_data (z_node (tree d')) = NEmphasis (lit "b").
Proof. eexists. split; vm_compute; reflexivity. Qed.
(* from inside the list, level 1 is the section and level 0 the document *)
Example C05_section_ex : exists d1 d0, d_walk_to_parent_section_level (doc_of demo) 1%nat = Ret d1 /\
  node_kind (z_node (tree d1)) = KSection /\ d_walk_to_parent_section_level (doc_of demo) 0%nat = Ret d0 /\
  node_kind (z_node (tree d0)) = KDocument.
Proof. eexists. eexists. split; [vm_compute; reflexivity|]. split; [vm_compute; reflexivity|]. split; vm_compute; reflexivity. Qed.
Print Assumptions C05_id.

(* ===== C06 ===== *)
Lemma has_id_in id n : has_id id n = true <-> In id (map node_id (preorder n)).
Proof.
  unfold has_id. rewrite existsb_exists, in_map_iff. split; intros (m & A & B); exists m.
  - apply N.eqb_eq in B. auto.
  - split; [exact B|]. apply N.eqb_eq. exact A.
Qed.
Theorem C06_found es d root id : reachable es d -> seen_from_root (tree d) root ->
  In id (map node_id (preorder root)) ->
  exists d', d_walk_to_id d id = Ret d' /\ node_id (z_node (tree d')) = id /\
    node_at root (focus_path (tree d')) = Some (z_node (tree d')).
Proof.
  intros H S Hin. pose proof (reachable_inv _ _ H) as I. pose proof (inv_wf _ I) as W.
  apply seen_is_document in S; [|exact W]. subst root.
  assert (Hlt : id < node_count d) by (pose proof (inv_lt _ I) as L; rewrite Forall_forall in L; apply L; exact Hin).
  unfold d_walk_to_id. rewrite walk_to_root_wf by exact W. cbn [obind].
  destruct (N.ltb_spec (node_count d) id); [lia|].
  pose proof (walk_spec (height (document (tree d))) (Zip (document (tree d)) None None) id Logic.I (le_n _)) as G.
  cbn [z_node] in *. apply has_id_in in Hin. rewrite Hin in G. destruct G as (z & E & A & B & C & path & P & Q).
  rewrite E. cbn [obind]. eexists. split; [reflexivity|]. cbn [tree d_set_tree]. split; [exact A|].
  rewrite P. exact Q.
Qed.
(* no such node: the focus ends at the root of the unchanged document *)
Theorem C06_absent es d root id : reachable es d -> seen_from_root (tree d) root ->
  ~ In id (map node_id (preorder root)) -> id <= node_count d ->
  d_walk_to_id d id = Ret (d_set_tree d (Zip root None None)).
Proof.
  intros H S Hin Hle. pose proof (reachable_inv _ _ H) as I. pose proof (inv_wf _ I) as W.
  apply seen_is_document in S; [|exact W]. subst root.
  unfold d_walk_to_id. rewrite walk_to_root_wf by exact W. cbn [obind].
  destruct (N.ltb_spec (node_count d) id); [lia|].
  pose proof (walk_spec (height (document (tree d))) (Zip (document (tree d)) None None) id Logic.I (le_n _)) as G.
  cbn [z_node] in *. destruct (has_id id _) eqn:E; [apply has_id_in in E; contradiction|]. rewrite G. reflexivity.
Qed.
(* ids that were never given out stop the program *)
Theorem C06_never_given es d id : reachable es d -> node_count d < id -> d_walk_to_id d id = Panic.
Proof.
  intros H Hlt. pose proof (inv_wf _ (reachable_inv _ _ H)) as W.
  unfold d_walk_to_id. rewrite walk_to_root_wf by exact W. cbn [obind]. destruct (N.ltb_spec (node_count d) id); [reflexivity|lia].
Qed.
(* the search below any focus reports success exactly when the id is there *)
Theorem C06_subtree es d id : reachable es d ->
  (exists z, z_walk_to_id (height (z_node (tree d))) (tree d) id = Ret (Ok z)) <->
  In id (map node_id (preorder (z_node (tree d)))).
Proof.
  intros H. pose proof (inv_wf _ (reachable_inv _ _ H)) as W. rewrite <- has_id_in.
  pose proof (walk_spec (height (z_node (tree d))) (tree d) id W (le_n _)) as G.
  destruct (has_id id (z_node (tree d))).
  - destruct G as (z & E & _). intuition eauto.
  - rewrite G. split; [|discriminate]. intros (z & E). unfold up_err in E.
    destruct (focus_on_parent (tree d)) as [[?|?]| |]; discriminate.
Qed.
Example C06_ex : exists root, seen_from_root (tree (doc_of demo)) root /\ In 7 (map node_id (preorder root)) /\
  ~ In 9 (map node_id (preorder root)).
Proof. eexists. split; [vm_compute; reflexivity|]. split; vm_compute; intuition discriminate. Qed.
Print Assumptions C06_found.

(* ===== C07 ===== *)
(* put_at changes nothing outside the given position *)
Lemma put_at_elsewhere : forall p q r m, (forall s, q <> p ++ s) -> node_at r p <> None ->
  option_map own_content (node_at (put_at r p m) q) = option_map own_content (node_at r q) /\
  option_map (fun n => option_map (@length _) (node_children n)) (node_at (put_at r p m) q) =
  option_map (fun n => option_map (@length _) (node_children n)) (node_at r q).
Proof.
  induction p as [|i p IH]; intros q r m Hq Hp.
  { exfalso. apply (Hq q). reflexivity. }
  cbn [put_at node_at] in *. destruct (node_children r) as [cs|] eqn:Ec; [|congruence].
  destruct (nth_error cs i) as [c|] eqn:En; [|congruence].
  destruct q as [|j q].
  - cbn. rewrite Ec. destruct r; cbn in *. rewrite set_nth_length. auto.
  - cbn [node_at]. rewrite children_with_children, Ec. destruct (Nat.eq_dec i j) as [<-|Hne].
    + rewrite nth_set_nth by (apply nth_error_Some; congruence). rewrite En. apply IH; [|exact Hp].
      intros s Es. apply (Hq s). cbn. congruence.
    + rewrite nth_set_nth_ne by exact Hne. auto.
Qed.
Lemma put_at_same : forall p r m, node_at r p <> None -> node_at (put_at r p m) p = Some m.
Proof.
  induction p as [|i p IH]; intros r m Hp; [reflexivity|]. cbn [put_at node_at] in *.
  destruct (node_children r) as [cs|] eqn:Ec; [|congruence]. destruct (nth_error cs i) as [c|] eqn:En; [|congruence].
  rewrite children_with_children, nth_set_nth by (apply nth_error_Some; congruence). auto.
Qed.
(* the whole effect of adding node n below position p *)
Definition only_added (root root' : TreeNode) (p : list nat) (n : TreeNode) : Prop :=
  exists focused cs, node_at root p = Some focused /\ node_children focused = Some cs /\
  (* the focused node has one more child, at the end *)
  node_at root' p = Some (with_children focused (Some (cs ++ [n]))) /\
  (* every node that is not below p says the same as before and has as many children *)
  (forall q, (forall s, q <> p ++ s) ->
     option_map own_content (node_at root' q) = option_map own_content (node_at root q) /\
     option_map (fun n => option_map (@length _) (node_children n)) (node_at root' q) =
     option_map (fun n => option_map (@length _) (node_children n)) (node_at root q)).
Lemma only_added_put root p n focused cs : node_at root p = Some focused -> node_children focused = Some cs ->
  only_added root (put_at root p (add_last focused n)) p n.
Proof.
  intros A C. exists focused, cs. split; [exact A|]. split; [exact C|]. split.
  - rewrite put_at_same by congruence. unfold add_last. rewrite C. reflexivity.
  - intros q Hq. apply put_at_elsewhere; [exact Hq|congruence].
Qed.
Definition keeps_data (x : TreeNodeType) : bool :=
  match x with NFootnote _ _ _ _ | NFootnoteReference _ _ _ => false | _ => true end.
Lemma actions_data d x d' x' rs : keeps_data x = true -> hyperref_actions d x = Ret (d', x', rs) -> x' = x.
Proof.
  intros K. rewrite hyperref_actions_eq. unfold actions_after. destruct x; try discriminate K; intros [= _ <- _]; reflexivity.
Qed.
Theorem C07_push es d x d' root : reachable es d -> seen_from_root (tree d) root -> push_data d x = Ret (Ok d') ->
  exists root' n, seen_from_root (tree d') root' /\ only_added root root' (focus_path (tree d)) n /\
    focus_path (tree d') = focus_path (tree d) /\
    node_id n = node_count d /\ kind (node_data n) = kind x /\ (keeps_data x = true -> node_data n = x) /\
    (node_children n = None \/ node_children n = Some []).
Proof.
  intros H S E. pose proof (inv_wf _ (reachable_inv _ _ H)) as W. apply seen_is_document in S; [|exact W]. subst root.
  pose proof (push_data_spec _ _ _ E) as (n & (x' & rs & cs & En & K & _ & _ & Hc & _) & T).
  assert (Hd : keeps_data x = true -> x' = x).
  { intros Kd. pose proof E as E0. unfold push_data in E0. inv_ret E0. destruct a as [[d1 x1] ls]. pose proof (actions_data _ _ _ _ _ Kd E1) as ->.
    apply hyperref_shape in E1 as ((T1 & C1 & _) & _). cbn [fst snd] in E0. destruct (take_classes d1) as [d2 c2] eqn:Et.
    apply take_classes_shape in Et as (T2 & C2 & _). inv_ret E0. destruct a; (discriminate E0 || injection E0 as <-). cbn [tree d_set_tree d_set_count] in T.
    apply z_push_spec in E1 as (Ez & _). rewrite T2, T1 in Ez. rewrite Ez in T. subst n.
    assert (HL : last_child (add_last (z_node (tree d)) (new_node x (node_count d2) ls c2)) = last_child (add_last (z_node (tree d)) (new_node x' (node_count d) rs cs))).
    { rewrite <- (z_node_with (tree d) (add_last _ (new_node x _ _ _))), <- (z_node_with (tree d) (add_last _ (new_node x' _ _ _))). f_equal. f_equal. exact T. }
    rewrite !last_child_add in HL by exact Hc. injection HL as _ _ _ HL. congruence. }
  exists (document (tree d')), n. split.
  { apply seen_document. rewrite T. apply wf_with. exact W. }
  destruct (node_children (z_node (tree d))) as [ks|] eqn:Ek; [|congruence].
  assert (D : document (tree d') = put_at (document (tree d)) (focus_path (tree d)) (add_last (z_node (tree d)) n)).
  { rewrite T, document_with. unfold document. rewrite rebuild_put by exact W. reflexivity. }
  rewrite D. split; [eapply only_added_put; [apply rebuild_at; exact W|exact Ek]|].
  split; [rewrite T; apply position_with|]. subst n. cbn [node_id new_node node_data node_children].
  repeat split; auto. destruct (can_have_children (kind x')); auto.
Qed.
Theorem C07_push_and_focus es d x d' root : reachable es d -> seen_from_root (tree d) root -> push_data_and_focus d x = Ret (Ok d') ->
  exists root' n k, seen_from_root (tree d') root' /\ only_added root root' (focus_path (tree d)) n /\
    focus_path (tree d') = focus_path (tree d) ++ [k] /\ node_at root' (focus_path (tree d') ) = Some n /\
    node_id n = node_count d /\ kind (node_data n) = kind x /\ z_node (tree d') = n.
Proof.
  intros H S E. pose proof (inv_wf _ (reachable_inv _ _ H)) as W. apply seen_is_document in S; [|exact W]. subst root.
  pose proof (push_data_and_focus_spec _ _ _ W E) as (n & ks & (x' & rs & cs & En & K & _ & _ & Hc & _) & Ek & T).
  exists (document (tree d')), n, (length ks).
  assert (W' : wf (tree d')) by (rewrite T; eapply focus_push_wf; eauto).
  split; [apply seen_document; exact W'|].
  assert (D : document (tree d') = put_at (document (tree d)) (focus_path (tree d)) (add_last (z_node (tree d)) n)).
  { rewrite T, (focus_push_doc _ _ _ Ek). unfold document. rewrite rebuild_put by exact W. reflexivity. }
  split; [rewrite D; eapply only_added_put; [apply rebuild_at; exact W|exact Ek]|].
  split; [rewrite T; reflexivity|].
  split; [replace n with (z_node (tree d')) by (rewrite T; reflexivity); apply rebuild_at; exact W'|].
  subst n. rewrite T. repeat split; auto.
Qed.
Theorem C07_refused es d x d' root : reachable es d -> seen_from_root (tree d) root ->
  push_data d x = Ret (Err d') \/ push_data_and_focus d x = Ret (Err d') ->
  seen_from_root (tree d') root /\ tree d' = tree d /\ node_count d' = node_count d.
Proof.
  intros H S E. pose proof (inv_wf _ (reachable_inv _ _ H)) as W.
  assert (T : tree d' = tree d /\ node_count d' = node_count d).
  { destruct E as [E|E]; [apply push_data_spec in E|apply push_data_and_focus_spec in E; [|exact W]]; intuition. }
  destruct T as [T C]. rewrite T. auto.
Qed.
(* accepted and refused are what the nesting table says *)
Theorem C07_decided es d x r : reachable es d ->
  push_data d x = Ret r \/ push_data_and_focus d x = Ret r ->
  (exists d', r = Ok d') <->
  child_is_allowed (kind (focused_data d)) (kind x) = Ret true /\ can_have_children (kind (focused_data d)) = true.
Proof.
  intros H E. pose proof (reachable_inv _ _ H) as I. pose proof (inv_wf _ I) as W.
  assert (G : tree_ok (z_node (tree d))).
  { pose proof (inv_ok _ I) as O. unfold document in O. eapply rebuild_tree_ok; [exact W|reflexivity|exact O]. }
  apply tree_ok_unfold in G as ((G & _) & _). unfold node_kind in G. fold (focused_data d) in G.
  assert (R : match r with Ok d' => child_is_allowed (node_kind (z_node (tree d))) (kind x) = Ret true /\ node_children (z_node (tree d)) <> None
               | Err _ => refused d x end).
  { destruct E as [E|E].
    - apply push_data_spec in E. destruct r; [destruct E as (n & (x' & rs & cs & E) & _)|]; intuition.
    - apply push_data_and_focus_spec in E; [|exact W]. destruct r; [destruct E as (n & ks & (x' & rs & cs & E) & _)|]; intuition. }
  unfold node_kind in *. fold (focused_data d) in *. destruct r as [d'|d'].
  - split; [|eauto]. intros _. destruct R as [R1 R2]. split; [exact R1|].
    destruct (can_have_children (kind (focused_data d))); [reflexivity|]. exfalso. apply R2. apply G. reflexivity.
  - split; [intros (d2 & F); discriminate|]. intros [A B]. exfalso.
    destruct R as [R|R]; unfold node_kind in R; fold (focused_data d) in R; [congruence|]. apply G in R. congruence.
Qed.
Example C07_ex : exists d' d'', push_data_and_focus (doc_of demo) (NBulletListItem 45 0 2) = Ret (Ok d') /\
  push_data (doc_of demo) NDocument = Ret (Err d'').
Proof. do 2 eexists. split; vm_compute; reflexivity. Qed.
Print Assumptions C07_push.
Print Assumptions C07_decided.

(* ===== C08 ===== *)
Theorem C08_unique es d root : reachable es d -> seen_from_root (tree d) root -> NoDup (map node_id (preorder root)).
Proof.
  intros H S. pose proof (reachable_inv _ _ H) as I. apply seen_is_document in S; [|apply (inv_wf _ I)]. subst. apply (inv_nodup _ I).
Qed.
Theorem C08_document_order es d root : built es d -> seen_from_root (tree d) root ->
  StronglySorted N.lt (map node_id (preorder root)).
Proof.
  intros H S. pose proof (built_inv _ _ H) as I. apply seen_is_document in S; [|apply (inv_wf _ (ib_inv _ I))]. subst. apply (ib_sorted _ I).
Qed.
Theorem C08_counter es d root n : reachable es d -> seen_from_root (tree d) root -> In n (preorder root) -> node_id n < node_count d.
Proof.
  intros H S Hn. pose proof (reachable_inv _ _ H) as I. apply seen_is_document in S; [|apply (inv_wf _ I)]. subst.
  pose proof (inv_lt _ I) as L. rewrite Forall_forall in L. apply L. apply in_map. exact Hn.
Qed.
Example C08_ex : exists root, seen_from_root (tree (doc_of demo)) root /\ map node_id (preorder root) = [0;1;2;3;4;5;6;7;8].
Proof. eexists. split; vm_compute; reflexivity. Qed.
Print Assumptions C08_document_order.

(* ===== C09 ===== *)
Lemma node_at_in : forall p r n, node_at r p = Some n -> In n (preorder r).
Proof.
  induction p as [|i p IH]; intros r n; cbn [node_at]; rewrite preorder_unfold; [intros [= ->]; left; reflexivity|].
  destruct (node_children r) as [cs|]; [|discriminate]. destruct (nth_error cs i) as [c|] eqn:E; [|discriminate].
  intros H. right. apply in_flat_map. exists c. split; [eapply nth_error_In; exact E|]. apply IH. exact H.
Qed.
Theorem C09_table es d root p i parent child : reachable es d -> seen_from_root (tree d) root ->
  node_at root p = Some parent -> node_at root (p ++ [i]) = Some child ->
  child_is_allowed (node_kind parent) (node_kind child) = Ret true.
Proof.
  intros H S A B. pose proof (reachable_inv _ _ H) as I. apply seen_is_document in S; [|apply (inv_wf _ I)]. subst.
  pose proof (inv_ok _ I) as O. unfold tree_ok in O. rewrite Forall_forall in O. destruct (O _ (node_at_in _ _ _ A)) as [_ G].
  rewrite (node_at_app _ _ _ _ A) in B. cbn [node_at] in B. destruct (node_children parent) as [cs|] eqn:Ec; [|discriminate].
  destruct (nth_error cs i) eqn:En; [|discriminate]. injection B as ->. eapply G; [reflexivity|]. eapply nth_error_In; exact En.
Qed.
Lemma allowed_rules p c : child_is_allowed p c = Ret true -> nesting_rules p c.
Proof.
  intros H. unfold nesting_rules.
  repeat match goal with |- _ /\ _ => split end; intros E; subst;
    first [is_var p; destruct p|is_var c; destruct c]; vm_compute in H; try discriminate H;
    clear H; vm_compute; intuition (discriminate || reflexivity).
Qed.
Theorem C09_rules es d root p i parent child : reachable es d -> seen_from_root (tree d) root ->
  node_at root p = Some parent -> node_at root (p ++ [i]) = Some child ->
  nesting_rules (node_kind parent) (node_kind child).
Proof. intros H S A B. apply allowed_rules. eapply C09_table; eauto. Qed.
Theorem C09_leaves es d root p n : reachable es d -> seen_from_root (tree d) root -> node_at root p = Some n ->
  (node_children n = None <-> can_have_children (node_kind n) = false).
Proof.
  intros H S A. pose proof (reachable_inv _ _ H) as I. apply seen_is_document in S; [|apply (inv_wf _ I)]. subst.
  pose proof (inv_ok _ I) as O. unfold tree_ok in O. rewrite Forall_forall in O. apply (O _ (node_at_in _ _ _ A)).
Qed.
Example C09_ex : exists root a b, seen_from_root (tree (doc_of demo)) root /\ node_at root [1;0]%nat = Some a /\
  node_at root [1;0;0]%nat = Some b /\ node_kind a = KBulletList /\ node_kind b = KBulletListItem.
Proof. do 3 eexists. do 4 (split; [vm_compute; reflexivity|]). vm_compute; reflexivity. Qed.
Print Assumptions C09_rules.

(* ===== C10 ===== *)
(* the level a title of style s would get depends only on the styles seen so far *)
Theorem C10_level es d title s : built es d ->
  new_section_data d title s = NSection title (level_after (styles_of es) s) s.
Proof. intros H. unfold new_section_data. rewrite (sec_inv_level _ _ _ (built_sections _ _ H)). reflexivity. Qed.
(* what that means *)
Theorem C10_level_means seen s : 
  (~ In s seen -> level_after seen s = S (length (uniq seen))) /\
  (In s seen -> (1 <= level_after seen s <= length (uniq seen))%nat) /\
  (In s seen -> forall more, level_after (seen ++ more) s = level_after seen s) /\
  (forall t, In s seen -> In t seen -> level_after seen s = level_after seen t -> s = t) /\
  (forall k, (1 <= k <= length (uniq seen))%nat -> exists t, In t seen /\ level_after seen t = k).
Proof.
  unfold level_after. split; [|split; [|split; [|split]]].
  - intros H. rewrite index_of_notin; [reflexivity|]. rewrite uniq_in. exact H.
  - intros H. apply uniq_in in H. apply index_of_in in H. lia.
  - intros H more. apply (level_after_mono seen more s H).
  - intros t Hs Ht E. apply uniq_in in Hs, Ht. apply index_of_in in Hs as [_ Hs]. apply index_of_in in Ht as [_ Ht].
    injection E as E. rewrite E in Hs. congruence.
  - intros k Hk. destruct (nth_error (uniq seen) (k - 1)) as [t|] eqn:En; [|apply nth_error_None in En; lia].
    exists t. split; [apply uniq_in; eapply nth_error_In; exact En|].
    assert (ND : NoDup (uniq seen)).
    { clear. induction seen as [|s l IH]; cbn; [constructor|]. constructor.
      - rewrite filter_In. rewrite style_eqb_refl. cbn. intuition discriminate.
      - apply NoDup_filter. exact IH. }
    assert (Ht : In t (uniq seen)) by (eapply nth_error_In; exact En). apply index_of_in in Ht as [Hl Ht].
    rewrite NoDup_nth_error in ND. assert (E : index_of t (uniq seen) = (k - 1)%nat) by (apply ND; [exact Hl|congruence]). lia.
Qed.
(* every section of the document has the level of its style *)
Theorem C10_in_document es d root n title level s : built es d -> seen_from_root (tree d) root ->
  In n (preorder root) -> node_data n = NSection title level s -> In s (styles_of es) /\ level = level_after (styles_of es) s.
Proof.
  intros H S Hn E. apply seen_is_document in S; [|apply (inv_wf _ (run_inv _ _ H))]. subst.
  pose proof (built_section_nodes _ _ H) as F. rewrite Forall_forall in F.
  eapply F; [unfold datas; apply in_map; exact Hn|exact E].
Qed.
Corollary C10_same_style_same_level es d root n1 n2 t1 t2 l1 l2 s1 s2 : built es d -> seen_from_root (tree d) root ->
  In n1 (preorder root) -> In n2 (preorder root) -> node_data n1 = NSection t1 l1 s1 -> node_data n2 = NSection t2 l2 s2 ->
  (l1 = l2 <-> s1 = s2).
Proof.
  intros H S A B C D. destruct (C10_in_document _ _ _ _ _ _ _ H S A C) as [A1 ->].
  destruct (C10_in_document _ _ _ _ _ _ _ H S B D) as [A2 ->]. split; [|congruence].
  apply C10_level_means; assumption.
Qed.
Definition titles : list op := [OSection (lit "A") (Under 61); OSection (lit "B") (Under 45); ORoot;
  OSection (lit "C") (OverAndUnder 61); ORoot; OSection (lit "D") (Under 61)].
Example C10_ex : exists root, seen_from_root (tree (doc_of titles)) root /\ built (events_of titles) (doc_of titles) /\
  styles_of (events_of titles) = [Under 61; Under 45; OverAndUnder 61; Under 61] /\
  map node_data (preorder root) = [NDocument; NSection (lit "A") 1 (Under 61); NSection (lit "B") 2 (Under 45);
     NSection (lit "C") 3 (OverAndUnder 61); NSection (lit "D") 1 (Under 61)].
Proof. eexists. split; [vm_compute; reflexivity|]. split; [apply exec_built with (os := titles); vm_compute; reflexivity|]. split; vm_compute; reflexivity. Qed.
Print Assumptions C10_in_document.

(* ===== C12 ===== *)
Theorem C12_nth_target es d n l : built es d -> nth_error (anon_targets_of es) n = Some l -> l = anon_label (N.of_nat (S n)).
Proof.
  intros H Hn. destruct (built_anon _ _ H) as (_ & _ & A & _). rewrite A in Hn. rewrite nth_error_map in Hn.
  destruct (nth_error (seq 1 _) n) as [k|] eqn:E; [|discriminate]. injection Hn as <-.
  assert (n < length (seq 1 (length (anon_targets_of es))))%nat by (apply nth_error_Some; congruence).
  rewrite seq_length in H0. apply nth_error_nth with (d := O) in E. rewrite seq_nth in E by exact H0. subst k. reflexivity.
Qed.
Theorem C12_nth_reference es d n l : built es d -> nth_error (anon_refs_of es) n = Some l -> l = anon_label (N.of_nat (S n)).
Proof.
  intros H Hn. destruct (built_anon _ _ H) as (_ & _ & _ & A). rewrite A in Hn. rewrite nth_error_map in Hn.
  destruct (nth_error (seq 1 _) n) as [k|] eqn:E; [|discriminate]. injection Hn as <-.
  assert (n < length (seq 1 (length (anon_refs_of es))))%nat by (apply nth_error_Some; congruence).
  rewrite seq_length in H0. apply nth_error_nth with (d := O) in E. rewrite seq_nth in E by exact H0. subst k. reflexivity.
Qed.
Theorem C12_pairs es d n t r : built es d -> nth_error (anon_targets_of es) n = Some t -> nth_error (anon_refs_of es) n = Some r -> t = r.
Proof. intros H A B. apply (C12_nth_target _ _ _ _ H) in A. apply (C12_nth_reference _ _ _ _ H) in B. congruence. Qed.
Theorem C12_distinct es d i j t u : built es d -> nth_error (anon_targets_of es) i = Some t ->
  nth_error (anon_targets_of es) j = Some u -> t = u -> i = j.
Proof.
  intros H A B ->. apply (C12_nth_target _ _ _ _ H) in A. apply (C12_nth_target _ _ _ _ H) in B.
  rewrite A in B. apply anon_label_inj in B. lia.
Qed.
Example C12_ex : let es := events_of [ORef; OTarget; OPush (NEmptyLine); OTarget; ORef] in
  anon_targets_of es = [lit "[[-ANON-LABEL-1-]]"; lit "[[-ANON-LABEL-2-]]"] /\ anon_refs_of es = anon_targets_of es.
Proof. split; vm_compute; reflexivity. Qed.
Print Assumptions C12_pairs.

(* ===== C13 ===== *)
(* a number (at most u32::MAX) is still unused as a target *)
Definition numbers_left (d : DocTree) : Prop := exists j, 1 <= j <= u32_max /\ has_target_label d (dec j) = false.
Theorem C13_least es d bi k label target n d' : built es d -> numbers_left d ->
  (k = FAutoNumbered \/ k = FSimpleRefName) -> step d (EPush (NFootnote bi k label target) (Some n)) d' ->
  exists j, 1 <= j /\ node_data n = NFootnote bi k (dec j) (dec j) /\
    has_target_label d (dec j) = false /\ (forall i, 1 <= i < j -> has_target_label d (dec i) = true) /\
    has_target_label d' (dec j) = true.
Proof.
  intros H (j & Hj & Fj) Hk S. pose proof (inv_wf _ (run_inv _ _ H)) as W.
  destruct (step_push _ _ _ _ W S) as (d1 & x' & rs & Ha & Eh & _ & Hn). destruct (Hn _ eq_refl) as (Nd & _).
  destruct (actions_footnote _ _ _ _ _ _ _ _ Hk Ha) as [(i & Hi & Ex & U1 & U2 & U3)|F].
  - exists i. split; [lia|]. split; [congruence|]. split; [apply has_target_unused; exact U1|].
    split; [intros m Hm; apply has_target_used; apply U3; exact Hm|].
    apply has_target_used. unfold used. rewrite Eh. exact U2.
  - exfalso. apply has_target_unused in Fj. apply Fj. apply F. exact Hj.
Qed.
Theorem C13_distinct es d : built es d -> numbers_left d -> NoDup (auto_numbers es).
Proof.
  intros H (j & Hj & Fj). apply (auto_numbers_inv es d H). exists j. split; [exact Hj|]. apply has_target_unused. exact Fj.
Qed.
(* an automatic number can still collide with a number written by hand later *)
Theorem C13_manual_collision : exists es d, built es d /\ numbers_left d /\
  auto_numbers es = [dec 1] /\ exists n, In (EPush (NFootnote 3 FManual (dec 1) (dec 1)) (Some n)) es.
Proof.
  set (os := [OFocus (NFootnote 3 FAutoNumbered (lit "#") (lit "#")); OParent; OFocus (NFootnote 3 FManual (dec 1) (dec 1))]).
  exists (events_of os), (doc_of os). split; [apply exec_built with (os := os); vm_compute; reflexivity|].
  split; [exists 2; split; [split; discriminate|vm_compute; reflexivity]|].
  split; [vm_compute; reflexivity|]. eexists. vm_compute. right. right. left. reflexivity.
Qed.
Example C13_ex : let os := [OFocus (NFootnote 3 FManual (dec 2) (dec 2)); OParent;
     OFocus (NFootnote 3 FAutoNumbered [] []); OParent; OFocus (NFootnote 3 FAutoNumbered [] []); OParent] in
  auto_numbers (events_of os) = [dec 1; dec 3].
Proof. vm_compute. reflexivity. Qed.
Print Assumptions C13_least.
Print Assumptions C13_distinct.

(* ===== C14 ===== *)
Theorem C14_sequence es d k l : built es d -> nth_error (symbol_footnotes es) k = Some (Some l) -> symbol_spec (N.of_nat k) l.
Proof. intros H Hk. apply symbol_label_spec. eapply built_symbols; eauto. Qed.
Theorem C14_distinct es d i j l : built es d -> nth_error (symbol_footnotes es) i = Some (Some l) ->
  nth_error (symbol_footnotes es) j = Some (Some l) -> i = j.
Proof.
  intros H A B. apply (C14_sequence _ _ _ _ H) in A. apply (C14_sequence _ _ _ _ H) in B.
  pose proof (symbol_spec_inj _ _ _ A B). lia.
Qed.
Theorem C14_always_some n : exists l, symbol_label n = Some l /\ symbol_spec n l.
Proof. destruct (symbol_label_some n) as [l E]. exists l. split; [exact E|]. apply symbol_label_spec. exact E. Qed.
Definition sym_ops (k : nat) : list op := concat (repeat [OFocus (NFootnote 3 FAutoSymbol [] []); OParent] k).
Example C14_ex : nth_error (symbol_footnotes (events_of (sym_ops 12))) 11 = Some (Some [0x2020; 0x2020]).
Proof. vm_compute. reflexivity. Qed.
Print Assumptions C14_distinct.

(* ===== C15 ===== *)
(* labels carried by symbol footnote references, in order *)
Definition symbol_refs (es : list event) : list str :=
  flat_map (fun e => match e with
    | EPush (NFootnoteReference _ _ FAutoSymbol) (Some n) =>
        match node_refnames n with Some l => [last l []] | None => [[]] end
    | _ => [] end) es.
(* full statement: n-th reference and n-th footnote carry the same label.  False: *)
Theorem C15_refuted : ~ (forall es d n f r, built es d ->
  nth_error (symbol_footnotes es) n = Some (Some f) -> nth_error (symbol_refs es) n = Some r -> f = r).
Proof.
  intros H.
  set (os := [OFocus (NParagraph 0); OPush (NFootnoteReference [] [] FAutoSymbol); OPush (NFootnoteReference [] [] FAutoSymbol); OParent]
             ++ sym_ops 2).
  assert (B : built (events_of os) (doc_of os)) by (apply exec_built with (os := os); vm_compute; reflexivity).
  specialize (H _ _ 1%nat [0x2020] [42] B). vm_compute in H. specialize (H eq_refl eq_refl). discriminate.
Qed.
(* what holds: a reference carries the label of the first symbol footnote that comes
   after it, so the n-th pair agrees when references and footnotes alternate *)
Theorem C15_partial es d a b n d' : built es d ->
  step d (EPush (NFootnoteReference a b FAutoSymbol) (Some n)) d' ->
  exists ls l, node_refnames n = Some (ls ++ [l]) /\ symbol_spec (N.of_nat (length (symbol_footnotes es))) l.
Proof.
  intros H S. pose proof (inv_wf _ (run_inv _ _ H)) as W.
  destruct (step_push _ _ _ _ W S) as (d1 & x' & rs & Ha & Eh & _ & Hn). destruct (Hn _ eq_refl) as (_ & Nr & _).
  apply actions_symbol_ref in Ha as (ls & s & Es & Er). exists ls, s. split; [congruence|].
  apply symbol_label_spec. destruct (built_symbols _ _ H) as [A _]. rewrite <- A. exact Es.
Qed.
Example C15_ex : let os := [OFocus (NParagraph 0); OPush (NFootnoteReference [] [] FAutoSymbol); OParent] ++ sym_ops 1 ++
    [OFocus (NParagraph 0); OPush (NFootnoteReference [] [] FAutoSymbol); OParent] ++ sym_ops 1 in
  map Some (symbol_refs (events_of os)) = symbol_footnotes (events_of os).
Proof. vm_compute. reflexivity. Qed.
Print Assumptions C15_refuted.
Print Assumptions C15_partial.

(* ===== C16 ===== *)
Definition refused_push (e : event) : bool := match e with EPush _ None => true | _ => false end.
Lemma pending_snoc es e : pending (es ++ [e]) = match e with
    | ELabel l => pending es ++ [l]
    | EPush NEmptyLine _ | EPush (NWhiteSpace _) _ => pending es
    | EPush _ (Some _) => []
    | _ => pending es end.
Proof. unfold pending. rewrite fold_left_app. reflexivity. Qed.
Lemma built_pending es d : built es d -> forallb (fun e => negb (refused_push e)) es = true -> accumulated (hyperref d) = pending es.
Proof.
  unfold built. remember new_doctree as d0 eqn:E. intros H. induction H; subst; [reflexivity|].
  rewrite forallb_app. intros F. apply andb_prop in F as [F1 F2]. cbn in F2. rewrite andb_true_r in F2.
  specialize (IHrun eq_refl F1). pose proof (inv_wf _ (run_inv _ _ H)) as W. rewrite pending_snoc.
  destruct e as [x a|l|l|l|]; pose proof (step_move _ _ _ H0) as M.
  - destruct (step_push _ _ _ _ W H0) as (d1 & x' & rs & Ha & Eh & _). apply actions_effect in Ha as (_ & _ & A). rewrite Eh, A, IHrun.
    destruct a; [|discriminate]. destruct x; reflexivity.
  - unfold next_anon_target_label in M. inv_ret M. injection M as <- _. exact IHrun.
  - unfold next_anon_reference_label in M. inv_ret M. injection M as <- _. exact IHrun.
  - rewrite M. cbn. rewrite IHrun. reflexivity.
  - destruct M as [-> _]. exact IHrun.
Qed.
(* full statement: at every push of a node the labels pending by the rule are attached.
   False, because a refused push already throws the labels away: *)
Theorem C16_refuted : ~ (forall es d x n d', built es d -> step d (EPush x (Some n)) d' -> is_blank_data x = false ->
  exists own, labels_of n = pending es ++ own).
Proof.
  intros H. set (os := [OLabel (lit "here"); OPush (NText (lit "a"))]).
  assert (B : built (events_of os) (doc_of os)) by (apply exec_built with (os := os); vm_compute; reflexivity).
  assert (S : exists n d', exec1 (doc_of os) (OFocus (NParagraph 0)) = Some (EPush (NParagraph 0) (Some n), d') /\ labels_of n = []).
  { do 2 eexists. split; vm_compute; reflexivity. }
  destruct S as (n & d' & S & L). apply exec1_step in S. destruct (H _ _ _ _ _ B S eq_refl) as [own E]. rewrite L in E. vm_compute in E. discriminate.
Qed.
(* without refused pushes it holds; `room` is only needed for footnote references *)
Theorem C16_attached_partial es d x n d' : built es d -> forallb (fun e => negb (refused_push e)) es = true ->
  step d (EPush x (Some n)) d' -> is_blank_data x = false -> room d ->
  (exists own, labels_of n = pending es ++ own) /\ pending (es ++ [EPush x (Some n)]) = [].
Proof.
  intros H F S Bl R. pose proof (inv_wf _ (run_inv _ _ H)) as W.
  destruct (step_push _ _ _ _ W S) as (d1 & x' & rs & Ha & Eh & _ & Hn). destruct (Hn _ eq_refl) as (_ & Nr & _).
  split.
  - apply (actions_labels _ _ _ _ _ R) in Ha as (own & Eo). exists own. unfold labels_of. rewrite Nr, Eo.
    change (is_blank_node x) with (is_blank_data x). rewrite Bl. rewrite (built_pending _ _ H F). reflexivity.
  - rewrite pending_snoc. destruct x; try reflexivity; discriminate Bl.
Qed.
Theorem C16_blank_takes_none es d x n d' : built es d -> step d (EPush x (Some n)) d' -> is_blank_data x = true -> labels_of n = [].
Proof.
  intros H S Bl. pose proof (inv_wf _ (run_inv _ _ H)) as W.
  destruct (step_push _ _ _ _ W S) as (d1 & x' & rs & Ha & Eh & _ & Hn). destruct (Hn _ eq_refl) as (_ & Nr & _).
  unfold labels_of. rewrite Nr. rewrite hyperref_actions_eq in Ha. destruct (drained_hyper d x) as (_ & _ & _ & _ & _ & B).
  change (is_blank_node x) with (is_blank_data x) in B. rewrite Bl in B. rewrite B in Ha.
  destruct x; try discriminate Bl; injection Ha as _ _ <-; reflexivity.
Qed.
(* attached labels resolve to the node, unless it is a citation or a reference *)
Theorem C16_resolvable es d x n d' l : built es d -> forallb (fun e => negb (refused_push e)) es = true ->
  step d (EPush x (Some n)) d' -> is_blank_data x = false -> registers_targets x = true -> In l (pending es) ->
  map_get (targets (hyperref d')) l = Some (node_id n).
Proof.
  intros H F S Bl Rg Hin. pose proof (inv_wf _ (run_inv _ _ H)) as W.
  destruct (step_push _ _ _ _ W S) as (d1 & x' & rs & Ha & Eh & _ & Hn). destruct (Hn _ eq_refl) as (_ & _ & Ni & _).
  rewrite Eh, Ni. eapply actions_register; eauto. rewrite (built_pending _ _ H F). exact Hin.
Qed.
Example C16_ex : let os := [OLabel (lit "a"); OPush NEmptyLine; OLabel (lit "b")] in
  built (events_of os) (doc_of os) /\ pending (events_of os) = [lit "a"; lit "b"] /\
  exists n d', step (doc_of os) (EPush (NParagraph 0) (Some n)) d' /\ labels_of n = [lit "a"; lit "b"] /\ accumulated (hyperref d') = [].
Proof.
  split; [apply exec_built with (os := [OLabel (lit "a"); OPush NEmptyLine; OLabel (lit "b")]); vm_compute; reflexivity|].
  split; [vm_compute; reflexivity|].
  assert (S : exists n d', exec1 (doc_of [OLabel (lit "a"); OPush NEmptyLine; OLabel (lit "b")]) (OFocus (NParagraph 0)) = Some (EPush (NParagraph 0) (Some n), d')
     /\ labels_of n = [lit "a"; lit "b"] /\ accumulated (hyperref d') = []).
  { do 2 eexists. split; [vm_compute; reflexivity|]. split; vm_compute; reflexivity. }
  destruct S as (n & d' & S & A). apply exec1_step in S. eauto.
Qed.
Print Assumptions C16_refuted.
Print Assumptions C16_attached_partial.
