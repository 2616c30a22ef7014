(* DocTreeProofs.v -- invariants of documents over every history of operations *)
From Coq Require Import Sorted.
From Verif Require Import Base Common NodeTypes Tree DocTree History Spec TreeProofs.
Local Open Scope N_scope.

(* ---------- what hyperref_actions leaves alone ---------- *)
Definition same_shape (d d' : DocTree) : Prop :=
  tree d' = tree d /\ node_count d' = node_count d /\ incoming_classes d' = incoming_classes d.
Lemma ss_refl d : same_shape d d. Proof. repeat split. Qed.
Lemma ss_trans a b c : same_shape a b -> same_shape b c -> same_shape a c.
Proof. intros (A & B & C) (A' & B' & C'). repeat split; congruence. Qed.
Lemma ss_target d l i : same_shape d (add_target d l i). Proof. repeat split. Qed.
Lemma ss_reference d l i : same_shape d (add_reference d l i). Proof. repeat split. Qed.
Lemma ss_targets ls : forall d, same_shape d (add_targets d ls).
Proof. induction ls as [|l ls IH]; intros d; [apply ss_refl|]. eapply ss_trans; [apply (ss_target d l (node_count d))|apply IH]. Qed.
Lemma ss_references ls : forall d, same_shape d (add_references d ls).
Proof. induction ls as [|l ls IH]; intros d; [apply ss_refl|]. eapply ss_trans; [apply (ss_reference d l (node_count d))|apply IH]. Qed.
Lemma ss_hyperref d h : same_shape d (d_set_hyperref d h). Proof. repeat split. Qed.
Lemma ss_sections d h : same_shape d (d_set_sections d h). Proof. repeat split. Qed.
Lemma ss_incr d d' : increment_symbolic_footnotes d = Ret d' -> same_shape d d'.
Proof. unfold increment_symbolic_footnotes, u32_add. destruct (_ <=? _); cbn; intros [= <-]. repeat split. Qed.
Lemma obind_ret {A B} (m : outcome A) (f : A -> outcome B) b :
  obind m f = Ret b -> exists a, m = Ret a /\ f a = Ret b.
Proof. destruct m; cbn; try discriminate. eauto. Qed.
Ltac inv_ret H :=
  match type of H with
  | obind ?m _ = Ret _ => let a := fresh "a" in let E := fresh "E" in apply obind_ret in H as (a & E & H)
  end.

(* the labels collected before a push, and the document with them taken *)
Definition drained (d : DocTree) (x : TreeNodeType) : DocTree * list str :=
  match accumulated (hyperref d), x with
  | [], _ => (d, [])
  | _, NEmptyLine | _, NWhiteSpace _ => (d, [])
  | acc, _ => (d_set_hyperref d (h_set_accumulated (hyperref d) []), acc)
  end.
Lemma ss_drained d x : same_shape d (fst (drained d x)).
Proof. unfold drained. destruct (accumulated (hyperref d)); [apply ss_refl|]. destruct x; first [apply ss_refl|apply ss_hyperref]. Qed.

Definition actions_after (d : DocTree) (labels : list str) (x : TreeNodeType)
    : outcome (DocTree * TreeNodeType * option (list str)) :=
  match x with
  | NCitation bi label =>
      let r := normalize_refname label in
      Ret (add_target d r (node_count d), x, Some (labels ++ [r]))
  | NCitationReference displayed _ =>
      let r := normalize_refname displayed in
      Ret (add_reference d r (node_count d), x, opt_labels labels)
  | NFootnote bi k label target =>
      let! (x, labels) :=
        match k with
        | FManual => Ret (x, labels ++ [normalize_refname label])
        | FAutoNumbered | FSimpleRefName =>
            let! n := new_autonumber_footnote_label d in
            Ret (match n with
                 | Some n => (NFootnote bi k n n, labels ++ [n])
                 | None => (x, labels)
                 end)
        | FAutoSymbol =>
            Ret (match new_symbolic_footnote_label d with
                 | Some s => (NFootnote bi k s s, labels ++ [s])
                 | None => (x, labels)
                 end)
        end in
      let d := add_targets d labels in
      let! d := match k with FAutoSymbol => increment_symbolic_footnotes d | _ => Ret d end in
      Ret (d, x, opt_labels labels)
  | NFootnoteReference displayed target k =>
      match k with
      | FManual =>
          let labels := labels ++ [normalize_refname displayed] in
          Ret (add_references d labels, x, opt_labels labels)
      | FAutoNumbered =>
          let! n := new_autonumber_footnote_ref_label d in
          match n with
          | Some n =>
              let labels := labels ++ [n] in
              Ret (add_references d labels, NFootnoteReference n n k, opt_labels labels)
          | None => Ret (d, x, None)
          end
      | FSimpleRefName =>
          let! n := new_autonumber_footnote_ref_label d in
          match n with
          | Some n =>
              let labels := labels ++ [n; normalize_refname displayed] in
              Ret (add_references d labels, NFootnoteReference displayed n k, opt_labels labels)
          | None => Ret (d, x, None)
          end
      | FAutoSymbol =>
          match new_symbolic_footnote_label d with
          | Some s =>
              let labels := labels ++ [s] in
              Ret (add_references d labels, x, opt_labels labels)
          | None => Ret (d, x, None)
          end
      end
  | NExternalHyperlinkTarget _ target _ =>
      let labels := labels ++ [normalize_refname target] in
      Ret (add_targets d labels, x, opt_labels labels)
  | NIndirectHyperlinkTarget _ target _ =>
      let d := add_targets d labels in
      Ret (add_reference d (normalize_refname (normalize_refname target)) (node_count d), x, opt_labels labels)
  | NSection title level style =>
      let labels := labels ++ [normalize_refname title] in
      let d := add_targets d labels in
      let s := add_section_level (sections d) style in
      let s := if (highest_level s <? level)%nat then increment_section_number s else s in
      Ret (d_set_sections d s, x, opt_labels labels)
  | _ => Ret (add_targets d labels, x, opt_labels labels)
  end.
Lemma hyperref_actions_eq d x : hyperref_actions d x = actions_after (fst (drained d x)) (snd (drained d x)) x.
Proof.
  unfold hyperref_actions, drained. destruct (accumulated (hyperref d)); [reflexivity|].
  destruct x; reflexivity.
Qed.

Lemma actions_shape d ls x d' x' l : actions_after d ls x = Ret (d', x', l) ->
  same_shape d d' /\ kind x' = kind x /\ (kind x <> KFootnote -> kind x <> KFootnoteReference -> x' = x).
Proof.
  unfold actions_after. destruct x; intros H;
    try (injection H as <- <- <-; split; [first [apply ss_targets|apply ss_target|apply ss_reference]|split; [reflexivity|auto]]; fail).
  - (* Footnote *)
    inv_ret H. destruct a as [x labels]. cbn [fst snd] in H. inv_ret H. injection H as <- <- <-.
    split; [|split; [|intros A1 A2; exfalso; cbn in A1, A2; congruence]].
    + eapply ss_trans; [apply (ss_targets labels)|].
      destruct kind; first [eapply ss_incr; eassumption|injection E0 as <-; apply ss_refl].
    + destruct kind; try (inv_ret E; destruct a0; injection E as <- _; reflexivity).
      * injection E as <- _; reflexivity.
      * destruct (new_symbolic_footnote_label d); injection E as <- _; reflexivity.
  - destruct kind.
    + injection H as <- <- <-. split; [apply ss_references|]. split; [reflexivity|intros A1 A2; exfalso; cbn in A1, A2; congruence].
    + inv_ret H. destruct a; injection H as <- <- <-; (split; [first [apply ss_references|apply ss_refl]|split; [reflexivity|intros A1 A2; exfalso; cbn in A1, A2; congruence]]).
    + inv_ret H. destruct a; injection H as <- <- <-; (split; [first [apply ss_references|apply ss_refl]|split; [reflexivity|intros A1 A2; exfalso; cbn in A1, A2; congruence]]).
    + destruct (new_symbolic_footnote_label d); injection H as <- <- <-; (split; [first [apply ss_references|apply ss_refl]|split; [reflexivity|intros A1 A2; exfalso; cbn in A1, A2; congruence]]).
Qed.
Lemma hyperref_shape d x d' x' l : hyperref_actions d x = Ret (d', x', l) ->
  same_shape d d' /\ kind x' = kind x /\ (kind x <> KFootnote -> kind x <> KFootnoteReference -> x' = x).
Proof.
  rewrite hyperref_actions_eq. intros H. apply actions_shape in H as (A & B & C).
  split; [|auto]. eapply ss_trans; [apply ss_drained|exact A].
Qed.

(* ---------- pushing, on zippers ---------- *)
Lemma add_last_eq p c cs : node_children p = Some cs -> add_last p c = with_children p (Some (cs ++ [c])).
Proof. intros E. unfold add_last. rewrite E. reflexivity. Qed.
Lemma node_push_spec p c r : node_push_child p c = Ret r ->
  match r with
  | Ok p' => p' = add_last p c /\ child_is_allowed (node_kind p) (node_kind c) = Ret true /\ node_children p <> None
  | Err c' => c' = c /\ (child_is_allowed (node_kind p) (node_kind c) = Ret false \/ node_children p = None)
  end.
Proof.
  unfold node_push_child. destruct (child_is_allowed _ _) as [[|]| |] eqn:E; cbn; try discriminate.
  - destruct (node_children p) as [cs|] eqn:Ec; intros [= <-].
    + rewrite (add_last_eq _ _ _ Ec). repeat split. discriminate.
    + auto.
  - intros [= <-]. auto.
Qed.
Lemma z_push_spec z d id rs cs r : z_push_data z d id rs cs = Ret r ->
  match r with
  | Ok z' => z' = z_with_node z (add_last (z_node z) (new_node d id rs cs)) /\
             child_is_allowed (node_kind (z_node z)) (kind d) = Ret true /\ node_children (z_node z) <> None
  | Err z' => z' = z /\ (child_is_allowed (node_kind (z_node z)) (kind d) = Ret false \/ node_children (z_node z) = None)
  end.
Proof.
  unfold z_push_data, z_push_child. intros H. inv_ret H. inv_ret E. apply node_push_spec in E0.
  change (node_kind (new_node d id rs cs)) with (kind d) in E0.
  destruct a0; injection E as <-; injection H as <-.
  - destruct E0 as (-> & A & B). auto.
  - destruct E0 as (_ & A). auto.
Qed.
Lemma focus_last_new z c cs : wf z -> node_children (z_node z) = Some cs ->
  focus_on_last_child (z_with_node z (add_last (z_node z) c)) = Ret (Ok (Zip c (Some z) (Some (length cs)))).
Proof.
  intros Hw Ec. rewrite (add_last_eq _ _ _ Ec). unfold focus_on_last_child. rewrite z_node_with, children_with_children.
  rewrite app_length. cbn [length]. unfold checked_sub. replace (1 <=? length cs + 1)%nat with true by (symmetry; apply Nat.leb_le; lia).
  cbn [obind]. replace (length cs + 1 - 1)%nat with (length cs) by lia.
  unfold focus_on_child. rewrite z_node_with, children_with_children.
  destruct (cs ++ [c]) as [|c0 cs0] eqn:Ea; [destruct cs; discriminate|]. rewrite <- Ea. clear c0 cs0 Ea.
  rewrite app_length. cbn [length]. replace (length cs <? length cs + 1)%nat with true by (symmetry; apply Nat.ltb_lt; lia).
  unfold swap_remove. rewrite nth_error_app2, Nat.sub_diag by lia. cbn [nth_error]. rewrite rev_app_distr. cbn [rev app].
  rewrite set_nth_app_r, removelast_last. rewrite z_with_node_twice, with_children_twice, with_children_id by exact Ec.
  rewrite z_with_node_id. reflexivity.
Qed.
Lemma z_push_focus_spec z d id rs cs r : wf z -> z_push_data_and_focus z d id rs cs = Ret r ->
  match r with
  | Ok z' => exists ks, node_children (z_node z) = Some ks /\
             z' = Zip (new_node d id rs cs) (Some z) (Some (length ks)) /\
             child_is_allowed (node_kind (z_node z)) (kind d) = Ret true
  | Err z' => z' = z /\ (child_is_allowed (node_kind (z_node z)) (kind d) = Ret false \/ node_children (z_node z) = None)
  end.
Proof.
  intros Hw. unfold z_push_data_and_focus, z_push_child. intros H. inv_ret H. inv_ret E. apply node_push_spec in E0.
  change (node_kind (new_node d id rs cs)) with (kind d) in E0.
  destruct a0; injection E as <-.
  - destruct E0 as (-> & A & B). destruct (node_children (z_node z)) as [ks|] eqn:Ek; [|contradiction].
    rewrite (focus_last_new _ _ _ Hw Ek) in H. injection H as <-. eauto.
  - injection H as <-. destruct E0 as (_ & A). auto.
Qed.

(* ---------- the three pushes on documents ---------- *)
Definition pushed (d d' : DocTree) (x : TreeNodeType) (n : TreeNode) : Prop :=
  exists x' rs cs, n = new_node x' (node_count d) rs cs /\ kind x' = kind x /\ (kind x <> KFootnote -> kind x <> KFootnoteReference -> x' = x) /\
    child_is_allowed (node_kind (z_node (tree d))) (kind x) = Ret true /\
    node_children (z_node (tree d)) <> None /\ node_count d' = node_count d + 1.
Definition refused (d : DocTree) (x : TreeNodeType) : Prop :=
  child_is_allowed (node_kind (z_node (tree d))) (kind x) = Ret false \/ node_children (z_node (tree d)) = None.

Lemma take_classes_shape d d' c : take_classes d = (d', c) -> tree d' = tree d /\ node_count d' = node_count d /\ hyperref d' = hyperref d /\ sections d' = sections d.
Proof. unfold take_classes. destruct (incoming_classes d); intros [= <- _]; repeat split. Qed.

Lemma push_data_spec d x r : push_data d x = Ret r ->
  match r with
  | Ok d' => exists n, pushed d d' x n /\ tree d' = z_with_node (tree d) (add_last (z_node (tree d)) n)
  | Err d' => tree d' = tree d /\ node_count d' = node_count d /\ refused d x
  end.
Proof.
  unfold push_data. intros H. inv_ret H. destruct a as [[d1 x1] ls]. apply hyperref_shape in E as ((T & C & _) & K & S).
  cbn [fst snd] in H.
  destruct (take_classes d1) as [d2 cs] eqn:Et. apply take_classes_shape in Et as (T2 & C2 & _).
  inv_ret H. apply z_push_spec in E. rewrite T2, T, C2, C, K in E.
  destruct a; injection H as <-.
  - destruct E as (-> & A & B). exists (new_node x1 (node_count d) ls cs). split; [|cbn; reflexivity].
    exists x1, ls, cs. cbn. rewrite C2, C. repeat split; auto.
  - destruct E as (-> & A). cbn. rewrite C2, C. auto.
Qed.
Lemma push_data_and_focus_spec d x r : wf (tree d) -> push_data_and_focus d x = Ret r ->
  match r with
  | Ok d' => exists n ks, pushed d d' x n /\ node_children (z_node (tree d)) = Some ks /\
                          tree d' = Zip n (Some (tree d)) (Some (length ks))
  | Err d' => tree d' = tree d /\ node_count d' = node_count d /\ refused d x
  end.
Proof.
  intros Hw. unfold push_data_and_focus. intros H. inv_ret H. destruct a as [[d1 x1] ls]. apply hyperref_shape in E as ((T & C & _) & K & S).
  cbn [fst snd] in H.
  destruct (take_classes d1) as [d2 cs] eqn:Et. apply take_classes_shape in Et as (T2 & C2 & _).
  inv_ret H. rewrite T2, T, C2, C in E. apply z_push_focus_spec in E; [|exact Hw]. rewrite K in E.
  destruct a; injection H as <-.
  - destruct E as (ks & Ek & -> & A). exists (new_node x1 (node_count d) ls cs), ks. split; [|cbn; auto].
    exists x1, ls, cs. cbn. rewrite C2, C. repeat split; auto. congruence.
  - destruct E as (-> & A). cbn. rewrite C2, C. auto.
Qed.
Lemma push_child_spec d x d' r : push_child d (new_node x (node_count d) None None) = Ret (d', r) ->
  match r with
  | Ok _ => exists n, pushed d d' x n /\ tree d' = z_with_node (tree d) (add_last (z_node (tree d)) n)
  | Err _ => tree d' = tree d /\ node_count d' = node_count d /\ refused d x
  end.
Proof.
  unfold push_child. intros H. inv_ret H. destruct a as [[d1 x1] ls]. cbn [new_node node_data] in E. apply hyperref_shape in E as ((T & C & _) & K & S).
  cbn [fst snd] in H. inv_ret H. unfold z_push_child in E. inv_ret E. apply node_push_spec in E0.
  unfold new_node in E0. cbn [with_data with_refnames node_kind node_data] in E0. rewrite <- K in E0.
  change (Node (node_count d) ls None x1 _) with (new_node x1 (node_count d) ls None) in E0.
  change (node_kind (new_node x1 (node_count d) ls None)) with (kind x1) in E0.
  rewrite T, K in E0.
  destruct a0; injection E as <-; injection H as <- <-.
  - destruct E0 as (-> & A & B). exists (new_node x1 (node_count d) ls None). cbn. rewrite T, C. split; [|reflexivity].
    exists x1, ls, None. cbn. repeat split; auto.
  - destruct E0 as (_ & A). rewrite C. auto.
Qed.

(* ---------- ids in document order ---------- *)
Definition ids (n : TreeNode) : list N := map node_id (preorder n).
Lemma ids_unfold n : ids n = node_id n :: match node_children n with Some cs => flat_map ids cs | None => [] end.
Proof.
  unfold ids. rewrite preorder_unfold. cbn [map]. f_equal. destruct (node_children n) as [cs|]; [|reflexivity].
  induction cs as [|c cs IH]; [reflexivity|]. cbn [flat_map]. rewrite map_app, IH. reflexivity.
Qed.
Lemma unswap_split {A} (cs : list A) i : (i <= length cs)%nat ->
  exists a b, (forall n, unswap cs i n = a ++ n :: b) /\ (i = length cs -> a = cs /\ b = []).
Proof.
  intros H. unfold unswap. destruct (nth_error cs i) as [c|] eqn:E.
  - exists (firstn i cs), (skipn (S i) cs ++ [c]). split.
    + intros n. assert (G : set_nth cs i n = firstn i cs ++ n :: skipn (S i) cs).
      { clear H. revert i E. induction cs as [|x cs IH]; intros [|i]; cbn; try discriminate; intros E; auto. rewrite IH by exact E. reflexivity. }
      rewrite G, <- app_assoc. reflexivity.
    + intros ->. apply nth_error_Some_lt in E || (assert (length cs < length cs)%nat by (apply nth_error_Some; congruence)). lia.
  - exists cs, []. split; [reflexivity|auto].
Qed.
(* the focus is on the last node of the document at every level *)
Fixpoint rightmost (z : TreeZipper) : Prop :=
  match z with
  | Zip _ (Some p) (Some i) =>
      rightmost p /\ match node_children (z_node p) with Some cs => i = length cs | None => False end
  | _ => True
  end.
Lemma rightmost_with z n : rightmost (z_with_node z n) <-> rightmost z.
Proof. destruct z; reflexivity. Qed.
Lemma rebuild_ids z : wf z -> exists a b, (forall n, ids (rebuild z n) = a ++ ids n ++ b) /\ (rightmost z -> b = []).
Proof.
  induction z as [y i|y p i IH] using zip_ind'; intros Hw; destruct i as [i|]; try contradiction.
  { exists [], []. split; [|auto]. intros n. rewrite app_nil_r. reflexivity. }
  destruct Hw as [Hp Hi]. destruct (IH Hp) as (a & b & Hab & Hr). cbn [rightmost].
  destruct (node_children (z_node p)) as [cs|] eqn:Ec; [|contradiction].
  destruct (unswap_split cs i Hi) as (u & v & Huv & Hl).
  exists (a ++ node_id (z_node p) :: flat_map ids u), (flat_map ids v ++ b). split.
  - intros n. cbn [rebuild]. rewrite Hab. unfold put_back. rewrite Ec.
    rewrite (ids_unfold (with_children _ _)). rewrite children_with_children.
    replace (node_id (with_children (z_node p) (Some (unswap cs i n)))) with (node_id (z_node p)) by (destruct (z_node p); reflexivity).
    rewrite Huv, flat_map_app. cbn [flat_map app]. repeat (rewrite <- ?app_assoc; cbn [app]). reflexivity.
  - intros [Hrp Hri]. destruct (Hl Hri) as [_ ->]. rewrite (Hr Hrp). reflexivity.
Qed.

Lemma ids_add_last p c : node_children p <> None -> ids (add_last p c) = ids p ++ ids c.
Proof.
  destruct p as [i r k d [cs|]]; cbn [node_children]; [|congruence]. intros _. unfold add_last. cbn [node_children with_children].
  rewrite !ids_unfold. cbn [node_id node_children]. rewrite flat_map_app. cbn [flat_map]. rewrite app_nil_r.
  rewrite <- (ids_unfold c). reflexivity.
Qed.
Lemma ids_new x i rs cs : ids (new_node x i rs cs) = [i].
Proof. unfold new_node. destruct (can_have_children (kind x)); reflexivity. Qed.

Lemma preorder_in_child p cs c m : node_children p = Some cs -> In c cs -> In m (preorder c) -> In m (preorder p).
Proof. intros E Hc Hm. rewrite preorder_unfold, E. right. apply in_flat_map. eauto. Qed.

(* ---------- nesting ---------- *)
Definition node_ok (n : TreeNode) : Prop :=
  (node_children n = None <-> can_have_children (node_kind n) = false) /\
  forall cs c, node_children n = Some cs -> In c cs -> child_is_allowed (node_kind n) (node_kind c) = Ret true.
Definition tree_ok (n : TreeNode) : Prop := Forall node_ok (preorder n).
Lemma tree_ok_unfold n : tree_ok n <->
  node_ok n /\ match node_children n with Some cs => Forall tree_ok cs | None => True end.
Proof.
  unfold tree_ok at 1. rewrite preorder_unfold. rewrite Forall_cons_iff.
  destruct (node_children n) as [cs|]; [|intuition]. rewrite Forall_flat_map. reflexivity.
Qed.
Lemma node_kind_with_children n c : node_kind (with_children n c) = node_kind n.
Proof. destruct n; reflexivity. Qed.
Lemma node_kind_with_data n c : node_kind (with_data n c) = kind c.
Proof. destruct n; reflexivity. Qed.
Lemma node_id_with_data n c : node_id (with_data n c) = node_id n.
Proof. destruct n; reflexivity. Qed.
Lemma children_with_data n c : node_children (with_data n c) = node_children n.
Proof. destruct n; reflexivity. Qed.
Lemma node_data_with_children n c : node_data (with_children n c) = node_data n.
Proof. destruct n; reflexivity. Qed.

Lemma rebuild_tree_ok z : wf z -> forall n m, node_kind n = node_kind m -> tree_ok (rebuild z n) ->
  tree_ok n /\ (tree_ok m -> tree_ok (rebuild z m)).
Proof.
  induction z as [y i|y p i IH] using zip_ind'; intros Hw n m Hk; destruct i as [i|]; try contradiction.
  { cbn. auto. }
  destruct Hw as [Hp Hi]. cbn [rebuild]. intros H.
  assert (Hk' : node_kind (put_back (z_node p) i n) = node_kind (put_back (z_node p) i m)).
  { unfold put_back. rewrite !node_kind_with_children. reflexivity. }
  destruct (IH Hp _ _ Hk' H) as [G1 G2]. clear IH. rename H into Hfull.
  unfold put_back in G1, G2. destruct (node_children (z_node p)) as [cs|] eqn:Ec; [|contradiction].
  destruct (unswap_split cs i Hi) as (u & v & Huv & _).
  rewrite Huv in G1. rewrite Huv in G2.
  apply tree_ok_unfold in G1. destruct G1 as [[A B] C]. rewrite children_with_children in *. rewrite node_kind_with_children in *.
  rewrite Forall_app, Forall_cons_iff in C. destruct C as (C1 & C2 & C3). split; [exact C2|].
  intros Hm. unfold put_back. rewrite Ec, Huv. apply G2. apply tree_ok_unfold. rewrite children_with_children. split.
  - split; rewrite children_with_children, node_kind_with_children.
    + split; [discriminate|]. intros F. apply A in F. discriminate.
    + intros cs' c [= <-] Hin. apply in_app_or in Hin as [Hin|[<-|Hin]].
      * eapply B; [reflexivity|]. apply in_or_app. auto.
      * rewrite <- Hk. eapply B; [reflexivity|]. apply in_or_app. right. left. reflexivity.
      * eapply B; [reflexivity|]. apply in_or_app. right. right. exact Hin.
  - rewrite Forall_app, Forall_cons_iff. auto.
Qed.

Lemma tree_ok_add_last p c : tree_ok p -> tree_ok c -> node_children p <> None ->
  child_is_allowed (node_kind p) (node_kind c) = Ret true -> tree_ok (add_last p c).
Proof.
  rewrite (tree_ok_unfold p), (tree_ok_unfold (add_last p c)). intros [[A B] C] Hc Hn Ha. unfold add_last.
  destruct (node_children p) as [cs|] eqn:Ec; [|congruence]. rewrite children_with_children. split.
  - split; rewrite children_with_children, node_kind_with_children.
    + split; [discriminate|]. intros F. apply A in F. congruence.
    + intros cs' c' [= <-] Hin. apply in_app_or in Hin as [Hin|[<-|[]]]; eauto.
  - rewrite Forall_app. auto.
Qed.
Lemma tree_ok_new x i rs cs : tree_ok (new_node x i rs cs).
Proof.
  apply tree_ok_unfold. unfold new_node, node_ok, node_kind. destruct (can_have_children (kind x)) eqn:E; cbn [node_children node_data]; rewrite ?E.
  - split; [|constructor]. split; [split; discriminate|]. intros cs' c [= <-] [].
  - split; [|constructor]. split; [split; reflexivity|]. discriminate.
Qed.

(* ---------- the invariant ---------- *)
Record inv (d : DocTree) : Prop := {
  inv_wf : wf (tree d);
  inv_ok : tree_ok (document (tree d));
  inv_nodup : NoDup (ids (document (tree d)));
  inv_lt : Forall (fun i => i < node_count d) (ids (document (tree d))) }.
Record inv_built (d : DocTree) : Prop := {
  ib_inv : inv d;
  ib_right : rightmost (tree d);
  ib_sorted : StronglySorted N.lt (ids (document (tree d))) }.

Lemma inv_same d d' : inv d -> tree d' = tree d -> node_count d' = node_count d -> inv d'.
Proof. intros [A B C D] T N. constructor; rewrite T; auto. rewrite N. exact D. Qed.
Lemma ib_same d d' : inv_built d -> tree d' = tree d -> node_count d' = node_count d -> inv_built d'.
Proof. intros [A B C] T N. constructor; [eapply inv_same; eauto|rewrite T; auto..]. Qed.
Lemma inv_moved d d' : inv d -> wf (tree d') -> document (tree d') = document (tree d) -> node_count d' = node_count d -> inv d'.
Proof. intros [A B C D] W T N. constructor; rewrite ?T; auto. rewrite N. exact D. Qed.
Lemma ib_moved d d' : inv_built d -> wf (tree d') -> rightmost (tree d') -> document (tree d') = document (tree d) -> node_count d' = node_count d -> inv_built d'.
Proof. intros [A B C] W R T N. constructor; [eapply inv_moved; eauto|auto|rewrite T; auto]. Qed.

Lemma NoDup_insert {A} (a b c : list A) (x : A) : NoDup (a ++ b ++ c) -> ~ In x (a ++ b ++ c) -> NoDup (a ++ (b ++ [x]) ++ c).
Proof.
  intros H Hx. replace (a ++ (b ++ [x]) ++ c) with ((a ++ b) ++ x :: c) by (rewrite <- !app_assoc; reflexivity).
  rewrite app_assoc in H, Hx. apply NoDup_Add with (a := x) (l := (a ++ b) ++ c); [|split; auto].
  apply Add_app.
Qed.
Lemma sorted_snoc l x : StronglySorted N.lt l -> Forall (fun i => i < x) l -> StronglySorted N.lt (l ++ [x]).
Proof.
  induction l as [|y l IH]; cbn; intros H F; [repeat constructor|].
  inversion H; subst. inversion F; subst. constructor; [auto|]. rewrite Forall_app. auto.
Qed.

Lemma inv_pushed d d' x n t : inv d -> pushed d d' x n ->
  tree d' = t -> wf t -> document t = rebuild (tree d) (add_last (z_node (tree d)) n) -> inv d'.
Proof.
  intros [W O U L] (x' & rs & cs & -> & K & _ & A & Hc & N) T W' D.
  destruct (rebuild_ids (tree d) W) as (a & b & Hab & _).
  pose proof (Hab (z_node (tree d))) as E1. pose proof (Hab (add_last (z_node (tree d)) (new_node x' (node_count d) rs cs))) as E2.
  rewrite ids_add_last, ids_new in E2 by exact Hc.
  change (rebuild (tree d) (z_node (tree d))) with (document (tree d)) in E1.
  constructor; rewrite T; auto; rewrite ?D.
  - eapply rebuild_tree_ok; [exact W| |exact O|].
    + unfold add_last. rewrite node_kind_with_children. reflexivity.
    + apply tree_ok_add_last; [|apply tree_ok_new|exact Hc|].
      * eapply rebuild_tree_ok; [exact W|reflexivity|exact O].
      * change (node_kind (new_node x' (node_count d) rs cs)) with (kind x'). rewrite K. exact A.
  - rewrite E2. apply NoDup_insert; [rewrite <- E1; exact U|]. rewrite <- E1. intros Hin.
    rewrite Forall_forall in L. apply L in Hin. lia.
  - rewrite E2, N. rewrite E1 in L. rewrite !Forall_app in *. destruct L as (L1 & L2 & L3).
    repeat split; try (eapply Forall_impl; [|eassumption]; cbn; intros; lia). constructor; [lia|constructor].
Qed.
Lemma ib_pushed d d' x n t : inv_built d -> pushed d d' x n ->
  tree d' = t -> wf t -> rightmost t -> document t = rebuild (tree d) (add_last (z_node (tree d)) n) -> inv_built d'.
Proof.
  intros [I R S] P T W' R' D. constructor; [eapply inv_pushed; eauto|rewrite T; exact R'|].
  destruct I as [W O U L]. destruct P as (x' & rs & cs & -> & K & _ & A & Hc & N).
  destruct (rebuild_ids (tree d) W) as (a & b & Hab & Hb). specialize (Hb R). subst b.
  pose proof (Hab (z_node (tree d))) as E1. pose proof (Hab (add_last (z_node (tree d)) (new_node x' (node_count d) rs cs))) as E2.
  rewrite ids_add_last, ids_new in E2 by exact Hc. rewrite app_nil_r in E1, E2.
  change (rebuild (tree d) (z_node (tree d))) with (document (tree d)) in E1.
  rewrite T, D, E2, app_assoc, <- E1. apply sorted_snoc; assumption.
Qed.

Lemma with_push_wf z n : wf z -> wf (z_with_node z n). Proof. apply wf_with. Qed.
Lemma focus_push_wf z n ks : wf z -> node_children (z_node z) = Some ks -> wf (Zip n (Some z) (Some (length ks))).
Proof. intros W E. cbn. rewrite E. auto. Qed.
Lemma focus_push_doc z n ks : node_children (z_node z) = Some ks ->
  document (Zip n (Some z) (Some (length ks))) = rebuild z (add_last (z_node z) n).
Proof. intros E. unfold document. cbn [rebuild z_node]. unfold put_back. rewrite E, unswap_last, (add_last_eq _ _ _ E). reflexivity. Qed.

(* removing the last child *)
Lemma pop_spec d c d' : pop_child d = (c, d') ->
  node_count d' = node_count d /\ hyperref d' = hyperref d /\ sections d' = sections d /\
  match c with
  | None => tree d' = tree d
  | Some c => exists p, tree d' = z_with_node (tree d) p /\ z_node (tree d) = add_last p c /\ node_children p <> None
  end.
Proof.
  unfold pop_child, z_pop_child, node_pop_child. destruct (node_children (z_node (tree d))) as [cs|] eqn:E.
  - destruct (rev cs) as [|c' r] eqn:Er; intros [= <- <-]; repeat split; cbn.
    + apply z_with_node_id.
    + exists (with_children (z_node (tree d)) (Some (rev r))). split; [reflexivity|].
      unfold add_last. rewrite children_with_children, with_children_twice. split; [|discriminate].
      apply (f_equal (@rev _)) in Er. rewrite rev_involutive in Er. cbn in Er. rewrite <- Er.
      symmetry. apply with_children_id. exact E.
  - intros [= <- <-]. repeat split. apply z_with_node_id.
Qed.
Lemma tree_ok_del_last p c : node_children p <> None -> tree_ok (add_last p c) -> tree_ok p.
Proof.
  rewrite (tree_ok_unfold p), (tree_ok_unfold (add_last p c)). unfold add_last. intros Hn.
  destruct (node_children p) as [cs|] eqn:Ec; [|congruence]. rewrite children_with_children. intros [[A B] C].
  rewrite children_with_children, node_kind_with_children in *. rewrite Forall_app in C. destruct C as [C _]. split; [|exact C].
  split; rewrite Ec.
  - split; [discriminate|]. intros F. apply A in F. discriminate.
  - intros cs' c' [= <-] Hin. eapply B; [reflexivity|]. apply in_or_app. auto.
Qed.
Lemma sublist_nodup {A} (a b x c : list A) : NoDup (a ++ (b ++ x) ++ c) -> NoDup (a ++ b ++ c).
Proof.
  intros H. rewrite <- (app_assoc b x c) in H. rewrite app_assoc in *.
  induction x as [|y x IH]; [exact H|]. apply IH. cbn in H. apply NoDup_remove_1 in H. exact H.
Qed.
Lemma sorted_app_l l m : StronglySorted N.lt (l ++ m) -> StronglySorted N.lt l.
Proof.
  induction l as [|x l IH]; cbn; intros H; [constructor|]. inversion H; subst. constructor; [auto|].
  rewrite Forall_app in H3. apply H3.
Qed.
Lemma inv_pop d c d' : inv d -> pop_child d = (c, d') -> inv d'.
Proof.
  intros I H. apply pop_spec in H as (N & _ & _ & H). destruct c as [c|]; [|eapply inv_same; eauto].
  destruct H as (p & T & Ep & Hn). destruct I as [W O U L].
  destruct (rebuild_ids (tree d) W) as (a & b & Hab & _).
  pose proof (Hab (z_node (tree d))) as E1. pose proof (Hab p) as E2.
  rewrite Ep in E1 at 2. rewrite ids_add_last in E1 by exact Hn.
  change (rebuild (tree d) (z_node (tree d))) with (document (tree d)) in E1.
  constructor; rewrite T; try rewrite document_with.
  - apply wf_with. exact W.
  - assert (Ok2 : node_kind (z_node (tree d)) = node_kind p) by (rewrite Ep; unfold add_last; apply node_kind_with_children).
    destruct (rebuild_tree_ok _ W _ _ Ok2 O) as [G1 G2]. apply G2. rewrite Ep in G1. eapply tree_ok_del_last; eauto.
  - rewrite E2. rewrite E1 in U. eapply sublist_nodup. exact U.
  - rewrite N, E2. rewrite E1 in L. rewrite !Forall_app in *. intuition.
Qed.
Lemma ib_pop d c d' : inv_built d -> pop_child d = (c, d') -> inv_built d'.
Proof.
  intros [I R S] H. pose proof (inv_pop _ _ _ I H) as I'. apply pop_spec in H as (N & _ & _ & H). destruct c as [c|]; [|constructor; rewrite ?H; auto].
  destruct H as (p & T & Ep & Hn). constructor; [exact I'|rewrite T; apply rightmost_with; exact R|].
  destruct I as [W O U L]. destruct (rebuild_ids (tree d) W) as (a & b & Hab & Hb). specialize (Hb R). subst b.
  pose proof (Hab (z_node (tree d))) as E1. pose proof (Hab p) as E2.
  rewrite Ep in E1 at 2. rewrite ids_add_last in E1 by exact Hn. rewrite app_nil_r in *.
  change (rebuild (tree d) (z_node (tree d))) with (document (tree d)) in E1.
  rewrite T, document_with, E2. rewrite E1, app_assoc in S. eapply sorted_app_l; exact S.
Qed.

(* changing the payload of the focused node *)
Lemma ids_with_data n x : ids (with_data n x) = ids n.
Proof. rewrite !ids_unfold, children_with_data, node_id_with_data. reflexivity. Qed.
Lemma tree_ok_with_data n x : kind x = node_kind n -> tree_ok n -> tree_ok (with_data n x).
Proof.
  intros K. rewrite !tree_ok_unfold. unfold node_ok. rewrite children_with_data, node_kind_with_data, K. auto.
Qed.
Lemma inv_data d x : inv d -> kind x = kind (focused_data d) -> inv (set_focused_data d x).
Proof.
  intros [W O U L] K. destruct (rebuild_ids (tree d) W) as (a & b & Hab & _).
  assert (E : ids (rebuild (tree d) (with_data (z_node (tree d)) x)) = ids (document (tree d))).
  { unfold document. rewrite !Hab, ids_with_data. reflexivity. }
  unfold set_focused_data. constructor; cbn [tree d_set_tree node_count]; try rewrite document_with; rewrite ?E; auto.
  - apply wf_with. exact W.
  - assert (Hk : node_kind (z_node (tree d)) = node_kind (with_data (z_node (tree d)) x)) by (rewrite node_kind_with_data; symmetry; exact K).
    destruct (rebuild_tree_ok _ W _ _ Hk O) as [G1 G2]. apply G2. apply tree_ok_with_data; assumption.
Qed.
Lemma ib_data d x : inv_built d -> kind x = kind (focused_data d) -> inv_built (set_focused_data d x).
Proof.
  intros [I R S] K. constructor; [apply inv_data; auto|apply rightmost_with; exact R|].
  destruct I as [W O U L]. destruct (rebuild_ids (tree d) W) as (a & b & Hab & _).
  cbn [tree d_set_tree set_focused_data]. rewrite document_with.
  assert (E : ids (rebuild (tree d) (with_data (z_node (tree d)) x)) = ids (document (tree d))).
  { unfold document. rewrite !Hab, ids_with_data. reflexivity. }
  rewrite E. exact S.
Qed.

(* moves *)
Lemma rightmost_parent z z' : wf z -> rightmost z -> focus_on_parent z = Ret (Ok z') -> rightmost z'.
Proof.
  destruct z as [n [p|] [i|]]; intros Hw; try contradiction; [|discriminate].
  rewrite focus_on_parent_wf by exact Hw. intros [Hr _] [= <-]. apply rightmost_with. exact Hr.
Qed.
Lemma d_parent_spec d d' : wf (tree d) -> d_focus_on_parent d = Ret d' ->
  wf (tree d') /\ document (tree d') = document (tree d) /\ node_count d' = node_count d /\
  hyperref d' = hyperref d /\ sections d' = sections d /\ incoming_classes d' = incoming_classes d /\
  (rightmost (tree d) -> rightmost (tree d')).
Proof.
  intros W H. unfold d_focus_on_parent in H. inv_ret H. pose proof (focus_parent_wf _ _ W E) as F.
  destruct a; injection H as <-; cbn [tree d_set_tree node_count].
  - destruct F as (F1 & F2 & _). repeat split; auto. intros R. exact (rightmost_parent _ _ W R E).
  - destruct F as [-> _]. repeat split; auto.
Qed.
Lemma walk_to_section_right z l z' : wf z -> rightmost z -> z_walk_to_parent_section_level z l = Ret z' -> rightmost z'.
Proof.
  unfold z_walk_to_parent_section_level. generalize (S (z_depth z)) as f. intros f. revert z.
  induction f as [|f IH]; intros z W R; [discriminate|]. cbn [walk_to_section_loop].
  assert (Up : (let! r := focus_on_parent z in match r with Ok p => walk_to_section_loop f p l | Err z => Ret z end) = Ret z' -> rightmost z').
  { intros H. inv_ret H. pose proof (focus_parent_wf _ _ W E) as F. destruct a.
    - destruct F as (F1 & _). eapply IH; [exact F1| |exact H]. exact (rightmost_parent _ _ W R E).
    - destruct F as [-> _]. injection H as <-. exact R. }
  destruct (node_data (z_node z)); try exact Up.
  - intros [= <-]. exact R.
  - destruct (level <=? l)%nat; [intros [= <-]; exact R|exact Up].
Qed.
Lemma d_root_spec d : wf (tree d) ->
  d_walk_to_root d = Ret (d_set_tree d (Zip (document (tree d)) None None)).
Proof. intros W. unfold d_walk_to_root. rewrite walk_to_root_wf by exact W. reflexivity. Qed.
Lemma d_walk_to_id_spec d id d' : wf (tree d) -> d_walk_to_id d id = Ret d' ->
  d' = d_set_tree d (tree d') /\ wf (tree d') /\ document (tree d') = document (tree d).
Proof.
  intros W H. unfold d_walk_to_id in H. rewrite walk_to_root_wf in H by exact W. cbn [obind] in H.
  destruct (node_count d <? id); [discriminate|]. inv_ret H. injection H as <-. cbn [tree d_set_tree].
  pose proof (walk_spec (height (z_node (Zip (document (tree d)) None None))) (Zip (document (tree d)) None None) id I (le_n _)) as G.
  destruct (has_id id _).
  - destruct G as (z' & G & Hf). rewrite G in E. injection E as <-. destruct Hf as (_ & W' & D' & _). auto.
  - rewrite G in E. cbn in E. injection E as <-. cbn. auto.
Qed.

Lemma step_inv d e d' : inv d -> step d e d' -> inv d'.
Proof.
  intros I H. pose proof (inv_wf _ I) as W. destruct H.
  - apply push_data_spec in H0 as (n & P & T). eapply inv_pushed; eauto; [apply wf_with; exact W|apply document_with].
  - apply push_data_spec in H0 as (T & N & _). eapply inv_same; eauto.
  - apply push_data_and_focus_spec in H0 as (n & ks & P & Ek & T); [|exact W].
    eapply inv_pushed; eauto; [eapply focus_push_wf; eauto|eapply focus_push_doc; eauto].
  - apply push_data_and_focus_spec in H0 as (T & N & _); [|exact W]. eapply inv_same; eauto.
  - apply push_child_spec in H0 as (n & P & T). eapply inv_pushed; eauto; [apply wf_with; exact W|apply document_with].
  - apply push_child_spec in H0 as (T & N & _). eapply inv_same; eauto.
  - eapply inv_pop; eauto.
  - apply d_parent_spec in H as (W' & D & N & _); [|exact W]. eapply inv_moved; eauto.
  - rewrite d_root_spec in H by exact W. injection H as <-. eapply inv_moved; eauto; exact I0 || constructor.
  - unfold d_walk_to_parent_section_level in H. inv_ret H. injection H as <-.
    destruct (walk_to_section_wf (tree d) l W) as (z' & E' & W' & D'). rewrite E' in E. injection E as <-.
    eapply inv_moved; eauto.
  - apply inv_data; auto.
  - eapply inv_same; eauto.
  - eapply inv_same; eauto.
  - unfold next_anon_target_label in H. inv_ret H. injection H as <- <-. eapply inv_same; eauto.
  - unfold next_anon_reference_label in H. inv_ret H. injection H as <- <-. eapply inv_same; eauto.
Qed.
Lemma step_ib d e d' : inv_built d -> step d e d' -> inv_built d'.
Proof.
  intros IB H. pose proof (inv_wf _ (ib_inv _ IB)) as W. pose proof (ib_right _ IB) as R. destruct H.
  - apply push_data_spec in H0 as (n & P & T). eapply ib_pushed; eauto; [apply wf_with; exact W|apply rightmost_with; exact R|apply document_with].
  - apply push_data_spec in H0 as (T & N & _). eapply ib_same; eauto.
  - apply push_data_and_focus_spec in H0 as (n & ks & P & Ek & T); [|exact W].
    eapply ib_pushed; eauto; [eapply focus_push_wf; eauto|cbn; rewrite Ek; auto|eapply focus_push_doc; eauto].
  - apply push_data_and_focus_spec in H0 as (T & N & _); [|exact W]. eapply ib_same; eauto.
  - apply push_child_spec in H0 as (n & P & T). eapply ib_pushed; eauto; [apply wf_with; exact W|apply rightmost_with; exact R|apply document_with].
  - apply push_child_spec in H0 as (T & N & _). eapply ib_same; eauto.
  - eapply ib_pop; eauto.
  - apply d_parent_spec in H as (W' & D & N & _ & _ & _ & R'); [|exact W]. eapply ib_moved; eauto.
  - rewrite d_root_spec in H by exact W. injection H as <-. eapply ib_moved; eauto; constructor.
  - unfold d_walk_to_parent_section_level in H. inv_ret H. injection H as <-.
    destruct (walk_to_section_wf (tree d) l W) as (z' & E' & W' & D'). pose proof (walk_to_section_right _ _ _ W R E) as R'.
    rewrite E' in E. injection E as <-. eapply ib_moved; eauto.
  - apply ib_data; auto.
  - eapply ib_same; eauto.
  - eapply ib_same; eauto.
  - unfold next_anon_target_label in H. inv_ret H. injection H as <- <-. eapply ib_same; eauto.
  - unfold next_anon_reference_label in H. inv_ret H. injection H as <- <-. eapply ib_same; eauto.
Qed.
Lemma step_any_inv d e d' : inv d -> step_any d e d' -> inv d'.
Proof.
  intros I H. destruct H.
  - eapply step_inv; eauto.
  - apply d_walk_to_id_spec in H as (E & W & D); [|apply (inv_wf _ I)].
    eapply inv_moved; eauto. rewrite E. reflexivity.
  - destruct (focus_child_wf _ _ _ (inv_wf _ I) H) as (W & D & _). eapply inv_moved; eauto.
Qed.

Lemma new_inv_built : inv_built new_doctree.
Proof.
  constructor; [|exact Logic.I|].
  - constructor; cbn.
    + exact Logic.I.
    + apply (tree_ok_new NDocument).
    + repeat constructor. intros [].
    + repeat constructor.
  - cbn. repeat constructor.
Qed.
Lemma built_inv es d : built es d -> inv_built d.
Proof.
  unfold built. remember new_doctree as d0 eqn:E. intros H. induction H; subst; [apply new_inv_built|].
  eapply step_ib; eauto.
Qed.
Lemma reachable_inv es d : reachable es d -> inv d.
Proof.
  unfold reachable. remember new_doctree as d0 eqn:E. intros H. induction H; subst; [apply new_inv_built|].
  eapply step_any_inv; eauto.
Qed.
