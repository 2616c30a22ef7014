(* HyperrefProofs.v -- sections, labels and footnote numbers over every history *)
From Coq Require Import FinFun.
From Verif Require Import Base Common NodeTypes Tree DocTree History Spec TextProofs TreeProofs DocTreeProofs.
Local Open Scope N_scope.

Lemma run_inv es d : run step new_doctree es d -> inv d.
Proof. intros H. exact (ib_inv _ (built_inv _ _ H)). Qed.

Lemma last_child_add p n : node_children p <> None -> last_child (add_last p n) = Some n.
Proof.
  unfold add_last, last_child. destruct (node_children p) as [cs|]; [|congruence]. intros _.
  rewrite children_with_children. rewrite map_app. apply last_last.
Qed.

(* what a push asks of the label machinery *)
Definition push_effect (d : DocTree) (x : TreeNodeType) (a : option TreeNode) (d' : DocTree) : Prop :=
  exists d1 x' rs, hyperref_actions d x = Ret (d1, x', rs) /\ hyperref d' = hyperref d1 /\ sections d' = sections d1 /\
    forall n, a = Some n -> node_data n = x' /\ node_refnames n = rs /\ node_id n = node_count d /\
      document (tree d') = put_at (document (tree d)) (position (tree d)) (add_last (z_node (tree d)) n).
Lemma step_push d x a d' : wf (tree d) -> step d (EPush x a) d' -> push_effect d x a d'.
Proof.
  intros W H. inversion H; subst; match goal with Hq : @eq (outcome _) _ (Ret _) |- _ => rename Hq into HP end.
  - pose proof (push_data_spec _ _ _ HP) as (n & (x1 & rs1 & cs1 & En & _ & _ & _ & Hc & _) & T).
    unfold push_data in HP. inv_ret HP. destruct a as [[d1 x'] rs]. exists d1, x', rs. split; [exact E|].
    apply hyperref_shape in E as ((T1 & C1 & _) & _).
    cbn [fst snd] in HP. destruct (take_classes d1) as [d2 cs] eqn:Et. apply take_classes_shape in Et as (T2 & C2 & A & B).
    inv_ret HP. destruct a; (discriminate HP || (injection HP as Ed; subst d')). cbn [tree d_set_tree d_set_count hyperref sections node_count incoming_classes] in T |- *. split; [exact A|]. split; [exact B|].
    apply z_push_spec in E as (Ez & _). rewrite T2, T1, C2, C1 in Ez. intros m. rewrite Ez, z_node_with, last_child_add by exact Hc.
    intros [= <-]. rewrite document_with. unfold document at 1. rewrite rebuild_put by exact W. auto.
  - unfold push_data in HP. inv_ret HP. destruct a as [[d1 x'] rs]. exists d1, x', rs. split; [exact E|].
    cbn [fst snd] in HP. destruct (take_classes d1) as [d2 cs] eqn:Et. apply take_classes_shape in Et as (_ & _ & A & B).
    inv_ret HP. destruct a; (discriminate HP || (injection HP as Ed; subst d')). cbn [tree d_set_tree d_set_count hyperref sections node_count incoming_classes]. repeat split; auto; discriminate.
  - unfold push_data_and_focus in HP. inv_ret HP. destruct a as [[d1 x'] rs]. exists d1, x', rs. split; [exact E|].
    apply hyperref_shape in E as ((T1 & C1 & _) & _).
    cbn [fst snd] in HP. destruct (take_classes d1) as [d2 cs] eqn:Et. apply take_classes_shape in Et as (T2 & C2 & A & B).
    inv_ret HP. destruct a; (discriminate HP || (injection HP as Ed; subst d')). cbn [tree d_set_tree d_set_count hyperref sections node_count incoming_classes]. split; [exact A|]. split; [exact B|].
    apply z_push_focus_spec in E as (ks & Ek & Ez & _); [|rewrite T2, T1; exact W]. rewrite T2, T1, C2, C1 in *. intros m [= <-].
    rewrite Ez. cbn [z_node node_data new_node node_refnames node_id]. rewrite (focus_push_doc _ _ _ Ek). unfold document. rewrite rebuild_put by exact W. auto.
  - unfold push_data_and_focus in HP. inv_ret HP. destruct a as [[d1 x'] rs]. exists d1, x', rs. split; [exact E|].
    cbn [fst snd] in HP. destruct (take_classes d1) as [d2 cs] eqn:Et. apply take_classes_shape in Et as (_ & _ & A & B).
    inv_ret HP. destruct a; (discriminate HP || (injection HP as Ed; subst d')). cbn [tree d_set_tree d_set_count hyperref sections node_count incoming_classes]. repeat split; auto; discriminate.
  - unfold push_child in HP. inv_ret HP. destruct a as [[d1 x'] rs]. exists d1, x', rs. split; [exact E|].
    cbn [fst snd new_node node_data] in *. apply hyperref_shape in E as ((T1 & C1 & _) & K & _).
    inv_ret HP. destruct a; (discriminate HP || (injection HP as Ed; subst d')). cbn [tree d_set_tree d_set_count hyperref sections node_count incoming_classes]. split; [reflexivity|]. split; [reflexivity|].
    unfold z_push_child in E. inv_ret E. apply node_push_spec in E0. destruct a0; (discriminate E || injection E as <-).
    destruct E0 as (-> & _ & Hc). rewrite z_node_with, last_child_add by exact Hc. intros m [= <-].
    cbn. rewrite document_with, T1. unfold document. rewrite rebuild_put by exact W. auto.
  - unfold push_child in HP. inv_ret HP. destruct a as [[d1 x'] rs]. exists d1, x', rs. split; [exact E|].
    cbn [fst snd new_node node_data] in *.
    inv_ret HP. destruct a; (discriminate HP || (injection HP as Ed En; subst d')). cbn [tree d_set_tree d_set_count hyperref sections node_count incoming_classes]. repeat split; auto; discriminate.
Qed.
Lemma step_move d e d' : step d e d' ->
  match e with
  | EPush _ _ => True
  | EMove => hyperref d' = hyperref d /\ sections d' = sections d
  | ELabel l => d' = push_to_internal_target_stack d l
  | EAnonTarget l => next_anon_target_label d = Ret (d', l)
  | EAnonRef l => next_anon_reference_label d = Ret (d', l)
  end.
Proof.
  intros H; destruct H; auto.
  - apply pop_spec in H. intuition.
  - unfold d_focus_on_parent in H. inv_ret H. injection H as <-. auto.
  - unfold d_walk_to_root in H. inv_ret H. injection H as <-. auto.
  - unfold d_walk_to_parent_section_level in H. inv_ret H. injection H as <-. auto.
Qed.

(* ---------- C10 ---------- *)
Lemma sections_targets ls : forall d, sections (add_targets d ls) = sections d.
Proof. induction ls as [|l ls IH]; intros d; [reflexivity|]. change (add_targets d (l :: ls)) with (add_targets (add_target d l (node_count d)) ls). rewrite IH. reflexivity. Qed.
Lemma sections_references ls : forall d, sections (add_references d ls) = sections d.
Proof. induction ls as [|l ls IH]; intros d; [reflexivity|]. change (add_references d (l :: ls)) with (add_references (add_reference d l (node_count d)) ls). rewrite IH. reflexivity. Qed.
Lemma sections_incr d d' : increment_symbolic_footnotes d = Ret d' -> sections d' = sections d.
Proof. unfold increment_symbolic_footnotes. intros H. inv_ret H. injection H as <-. reflexivity. Qed.
Lemma sections_drained d x : sections (fst (drained d x)) = sections d.
Proof. unfold drained. destruct (accumulated (hyperref d)); [reflexivity|]. destruct x; reflexivity. Qed.
Lemma sections_actions d x d' x' rs : hyperref_actions d x = Ret (d', x', rs) ->
  sections d' = match x with
                | NSection _ level style =>
                    let s := add_section_level (sections d) style in
                    if (highest_level s <? level)%nat then increment_section_number s else s
                | _ => sections d
                end.
Proof.
  rewrite hyperref_actions_eq. rewrite <- (sections_drained d x). generalize (fst (drained d x)), (snd (drained d x)).
  clear d. intros d ls. unfold actions_after.
  destruct x; intros H; try (injection H as <- _ _; rewrite ?sections_targets; reflexivity).
  - inv_ret H. destruct a as [x labels]. cbn [fst snd] in H. inv_ret H. injection H as <- _ _.
    rewrite <- (sections_targets labels d). destruct kind; first [eapply sections_incr; eassumption|injection E0 as <-; reflexivity].
  - destruct kind.
    + injection H as <- _ _. apply sections_references.
    + inv_ret H. destruct a; injection H as <- _ _; [apply sections_references|reflexivity].
    + inv_ret H. destruct a; injection H as <- _ _; [apply sections_references|reflexivity].
    + destruct (new_symbolic_footnote_label d); injection H as <- _ _; [apply sections_references|reflexivity].
  - injection H as <- _ _. change (sections (add_targets d ls) = sections d). apply sections_targets.
Qed.

Lemma style_eqb_spec a b : style_eqb a b = true <-> a = b.
Proof.
  destruct a, b; cbn; rewrite ?N.eqb_eq; split; intros H; try discriminate; congruence.
Qed.
Lemma style_eqb_refl a : style_eqb a a = true. Proof. apply style_eqb_spec. reflexivity. Qed.
Definition smem (s : SectionLineStyle) l := existsb (style_eqb s) l.
Lemma smem_spec s l : smem s l = true <-> In s l.
Proof. unfold smem. rewrite existsb_exists. split; [intros (x & H & E); apply style_eqb_spec in E; subst; exact H|intros H; exists s; split; [exact H|apply style_eqb_refl]]. Qed.
Lemma uniq_in s l : In s (uniq l) <-> In s l.
Proof.
  revert s. induction l as [|x l IH]; intros s; [reflexivity|]. cbn [uniq In]. rewrite filter_In, IH.
  destruct (style_eqb s x) eqn:E; cbn.
  - apply style_eqb_spec in E. subst. intuition.
  - intuition.
Qed.
Lemma uniq_snoc l s : uniq (l ++ [s]) = if smem s l then uniq l else uniq l ++ [s].
Proof.
  induction l as [|x l IH]; [reflexivity|]. cbn [app uniq]. rewrite IH. unfold smem. cbn [existsb]. fold (smem s l).
  destruct (smem s l) eqn:E.
  - rewrite orb_true_r. reflexivity.
  - rewrite orb_false_r. rewrite filter_app. cbn [filter]. destruct (style_eqb s x); cbn; rewrite ?app_nil_r; reflexivity.
Qed.
Lemma index_of_notin s l : ~ In s l -> index_of s l = length l.
Proof.
  induction l as [|x l IH]; [reflexivity|]. cbn. intros H. destruct (style_eqb s x) eqn:E.
  - apply style_eqb_spec in E. subst. intuition.
  - rewrite IH by intuition. reflexivity.
Qed.
Lemma index_of_in s l : In s l -> (index_of s l < length l)%nat /\ nth_error l (index_of s l) = Some s.
Proof.
  induction l as [|x l IH]; [contradiction|]. cbn. intros H. destruct (style_eqb s x) eqn:E.
  - apply style_eqb_spec in E. subst. cbn. split; [lia|reflexivity].
  - destruct H as [->|H]; [rewrite style_eqb_refl in E; discriminate|]. destruct (IH H). cbn. split; [lia|assumption].
Qed.
Lemma index_of_app s l m : In s l -> index_of s (l ++ m) = index_of s l.
Proof.
  induction l as [|x l IH]; [contradiction|]. cbn. intros H. destruct (style_eqb s x) eqn:E; [reflexivity|].
  destruct H as [->|H]; [rewrite style_eqb_refl in E; discriminate|]. rewrite IH by exact H. reflexivity.
Qed.

Lemma index_of_new s l : ~ In s l -> index_of s (l ++ [s]) = length l.
Proof.
  induction l as [|y l IH]; cbn; intros Hn; [rewrite style_eqb_refl; reflexivity|].
  destruct (style_eqb s y) eqn:E; [apply style_eqb_spec in E; subst; intuition|]. f_equal. apply IH. intuition.
Qed.
Definition sec_inv (seen : list SectionLineStyle) (s : SectionData) : Prop :=
  section_levels s = combine (uniq seen) (seq 1 (length (uniq seen))) /\ highest_level s = length (uniq seen).
Lemma style_get_combine s : forall l k,
  style_get (combine l (seq k (length l))) s = if smem s l then Some (k + index_of s l)%nat else None.
Proof.
  induction l as [|x l IH]; intros k; [reflexivity|]. cbn [length seq combine style_get smem existsb index_of].
  destruct (style_eqb s x) eqn:E; cbn [orb].
  - f_equal. lia.
  - rewrite IH. fold (smem s l). destruct (smem s l); [|reflexivity]. f_equal. lia.
Qed.
Lemma sec_inv_level seen s st : sec_inv seen s -> line_style_section_level s st = level_after seen st.
Proof.
  intros [A B]. unfold line_style_section_level, level_after. rewrite A, style_get_combine.
  destruct (smem st (uniq seen)) eqn:E; [reflexivity|]. rewrite B. rewrite index_of_notin; [reflexivity|].
  intros H. apply smem_spec in H. congruence.
Qed.
Lemma combine_snoc (st : SectionLineStyle) l : forall k,
  combine (l ++ [st]) (seq k (length l) ++ [(k + length l)%nat]) = combine l (seq k (length l)) ++ [(st, (k + length l)%nat)].
Proof.
  induction l as [|x l IH]; intros k; cbn; [reflexivity|]. f_equal.
  replace (k + S (length l))%nat with (S k + length l)%nat by lia. apply IH.
Qed.
Lemma sec_inv_push seen s st : sec_inv seen s ->
  let s1 := add_section_level s st in
  sec_inv (seen ++ [st]) (if (highest_level s1 <? line_style_section_level s st)%nat then increment_section_number s1 else s1).
Proof.
  intros I. pose proof I as [A B]. pose proof (sec_inv_level _ _ st I) as L. cbn zeta. rewrite L. unfold add_section_level, level_after.
  rewrite A, style_get_combine. unfold sec_inv. rewrite !uniq_snoc.
  destruct (smem st (uniq seen)) eqn:E.
  - assert (Hin : In st (uniq seen)) by (apply smem_spec; exact E). destruct (index_of_in _ _ Hin) as [Hlt _].
    replace (smem st seen) with true by (symmetry; apply smem_spec, uniq_in; exact Hin). rewrite B.
    destruct (Nat.ltb_spec (length (uniq seen)) (S (index_of st (uniq seen)))); [lia|]. split; assumption.
  - assert (Hnin : ~ In st (uniq seen)) by (intros H; apply smem_spec in H; congruence).
    assert (Es : smem st seen = false) by (destruct (smem st seen) eqn:E'; [apply smem_spec, uniq_in in E'; contradiction|reflexivity]).
    rewrite Es. rewrite index_of_notin by exact Hnin. cbn [highest_level]. rewrite B.
    destruct (Nat.ltb_spec (length (uniq seen)) (S (length (uniq seen)))); [|lia].
    unfold increment_section_number. cbn [section_levels highest_level]. rewrite app_length. cbn [length].
    split; [|lia]. replace (length (uniq seen) + 1)%nat with (S (length (uniq seen))) by lia. rewrite seq_S.
    symmetry. exact (combine_snoc st (uniq seen) 1).
Qed.
Lemma styles_snoc es e : styles_of (es ++ [e]) = styles_of es ++ match e with EPush (NSection _ _ s) _ => [s] | _ => [] end.
Proof. unfold styles_of. rewrite flat_map_app. cbn. rewrite app_nil_r. reflexivity. Qed.
Lemma step_section_ok d x a d' : step d (EPush x a) d' -> section_level_ok d x.
Proof. intros H; inversion H; assumption. Qed.
Lemma built_sections es d : built es d -> sec_inv (styles_of es) (sections d).
Proof.
  unfold built. remember new_doctree as d0 eqn:E. intros H. induction H; subst; [split; reflexivity|].
  specialize (IHrun eq_refl). pose proof (inv_wf _ (run_inv _ _ H)) as W. rewrite styles_snoc.
  destruct e as [x a|l|l|l|]; pose proof (step_move _ _ _ H0) as M.
  - pose proof (step_section_ok _ _ _ _ H0) as SO.
    destruct (step_push _ _ _ _ W H0) as (d1 & x' & rs & Ha & _ & Es & _).
    rewrite Es, (sections_actions _ _ _ _ _ Ha). destruct x; try (rewrite app_nil_r; exact IHrun).
    rewrite (SO _ _ _ eq_refl). apply sec_inv_push. exact IHrun.
  - rewrite app_nil_r. unfold next_anon_target_label in M. inv_ret M. injection M as <- _. exact IHrun.
  - rewrite app_nil_r. unfold next_anon_reference_label in M. inv_ret M. injection M as <- _. exact IHrun.
  - rewrite app_nil_r, M. exact IHrun.
  - rewrite app_nil_r. destruct M as [_ ->]. exact IHrun.
Qed.
Lemma level_after_mono seen more s : In s seen -> level_after (seen ++ more) s = level_after seen s.
Proof.
  revert seen. induction more as [|m more IH]; intros seen H; [rewrite app_nil_r; reflexivity|].
  replace (seen ++ m :: more) with ((seen ++ [m]) ++ more) by (rewrite <- app_assoc; reflexivity).
  rewrite IH by (apply in_or_app; auto). unfold level_after. rewrite uniq_snoc.
  destruct (smem m seen); [reflexivity|]. rewrite index_of_app; [reflexivity|]. apply uniq_in. exact H.
Qed.

(* ---------- data of all nodes of a rebuilt document ---------- *)
Definition datas (n : TreeNode) : list TreeNodeType := map node_data (preorder n).
Lemma datas_unfold n : datas n = node_data n :: match node_children n with Some cs => flat_map datas cs | None => [] end.
Proof.
  unfold datas. rewrite preorder_unfold. cbn [map]. f_equal. destruct (node_children n) as [cs|]; [|reflexivity].
  induction cs as [|c cs IH]; [reflexivity|]. cbn [flat_map]. rewrite map_app, IH. reflexivity.
Qed.
Lemma rebuild_datas z : wf z -> exists a b, (forall n, datas (rebuild z n) = a ++ datas n ++ b).
Proof.
  induction z as [y i|y p i IH] using zip_ind'; intros Hw; destruct i as [i|]; try contradiction.
  { exists [], []. intros n. rewrite app_nil_r. reflexivity. }
  destruct Hw as [Hp Hi]. destruct (IH Hp) as (a & b & Hab).
  destruct (node_children (z_node p)) as [cs|] eqn:Ec; [|contradiction].
  destruct (unswap_split cs i Hi) as (u & v & Huv & Hl).
  exists (a ++ node_data (z_node p) :: flat_map datas u), (flat_map datas v ++ b).
  intros n. cbn [rebuild]. rewrite Hab. unfold put_back. rewrite Ec.
  rewrite (datas_unfold (with_children _ _)). rewrite children_with_children, node_data_with_children.
  rewrite Huv, flat_map_app. cbn [flat_map app]. repeat (rewrite <- ?app_assoc; cbn [app]). reflexivity.
Qed.
Lemma datas_add_last p c : node_children p <> None -> datas (add_last p c) = datas p ++ datas c.
Proof.
  destruct p as [i r k d [cs|]]; cbn [node_children]; [|congruence]. intros _. unfold add_last. cbn [node_children with_children].
  rewrite !datas_unfold. cbn [node_data node_children]. rewrite flat_map_app. cbn [flat_map]. rewrite app_nil_r.
  rewrite <- (datas_unfold c). reflexivity.
Qed.
Lemma datas_new x i rs cs : datas (new_node x i rs cs) = [x].
Proof. unfold new_node. destruct (can_have_children (kind x)); reflexivity. Qed.

(* a property of payloads kept by every step holds of the whole document *)
Definition sec_node_ok (seen : list SectionLineStyle) (x : TreeNodeType) : Prop :=
  forall t l s, x = NSection t l s -> In s seen /\ l = level_after seen s.
Lemma sec_node_ok_mono seen more x : sec_node_ok seen x -> sec_node_ok (seen ++ more) x.
Proof.
  intros H t l s E. destruct (H _ _ _ E) as [A B]. split; [apply in_or_app; auto|]. rewrite level_after_mono by exact A. exact B.
Qed.
Lemma built_section_nodes es d : built es d -> Forall (sec_node_ok (styles_of es)) (datas (document (tree d))).
Proof.
  unfold built. remember new_doctree as d0 eqn:E. intros H. induction H; subst.
  { constructor; [|constructor]. unfold sec_node_ok. intros ? ? ? [=]. }
  specialize (IHrun eq_refl). pose proof (run_inv _ _ H) as IV. pose proof (inv_wf _ IV) as W. rewrite styles_snoc.
  pose proof (built_sections _ _ H) as SI.
  assert (Hpush : forall x n, section_level_ok d' x -> pushed d' d'' x n ->
    document (tree d'') = rebuild (tree d') (add_last (z_node (tree d')) n) ->
    Forall (sec_node_ok (styles_of es ++ match x with NSection _ _ s => [s] | _ => [] end)) (datas (document (tree d'')))).
  { intros x n SO (x' & rs & cs & -> & K & KS & _ & Hc & _) D. rewrite D.
    destruct (rebuild_datas _ W) as (a & b & Hab). unfold document in IHrun. rewrite Hab in IHrun. rewrite Hab.
    rewrite datas_add_last, datas_new by exact Hc. rewrite !Forall_app in *.
    destruct IHrun as (I1 & I2 & I3). repeat split; try (eapply Forall_impl; [|eassumption]; intros; apply sec_node_ok_mono; assumption).
    constructor; [|constructor]. intros t l s Es. subst x'.
    assert (Hx : x = NSection t l s) by (symmetry; apply KS; rewrite <- K; discriminate). subst x.
    split; [apply in_or_app; right; left; reflexivity|]. rewrite (SO _ _ _ eq_refl).
    rewrite (sec_inv_level _ _ _ SI). unfold level_after. rewrite uniq_snoc. destruct (smem s (styles_of es)) eqn:Em; [reflexivity|].
    assert (Hn : ~ In s (uniq (styles_of es))) by (rewrite uniq_in, <- smem_spec; congruence).
    rewrite (index_of_notin _ _ Hn). f_equal. symmetry. apply index_of_new. exact Hn. }
  assert (Hsame : forall m, document (tree d'') = document (tree d') -> Forall (sec_node_ok (styles_of es ++ m)) (datas (document (tree d'')))).
  { intros m ->. eapply Forall_impl; [|exact IHrun]. intros; apply sec_node_ok_mono; assumption. }
  destruct H0.
  - apply push_data_spec in H1 as (n & P & T). eapply Hpush; eauto. rewrite T. apply document_with.
  - apply push_data_spec in H1 as (T & _). apply Hsame. rewrite T. reflexivity.
  - apply push_data_and_focus_spec in H1 as (n & ks & P & Ek & T); [|exact W]. eapply Hpush; eauto. rewrite T. apply focus_push_doc. exact Ek.
  - apply push_data_and_focus_spec in H1 as (T & _); [|exact W]. apply Hsame. rewrite T. reflexivity.
  - apply push_child_spec in H1 as (n & P & T). eapply Hpush; eauto. rewrite T. apply document_with.
  - apply push_child_spec in H1 as (T & _). apply Hsame. rewrite T. reflexivity.
  - rewrite app_nil_r. apply pop_spec in H0 as (_ & _ & _ & G). destruct c as [c|]; [|rewrite G; exact IHrun].
    destruct G as (p & T & Ep & Hn). rewrite T, document_with.
    destruct (rebuild_datas _ W) as (a & b & Hab). rewrite Hab. unfold document in IHrun. rewrite Hab, Ep, datas_add_last in IHrun by exact Hn.
    rewrite !Forall_app in *. intuition.
  - apply d_parent_spec in H0 as (_ & D & _); [|exact W]. apply Hsame. exact D.
  - rewrite d_root_spec in H0 by exact W. injection H0 as <-. apply Hsame. reflexivity.
  - unfold d_walk_to_parent_section_level in H0. inv_ret H0. injection H0 as <-.
    destruct (walk_to_section_wf (tree d) l W) as (z' & E' & W' & D'). rewrite E' in E. injection E as <-. apply Hsame. exact D'.
  - rewrite app_nil_r. cbn [set_focused_data tree d_set_tree]. rewrite document_with.
    destruct (rebuild_datas _ W) as (a & b & Hab). rewrite Hab. unfold document in IHrun. rewrite Hab in IHrun.
    rewrite datas_unfold in *. rewrite children_with_data. rewrite !Forall_app, !Forall_cons_iff in *.
    destruct IHrun as (I1 & (_ & I2) & I3). split; [exact I1|]. split; [|exact I3]. split; [|exact I2].
    destruct (z_node (tree d)); cbn [with_data node_data]. intros ? ? ? ->. contradiction H1. reflexivity.
  - apply Hsame. reflexivity.
  - apply Hsame. reflexivity.
  - unfold next_anon_target_label in H0. inv_ret H0. injection H0 as <- <-. apply Hsame. reflexivity.
  - unfold next_anon_reference_label in H0. inv_ret H0. injection H0 as <- <-. apply Hsame. reflexivity.
Qed.

(* ---------- C12-C16: labels ---------- *)
(* the counters of anonymous labels and the sequence of collected labels *)
Definition counters (d : DocTree) := (n_of_anon_targets (hyperref d), n_of_anon_references (hyperref d)).
Lemma hyper_targets ls : forall d, counters (add_targets d ls) = counters d /\
  n_of_sym_footnotes (hyperref (add_targets d ls)) = n_of_sym_footnotes (hyperref d) /\
  accumulated (hyperref (add_targets d ls)) = accumulated (hyperref d) /\
  references (hyperref (add_targets d ls)) = references (hyperref d).
Proof.
  induction ls as [|l ls IH]; intros d; [repeat split|].
  change (add_targets d (l :: ls)) with (add_targets (add_target d l (node_count d)) ls).
  destruct (IH (add_target d l (node_count d))) as (A & B & C & D). rewrite A, B, C, D. repeat split.
Qed.
Lemma hyper_references ls : forall d, counters (add_references d ls) = counters d /\
  n_of_sym_footnotes (hyperref (add_references d ls)) = n_of_sym_footnotes (hyperref d) /\
  accumulated (hyperref (add_references d ls)) = accumulated (hyperref d) /\
  targets (hyperref (add_references d ls)) = targets (hyperref d).
Proof.
  induction ls as [|l ls IH]; intros d; [repeat split|].
  change (add_references d (l :: ls)) with (add_references (add_reference d l (node_count d)) ls).
  destruct (IH (add_reference d l (node_count d))) as (A & B & C & D). rewrite A, B, C, D. repeat split.
Qed.
Definition is_sym_footnote (x : TreeNodeType) : bool :=
  match x with NFootnote _ FAutoSymbol _ _ => true | _ => false end.
Lemma symbol_label_some n : exists s, symbol_label n = Some s.
Proof.
  unfold symbol_label. change (N.of_nat (length FOOTNOTE_SYMBOLS)) with 10.
  destruct (nth_error FOOTNOTE_SYMBOLS (N.to_nat (n mod 10))) eqn:E; [eauto|].
  apply nth_error_None in E. change (length FOOTNOTE_SYMBOLS) with 10%nat in E.
  pose proof (N.mod_lt n 10). lia.
Qed.
Lemma counters_incr d d' : increment_symbolic_footnotes d = Ret d' ->
  counters d' = counters d /\ accumulated (hyperref d') = accumulated (hyperref d) /\
  targets (hyperref d') = targets (hyperref d) /\
  n_of_sym_footnotes (hyperref d') = n_of_sym_footnotes (hyperref d) + 1.
Proof. unfold increment_symbolic_footnotes, u32_add. destruct (_ <=? _); cbn; intros [= <-]. repeat split. Qed.

Definition is_blank_node (x : TreeNodeType) : bool := match x with NEmptyLine | NWhiteSpace _ => true | _ => false end.
Lemma drained_hyper d x :
  counters (fst (drained d x)) = counters d /\
  n_of_sym_footnotes (hyperref (fst (drained d x))) = n_of_sym_footnotes (hyperref d) /\
  targets (hyperref (fst (drained d x))) = targets (hyperref d) /\
  references (hyperref (fst (drained d x))) = references (hyperref d) /\
  accumulated (hyperref (fst (drained d x))) = (if is_blank_node x then accumulated (hyperref d) else []) /\
  snd (drained d x) = (if is_blank_node x then [] else accumulated (hyperref d)).
Proof.
  unfold drained. destruct (accumulated (hyperref d)) eqn:E.
  - destruct (is_blank_node x); repeat split; cbn; rewrite ?E; reflexivity.
  - destruct x; repeat split; cbn; assumption.
Qed.

(* everything the label machinery does, in one place *)
Lemma actions_effect d x d' x' rs : hyperref_actions d x = Ret (d', x', rs) ->
  counters d' = counters d /\
  n_of_sym_footnotes (hyperref d') = n_of_sym_footnotes (hyperref d) + (if is_sym_footnote x then 1 else 0) /\
  accumulated (hyperref d') = (if is_blank_node x then accumulated (hyperref d) else []).
Proof.
  rewrite hyperref_actions_eq. destruct (drained_hyper d x) as (A & B & _ & _ & C & _).
  rewrite <- A, <- B, <- C. generalize (fst (drained d x)), (snd (drained d x)). clear. intros d ls.
  assert (T : forall l, counters (add_targets d l) = counters d /\
    n_of_sym_footnotes (hyperref (add_targets d l)) = n_of_sym_footnotes (hyperref d) + 0 /\
    accumulated (hyperref (add_targets d l)) = accumulated (hyperref d)).
  { intros l. destruct (hyper_targets l d) as (a & b & c & _). rewrite a, b, c, N.add_0_r. auto. }
  assert (R : forall l, counters (add_references d l) = counters d /\
    n_of_sym_footnotes (hyperref (add_references d l)) = n_of_sym_footnotes (hyperref d) + 0 /\
    accumulated (hyperref (add_references d l)) = accumulated (hyperref d)).
  { intros l. destruct (hyper_references l d) as (a & b & c & _). rewrite a, b, c, N.add_0_r. auto. }
  assert (Z : counters d = counters d /\ n_of_sym_footnotes (hyperref d) = n_of_sym_footnotes (hyperref d) + 0 /\
    accumulated (hyperref d) = accumulated (hyperref d)) by (rewrite N.add_0_r; auto).
  unfold actions_after. destruct x; intros H; cbn [is_sym_footnote];
    try (injection H as <- _ _; first [apply T|exact Z]; fail).
  - inv_ret H. destruct a as [x labels]. cbn [fst snd] in H. inv_ret H. injection H as <- _ _.
    destruct kind; try (injection E0 as <-; apply T).
    apply counters_incr in E0 as (a1 & a2 & a3 & a4). destruct (hyper_targets labels d) as (b1 & b2 & b3 & _).
    rewrite a1, a2, a4, b1, b2, b3. auto.
  - destruct kind.
    + injection H as <- _ _. apply R.
    + inv_ret H. destruct a; injection H as <- _ _; auto.
    + inv_ret H. destruct a; injection H as <- _ _; auto.
    + destruct (new_symbolic_footnote_label d); injection H as <- _ _; auto.
Qed.

Lemma NoDup_app_snoc {A} (l : list A) x : NoDup l -> ~ In x l -> NoDup (l ++ [x]).
Proof. intros H Hn. apply NoDup_Add with (a := x) (l := l ++ []); [apply Add_app|rewrite app_nil_r; auto]. Qed.

(* C12 *)
Definition anon_inv (es : list event) (d : DocTree) : Prop :=
  n_of_anon_targets (hyperref d) = N.of_nat (length (anon_targets_of es)) /\
  n_of_anon_references (hyperref d) = N.of_nat (length (anon_refs_of es)) /\
  anon_targets_of es = map (fun k => anon_label (N.of_nat k)) (seq 1 (length (anon_targets_of es))) /\
  anon_refs_of es = map (fun k => anon_label (N.of_nat k)) (seq 1 (length (anon_refs_of es))).
Lemma anon_targets_snoc es e : anon_targets_of (es ++ [e]) = anon_targets_of es ++ match e with EAnonTarget l => [l] | _ => [] end.
Proof. unfold anon_targets_of. rewrite flat_map_app. cbn. rewrite app_nil_r. reflexivity. Qed.
Lemma anon_refs_snoc es e : anon_refs_of (es ++ [e]) = anon_refs_of es ++ match e with EAnonRef l => [l] | _ => [] end.
Proof. unfold anon_refs_of. rewrite flat_map_app. cbn. rewrite app_nil_r. reflexivity. Qed.
Lemma labels_snoc (l : list str) : l = map (fun k => anon_label (N.of_nat k)) (seq 1 (length l)) ->
  forall n, n = N.of_nat (length l) ->
  l ++ [anon_label (n + 1)] = map (fun k => anon_label (N.of_nat k)) (seq 1 (length (l ++ [anon_label (n + 1)]))).
Proof.
  intros H n ->. rewrite app_length. cbn [length]. rewrite Nat.add_1_r, seq_S, map_app, <- H. cbn [map].
  f_equal. f_equal. f_equal. lia.
Qed.
Lemma built_anon es d : built es d -> anon_inv es d.
Proof.
  unfold built. remember new_doctree as d0 eqn:E. intros H. induction H; subst; [repeat split|].
  specialize (IHrun eq_refl). pose proof (inv_wf _ (run_inv _ _ H)) as W. unfold anon_inv. rewrite anon_targets_snoc, anon_refs_snoc.
  destruct IHrun as (A & B & C & D).
  destruct e as [x a|l|l|l|]; pose proof (step_move _ _ _ H0) as M.
  - destruct (step_push _ _ _ _ W H0) as (d1 & x' & rs & Ha & Eh & _). apply actions_effect in Ha as (K & _).
    unfold counters in K. injection K as K1 K2. rewrite !app_nil_r, Eh, K1, K2. auto.
  - unfold next_anon_target_label, u32_add in M. destruct (_ <=? _); [|discriminate]. cbn in M. injection M as <- <-.
    rewrite !app_nil_r. cbn [hyperref d_set_hyperref h_set_anon_targets n_of_anon_targets n_of_anon_references].
    split; [rewrite app_length; cbn [length]; lia|]. split; [exact B|]. split; [|exact D].
    apply labels_snoc; assumption.
  - unfold next_anon_reference_label, u32_add in M. destruct (_ <=? _); [|discriminate]. cbn in M. injection M as <- <-.
    rewrite !app_nil_r. cbn [hyperref d_set_hyperref h_set_anon_references n_of_anon_targets n_of_anon_references].
    split; [exact A|]. split; [rewrite app_length; cbn [length]; lia|]. split; [exact C|].
    apply labels_snoc; assumption.
  - rewrite !app_nil_r, M. auto.
  - rewrite !app_nil_r. destruct M as [-> _]. auto.
Qed.
Lemma anon_label_inj a b : anon_label a = anon_label b -> a = b.
Proof.
  unfold anon_label. intros H. apply app_inv_head in H. apply app_inv_tail in H. apply dec_inj. exact H.
Qed.

(* C13 *)
Lemma map_get_set {V} (m : list (str * V)) k v k' : map_get (map_set m k v) k' = if str_eqb k' k then Some v else map_get m k'.
Proof.
  induction m as [|[a b] m IH]; cbn; [reflexivity|]. destruct (str_eqb k a) eqn:E; cbn.
  - apply str_eqb_eq in E. subst a. destruct (str_eqb k' k); reflexivity.
  - rewrite IH. destruct (str_eqb k' a) eqn:E1; [|reflexivity]. apply str_eqb_eq in E1. subst a.
    destruct (str_eqb k' k) eqn:E2; [|reflexivity]. apply str_eqb_eq in E2. subst. rewrite str_eqb_refl in E. discriminate.
Qed.
Definition used (d : DocTree) (l : str) : Prop := map_get (targets (hyperref d)) l <> None.
Lemma used_targets ls : forall d l, used (add_targets d ls) l <-> In l ls \/ used d l.
Proof.
  induction ls as [|x ls IH]; intros d l; [cbn; intuition|].
  change (add_targets d (x :: ls)) with (add_targets (add_target d x (node_count d)) ls). rewrite IH.
  unfold used at 1. cbn [add_target hyperref d_set_hyperref targets h_set_targets]. rewrite map_get_set.
  destruct (str_eqb l x) eqn:E.
  - apply str_eqb_eq in E. subst. cbn. intuition congruence.
  - assert (x <> l) by (intros ->; rewrite str_eqb_refl in E; discriminate). fold (used d l). cbn. intuition.
Qed.
Lemma map_get_in {V} (m : list (str * V)) k : map_get m k <> None <-> In k (map fst m).
Proof.
  induction m as [|[a b] m IH]; cbn; [intuition|]. destruct (str_eqb k a) eqn:E.
  - apply str_eqb_eq in E. subst. intuition congruence.
  - rewrite IH. assert (a <> k) by (intros ->; rewrite str_eqb_refl in E; discriminate). intuition.
Qed.
Lemma first_free_spec f (u : str -> bool) : forall n r, first_free f u n = Ret r ->
  match r with
  | Some l => exists k, n <= k <= u32_max /\ l = dec k /\ u l = false /\ forall j, n <= j < k -> u (dec j) = true
  | None => forall j, n <= j <= u32_max -> u (dec j) = true
  end.
Proof.
  induction f as [|f IH]; intros n r; cbn [first_free]; [discriminate|].
  destruct (N.ltb_spec u32_max n) as [Hn|Hn].
  { intros [= <-] j Hj. lia. }
  destruct (u (dec n)) eqn:E.
  - intros H. apply IH in H. destruct r as [l|].
    + destruct H as (k & Hk & -> & F & G). exists k. split; [lia|]. split; [reflexivity|]. split; [exact F|].
      intros j Hj. destruct (N.eq_dec j n) as [->|]; [exact E|]. apply G. lia.
    + intros j Hj. destruct (N.eq_dec j n) as [->|]; [exact E|]. apply H. lia.
  - intros [= <-]. exists n. repeat split; auto; lia.
Qed.
Lemma first_free_fuel f (u : str -> bool) : forall n, first_free f u n = OutOfFuel ->
  forall j, n <= j < n + N.of_nat f -> u (dec j) = true.
Proof.
  induction f as [|f IH]; intros n H j Hj; [lia|]. cbn [first_free] in H.
  destruct (u32_max <? n); [discriminate|]. destruct (u (dec n)) eqn:E; [|discriminate].
  destruct (N.eq_dec j n) as [->|]; [exact E|]. eapply IH; [exact H|lia].
Qed.
Lemma first_free_no_panic f u : forall n, first_free f u n <> Panic.
Proof.
  induction f as [|f IH]; intros n; cbn; [discriminate|]. destruct (u32_max <? n); [discriminate|].
  destruct (u (dec n)); [apply IH|discriminate].
Qed.
Lemma first_free_total {V} (m : list (str * V)) (u : str -> bool) :
  (forall l, u l = match map_get m l with Some _ => true | None => false end) ->
  exists r, first_free (S (length m)) u 1 = Ret r.
Proof.
  intros Hu. destruct (first_free (S (length m)) u 1) eqn:E; [eauto| |].
  { exfalso. eapply first_free_no_panic; exact E. }
  exfalso. pose proof (first_free_fuel _ _ _ E) as G.
  assert (Hi : incl (map (fun k => dec (N.of_nat k)) (seq 1 (S (length m)))) (map fst m)).
  { intros l Hl. apply in_map_iff in Hl as (k & <- & Hk). apply in_seq in Hk. apply map_get_in.
    specialize (G (N.of_nat k) ltac:(lia)). rewrite Hu in G. destruct (map_get m (dec (N.of_nat k))); congruence. }
  apply NoDup_incl_length in Hi.
  - rewrite !map_length, seq_length in Hi. lia.
  - apply FinFun.Injective_map_NoDup; [|apply seq_NoDup]. intros a b H. apply dec_inj in H. lia.
Qed.
Lemma has_target_used d l : has_target_label d l = true <-> used d l.
Proof. unfold has_target_label, used. destruct (map_get _ l); intuition congruence. Qed.
Lemma has_target_unused d l : has_target_label d l = false <-> ~ used d l.
Proof. rewrite <- has_target_used. destruct (has_target_label d l); intuition congruence. Qed.
Lemma autonumber_spec d : exists r, new_autonumber_footnote_label d = Ret r /\
  match r with
  | Some l => exists k, 1 <= k <= u32_max /\ l = dec k /\ ~ used d l /\ forall j, 1 <= j < k -> used d (dec j)
  | None => forall j, 1 <= j <= u32_max -> used d (dec j)
  end.
Proof.
  unfold new_autonumber_footnote_label.
  destruct (first_free_total (targets (hyperref d)) (has_target_label d)) as [r E]; [reflexivity|].
  exists r. split; [exact E|]. apply first_free_spec in E. destruct r as [l|].
  - destruct E as (k & A & B & C & D). exists k. apply has_target_unused in C. repeat split; auto; try lia.
    intros j Hj. apply has_target_used. auto.
  - intros j Hj. apply has_target_used. auto.
Qed.

Lemma actions_used d x d' x' rs l : hyperref_actions d x = Ret (d', x', rs) -> used d l -> used d' l.
Proof.
  rewrite hyperref_actions_eq. destruct (drained_hyper d x) as (_ & _ & A & _).
  unfold used at 1. rewrite <- A. fold (used (fst (drained d x)) l).
  generalize (fst (drained d x)), (snd (drained d x)). clear. intros d ls H U.
  assert (T : forall ls, used (add_targets d ls) l) by (intros; apply used_targets; auto).
  assert (R : forall ls, used (add_references d ls) l).
  { intros. unfold used. destruct (hyper_references ls0 d) as (_ & _ & _ & ->). exact U. }
  unfold actions_after in H. destruct x; try (injection H as <- _ _; first [apply T|exact U|apply (T [_])]; fail).
  - inv_ret H. destruct a as [x labels]. cbn [fst snd] in H. inv_ret H. injection H as <- _ _.
    destruct kind; try (injection E0 as <-; apply T).
    apply counters_incr in E0 as (_ & _ & a3 & _). unfold used. rewrite a3. apply T.
  - destruct kind.
    + injection H as <- _ _. apply R.
    + inv_ret H. destruct a; injection H as <- _ _; auto.
    + inv_ret H. destruct a; injection H as <- _ _; auto.
    + destruct (new_symbolic_footnote_label d); injection H as <- _ _; auto.
Qed.
Lemma step_used d e d' l : wf (tree d) -> step d e d' -> used d l -> used d' l.
Proof.
  intros W H U. destruct e as [x a|k|k|k|]; pose proof (step_move _ _ _ H) as M.
  - destruct (step_push _ _ _ _ W H) as (d1 & x' & rs & Ha & Eh & _). unfold used. rewrite Eh. eapply actions_used; eauto.
  - unfold next_anon_target_label in M. inv_ret M. injection M as <- _. exact U.
  - unfold next_anon_reference_label in M. inv_ret M. injection M as <- _. exact U.
  - rewrite M. exact U.
  - destruct M as [M _]. unfold used. rewrite M. exact U.
Qed.

Lemma actions_footnote d bi k label target d' x' rs :
  (k = FAutoNumbered \/ k = FSimpleRefName) ->
  hyperref_actions d (NFootnote bi k label target) = Ret (d', x', rs) ->
  (exists j, 1 <= j <= u32_max /\ x' = NFootnote bi k (dec j) (dec j) /\ ~ used d (dec j) /\ used d' (dec j) /\
             forall i, 1 <= i < j -> used d (dec i))
  \/ (forall i, 1 <= i <= u32_max -> used d (dec i)).
Proof.
  intros Hk. rewrite hyperref_actions_eq. destruct (drained_hyper d (NFootnote bi k label target)) as (_ & _ & A & _).
  assert (UU : forall l, used (fst (drained d (NFootnote bi k label target))) l <-> used d l) by (intros; unfold used; rewrite A; reflexivity).
  revert UU. generalize (fst (drained d (NFootnote bi k label target))), (snd (drained d (NFootnote bi k label target))). clear A.
  intros d0 ls UU H. destruct (autonumber_spec d0) as (r & Er & Hr).
  assert (H' : (let! (x, labels) := let! n := new_autonumber_footnote_label d0 in
            Ret (match n with Some n => (NFootnote bi k n n, ls ++ [n]) | None => (NFootnote bi k label target, ls) end) in
           Ret (add_targets d0 labels, x, opt_labels labels)) = Ret (d', x', rs)).
  { destruct Hk as [-> | ->]; cbn [actions_after] in H; rewrite Er in *; exact H. }
  rewrite Er in H'. cbn [obind] in H'. destruct r as [l|]; injection H' as <- <- <-.
  - left. destruct Hr as (j & Hj & -> & Hu & Hs). exists j. split; [exact Hj|]. split; [reflexivity|].
    split; [rewrite <- UU; exact Hu|]. split.
    + apply used_targets. left. apply in_or_app. right. left. reflexivity.
    + intros i Hi. apply UU. auto.
  - right. intros i Hi. apply UU. auto.
Qed.

(* labels given to automatically numbered footnotes, in order *)
Definition auto_numbers (es : list event) : list str :=
  flat_map (fun e => match e with
    | EPush (NFootnote _ FAutoNumbered _ _) (Some n) | EPush (NFootnote _ FSimpleRefName _ _) (Some n) =>
        match node_data n with NFootnote _ _ l _ => [l] | _ => [] end
    | _ => [] end) es.
Lemma auto_snoc es e : auto_numbers (es ++ [e]) = auto_numbers es ++ auto_numbers [e].
Proof. apply flat_map_app. Qed.
Lemma auto_numbers_inv es d : built es d -> (exists j, 1 <= j <= u32_max /\ ~ used d (dec j)) ->
  NoDup (auto_numbers es) /\ Forall (used d) (auto_numbers es).
Proof.
  unfold built. remember new_doctree as d0 eqn:E. intros H. induction H; subst.
  { intros _. split; constructor. }
  intros (j & Hj & Nj). specialize (IHrun eq_refl). pose proof (inv_wf _ (run_inv _ _ H)) as W.
  assert (Nj' : ~ used d' (dec j)) by (intros U; apply Nj; eapply step_used; eauto).
  destruct IHrun as [I1 I2]; [eauto|].
  assert (I2' : Forall (used d'') (auto_numbers es)) by (eapply Forall_impl; [|exact I2]; intros l U; eapply step_used; eauto).
  rewrite auto_snoc.
  assert (D : auto_numbers [e] = [] \/ exists l, auto_numbers [e] = [l] /\ ~ used d' l /\ used d'' l).
  { destruct e as [x a|l|l|l|]; auto. destruct x; auto. destruct a as [n|]; [|destruct kind; auto].
    assert (G : kind = FAutoNumbered \/ kind = FSimpleRefName ->
      exists l, match node_data n with NFootnote _ _ l _ => [l] | _ => [] end = [l] /\ ~ used d' l /\ used d'' l).
    { intros Hk. destruct (step_push _ _ _ _ W H0) as (d1 & x' & rs & Ha & Eh & _ & Hn).
      destruct (Hn _ eq_refl) as (Nd & _). destruct (actions_footnote _ _ _ _ _ _ _ _ Hk Ha) as [(i & Hi & Ex & U1 & U2 & _)|F].
      - exists (dec i). rewrite Nd, Ex. repeat split; auto. unfold used. rewrite Eh. exact U2.
      - exfalso. apply Nj'. apply F. exact Hj. }
    destruct kind; auto; right; cbn [auto_numbers flat_map]; rewrite app_nil_r; apply G; auto. }
  destruct D as [->|(l & -> & U1 & U2)].
  - rewrite app_nil_r. auto.
  - split.
    + apply NoDup_app_snoc; auto. intros Hin. rewrite Forall_forall in I2. apply U1. auto.
    + rewrite Forall_app. auto.
Qed.

(* C14 *)
Lemma symbol_label_spec n l : symbol_label n = Some l <-> symbol_spec n l.
Proof.
  unfold symbol_label, symbol_spec. change (N.of_nat (length FOOTNOTE_SYMBOLS)) with 10.
  change FOOTNOTE_SYMBOLS with ten_symbols. split.
  - destruct (nth_error ten_symbols (N.to_nat (n mod 10))) as [c|] eqn:E; [|discriminate]. intros [= <-].
    exists (N.to_nat (n / 10)), (N.to_nat (n mod 10)), c. repeat split; [|exact E].
    rewrite !N2Nat.id. apply N.div_mod. discriminate.
  - intros (q & r & c & -> & E & ->).
    assert (Hr : (r < 10)%nat) by (change 10%nat with (length ten_symbols); apply nth_error_Some; congruence).
    replace ((10 * N.of_nat q + N.of_nat r) mod 10) with (N.of_nat r).
    + replace ((10 * N.of_nat q + N.of_nat r) / 10) with (N.of_nat q).
      * rewrite !Nat2N.id, E. reflexivity.
      * apply (N.div_unique _ 10 _ (N.of_nat r)); lia.
    + apply (N.mod_unique _ 10 (N.of_nat q)); lia.
Qed.
Lemma ten_symbols_nodup : NoDup ten_symbols.
Proof. unfold ten_symbols. repeat constructor; cbn; intuition discriminate. Qed.
Lemma symbol_spec_inj a b l : symbol_spec a l -> symbol_spec b l -> a = b.
Proof.
  intros (q & r & c & -> & E & ->) (q' & r' & c' & -> & E' & H).
  assert (q = q') by (apply (f_equal (@length _)) in H; rewrite !repeat_length in H; lia). subst q'.
  cbn in H. injection H as ->.
  assert (r = r').
  { apply (proj1 (NoDup_nth_error ten_symbols) ten_symbols_nodup); [|congruence]. apply nth_error_Some. congruence. }
  subst. reflexivity.
Qed.
(* symbol footnotes in order; None: refused *)
Definition symbol_footnotes (es : list event) : list (option str) :=
  flat_map (fun e => match e with
    | EPush (NFootnote _ FAutoSymbol _ _) (Some n) =>
        match node_data n with NFootnote _ _ l _ => [Some l] | _ => [None] end
    | EPush (NFootnote _ FAutoSymbol _ _) None => [None]
    | _ => [] end) es.
Definition sym_one (e : event) : list (option str) := symbol_footnotes [e].
Lemma sym_snoc es e : symbol_footnotes (es ++ [e]) = symbol_footnotes es ++ sym_one e.
Proof. apply flat_map_app. Qed.
Lemma drained_sym d x : n_of_sym_footnotes (hyperref (fst (drained d x))) = n_of_sym_footnotes (hyperref d).
Proof. apply drained_hyper. Qed.
Lemma actions_symbol d bi l t d' x' rs : hyperref_actions d (NFootnote bi FAutoSymbol l t) = Ret (d', x', rs) ->
  exists s, symbol_label (n_of_sym_footnotes (hyperref d)) = Some s /\ x' = NFootnote bi FAutoSymbol s s.
Proof.
  rewrite hyperref_actions_eq. cbn [actions_after]. unfold new_symbolic_footnote_label. rewrite drained_sym.
  destruct (symbol_label_some (n_of_sym_footnotes (hyperref d))) as [s Es]. rewrite Es. cbn [obind].
  intros H. inv_ret H. injection H as _ <- _. eauto.
Qed.
Lemma built_symbols es d : built es d ->
  n_of_sym_footnotes (hyperref d) = N.of_nat (length (symbol_footnotes es)) /\
  forall k l, nth_error (symbol_footnotes es) k = Some (Some l) -> symbol_label (N.of_nat k) = Some l.
Proof.
  unfold built. remember new_doctree as d0 eqn:E. intros H. induction H; subst.
  { split; [reflexivity|]. intros [|k] l; discriminate. }
  specialize (IHrun eq_refl). destruct IHrun as [A B]. pose proof (inv_wf _ (run_inv _ _ H)) as W. rewrite sym_snoc.
  assert (Hskip : sym_one e = [] -> n_of_sym_footnotes (hyperref d'') = n_of_sym_footnotes (hyperref d') ->
     n_of_sym_footnotes (hyperref d'') = N.of_nat (length (symbol_footnotes es ++ sym_one e)) /\
     forall k l, nth_error (symbol_footnotes es ++ sym_one e) k = Some (Some l) -> symbol_label (N.of_nat k) = Some l).
  { intros -> ->. rewrite app_nil_r. auto. }
  destruct e as [x a|l|l|l|]; pose proof (step_move _ _ _ H0) as M.
  - destruct (step_push _ _ _ _ W H0) as (d1 & x' & rs & Ha & Eh & _ & Hn).
    pose proof (actions_effect _ _ _ _ _ Ha) as (_ & K & _).
    destruct (is_sym_footnote x) eqn:Ex.
    + destruct x; try discriminate. destruct kind; try discriminate. apply actions_symbol in Ha as (s & Es & ->).
      assert (Ho : sym_one (EPush (NFootnote body_indent FAutoSymbol label target) a) = [match a with Some _ => Some s | None => None end]).
      { destruct a as [n|]; [|reflexivity]. destruct (Hn _ eq_refl) as (Nd & _). cbn. rewrite Nd. reflexivity. }
      rewrite Ho, Eh, K, A, app_length. cbn [length]. split; [lia|].
      intros k m Hk. destruct (Nat.lt_ge_cases k (length (symbol_footnotes es))) as [Hl|Hl].
      * rewrite nth_error_app1 in Hk by exact Hl. auto.
      * rewrite nth_error_app2 in Hk by exact Hl. destruct (k - length (symbol_footnotes es))%nat as [|q] eqn:Eq; cbn in Hk; [|destruct q; discriminate].
        replace k with (length (symbol_footnotes es)) by lia. destruct a; [|discriminate]. injection Hk as <-. rewrite <- A. exact Es.
    + apply Hskip; [|rewrite Eh, K; apply N.add_0_r]. destruct x; try reflexivity. destruct kind; try reflexivity. discriminate.
  - apply Hskip; [reflexivity|]. unfold next_anon_target_label in M. inv_ret M. injection M as <- _. reflexivity.
  - apply Hskip; [reflexivity|]. unfold next_anon_reference_label in M. inv_ret M. injection M as <- _. reflexivity.
  - apply Hskip; [reflexivity|]. rewrite M. reflexivity.
  - apply Hskip; [reflexivity|]. destruct M as [-> _]. reflexivity.
Qed.
(* C15: what a symbol footnote reference gets *)
Lemma actions_symbol_ref d a b d' x' rs : hyperref_actions d (NFootnoteReference a b FAutoSymbol) = Ret (d', x', rs) ->
  exists ls s, symbol_label (n_of_sym_footnotes (hyperref d)) = Some s /\ rs = Some (ls ++ [s]).
Proof.
  rewrite hyperref_actions_eq. cbn [actions_after]. unfold new_symbolic_footnote_label. rewrite drained_sym.
  destruct (symbol_label_some (n_of_sym_footnotes (hyperref d))) as [s Es]. rewrite Es.
  intros [= _ _ <-]. exists (snd (drained d (NFootnoteReference a b FAutoSymbol))), s. split; [reflexivity|].
  destruct (snd (drained d _)); reflexivity.
Qed.

(* C16 *)
Definition labels_of (n : TreeNode) : list str := match node_refnames n with Some l => l | None => [] end.
Lemma opt_labels_eq l : match opt_labels l with Some l => l | None => [] end = l.
Proof. destruct l; reflexivity. Qed.
(* the references keep growing too *)
Definition room (d : DocTree) : Prop := exists j, 1 <= j <= u32_max /\ has_reference_label d (dec j) = false.
Lemma autoref_spec d : exists r, new_autonumber_footnote_ref_label d = Ret r /\ (r = None -> ~ room d).
Proof.
  unfold new_autonumber_footnote_ref_label.
  destruct (first_free_total (references (hyperref d)) (has_reference_label d)) as [r E]; [reflexivity|].
  exists r. split; [exact E|]. apply first_free_spec in E. intros -> (j & Hj & F). rewrite E in F by exact Hj. discriminate.
Qed.
Lemma actions_labels d x d' x' rs : room d -> hyperref_actions d x = Ret (d', x', rs) ->
  exists own, match rs with Some l => l | None => [] end = (if is_blank_node x then [] else accumulated (hyperref d)) ++ own.
Proof.
  intros Hroom. rewrite hyperref_actions_eq. destruct (drained_hyper d x) as (_ & _ & _ & A & _ & B). rewrite <- B.
  assert (Hr : room (fst (drained d x))) by (unfold room, has_reference_label; rewrite A; exact Hroom).
  revert Hr. generalize (fst (drained d x)), (snd (drained d x)). clear. intros d ls Hroom H.
  assert (O : forall own, exists o, match opt_labels (ls ++ own) with Some l => l | None => [] end = ls ++ o)
    by (intros own; exists own; apply opt_labels_eq).
  assert (O0 : exists o, match opt_labels ls with Some l => l | None => [] end = ls ++ o)
    by (exists []; rewrite app_nil_r; apply opt_labels_eq).
  destruct (autoref_spec d) as (r & Er & Hr).
  unfold actions_after in H. destruct x; try (injection H as _ _ <-; first [apply O|apply O0|eexists; reflexivity]; fail).
  - inv_ret H. destruct a as [x labels]. cbn [fst snd] in H. inv_ret H. injection H as _ _ <-.
    destruct kind.
    + injection E as _ <-. apply O.
    + inv_ret E. destruct a0; injection E as _ <-; [apply O|apply O0].
    + inv_ret E. destruct a0; injection E as _ <-; [apply O|apply O0].
    + destruct (new_symbolic_footnote_label d); injection E as _ <-; [apply O|apply O0].
  - destruct kind.
    + injection H as _ _ <-. apply O.
    + rewrite Er in H. destruct r; [injection H as _ _ <-; apply O|]. exfalso. apply Hr; auto.
    + rewrite Er in H. destruct r; [injection H as _ _ <-; apply O|]. exfalso. apply Hr; auto.
    + unfold new_symbolic_footnote_label in H. destruct (symbol_label_some (n_of_sym_footnotes (hyperref d))) as [s Es]. rewrite Es in H.
      injection H as _ _ <-. apply O.
Qed.
Lemma map_get_targets ls : forall d l, In l ls -> map_get (targets (hyperref (add_targets d ls))) l = Some (node_count d).
Proof.
  induction ls as [|x ls IH] using rev_ind; intros d l; [contradiction|]. intros Hin.
  unfold add_targets. rewrite fold_left_app. cbn [fold_left].
  fold (add_targets d ls). cbn [add_target hyperref d_set_hyperref h_set_targets targets]. rewrite map_get_set.
  destruct (ss_targets ls d) as (_ & -> & _).
  destruct (str_eqb l x) eqn:E; [reflexivity|]. apply IH. apply in_app_or in Hin as [Hin|[->|[]]]; [exact Hin|].
  rewrite str_eqb_refl in E. discriminate.
Qed.
Definition registers_targets (x : TreeNodeType) : bool :=
  match x with NCitation _ _ | NCitationReference _ _ | NFootnoteReference _ _ _ => false | _ => true end.
Lemma actions_register d x d' x' rs l : registers_targets x = true -> is_blank_node x = false ->
  hyperref_actions d x = Ret (d', x', rs) -> In l (accumulated (hyperref d)) ->
  map_get (targets (hyperref d')) l = Some (node_count d).
Proof.
  intros Rg Bl. rewrite hyperref_actions_eq. destruct (drained_hyper d x) as (_ & _ & _ & _ & _ & B). rewrite Bl in B. rewrite <- B.
  destruct (ss_drained d x) as (_ & Hc & _). rewrite <- Hc.
  generalize (fst (drained d x)), (snd (drained d x)). clear -Rg. intros d ls H Hin.
  assert (O : forall own, map_get (targets (hyperref (add_targets d (ls ++ own)))) l = Some (node_count d))
    by (intros own; apply map_get_targets; apply in_or_app; auto).
  assert (O0 : map_get (targets (hyperref (add_targets d ls))) l = Some (node_count d)) by (apply map_get_targets; exact Hin).
  unfold actions_after in H. destruct x; try discriminate Rg; try (injection H as <- _ _; first [apply O|apply O0]; fail).
  inv_ret H. destruct a as [x labels]. cbn [fst snd] in H. inv_ret H. injection H as <- _ _.
  assert (G : exists own, labels = ls ++ own).
  { destruct kind.
    - injection E as _ <-. eauto.
    - inv_ret E. destruct a0; injection E as _ <-; [eauto|exists []; rewrite app_nil_r; reflexivity].
    - inv_ret E. destruct a0; injection E as _ <-; [eauto|exists []; rewrite app_nil_r; reflexivity].
    - destruct (new_symbolic_footnote_label d); injection E as _ <-; [eauto|exists []; rewrite app_nil_r; reflexivity]. }
  destruct G as [own ->]. destruct kind; try (injection E0 as <-; apply O).
  apply counters_incr in E0 as (_ & _ & -> & _). apply O.
Qed.
