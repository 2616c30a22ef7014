(* PointsProofs.v -- the total kept with a questionnaire is the sum of the points of
   its questions between any two transitions of the parser *)
From Verif Require Import Base Unicode Regex Patterns Common Converters NodeTypes Tree DocTree History Spec TreeProofs
  DocTreeProofs HyperrefProofs Blocks BlockProofs Prog ParseLoop LoopProofs Inline InlineProofs Body Directives Parser
  ParserProofs PointsSpec LocalProofs Hoare.
Require Import Lia.

(* the total is the sum; the total is at least the sum *)
Definition exact_rule (x : TreeNodeType) (l : list TreeNodeType) : Prop :=
  forall t, questionnaire_total x = Some t -> t = points_of l.
Definition least_rule (x : TreeNodeType) (l : list TreeNodeType) : Prop :=
  forall t, questionnaire_total x = Some t -> (points_of l <= t)%N.
Definition exact (d : DocTree) : Prop := inv d /\ doc_local exact_rule d.
Definition least (d : DocTree) : Prop := inv d /\ doc_local least_rule d.
Lemma exact_least d : exact d -> least d.
Proof.
  intros [A B]. split; auto. unfold doc_local, all_local in *. eapply Forall_impl; [|exact B].
  intros n H t Ht. rewrite (H t Ht). apply N.le_refl.
Qed.
Lemma points_app a b : points_of (a ++ b) = (points_of a + points_of b)%N.
Proof. induction a as [|x a IH]; cbn [app points_of]; [reflexivity|]. rewrite IH. lia. Qed.
Lemma exact_view x y : question_points y = question_points x -> forall q u v, exact_rule q (u ++ x :: v) -> exact_rule q (u ++ y :: v).
Proof.
  intros E q u v H t Ht. rewrite (H t Ht), !points_app. cbn [points_of]. rewrite E. reflexivity.
Qed.
Lemma least_view x y : question_points y = question_points x -> forall q u v, least_rule q (u ++ x :: v) -> least_rule q (u ++ y :: v).
Proof.
  intros E q u v H t Ht. specialize (H t Ht). rewrite !points_app in *. cbn [points_of] in *. rewrite E. exact H.
Qed.

(* nodes that are neither questions nor questionnaires with points already *)
Definition plain (x : TreeNodeType) : bool :=
  match question_points x with
  | Some _ => false
  | None => match questionnaire_total x with Some t => N.eqb t 0 | None => true end
  end.
Lemma plain_kept x x' : plain x = true -> kind x' = kind x -> (kind x <> KFootnote -> kind x <> KFootnoteReference -> x' = x) -> plain x' = true.
Proof.
  intros P K S. destruct x; try (rewrite S by discriminate; exact P); destruct x'; cbn in K; try discriminate; reflexivity.
Qed.
Lemma plain_new x : plain x = true -> exact_rule x [].
Proof.
  unfold plain. intros P t Ht. rewrite Ht in P. destruct (question_points x); [discriminate|]. apply N.eqb_eq in P. exact P.
Qed.
Lemma plain_add q l x : plain x = true -> exact_rule q l -> exact_rule q (l ++ [x]).
Proof.
  unfold plain. intros P H t Ht. rewrite points_app, (H t Ht). cbn [points_of]. destruct (question_points x); [discriminate|]. lia.
Qed.

Definition plain_op (o : dop) : bool :=
  match o with
  | DPush x | DPushFocus x | DPushChild x => plain x
  | DPop | DAddPoints _ => false
  | _ => true
  end.
Lemma dop_inv o d a d' : inv d -> dop_exec o d = Ret (a, d') -> inv d'.
Proof. intros I H. apply dop_run in H as [->|[e H]]; auto. eapply step_inv; eauto. Qed.
Lemma update_exact f d a d' : exact d ->
  (forall x y, f x = Ret (Some y) -> question_points y = question_points x /\ questionnaire_total y = questionnaire_total x) ->
  update_data f d = Ret (a, d') -> doc_local exact_rule d'.
Proof.
  intros [I H] Hf E. unfold update_data in E. destruct (f (focused_data d)) as [[y|]| |] eqn:Ef; cbn [obind] in E; try discriminate;
    apply Ret_inj in E; injection E as <- <-; auto.
  apply Hf in Ef as [E1 E2]. apply doc_data; auto; [apply (inv_wf _ I)| |].
  - intros G t Ht. apply G. congruence.
  - now apply exact_view.
Qed.
Lemma push_exact d d' x n : exact d -> plain x = true -> DocTreeProofs.pushed d d' x n ->
  document (tree d') = rebuild (tree d) (add_last (z_node (tree d)) n) -> doc_local exact_rule d'.
Proof.
  intros [I H] P HP D. eapply doc_pushed; eauto; [apply (inv_wf _ I)|]. intros x' K S.
  pose proof (plain_kept _ _ P K S) as P'. split; [now apply plain_new|]. intros G. now apply plain_add.
Qed.
Lemma label_tree o d a d' : label_op o = true -> dop_exec o d = Ret (a, d') -> tree d' = tree d.
Proof.
  destruct o; try discriminate; intros _; cbn [dop_exec].
  - intros E. apply Ret_inj in E. injection E as <- <-. reflexivity.
  - unfold next_anon_target_label. destruct (u32_add _ _); cbn [obind]; try discriminate. intros E. apply Ret_inj in E. injection E as <- <-. reflexivity.
  - unfold next_anon_reference_label. destruct (u32_add _ _); cbn [obind]; try discriminate. intros E. apply Ret_inj in E. injection E as <- <-. reflexivity.
Qed.
Lemma op_keeps o d a d' : plain_op o = true -> exact d -> dop_exec o d = Ret (a, d') -> exact d'.
Proof.
  intros P HI E. split; [eapply dop_inv; eauto; apply HI|]. pose proof (inv_wf _ (proj1 HI)) as Hw.
  assert (HL : label_op o = true -> doc_local exact_rule d').
  { intros HL. apply (label_tree _ _ _ _ HL) in E. apply (doc_same _ d); [apply HI|now rewrite E]. }
  destruct o; try discriminate P; try (apply HL; reflexivity); clear HL; cbn [dop_exec] in E; cbn [plain_op] in P.
  - destruct (is_section x); try discriminate.
    destruct (push_data d x) as [[y|y]| |] eqn:Ep; cbn [obind] in E; try discriminate; apply Ret_inj in E; injection E as <- <-.
    + apply push_data_spec in Ep as (n & PP & T). eapply push_exact; eauto. rewrite T. apply document_with.
    + apply push_data_spec in Ep as (T & _). apply (doc_same _ d); [apply HI|now rewrite T].
  - destruct (is_section x); try discriminate.
    destruct (push_data_and_focus d x) as [[y|y]| |] eqn:Ep; cbn [obind] in E; try discriminate; apply Ret_inj in E; injection E as <- <-.
    + apply push_data_and_focus_spec in Ep as (n & ks & PP & Ek & T); [|exact Hw]. eapply push_exact; eauto. rewrite T. apply focus_push_doc; auto.
    + apply push_data_and_focus_spec in Ep as (T & _); [|exact Hw]. apply (doc_same _ d); [apply HI|now rewrite T].
  - destruct (push_data_and_focus _ _) as [[y|y]| |] eqn:Ep; cbn [obind] in E; try discriminate; apply Ret_inj in E; injection E as <- <-.
    + apply push_data_and_focus_spec in Ep as (n & ks & PP & Ek & T); [|exact Hw]. eapply push_exact; eauto; [reflexivity|]. rewrite T. apply focus_push_doc; auto.
    + apply push_data_and_focus_spec in Ep as (T & _); [|exact Hw]. apply (doc_same _ d); [apply HI|now rewrite T].
  - destruct (is_section x); try discriminate.
    destruct (push_child _ _) as [[y [[]|z]]| |] eqn:Ep; cbn [obind] in E; try discriminate; apply Ret_inj in E; injection E as <- <-.
    + apply push_child_spec in Ep as (n & PP & T). eapply push_exact; eauto. rewrite T. apply document_with.
    + apply push_child_spec in Ep as (T & _). apply (doc_same _ d); [apply HI|now rewrite T].
  - destruct (d_focus_on_parent d) eqn:Ep; cbn [obind] in E; try discriminate. apply Ret_inj in E. injection E as <- <-.
    apply d_parent_spec in Ep as (_ & D & _); [|exact Hw]. apply (doc_same _ d); [apply HI|exact D].
  - eapply update_exact; eauto. intros x y. destruct x; cbn; intros E'; try discriminate.
    apply Ret_inj, some_inj in E'. subst. auto.
  - eapply update_exact; eauto. intros x y. destruct x; cbn; intros E'; try discriminate.
    apply Ret_inj, some_inj in E'. subst. auto.
  - eapply update_exact; eauto. intros x y. destruct x; cbn; intros E'; try discriminate.
    apply Ret_inj, some_inj in E'. subst. auto.
Qed.

(* ---------- adding the points of a question, and the question ---------- *)
Lemma question_home pk x p : question_points x = Some p -> child_is_allowed pk (kind x) = Ret true -> pk = KAplusQuestionnaire.
Proof. destruct x; try discriminate; intros _; cbn [kind]; destruct pk; vm_compute; try discriminate; reflexivity. Qed.
Lemma question_kept x x' p : question_points x = Some p -> (kind x <> KFootnote -> kind x <> KFootnoteReference -> x' = x) -> x' = x.
Proof. intros H S. apply S; destruct x; discriminate. Qed.
Lemma add_points_spec p x : match add_points p x with
  | Ret (Some y) => exists t, questionnaire_total x = Some t /\ questionnaire_total y = Some (t + p)%N /\ question_points x = None /\ question_points y = None
  | Ret None => kind x <> KAplusQuestionnaire
  | _ => True
  end.
Proof.
  destruct x; cbn [add_points]; try discriminate.
  destruct (u32_add points_from_children p) as [n| |] eqn:E; cbn [obind]; auto. exists points_from_children. split; [reflexivity|].
  split; [|split; reflexivity]. unfold u32_add in E. destruct (_ <=? _)%N; try discriminate. apply Ret_inj in E. now subst.
Qed.
Lemma question_pushed d0 d1 d2 p q a b : exact d0 -> dop_exec (DAddPoints p) d0 = Ret (a, d1) -> question_points q = Some p ->
  dop_exec (DPushFocus q) d1 = Ret (b, d2) -> match b with AOk => exact d2 | _ => least d2 end.
Proof.
  intros HE E1 Hq E2. pose proof (inv_wf _ (proj1 HE)) as W0.
  pose proof (dop_inv _ _ _ _ (proj1 HE) E1) as I1. pose proof (dop_inv _ _ _ _ I1 E2) as I2. pose proof (inv_wf _ I1) as W1.
  cbn [dop_exec] in E1, E2. destruct (is_section q); [discriminate|].
  unfold update_data in E1. pose proof (add_points_spec p (focused_data d0)) as HA.
  destruct (add_points p (focused_data d0)) as [[y|]| |]; cbn [obind] in E1; try discriminate; apply Ret_inj in E1; injection E1 as _ <-.
  - destruct HA as (t & T0 & T1 & Q0 & Q1).
    destruct (push_data_and_focus _ q) as [[z|z]| |] eqn:Ep; cbn [obind] in E2; try discriminate; apply Ret_inj in E2; injection E2 as <- <-.
    + split; [exact I2|]. apply push_data_and_focus_spec in Ep as (n & ks & (x' & rs & cs & -> & K & S & A & Hc & N) & Ek & T); [|exact W1].
      apply (question_kept _ _ _ Hq) in S. subst x'. unfold doc_local. rewrite T, (focus_push_doc _ _ _ Ek).
      unfold set_focused_data. cbn [tree d_set_tree]. rewrite z_node_with, rebuild_with.
      destruct (rebuild_local exact_rule (tree d0) W0 (z_node (tree d0))
        (add_last (with_data (z_node (tree d0)) y) (new_node q (node_count (set_focused_data d0 y)) rs cs))) as [G1 G2].
      * unfold add_last. rewrite node_data_with_children, data_with_data. apply exact_view. change (node_data (z_node (tree d0))) with (focused_data d0). congruence.
      * apply HE.
      * apply G2. unfold add_last. rewrite children_with_data.
        unfold set_focused_data in Hc. cbn [tree d_set_tree] in Hc. rewrite z_node_with, children_with_data in Hc.
        destruct (node_children (z_node (tree d0))) as [l|] eqn:El; [|congruence].
        apply all_local_unfold in G1. destruct G1 as [R0 F0]. rewrite El in F0. apply all_local_unfold. split.
        -- unfold local_ok in *. rewrite node_data_with_children, data_with_data, child_data_with, map_app. cbn [map].
           intros t' Ht'. rewrite T1 in Ht'. apply some_inj in Ht'. subst t'. unfold child_data in R0. rewrite El in R0.
           rewrite points_app, <- (R0 t T0). unfold new_node. cbn [node_data points_of]. rewrite Hq. lia.
        -- rewrite children_with_children. apply Forall_app. split; [exact F0|]. constructor; [|constructor].
           apply all_local_new. intros t' Ht'. destruct q; discriminate.
    + split; [exact I2|]. apply push_data_and_focus_spec in Ep as (T & _); [|exact W1].
      apply (doc_same _ (set_focused_data d0 y)); [|now rewrite T].
      pose proof (exact_least _ HE) as [_ HL]. apply doc_data; auto.
      * intros G t' Ht'. rewrite T1 in Ht'. apply some_inj in Ht'. subst t'. specialize (G t T0). lia.
      * apply least_view. congruence.
  - destruct (push_data_and_focus _ q) as [[z|z]| |] eqn:Ep; cbn [obind] in E2; try discriminate; apply Ret_inj in E2; injection E2 as <- <-.
    + exfalso. apply push_data_and_focus_spec in Ep as (n & ks & (x' & rs & cs & -> & K & S & A & Hc & N) & Ek & T); [|exact W1].
      apply HA. apply (question_home _ _ _ Hq A).
    + apply exact_least. split; [exact I2|]. apply push_data_and_focus_spec in Ep as (T & _); [|exact W1].
      apply (doc_same _ d0); [apply HE|now rewrite T].
Qed.
Lemma points_only d0 d1 p a : exact d0 -> dop_exec (DAddPoints p) d0 = Ret (a, d1) -> least d1.
Proof.
  intros HE E. split; [eapply dop_inv; eauto; apply HE|]. cbn [dop_exec] in E. unfold update_data in E.
  pose proof (exact_least _ HE) as [_ HL]. pose proof (add_points_spec p (focused_data d0)) as HA.
  destruct (add_points p (focused_data d0)) as [[y|]| |]; cbn [obind] in E; try discriminate; apply Ret_inj in E; injection E as _ <-; auto.
  destruct HA as (t & T0 & T1 & Q0 & Q1). apply doc_data; auto; [apply (inv_wf _ (proj1 HE))| |].
  - intros G t' Ht'. rewrite T1 in Ht'. apply some_inj in Ht'. subst t'. specialize (G t T0). lia.
  - apply least_view. congruence.
Qed.

(* ---------- opening a paragraph and taking it back ---------- *)
Lemma paragraph_back x d0 d1 d2 d3 d4 a b : exact d0 -> plain x = true ->
  dop_exec (DPushFocus x) d0 = Ret (AOk, d1) -> tree d2 = tree d1 -> inv d2 ->
  dop_exec DParent d2 = Ret (a, d3) -> dop_exec DPop d3 = Ret (b, d4) -> exact d4.
Proof.
  intros HE P E1 T2 I2 E3 E4. pose proof (inv_wf _ (proj1 HE)) as W0.
  pose proof (dop_inv _ _ _ _ I2 E3) as I3. pose proof (dop_inv _ _ _ _ I3 E4) as I4. split; [exact I4|].
  cbn [dop_exec] in *. destruct (is_section x); [discriminate|].
  destruct (push_data_and_focus d0 x) as [[y|y]| |] eqn:Ep; cbn [obind] in E1; try discriminate; apply Ret_inj in E1; injection E1 as ->.
  apply push_data_and_focus_spec in Ep as (n & ks & (x' & rs & cs & -> & K & S & A & Hc & N) & Ek & T1); [|exact W0].
  destruct (d_focus_on_parent d2) as [d3'| |] eqn:Ep; cbn [obind] in E3; try discriminate. apply Ret_inj in E3. injection E3 as _ ->.
  unfold d_focus_on_parent in Ep. rewrite T2, T1 in Ep. rewrite focus_on_parent_wf in Ep.
  2:{ rewrite <- T1, <- T2. apply (inv_wf _ I2). }
  cbn [obind] in Ep. apply Ret_inj in Ep. assert (T3 : tree d3 = z_with_node (tree d0) (put_back (z_node (tree d0)) (length ks) (new_node x' (node_count d0) rs cs))) by (now subst d3).
  clear Ep. destruct (pop_child d3) as [c d4'] eqn:Ep. apply Ret_inj in E4. injection E4 as _ ->.
  apply pop_spec in Ep as (_ & _ & _ & Ep). unfold put_back in T3. rewrite Ek, unswap_last in T3.
  destruct c as [c|].
  - destruct Ep as (q & T4 & Eq & Hq). rewrite T3, z_node_with in Eq.
    assert (q = z_node (tree d0)).
    { unfold add_last in Eq. destruct (node_children q) as [kq|] eqn:Eqk; [|congruence].
      destruct q as [i r k dd ch]. destruct (z_node (tree d0)) as [i' r' k' dd' ch']. cbn in *. subst ch ch'.
      injection Eq as -> -> -> -> E. apply app_inj_tail in E as [-> _]. reflexivity. }
    subst q. unfold doc_local. rewrite T4, T3, z_with_node_twice, z_with_node_id. apply HE.
  - unfold doc_local. rewrite Ep, T3, document_with.
    destruct (rebuild_local exact_rule (tree d0) W0 (z_node (tree d0)) (add_last (z_node (tree d0)) (new_node x' (node_count d0) rs cs))) as [G1 G2].
    + unfold add_last. rewrite node_data_with_children. auto.
    + apply HE.
    + rewrite <- (add_last_eq _ _ _ Ek). apply G2. pose proof (plain_kept _ _ P K S) as P'.
      apply all_local_add; auto; [apply all_local_new; now apply plain_new|]. unfold new_node. cbn [node_data]. now apply plain_add.
Qed.

(* ---------- the transitions ---------- *)
Notation hs := (hsafe exact least).
Notation leaf := (leaves exact least).
Lemma h_doc (Q : DocTree -> DocTree -> LineCursor -> Prop) d c : Q d d c -> hs Q get_doc d c.
Proof. auto. Qed.
Lemma h_cursor (Q : LineCursor -> DocTree -> LineCursor -> Prop) d c : Q c d c -> hs Q get_cursor d c.
Proof. auto. Qed.
Lemma h_advance (Q : unit -> DocTree -> LineCursor -> Prop) d c m : Q tt d (cur_add c m) -> hs Q (advance m) d c.
Proof. auto. Qed.
Lemma h_doc_op (Q : answer -> DocTree -> LineCursor -> Prop) d c o : plain_op o = true -> exact d ->
  (forall a d', exact d' -> Q a d' c) -> hs Q (doc_op o) d c.
Proof. intros P HE H. cbn. intros a d' E. apply H. eapply op_keeps; eauto. Qed.
Lemma h_pushed (Q : bool -> DocTree -> LineCursor -> Prop) d c o : plain_op o = true -> exact d ->
  (forall b d', exact d' -> Q b d' c) -> hs Q (pushed o) d c.
Proof. intros P HE H. cbn. intros a d' E. apply H. eapply op_keeps; eauto. Qed.
Lemma h_parent (Q : unit -> DocTree -> LineCursor -> Prop) d c : exact d -> (forall u d', exact d' -> Q u d' c) -> hs Q focus_parent d c.
Proof. intros HE H. cbn. intros a d' E. apply H. apply (op_keeps DParent d a); auto. Qed.
Lemma h_label (Q : str -> DocTree -> LineCursor -> Prop) d c o : plain_op o = true -> exact d ->
  (forall s d', exact d' -> Q s d' c) -> hs Q (label_of o) d c.
Proof. intros P HE H. cbn. intros a d' E. destruct a; cbn; auto. apply H. eapply op_keeps; eauto. Qed.
Lemma h_cap (Q : str -> DocTree -> LineCursor -> Prop) d c g cs : (forall x, Q x d c) -> hs Q (get_cap g cs) d c.
Proof. intros H. unfold get_cap. destruct (cap g cs); cbn; auto. Qed.
Lemma h_cap_len (Q : nat -> DocTree -> LineCursor -> Prop) d c g cs : (forall x, Q x d c) -> hs Q (cap_len g cs) d c.
Proof. intros H. apply h_bind, h_cap. cbn. auto. Qed.
Lemma h_first (Q : char -> DocTree -> LineCursor -> Prop) d c s : (forall x, Q x d c) -> hs Q (first_char s) d c.
Proof. destruct s; cbn; auto. Qed.
Lemma h_lift {A} (Q : A -> DocTree -> LineCursor -> Prop) (m : outcome A) d c : (forall a, m = Ret a -> Q a d c) -> hs Q (lift m) d c.
Proof. destruct m; cbn; auto. Qed.
Lemma h_focus (Q : IndentationMatch -> DocTree -> LineCursor -> Prop) d c i : (forall m, Q m d c) -> hs Q (focus_matches i) d c.
Proof. intros H. unfold focus_matches. cbn. destruct (NodeTypes.body_indent (focused_data d)); cbn; auto. Qed.
Lemma runs_h {A} (Q : A -> DocTree -> LineCursor -> Prop) (p : prog A) d c : inv d -> runs false Q p d c ->
  hs (fun a d' c' => Q a d' c' /\ inv d' /\ tree d' = tree d) p d c.
Proof.
  revert d c. induction p as [a| | |k IH|o k IH|m k IH|src bi bl st k IH]; cbn [runs hsafe]; intros d c HI HS; auto; try tauto.
  destruct HS as (H1 & _ & H3). intros a d' E. pose proof (label_tree _ _ _ _ H1 E) as T. rewrite <- T.
  apply IH; [eapply dop_inv; eauto|auto].
Qed.
Lemma hs_mono {A} (P Q : A -> DocTree -> LineCursor -> Prop) (p : prog A) d c : hs P p d c ->
  (forall a d c, P a d c -> Q a d c) -> hs Q p d c.
Proof.
  intros H HF. revert d c H. induction p; cbn [hsafe]; intros d c HS; auto. destruct HS as [H1 H2]. split; auto.
Qed.
Lemma exact_tree d d' : exact d -> inv d' -> tree d' = tree d -> exact d'.
Proof. intros [A B] I T. split; auto. apply (doc_same _ d); [exact B|now rewrite T]. Qed.
Lemma inline_plain x : is_inline x = true -> plain x = true.
Proof. destruct x; try discriminate; reflexivity. Qed.
Lemma h_inline_tree (Q : list TreeNodeType -> DocTree -> LineCursor -> Prop) d c doc s : inv d ->
  (forall nodes d' c', forallb is_inline nodes = true -> inv d' -> tree d' = tree d -> Q nodes d' c') -> hs Q (inline_parse doc s) d c.
Proof.
  intros HI H. eapply hs_mono; [apply runs_h; [exact HI|apply inline_parse_ok; discriminate]|].
  cbn. intros a d' c' ([H1 _] & H2 & H3). auto.
Qed.
Lemma h_inline (Q : list TreeNodeType -> DocTree -> LineCursor -> Prop) d c doc s : exact d ->
  (forall nodes d' c', forallb is_inline nodes = true -> exact d' -> Q nodes d' c') -> hs Q (inline_parse doc s) d c.
Proof.
  intros HE H. apply h_inline_tree; [apply HE|]. intros nodes d' c' H1 H2 H3. apply H; auto. eapply exact_tree; eauto.
Qed.
Lemma h_push_plain (Q : bool -> DocTree -> LineCursor -> Prop) c l : forall d, forallb plain l = true -> exact d ->
  (forall b d', exact d' -> Q b d' c) -> hs Q (push_all l) d c.
Proof.
  induction l as [|x l IH]; intros d HL HE H; cbn [push_all]; [cbn; auto|]. cbn [forallb] in HL. apply andb_prop in HL as [H1 H2].
  apply h_bind, h_pushed; [exact H1|exact HE|]. intros [|] d' HE'; cbn [hsafe]; auto.
Qed.
Lemma h_push_all (Q : bool -> DocTree -> LineCursor -> Prop) c l d : forallb is_inline l = true -> exact d ->
  (forall b d', exact d' -> Q b d' c) -> hs Q (push_all l) d c.
Proof.
  intros H. apply h_push_plain. rewrite forallb_forall in *. intros x Hx. apply inline_plain. auto.
Qed.
Lemma math_plain blocks nm cl : forall n, forallb plain (math_nodes blocks nm cl n) = true.
Proof. induction blocks as [|b blocks IH]; intros n; cbn [math_nodes]; [reflexivity|]. cbn [forallb]. apply IH. Qed.
Lemma leaf_fail d c : exact d -> leaf TFailure d c.
Proof. apply exact_least. Qed.

Ltac plain_tac := first [reflexivity | match goal with |- context[match ?x with _ => _ end] => destruct x; reflexivity end].
Ltac h1 := lazymatch goal with
  | |- hs _ (pbind _ _) _ _ => apply h_bind
  | |- hs _ get_doc _ _ => apply h_doc
  | |- hs _ get_cursor _ _ => apply h_cursor
  | |- hs _ (advance _) _ _ => apply h_advance
  | |- hs _ (doc_op _) _ _ => apply h_doc_op; [reflexivity|assumption|intros]
  | |- hs _ (pushed _) _ _ => apply h_pushed; [plain_tac|assumption|intros]
  | |- hs _ focus_parent _ _ => apply h_parent; [assumption|intros]
  | |- hs _ (label_of _) _ _ => apply h_label; [reflexivity|assumption|intros]
  | |- hs _ (get_cap _ _) _ _ => apply h_cap; intros
  | |- hs _ (cap_len _ _) _ _ => apply h_cap_len; intros
  | |- hs _ (first_char _) _ _ => apply h_first; intros
  | |- hs _ (inline_parse _ _) _ _ => apply h_inline; [assumption|intros]
  | |- hs _ (push_all _) _ _ => apply h_push_all; [assumption|assumption|intros]
  | |- hs _ (focus_matches _) _ _ => apply h_focus; intros
  | |- hs _ (lift _) _ _ => apply h_lift; intros
  end.
Ltac hsplit := match goal with
  | |- hs _ (if negb true then _ else _) _ _ => cbn [negb]
  | |- hs _ (if negb false then _ else _) _ _ => cbn [negb]
  | |- hs _ (if negb ?x then _ else _) _ _ => is_var x; destruct x; cbn [negb]
  | |- hs _ (match ?x with _ => _ end) _ _ => destruct x eqn:?
  end.
Ltac h := repeat first [ progress cbv beta zeta | h1 | match goal with |- hs _ (PRet _) _ _ => cbn [hsafe] end
  | match goal with |- hs _ PPanic _ _ => exact Logic.I end | hsplit
  | match goal with |- leaf (match ?x with _ => _ end) _ _ => destruct x eqn:? end
  | match goal with |- leaf TFailure _ _ => apply leaf_fail; assumption | |- leaf (TSuccess _ _) _ _ => assumption end ].
Lemma h_leave d c : exact d -> hs leaf leave d c.
Proof. intros. unfold leave. h. Qed.
Lemma h_quote d c i : exact d -> hs leaf (open_block_quote i) d c.
Proof. intros. unfold open_block_quote. h. Qed.
Lemma h_by_indent d c i p : exact d -> hs leaf p d c -> hs leaf (by_indent i p) d c.
Proof. intros HE H. unfold by_indent. apply h_bind, h_focus. intros [| |]; [now apply h_leave|auto|now apply h_quote]. Qed.
Lemma h_open_list d c x s : exact d -> plain x = true -> hs leaf (open_list x s) d c.
Proof. intros HE H. unfold open_list. apply h_bind, h_pushed; [exact H|exact HE|intros]. h. Qed.
Lemma h_open_node d c x s a : exact d -> plain x = true -> hs leaf (open_node x s a) d c.
Proof. intros HE H. unfold open_node. apply h_bind, h_pushed; [exact H|exact HE|intros]. h. Qed.
Lemma h_add_node d c x a : exact d -> plain x = true -> hs leaf (add_node x a) d c.
Proof. intros HE H. unfold add_node. apply h_bind, h_pushed; [exact H|exact HE|intros]. h. Qed.
Lemma h_first_block (src : list str) base ti fi st force d c (Q : option (list State * nat) -> DocTree -> LineCursor -> Prop) : exact d ->
  (forall r d' c', match r with Some _ => exact d' | None => least d' end -> Q r d' c') ->
  hs Q (parse_first_node_block src base ti fi st force) d c.
Proof.
  intros HE HQ. unfold parse_first_node_block. h; [|apply HQ; now apply exact_least]. cbn [hsafe]. split; [exact HE|].
  intros r d' Hr. apply HQ. destruct r; exact Hr.
Qed.
Lemma h_finish r d c : match r with Some _ => exact d | None => least d end -> leaf (finish_first_block r) d c.
Proof. destruct r as [[l k]|]; auto. Qed.
Ltac h2 := repeat first [ lazymatch goal with
  | |- hs _ leave _ _ => apply h_leave; assumption
  | |- hs _ (open_block_quote _) _ _ => apply h_quote; assumption
  | |- hs _ (by_indent _ _) _ _ => apply h_by_indent; [assumption|]
  | |- hs _ (open_list _ _) _ _ => apply h_open_list; [assumption|reflexivity]
  | |- hs _ (open_node _ _ _) _ _ => apply h_open_node; [assumption|reflexivity]
  | |- hs _ (add_node _ _) _ _ => apply h_add_node; [assumption|reflexivity]
  | |- hs _ (parse_first_node_block _ _ _ _ _ _) _ _ => apply h_first_block; [assumption|intros; cbn [hsafe]; now apply h_finish]
  end | progress h ].

Lemma k_paragraph src base i d c : exact d -> hs leaf (parse_paragraph src base i) d c.
Proof.
  intros HE. unfold parse_paragraph. apply h_by_indent; [exact HE|]. h1. h1. h1. h1. h1. h1. cbv zeta.
  destruct (strip_indicator _) as [block lit_next]. apply h_bind. cbn [pushed doc_op hsafe pbind]. intros a1 d1 E1.
  pose proof (op_keeps (DPushFocus (NParagraph i)) _ _ _ eq_refl HE E1) as HE1.
  destruct a1; cbn [negb]; try (cbn [hsafe]; apply leaf_fail; assumption).
  apply h_bind, h_inline_tree; [apply HE1|]. intros nodes d2 c2 HN I2 T2.
  assert (HE2 : exact d2) by (eapply exact_tree; eauto).
  destruct nodes as [|x nodes].
  - apply h_bind. cbn [focus_parent doc_op hsafe pbind]. intros a3 d3 E3. intros a4 d4 E4.
    destruct lit_next; apply (paragraph_back (NParagraph i) d d1 d2 d3 d4 a3 a4); auto.
  - h2.
Qed.
Lemma k_section t st k d c : exact d -> hs leaf (open_section t st k) d c.
Proof. intros HE. unfold open_section. h2. Qed.
Ltac h3 := repeat first [ lazymatch goal with
  | |- hs _ (parse_paragraph _ _ _) _ _ => apply k_paragraph; assumption
  | |- hs _ (open_section _ _ _) _ _ => apply k_section; assumption
  end | progress h2 ].
Section Transitions.
  Variables (src : list str) (base : nat) (cs : caps) (d : DocTree) (c : LineCursor).
  Hypothesis HE : exact d.
  Lemma k_text cs' d' c' : exact d' -> hs leaf (body_text src base cs') d' c'.
  Proof. intros. unfold body_text. h3. Qed.
  Lemma k_bullet : hs leaf (body_bullet src base cs) d c.
  Proof. unfold body_bullet. h3. Qed.
  Lemma k_enumerator : hs leaf (body_enumerator src base cs) d c.
  Proof. unfold body_enumerator. h3. now apply k_text. Qed.
  Lemma k_field : hs leaf (body_field_marker src base cs) d c.
  Proof. unfold body_field_marker. h3. Qed.
  Lemma k_target : hs leaf (body_hyperlink_target src base cs) d c.
  Proof. unfold body_hyperlink_target. h3. Qed.
  Lemma k_comment : hs leaf (body_comment src base cs) d c.
  Proof. unfold body_comment. h3. Qed.
  Lemma k_line : hs leaf (body_line src base cs) d c.
  Proof. unfold body_line. h3. Qed.
  Lemma k_definition : hs leaf (definition_text src base cs) d c.
  Proof. unfold definition_text. h3. Qed.
  Lemma k_literal q : hs leaf (literal_block q src base cs) d c.
  Proof. unfold literal_block, parse_indented_literal, parse_quoted_literal. h3. Qed.
  Lemma k_attribution : hs leaf (attribution src base cs) d c.
  Proof. unfold attribution. h3. Qed.
  Lemma k_col_break : hs leaf (aplus_col_break src base cs) d c.
  Proof. unfold aplus_col_break. h3. Qed.
  Lemma k_questionnaire_text : hs leaf (questionnaire_text src base cs) d c.
  Proof. unfold questionnaire_text. h3. Qed.
  Lemma k_footnote : hs leaf (body_footnote src base cs) d c.
  Proof. unfold body_footnote. h3. Qed.
  Lemma k_citation : hs leaf (body_citation src base cs) d c.
  Proof. unfold body_citation. h3. Qed.
  Lemma k_list_field : hs leaf (list_field_marker src base cs) d c.
  Proof. unfold list_field_marker. h3. Qed.
  Lemma k_list_bullet : hs leaf (list_bullet src base cs) d c.
  Proof. unfold list_bullet. h3. Qed.
  Lemma k_list_enumerator : hs leaf (list_enumerator src base cs) d c.
  Proof.
    unfold list_enumerator. h3; try (now apply k_text). cbn [hsafe]. split; [assumption|].
    intros r d9 Hr. destruct r; exact Hr.
  Qed.
End Transitions.

(* ---------- directives ---------- *)
Lemma h_arguments src m d c (Q : list str -> DocTree -> LineCursor -> Prop) :
  (forall args c', Q args d c') -> hs Q (arguments src m) d c.
Proof. intros HQ. unfold arguments, scan_arguments. cbn. apply HQ. Qed.
Lemma h_options src m d c (Q : option_map -> DocTree -> LineCursor -> Prop) :
  (forall x c', Q x d c') -> hs Q (options src m) d c.
Proof.
  intros HQ. unfold options, scan_options. apply h_bind, h_cursor. destruct (option_lines _ _) as [l b].
  apply h_bind, h_advance. destruct l as [|x l]; [apply HQ|]. apply h_bind, h_advance. cbn [hsafe]. apply HQ.
Qed.
Lemma h_skip src d c (Q : unit -> DocTree -> LineCursor -> Prop) : (forall c', Q tt d c') -> hs Q (skip_empty src) d c.
Proof. intros HQ. unfold skip_empty. cbn. apply HQ. Qed.
Lemma h_question (Q : bool -> DocTree -> LineCursor -> Prop) d0 d1 p q a c : exact d0 -> dop_exec (DAddPoints p) d0 = Ret (a, d1) ->
  question_points q = Some p -> (forall d', exact d' -> Q true d' c) -> (forall d', least d' -> Q false d' c) ->
  hs Q (pushed (DPushFocus q)) d1 c.
Proof.
  intros HE E Hq H1 H2. cbn. intros b d2 E2. pose proof (question_pushed _ _ _ _ _ _ _ HE E Hq E2) as G.
  destruct b; auto.
Qed.
Section DirectiveParsers.
  Variables (src : list str) (m : marker).
  Ltac dh := unfold body_block; repeat first [ lazymatch goal with
    | |- hs _ (arguments _ _) _ _ => apply h_arguments; intros
    | |- hs _ (options _ _) _ _ => apply h_options; intros
    | |- hs _ (skip_empty _) _ _ => apply h_skip; intros
    end | progress h3 ].
  Ltac nested := cbn [hsafe]; split; [assumption|]; let r := fresh in let Hr := fresh in intros r ? Hr; destruct r; cbn [ends] in Hr.
  Lemma h_unwind k c (Q : unit -> DocTree -> LineCursor -> Prop) : forall d, exact d ->
    (forall d', exact d' -> Q tt d' c) -> hs Q (unwind k) d c.
  Proof.
    induction k as [|k IH]; intros d HE H; cbn [unwind]; [apply H; auto|]. apply h_bind, h_parent; auto.
  Qed.
  Lemma k_list_table d c : exact d -> hs leaf (parse_list_table src m) d c.
  Proof.
    intros HE. unfold parse_list_table. dh. nested; [| |assumption]; (apply h_bind, h_unwind; [assumption|intros; dh]).
  Qed.
  Lemma k_parser_for label d c : exact d -> hs leaf (parser_for label src m) d c.
  Proof.
    intros HE. unfold parser_for. destruct (standard_admonition label).
    { unfold parse_standard_admonition. dh. nested; assumption. }
    assert (HD : forall name p, In (name, p) directive_parsers -> hs leaf (p src m) d c).
    { intros name p H. unfold directive_parsers in H. cbn [In] in H.
      repeat (destruct H as [H|H]; [injection H as _ <-|]); try contradiction; try exact Logic.I; try (now apply k_list_table);
        try (unfold parse_class; dh; nested; assumption);
        unfold parse_generic_admonition, parse_image, parse_figure, parse_code, parse_math_block, parse_sphinx_code_block,
          parse_sphinx_only, parse_aplus_questionnaire, parse_aplus_submit, parse_ae_input, parse_ae_output, parse_poi; dh.
      apply h_push_plain; [apply math_plain|assumption|intros; dh]. }
    induction directive_parsers as [|[name p] l IH].
    { cbn [find_parser]. unfold parse_unknown_directive. dh. }
    cbn [find_parser].
    destruct (str_eqb label (lit name)); [apply (HD name); left; auto|]. apply IH. intros. eapply HD. right. eauto.
  Qed.

  Lemma h_filled (Q : bool -> DocTree -> LineCursor -> Prop) x nodes d c : exact d -> plain x = true -> forallb is_inline nodes = true ->
    (forall b d', exact d' -> Q b d' c) -> hs Q (push_filled x nodes) d c.
  Proof.
    intros HE P HN H. unfold push_filled. apply h_bind, h_pushed; [exact P|exact HE|]. intros [|] d1 H1; [|now apply H]. cbn [negb].
    apply h_bind, h_push_all; auto. intros [|] d2 H2; [|now apply H]. cbn [negb]. apply h_bind, h_parent; auto. intros. now apply H.
  Qed.
  Definition item_plain (item : caps -> prog (option (TreeNodeType * str))) : Prop :=
    forall cs d c (Q : option (TreeNodeType * str) -> DocTree -> LineCursor -> Prop),
      (forall x, match x with Some (n, _) => plain n = true | None => True end -> Q x d c) -> hs Q (item cs) d c.
  Lemma h_items r item (Q : bool -> DocTree -> LineCursor -> Prop) : item_plain item ->
    (forall b d' c', exact d' -> Q b d' c') ->
    forall fuel d c, exact d -> hs Q (items_loop fuel src (m_body m) r item) d c.
  Proof.
    intros HI HQ. induction fuel as [|f IH]; intros d c HE; [exact Logic.I|]. cbn [items_loop].
    apply h_bind, h_cursor. destruct (nth_error src (cur_offset c)) as [line|]; [|apply HQ; auto].
    destruct (negb _); [apply HQ; auto|]. destruct (captures r line); [|apply HQ; auto].
    apply h_bind, HI. intros [[x text]|] Hx; [|apply HQ; auto]. apply h_bind, h_inline; [exact HE|]. intros nodes d1 c1 HN HE1.
    destruct nodes; [apply HQ; auto|]. apply h_bind, h_filled; auto. intros [|] d2 HE2; [|apply HQ; auto]. cbn [negb].
    apply h_bind, h_advance, IH. exact HE2.
  Qed.
  Lemma i_one : item_plain pick_one_item.
  Proof. intros cs d c Q H. unfold pick_one_item. apply h_bind, h_cap. intros x. cbn [hsafe]. apply H. destruct (blank _); reflexivity || exact Logic.I. Qed.
  Lemma i_any : item_plain pick_any_item.
  Proof. intros cs d c Q H. unfold pick_any_item. apply h_bind, h_cap. intros x. cbn [hsafe]. apply H. destruct (blank _); reflexivity || exact Logic.I. Qed.
  Lemma i_hint t : item_plain (hint_item t).
  Proof.
    intros cs d c Q H. unfold hint_item. cbn [hsafe]. apply H. destruct (cap 3 cs); [|exact Logic.I]. destruct (cap 4 cs); [|exact Logic.I].
    destruct (blank _); [exact Logic.I|reflexivity].
  Qed.
  Lemma k_finish t d c : exact d -> hs leaf (finish_question src m t) d c.
  Proof.
    intros HE. unfold finish_question. dh. unfold items. apply h_items; [apply i_hint| |assumption]. intros b d2 c2 HE2. dh.
  Qed.
  Lemma h_choices r item d c (Q : bool -> DocTree -> LineCursor -> Prop) : item_plain item -> exact d ->
    (forall b d' c', exact d' -> Q b d' c') -> hs Q (pick_choices src m r item) d c.
  Proof.
    intros HI HE HQ. unfold pick_choices. dh; try (now apply HQ). unfold items. apply h_items; auto. intros b d3 c3 HE3. dh; now apply HQ.
  Qed.
  Lemma h_assignment d c (Q : option (list TreeNodeType) -> DocTree -> LineCursor -> Prop) : exact d ->
    (forall x d' c', exact d' -> match x with Some l => forallb is_inline l = true | None => True end -> Q x d' c') ->
    hs Q (assignment src m) d c.
  Proof. intros HE HQ. unfold assignment. dh; apply HQ; auto. Qed.
  Lemma h_pick_assignment r d c (Q : bool -> DocTree -> LineCursor -> Prop) : exact d ->
    (forall b d' c', exact d' -> Q b d' c') -> hs Q (pick_assignment src m r) d c.
  Proof.
    intros HE HQ. unfold pick_assignment. dh; try (now apply HQ). apply h_assignment; [assumption|].
    intros [l|] d2 c2 HE2 Hl; [|now apply HQ]. apply h_filled; auto.
  Qed.
  Lemma k_pick node r item t p d0 d1 a c : item_plain item -> exact d0 -> dop_exec (DAddPoints p) d0 = Ret (a, d1) ->
    question_points node = Some p -> hs leaf (pick_question src m node r item t) d1 c.
  Proof.
    intros HI HE E Hq. unfold pick_question. apply h_bind. eapply h_question; [exact HE|exact E|exact Hq| |]; cbn [negb]; [|intros d2 H2; exact H2].
    intros d2 HE2. apply h_bind, h_pick_assignment; auto. intros [|] d3 c3 HE3; cbn [negb]; [|now apply leaf_fail].
    apply h_bind, h_choices; auto. intros [|] d4 c4 HE4; cbn [negb]; [|now apply leaf_fail]. now apply k_finish.
  Qed.
  Lemma k_pick_one d c : exact d -> hs leaf (parse_aplus_pick_one src m) d c.
  Proof.
    intros HE. unfold parse_aplus_pick_one. dh. cbn [doc_op hsafe]. intros a d1 E. cbn [hsafe].
    apply h_bind, h_options. intros o c1. apply h_bind, h_skip. intros c2. eapply k_pick; [apply i_one|exact HE|exact E|reflexivity].
  Qed.
  Lemma k_pick_any d c : exact d -> hs leaf (parse_aplus_pick_any src m) d c.
  Proof.
    intros HE. unfold parse_aplus_pick_any. dh. cbn [doc_op hsafe]. intros a d1 E. cbn [hsafe].
    apply h_bind, h_options. intros o c1. cbv zeta. destruct (_ && _).
    { cbn [hsafe]. eapply points_only; eauto. }
    eapply k_pick; [apply i_any|exact HE|exact E|reflexivity].
  Qed.
  Lemma k_freetext d c : exact d -> hs leaf (parse_aplus_freetext src m) d c.
  Proof.
    intros HE. unfold parse_aplus_freetext. dh. cbn [doc_op hsafe]. intros a d1 E. cbn [hsafe].
    apply h_bind, h_options. intros o c1. apply h_bind. eapply h_question; [exact HE|exact E|reflexivity| |]; cbn [negb]; [|intros d2 H2; exact H2].
    intros d2 HE2. dh. apply h_assignment; [assumption|]. intros [l'|] d3 c3 HE3 Hl; [|now apply leaf_fail].
    apply h_bind, h_filled; auto. intros [|] d4 HE4; cbn [negb]; [|now apply leaf_fail]. dh. now apply k_finish.
  Qed.
End DirectiveParsers.
Lemma k_directive src base cs d c : exact d -> hs leaf (directive src base cs) d c.
Proof. intros HE. unfold directive. h2. now apply k_parser_for. Qed.
Lemma k_questionnaire_directive src base cs d c : exact d -> hs leaf (questionnaire_directive src base cs) d c.
Proof.
  intros HE. unfold questionnaire_directive. h2; first [now apply k_pick_one|now apply k_pick_any|now apply k_freetext].
Qed.

Theorem tables_keep : forall s tbl r t src base (line : str) cs d c, table s = Some tbl -> In (r, t) tbl -> captures r line = Some cs ->
  exact d -> hs leaf (t src base cs) d c.
Proof.
  intros s tbl r t src base line cs d c Ht Hin _ HE.
  assert (HX : hs leaf (empty_line src base cs) d c) by exact HE.
  assert (HU : hs leaf (back_up src base cs) d c) by exact HE.
  assert (HB : In (r, t) body_rest -> hs leaf (t src base cs) d c).
  { clear Ht Hin. unfold body_rest. intros Hin. cbn [In] in Hin.
    repeat (destruct Hin as [E|Hin]; [injection E as <- <-|]); try contradiction;
      first [ now apply k_bullet | now apply k_enumerator | now apply k_field | now apply k_footnote
            | now apply k_citation | now apply k_target | now apply k_directive
            | now apply k_comment | now apply k_line | now apply k_text ]. }
  destruct s; cbn [table] in Ht; try discriminate; apply some_inj in Ht; subst tbl;
    (unfold BODY_TRANSITIONS, BLOCK_QUOTE_TRANSITIONS, BULLET_LIST_TRANSITIONS, DEFINITION_LIST_TRANSITIONS,
       ENUMERATED_LIST_TRANSITIONS, FIELD_LIST_TRANSITIONS, LITERAL_BLOCK_TRANSITIONS, LIST_TABLE_TRANSITIONS,
       APLUS_MULTICOL_TRANSITIONS, APLUS_QUESTIONNAIRE_TRANSITIONS, empty_line_entry in Hin);
    cbn [In] in Hin;
    repeat first [ exact (HB Hin) | destruct Hin as [E|Hin]; [injection E as <- <-|] ];
    try contradiction; try assumption;
    first [ now apply k_attribution | now apply k_list_bullet | now apply k_definition
          | now apply k_list_enumerator | now apply k_list_field | now apply k_literal
          | now apply k_bullet | now apply k_col_break | now apply k_questionnaire_directive
          | now apply k_questionnaire_text ].
Qed.
Lemma new_exact : exact new_doctree.
Proof. split; [apply ib_inv, new_inv_built|]. unfold doc_local. apply (all_local_new exact_rule). intros t Ht. discriminate. Qed.
Theorem parse_exact fuel src r d : parse_source fuel src = Ret (r, d) -> match r with RFailure => least d | _ => exact d end.
Proof.
  intros H. apply (parse_keeps exact least table exact_least) in H; [exact H| |apply tables_keep|apply new_exact].
  intros d0 d1 HE E. apply (op_keeps DParent d0 AOk); auto. cbn [dop_exec]. rewrite E. reflexivity.
Qed.
