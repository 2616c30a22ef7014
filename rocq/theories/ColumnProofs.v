(* ColumnProofs.v -- blocks stand in the column of the block they are in, between
   any two transitions of the parser *)
From Verif Require Import Base Unicode Regex Patterns Common Converters NodeTypes Tree DocTree History Spec TreeProofs
  DocTreeProofs HyperrefProofs Blocks BlockProofs Prog ParseLoop LoopProofs Inline InlineProofs Body Directives Parser
  ParserProofs PointsSpec LocalProofs Hoare ColumnSpec.
Require Import Lia.

Definition exact_rule (x : TreeNodeType) (l : list TreeNodeType) : Prop := Forall (stands x) l.
Definition exact (d : DocTree) : Prop := inv d /\ doc_local exact_rule d.
(* nodes that may stand anywhere *)
Definition plain (x : TreeNodeType) : bool :=
  match x with
  | NParagraph _ | NBulletList _ _ _ | NEnumeratedList _ _ _ _ _ | NFieldList _ | NDefinitionList _ | NBlockQuote _ => false
  | _ => true
  end.
Lemma plain_kind x x' : kind x' = kind x -> plain x' = plain x.
Proof.
  assert (G : forall y, plain y = match kind y with
    | KParagraph | KBulletList | KEnumeratedList | KFieldList | KDefinitionList | KBlockQuote => false | _ => true end) by (intros []; reflexivity).
  intros E. rewrite !G, E. reflexivity.
Qed.
Lemma plain_stands q x : plain x = true -> stands q x.
Proof. destruct x; try discriminate; intros _; exact I. Qed.
Lemma column_is x : text_column x = NodeTypes.body_indent x.
Proof. destruct x; reflexivity. Qed.
Lemma stands_outer q q' x : text_column q' = text_column q -> stands q x -> stands q' x.
Proof. intros E. destruct x; cbn [stands]; try rewrite E; auto. Qed.
Lemma exact_view x y : (forall q, stands q x -> stands q y) -> forall q u v, exact_rule q (u ++ x :: v) -> exact_rule q (u ++ y :: v).
Proof. intros H q u v. unfold exact_rule. rewrite !Forall_app, !Forall_cons_iff. specialize (H q). tauto. Qed.

Definition plain_op (o : dop) : bool :=
  match o with
  | DPush x | DPushFocus x | DPushChild x => plain x
  | DPop => false
  | _ => true
  end.
Lemma dop_inv o d a d' : inv d -> dop_exec o d = Ret (a, d') -> inv d'.
Proof. intros I H. apply dop_run in H as [->|[e H]]; auto. eapply step_inv; eauto. Qed.
Lemma update_exact f d a d' : exact d ->
  (forall x y, f x = Ret (Some y) -> text_column y = text_column x /\ forall q, stands q x -> stands q y) ->
  update_data f d = Ret (a, d') -> doc_local exact_rule d'.
Proof.
  intros [I H] Hf E. unfold update_data in E. destruct (f (focused_data d)) as [[y|]| |] eqn:Ef; cbn [obind] in E; try discriminate;
    apply Ret_inj in E; injection E as <- <-; auto.
  apply Hf in Ef as (E1 & E2). apply doc_data; auto; [apply (inv_wf _ I)| |].
  - unfold exact_rule. apply Forall_impl. intros z. now apply stands_outer.
  - now apply exact_view.
Qed.
Lemma push_stands d d' x n : exact d -> (kind x <> KFootnote -> kind x <> KFootnoteReference -> stands (focused_data d) x) -> 
  (kind x = KFootnote \/ kind x = KFootnoteReference -> plain x = true) -> DocTreeProofs.pushed d d' x n ->
  document (tree d') = rebuild (tree d) (add_last (z_node (tree d)) n) -> doc_local exact_rule d'.
Proof.
  intros [I H] F P HP D. eapply doc_pushed; eauto; [apply (inv_wf _ I)|]. intros x' K S.
  assert (G : stands (focused_data d) x').
  { destruct (plain x) eqn:E; [apply plain_stands; now rewrite (plain_kind _ _ K)|].
    assert (K1 : kind x <> KFootnote) by (intros X; discriminate (P (or_introl X))).
    assert (K2 : kind x <> KFootnoteReference) by (intros X; discriminate (P (or_intror X))).
    rewrite (S K1 K2). now apply F. }
  split; [constructor|]. intros Q. apply Forall_app. split; [exact Q|]. now constructor.
Qed.
Lemma fits_push d d' x n : exact d -> stands (focused_data d) x -> DocTreeProofs.pushed d d' x n ->
  document (tree d') = rebuild (tree d) (add_last (z_node (tree d)) n) -> doc_local exact_rule d'.
Proof. intros HE F. apply push_stands; auto. intros [K|K]; destruct x; try discriminate; reflexivity. Qed.
Lemma push_exact d d' x n : exact d -> plain x = true -> DocTreeProofs.pushed d d' x n ->
  document (tree d') = rebuild (tree d) (add_last (z_node (tree d)) n) -> doc_local exact_rule d'.
Proof. intros HE P. apply fits_push; auto. now apply plain_stands. Qed.
Lemma label_tree o d a d' : label_op o = true -> dop_exec o d = Ret (a, d') -> tree d' = tree d.
Proof.
  destruct o; try discriminate; intros _; cbn [dop_exec].
  - intros E. apply Ret_inj in E. injection E as <- <-. reflexivity.
  - unfold next_anon_target_label. destruct (u32_add _ _); cbn [obind]; try discriminate. intros E. apply Ret_inj in E. injection E as <- <-. reflexivity.
  - unfold next_anon_reference_label. destruct (u32_add _ _); cbn [obind]; try discriminate. intros E. apply Ret_inj in E. injection E as <- <-. reflexivity.
Qed.
Lemma op_keeps o d a d' : plain_op o = true -> exact d -> dop_exec o d = Ret (a, d') -> exact d'.
Proof.
  intros P HI E. split; [eapply dop_inv; eauto; apply HI|]. pose proof (inv_wf _ (proj1 HI)) as Hw.
  assert (HL : label_op o = true -> doc_local exact_rule d').
  { intros HL. apply (label_tree _ _ _ _ HL) in E. apply (doc_same _ d); [apply HI|now rewrite E]. }
  destruct o; try discriminate P; try (apply HL; reflexivity); clear HL; cbn [dop_exec] in E; cbn [plain_op] in P.
  - destruct (is_section x); try discriminate.
    destruct (push_data d x) as [[y|y]| |] eqn:Ep; cbn [obind] in E; try discriminate; apply Ret_inj in E; injection E as <- <-.
    + apply push_data_spec in Ep as (n & PP & T). eapply push_exact; eauto. rewrite T. apply document_with.
    + apply push_data_spec in Ep as (T & _). apply (doc_same _ d); [apply HI|now rewrite T].
  - destruct (is_section x); try discriminate.
    destruct (push_data_and_focus d x) as [[y|y]| |] eqn:Ep; cbn [obind] in E; try discriminate; apply Ret_inj in E; injection E as <- <-.
    + apply push_data_and_focus_spec in Ep as (n & ks & PP & Ek & T); [|exact Hw]. eapply push_exact; eauto. rewrite T. apply focus_push_doc; auto.
    + apply push_data_and_focus_spec in Ep as (T & _); [|exact Hw]. apply (doc_same _ d); [apply HI|now rewrite T].
  - destruct (push_data_and_focus _ _) as [[y|y]| |] eqn:Ep; cbn [obind] in E; try discriminate; apply Ret_inj in E; injection E as <- <-.
    + apply push_data_and_focus_spec in Ep as (n & ks & PP & Ek & T); [|exact Hw]. eapply push_exact; eauto; [reflexivity|]. rewrite T. apply focus_push_doc; auto.
    + apply push_data_and_focus_spec in Ep as (T & _); [|exact Hw]. apply (doc_same _ d); [apply HI|now rewrite T].
  - destruct (is_section x); try discriminate.
    destruct (push_child _ _) as [[y [[]|z]]| |] eqn:Ep; cbn [obind] in E; try discriminate; apply Ret_inj in E; injection E as <- <-.
    + apply push_child_spec in Ep as (n & PP & T). eapply push_exact; eauto. rewrite T. apply document_with.
    + apply push_child_spec in Ep as (T & _). apply (doc_same _ d); [apply HI|now rewrite T].
  - destruct (d_focus_on_parent d) eqn:Ep; cbn [obind] in E; try discriminate. apply Ret_inj in E. injection E as <- <-.
    apply d_parent_spec in Ep as (_ & D & _); [|exact Hw]. apply (doc_same _ d); [apply HI|exact D].
  - eapply update_exact; eauto. intros x y. destruct x; cbn; intros E'; try discriminate;
      apply Ret_inj, some_inj in E'; subst; split; [reflexivity|auto].
  - eapply update_exact; eauto. intros x y. destruct x; cbn; intros E'; try discriminate;
      apply Ret_inj, some_inj in E'; subst; split; [reflexivity|auto].
  - eapply update_exact; eauto. intros x y. destruct x; cbn [add_points]; intros E'; try discriminate.
    destruct (u32_add points_from_children n); cbn [obind] in E'; try discriminate;
      apply Ret_inj, some_inj in E'; subst; split; [reflexivity|auto].
  - eapply update_exact; eauto. intros x y. destruct x; cbn; intros E'; try discriminate;
      apply Ret_inj, some_inj in E'; subst; split; [reflexivity|auto].
Qed.

Lemma place_pushed d x b d' : exact d -> stands (focused_data d) x -> dop_exec (DPushFocus x) d = Ret (b, d') -> exact d'.
Proof.
  intros HE HF E. split; [eapply dop_inv; eauto; apply HE|]. pose proof (inv_wf _ (proj1 HE)) as Hw. cbn [dop_exec] in E.
  destruct (is_section x); [discriminate|].
  destruct (push_data_and_focus d x) as [[y|y]| |] eqn:Ep; cbn [obind] in E; try discriminate; apply Ret_inj in E; injection E as <- <-.
  - apply push_data_and_focus_spec in Ep as (n & ks & PP & Ek & T); [|exact Hw]. eapply fits_push; eauto. rewrite T. apply focus_push_doc; auto.
  - apply push_data_and_focus_spec in Ep as (T & _); [|exact Hw]. apply (doc_same _ d); [apply HE|now rewrite T].
Qed.
Lemma pushed_focus d x d' : exact d -> kind x <> KFootnote -> kind x <> KFootnoteReference -> dop_exec (DPushFocus x) d = Ret (AOk, d') -> focused_data d' = x.
Proof.
  intros HE K1 K2 E. pose proof (inv_wf _ (proj1 HE)) as Hw. cbn [dop_exec] in E. destruct (is_section x); [discriminate|].
  destruct (push_data_and_focus d x) as [[y|y]| |] eqn:Ep; cbn [obind] in E; try discriminate; apply Ret_inj in E; injection E as ->.
  apply push_data_and_focus_spec in Ep as (n & ks & (x' & rs & cs & -> & K & S & _) & Ek & T); [|exact Hw].
  unfold focused_data. rewrite T. cbn [z_node]. unfold new_node. cbn [node_data]. now apply S.
Qed.

(* ---------- opening a paragraph and taking it back ---------- *)
Lemma paragraph_back i d0 d1 d2 d3 d4 a b (x := NParagraph i) : exact d0 -> stands (focused_data d0) x ->
  dop_exec (DPushFocus x) d0 = Ret (AOk, d1) -> tree d2 = tree d1 -> inv d2 ->
  dop_exec DParent d2 = Ret (a, d3) -> dop_exec DPop d3 = Ret (b, d4) -> exact d4.
Proof.
  intros HE P E1 T2 I2 E3 E4. pose proof (inv_wf _ (proj1 HE)) as W0.
  pose proof (dop_inv _ _ _ _ I2 E3) as I3. pose proof (dop_inv _ _ _ _ I3 E4) as I4. split; [exact I4|].
  cbn [dop_exec] in *. destruct (is_section x); [discriminate|].
  destruct (push_data_and_focus d0 x) as [[y|y]| |] eqn:Ep; cbn [obind] in E1; try discriminate; apply Ret_inj in E1; injection E1 as ->.
  apply push_data_and_focus_spec in Ep as (n & ks & (x' & rs & cs & -> & K & S & A & Hc & N) & Ek & T1); [|exact W0].
  destruct (d_focus_on_parent d2) as [d3'| |] eqn:Ep; cbn [obind] in E3; try discriminate. apply Ret_inj in E3. injection E3 as _ ->.
  unfold d_focus_on_parent in Ep. rewrite T2, T1 in Ep. rewrite focus_on_parent_wf in Ep.
  2:{ rewrite <- T1, <- T2. apply (inv_wf _ I2). }
  cbn [obind] in Ep. apply Ret_inj in Ep. assert (T3 : tree d3 = z_with_node (tree d0) (put_back (z_node (tree d0)) (length ks) (new_node x' (node_count d0) rs cs))) by (now subst d3).
  clear Ep. destruct (pop_child d3) as [c d4'] eqn:Ep. apply Ret_inj in E4. injection E4 as _ ->.
  apply pop_spec in Ep as (_ & _ & _ & Ep). unfold put_back in T3. rewrite Ek, unswap_last in T3.
  destruct c as [c|].
  - destruct Ep as (q & T4 & Eq & Hq). rewrite T3, z_node_with in Eq.
    assert (q = z_node (tree d0)).
    { unfold add_last in Eq. destruct (node_children q) as [kq|] eqn:Eqk; [|congruence].
      destruct q as [i0 r k dd ch]. destruct (z_node (tree d0)) as [i' r' k' dd' ch']. cbn in *. subst ch ch'.
      injection Eq as -> -> -> -> E. apply app_inj_tail in E as [-> _]. reflexivity. }
    subst q. unfold doc_local. rewrite T4, T3, z_with_node_twice, z_with_node_id. apply HE.
  - unfold doc_local. rewrite Ep, T3, document_with.
    destruct (rebuild_local exact_rule (tree d0) W0 (z_node (tree d0)) (add_last (z_node (tree d0)) (new_node x' (node_count d0) rs cs))) as [G1 G2].
    + unfold add_last. rewrite node_data_with_children. auto.
    + apply HE.
    + rewrite <- (add_last_eq _ _ _ Ek). apply G2. assert (x' = x) by (apply S; discriminate). subst x'.
      apply all_local_add; auto; [apply all_local_new; constructor|]. unfold new_node. cbn [node_data]. intros Q.
      apply Forall_app. split; [exact Q|]. now constructor.
Qed.

(* ---------- the transitions ---------- *)
Notation hs := (hsafe exact exact).
Notation leaf := (leaves exact exact).
Lemma h_doc (Q : DocTree -> DocTree -> LineCursor -> Prop) d c : Q d d c -> hs Q get_doc d c.
Proof. auto. Qed.
Lemma h_cursor (Q : LineCursor -> DocTree -> LineCursor -> Prop) d c : Q c d c -> hs Q get_cursor d c.
Proof. auto. Qed.
Lemma h_advance (Q : unit -> DocTree -> LineCursor -> Prop) d c m : Q tt d (cur_add c m) -> hs Q (advance m) d c.
Proof. auto. Qed.
Lemma h_doc_op (Q : answer -> DocTree -> LineCursor -> Prop) d c o : plain_op o = true -> exact d ->
  (forall a d', exact d' -> Q a d' c) -> hs Q (doc_op o) d c.
Proof. intros P HE H. cbn. intros a d' E. apply H. eapply op_keeps; eauto. Qed.
Lemma h_pushed (Q : bool -> DocTree -> LineCursor -> Prop) d c o : plain_op o = true -> exact d ->
  (forall b d', exact d' -> Q b d' c) -> hs Q (pushed o) d c.
Proof. intros P HE H. cbn. intros a d' E. apply H. eapply op_keeps; eauto. Qed.
Lemma h_parent (Q : unit -> DocTree -> LineCursor -> Prop) d c : exact d -> (forall u d', exact d' -> Q u d' c) -> hs Q focus_parent d c.
Proof. intros HE H. cbn. intros a d' E. apply H. apply (op_keeps DParent d a); auto. Qed.
Lemma h_label (Q : str -> DocTree -> LineCursor -> Prop) d c o : plain_op o = true -> exact d ->
  (forall s d', exact d' -> Q s d' c) -> hs Q (label_of o) d c.
Proof. intros P HE H. cbn. intros a d' E. destruct a; cbn; auto. apply H. eapply op_keeps; eauto. Qed.
Lemma h_cap (Q : str -> DocTree -> LineCursor -> Prop) d c g cs : (forall x, Q x d c) -> hs Q (get_cap g cs) d c.
Proof. intros H. unfold get_cap. destruct (cap g cs); cbn; auto. Qed.
Lemma h_cap_len (Q : nat -> DocTree -> LineCursor -> Prop) d c g cs : (forall x, Q x d c) -> hs Q (cap_len g cs) d c.
Proof. intros H. apply h_bind, h_cap. cbn. auto. Qed.
Lemma h_first (Q : char -> DocTree -> LineCursor -> Prop) d c s : (forall x, Q x d c) -> hs Q (first_char s) d c.
Proof. destruct s; cbn; auto. Qed.
Lemma h_lift {A} (Q : A -> DocTree -> LineCursor -> Prop) (m : outcome A) d c : (forall a, m = Ret a -> Q a d c) -> hs Q (lift m) d c.
Proof. destruct m; cbn; auto. Qed.
Lemma h_focus_at (Q : IndentationMatch -> DocTree -> LineCursor -> Prop) d c i :
  (forall p, text_column (focused_data d) = Some p -> Q (indent_match p i) d c) -> hs Q (focus_matches i) d c.
Proof. intros H. unfold focus_matches. cbn [pbind get_doc hsafe]. rewrite <- column_is. destruct (text_column (focused_data d)); cbn; auto. Qed.
Lemma h_focus (Q : IndentationMatch -> DocTree -> LineCursor -> Prop) d c i : (forall m, Q m d c) -> hs Q (focus_matches i) d c.
Proof. intros H. apply h_focus_at. auto. Qed.
Lemma runs_h {A} (Q : A -> DocTree -> LineCursor -> Prop) (p : prog A) d c : inv d -> runs false Q p d c ->
  hs (fun a d' c' => Q a d' c' /\ inv d' /\ tree d' = tree d) p d c.
Proof.
  revert d c. induction p as [a| | |k IH|o k IH|m k IH|src bi bl st k IH]; cbn [runs hsafe]; intros d c HI HS; auto; try tauto.
  destruct HS as (H1 & _ & H3). intros a d' E. pose proof (label_tree _ _ _ _ H1 E) as T. rewrite <- T.
  apply IH; [eapply dop_inv; eauto|auto].
Qed.
Lemma hs_mono {A} (P Q : A -> DocTree -> LineCursor -> Prop) (p : prog A) d c : hs P p d c ->
  (forall a d c, P a d c -> Q a d c) -> hs Q p d c.
Proof.
  intros H HF. revert d c H. induction p; cbn [hsafe]; intros d c HS; auto. destruct HS as [H1 H2]. split; auto.
Qed.
Lemma exact_tree d d' : exact d -> inv d' -> tree d' = tree d -> exact d'.
Proof. intros [A B] I T. split; auto. apply (doc_same _ d); [exact B|now rewrite T]. Qed.
Lemma inline_plain x : is_inline x = true -> plain x = true.
Proof. destruct x; try discriminate; reflexivity. Qed.
Lemma h_inline_tree (Q : list TreeNodeType -> DocTree -> LineCursor -> Prop) d c doc s : inv d ->
  (forall nodes d' c', forallb is_inline nodes = true -> inv d' -> tree d' = tree d -> Q nodes d' c') -> hs Q (inline_parse doc s) d c.
Proof.
  intros HI H. eapply hs_mono; [apply runs_h; [exact HI|apply inline_parse_ok; discriminate]|].
  cbn. intros a d' c' ([H1 _] & H2 & H3). auto.
Qed.
Lemma h_inline (Q : list TreeNodeType -> DocTree -> LineCursor -> Prop) d c doc s : exact d ->
  (forall nodes d' c', forallb is_inline nodes = true -> exact d' -> Q nodes d' c') -> hs Q (inline_parse doc s) d c.
Proof.
  intros HE H. apply h_inline_tree; [apply HE|]. intros nodes d' c' H1 H2 H3. apply H; auto. eapply exact_tree; eauto.
Qed.
Lemma h_push_plain (Q : bool -> DocTree -> LineCursor -> Prop) c l : forall d, forallb plain l = true -> exact d ->
  (forall b d', exact d' -> Q b d' c) -> hs Q (push_all l) d c.
Proof.
  induction l as [|x l IH]; intros d HL HE H; cbn [push_all]; [cbn; auto|]. cbn [forallb] in HL. apply andb_prop in HL as [H1 H2].
  apply h_bind, h_pushed; [exact H1|exact HE|]. intros [|] d' HE'; cbn [hsafe]; auto.
Qed.
Lemma h_push_all (Q : bool -> DocTree -> LineCursor -> Prop) c l d : forallb is_inline l = true -> exact d ->
  (forall b d', exact d' -> Q b d' c) -> hs Q (push_all l) d c.
Proof.
  intros H. apply h_push_plain. rewrite forallb_forall in *. intros x Hx. apply inline_plain. auto.
Qed.
Lemma math_plain blocks nm cl : forall n, forallb plain (math_nodes blocks nm cl n) = true.
Proof. induction blocks as [|b blocks IH]; intros n; cbn [math_nodes]; [reflexivity|]. cbn [forallb]. apply IH. Qed.
Lemma leaf_fail d c : exact d -> leaf TFailure d c.
Proof. intros H; exact H. Qed.

Ltac plain_tac := first [reflexivity | match goal with |- context[match ?x with _ => _ end] => destruct x; reflexivity end].
Ltac h1 := lazymatch goal with
  | |- hs _ (pbind _ _) _ _ => apply h_bind
  | |- hs _ get_doc _ _ => apply h_doc
  | |- hs _ get_cursor _ _ => apply h_cursor
  | |- hs _ (advance _) _ _ => apply h_advance
  | |- hs _ (doc_op _) _ _ => apply h_doc_op; [reflexivity|assumption|intros]
  | |- hs _ (pushed _) _ _ => apply h_pushed; [plain_tac|assumption|intros]
  | |- hs _ focus_parent _ _ => apply h_parent; [assumption|intros]
  | |- hs _ (label_of _) _ _ => apply h_label; [reflexivity|assumption|intros]
  | |- hs _ (get_cap _ _) _ _ => apply h_cap; intros
  | |- hs _ (cap_len _ _) _ _ => apply h_cap_len; intros
  | |- hs _ (first_char _) _ _ => apply h_first; intros
  | |- hs _ (inline_parse _ _) _ _ => apply h_inline; [assumption|intros]
  | |- hs _ (push_all _) _ _ => apply h_push_all; [assumption|assumption|intros]
  | |- hs _ (focus_matches _) _ _ => apply h_focus; intros
  | |- hs _ (lift _) _ _ => apply h_lift; intros
  end.
Ltac hsplit := match goal with
  | |- hs _ (if negb true then _ else _) _ _ => cbn [negb]
  | |- hs _ (if negb false then _ else _) _ _ => cbn [negb]
  | |- hs _ (if negb ?x then _ else _) _ _ => is_var x; destruct x; cbn [negb]
  | |- hs _ (match ?x with _ => _ end) _ _ => destruct x eqn:?
  end.
Ltac h := repeat first [ progress cbv beta zeta | h1 | match goal with |- hs _ (PRet _) _ _ => cbn [hsafe] end
  | match goal with |- hs _ PPanic _ _ => exact Logic.I end | hsplit
  | match goal with |- leaf (match ?x with _ => _ end) _ _ => destruct x eqn:? end
  | match goal with |- leaf TFailure _ _ => apply leaf_fail; assumption | |- leaf (TSuccess _ _) _ _ => assumption end ].
Lemma h_leave d c : exact d -> hs leaf leave d c.
Proof. intros. unfold leave. h. Qed.
Lemma h_place (Q : bool -> DocTree -> LineCursor -> Prop) d c x : exact d -> stands (focused_data d) x ->
  (forall b d', exact d' -> Q b d' c) -> hs Q (pushed (DPushFocus x)) d c.
Proof. intros HE P H. cbn. intros a d' E. apply H. eapply place_pushed; eauto. Qed.
Lemma h_quote d c i : exact d -> stands (focused_data d) (NBlockQuote i) -> hs leaf (open_block_quote i) d c.
Proof. intros HE F. unfold open_block_quote. apply h_bind, h_place; [exact HE|exact F|intros]. h. Qed.
Lemma h_by_indent d c i p : exact d -> (text_column (focused_data d) = Some i -> hs leaf p d c) -> hs leaf (by_indent i p) d c.
Proof.
  intros HE H. unfold by_indent. apply h_bind, h_focus_at. intros q Hq. unfold indent_match.
  destruct (i <? q) eqn:E1; [now apply h_leave|]. apply Nat.ltb_ge in E1. destruct (q =? i) eqn:E2.
  - apply Nat.eqb_eq in E2. subst q. auto.
  - apply Nat.eqb_neq in E2. apply h_quote; [exact HE|]. exists q. split; [exact Hq|lia].
Qed.
Lemma h_open_list d c x s : exact d -> stands (focused_data d) x -> hs leaf (open_list x s) d c.
Proof. intros HE H. unfold open_list. apply h_bind, h_place; [exact HE|exact H|intros]. h. Qed.
Lemma h_open_node d c x s a : exact d -> plain x = true -> hs leaf (open_node x s a) d c.
Proof. intros HE H. unfold open_node. apply h_bind, h_pushed; [exact H|exact HE|intros]. h. Qed.
Lemma h_add_node d c x a : exact d -> plain x = true -> hs leaf (add_node x a) d c.
Proof. intros HE H. unfold add_node. apply h_bind, h_pushed; [exact H|exact HE|intros]. h. Qed.
Lemma h_first_block (src : list str) base ti fi st force d c (Q : option (list State * nat) -> DocTree -> LineCursor -> Prop) : exact d ->
  (forall r d' c', exact d' -> Q r d' c') ->
  hs Q (parse_first_node_block src base ti fi st force) d c.
Proof.
  intros HE HQ. unfold parse_first_node_block. h; [|now apply HQ]. cbn [hsafe]. split; [exact HE|].
  intros r d' Hr. apply HQ. destruct r; exact Hr.
Qed.
Lemma h_finish r d c : exact d -> leaf (finish_first_block r) d c.
Proof. destruct r as [[l k]|]; auto. Qed.
Ltac h2 := repeat first [ lazymatch goal with
  | |- hs _ leave _ _ => apply h_leave; assumption
  | |- hs _ (by_indent _ _) _ _ => apply h_by_indent; [assumption|intros]
  | |- hs _ (open_list _ _) _ _ => apply h_open_list; [assumption|assumption]
  | |- hs _ (open_node _ _ _) _ _ => apply h_open_node; [assumption|reflexivity]
  | |- hs _ (add_node _ _) _ _ => apply h_add_node; [assumption|reflexivity]
  | |- hs _ (parse_first_node_block _ _ _ _ _ _) _ _ => apply h_first_block; [assumption|intros; cbn [hsafe]; now apply h_finish]
  end | progress h ].

Lemma k_paragraph src base i d c : exact d -> hs leaf (parse_paragraph src base i) d c.
Proof.
  intros HE. unfold parse_paragraph. apply h_by_indent; [exact HE|]. intros F. h1. h1. h1. h1. h1. h1. cbv zeta.
  destruct (strip_indicator _) as [block lit_next]. apply h_bind. cbn [pushed doc_op hsafe pbind]. intros a1 d1 E1.
  pose proof (place_pushed _ (NParagraph i) _ _ HE F E1) as HE1.
  destruct a1; cbn [negb]; try (cbn [hsafe]; apply leaf_fail; assumption).
  apply h_bind, h_inline_tree; [apply HE1|]. intros nodes d2 c2 HN I2 T2.
  assert (HE2 : exact d2) by (eapply exact_tree; eauto).
  destruct nodes as [|x nodes].
  - apply h_bind. cbn [focus_parent doc_op hsafe pbind]. intros a3 d3 E3. intros a4 d4 E4.
    destruct lit_next; apply (paragraph_back i d d1 d2 d3 d4 a3 a4); auto.
  - h2.
Qed.
Lemma k_section t st k d c : exact d -> hs leaf (open_section t st k) d c.
Proof. intros HE. unfold open_section. h2. Qed.
Ltac h3 := repeat first [ lazymatch goal with
  | |- hs _ (parse_paragraph _ _ _) _ _ => apply k_paragraph; assumption
  | |- hs _ (open_section _ _ _) _ _ => apply k_section; assumption
  end | progress h2 ].
Section Transitions.
  Variables (src : list str) (base : nat) (cs : caps) (d : DocTree) (c : LineCursor).
  Hypothesis HE : exact d.
  Lemma k_text cs' d' c' : exact d' -> hs leaf (body_text src base cs') d' c'.
  Proof. intros. unfold body_text. h3. Qed.
  Lemma k_bullet : hs leaf (body_bullet src base cs) d c.
  Proof. unfold body_bullet. h3. Qed.
  Lemma k_enumerator : hs leaf (body_enumerator src base cs) d c.
  Proof. unfold body_enumerator. h3. now apply k_text. Qed.
  Lemma k_field : hs leaf (body_field_marker src base cs) d c.
  Proof. unfold body_field_marker. h3. Qed.
  Lemma k_target : hs leaf (body_hyperlink_target src base cs) d c.
  Proof. unfold body_hyperlink_target. h3. Qed.
  Lemma k_comment : hs leaf (body_comment src base cs) d c.
  Proof. unfold body_comment. h3. Qed.
  Lemma k_line : hs leaf (body_line src base cs) d c.
  Proof. unfold body_line. h3. Qed.
  Lemma k_definition : hs leaf (definition_text src base cs) d c.
  Proof. unfold definition_text. h3. Qed.
  Lemma k_literal q : hs leaf (literal_block q src base cs) d c.
  Proof. unfold literal_block, parse_indented_literal, parse_quoted_literal. h3. Qed.
  Lemma k_attribution : hs leaf (attribution src base cs) d c.
  Proof. unfold attribution. h3. Qed.
  Lemma k_col_break : hs leaf (aplus_col_break src base cs) d c.
  Proof. unfold aplus_col_break. h3. Qed.
  Lemma k_questionnaire_text : hs leaf (questionnaire_text src base cs) d c.
  Proof.
    unfold questionnaire_text. h1. h1. apply h_bind, h_focus_at. intros p Hp. unfold indent_match.
    destruct (_ <? _); [now apply h_leave|]. destruct (_ =? _) eqn:E; [|now apply h_leave]. apply Nat.eqb_eq in E. subst p.
    h1. h1. h1. h1. apply h_bind, h_inline_tree; [apply HE|]. intros nodes d1 c1 HN I1 T1.
    assert (HE1 : exact d1) by (eapply exact_tree; eauto). destruct nodes as [|nd nodes]; [exact Logic.I|].
    apply h_bind, h_place; [assumption| |]; [unfold focused_data; rewrite T1; exact Hp|]. intros. h3.
  Qed.
  Lemma k_footnote : hs leaf (body_footnote src base cs) d c.
  Proof. unfold body_footnote. h3. Qed.
  Lemma k_citation : hs leaf (body_citation src base cs) d c.
  Proof. unfold body_citation. h3. Qed.
  Lemma k_list_field : hs leaf (list_field_marker src base cs) d c.
  Proof. unfold list_field_marker. h3. Qed.
  Lemma k_list_bullet : hs leaf (list_bullet src base cs) d c.
  Proof. unfold list_bullet. h3. Qed.
  Lemma k_list_enumerator : hs leaf (list_enumerator src base cs) d c.
  Proof.
    unfold list_enumerator. h3; try (now apply k_text). cbn [hsafe]. split; [assumption|].
    intros r d9 Hr. destruct r; exact Hr.
  Qed.
End Transitions.

(* ---------- directives ---------- *)
Lemma h_arguments src m d c (Q : list str -> DocTree -> LineCursor -> Prop) :
  (forall args c', Q args d c') -> hs Q (arguments src m) d c.
Proof. intros HQ. unfold arguments, scan_arguments. cbn. apply HQ. Qed.
Lemma h_options src m d c (Q : option_map -> DocTree -> LineCursor -> Prop) :
  (forall x c', Q x d c') -> hs Q (options src m) d c.
Proof.
  intros HQ. unfold options, scan_options. apply h_bind, h_cursor. destruct (option_lines _ _) as [l b].
  apply h_bind, h_advance. destruct l as [|x l]; [apply HQ|]. apply h_bind, h_advance. cbn [hsafe]. apply HQ.
Qed.
Lemma h_skip src d c (Q : unit -> DocTree -> LineCursor -> Prop) : (forall c', Q tt d c') -> hs Q (skip_empty src) d c.
Proof. intros HQ. unfold skip_empty. cbn. apply HQ. Qed.
Section DirectiveParsers.
  Variables (src : list str) (m : marker).
  Ltac dh := unfold body_block; repeat first [ lazymatch goal with
    | |- hs _ (arguments _ _) _ _ => apply h_arguments; intros
    | |- hs _ (options _ _) _ _ => apply h_options; intros
    | |- hs _ (skip_empty _) _ _ => apply h_skip; intros
    end | progress h3 ].
  Ltac nested := cbn [hsafe]; split; [assumption|]; let r := fresh in let Hr := fresh in intros r ? Hr; destruct r; cbn [ends] in Hr.
  Lemma h_unwind k c (Q : unit -> DocTree -> LineCursor -> Prop) : forall d, exact d ->
    (forall d', exact d' -> Q tt d' c) -> hs Q (unwind k) d c.
  Proof.
    induction k as [|k IH]; intros d HE H; cbn [unwind]; [apply H; auto|]. apply h_bind, h_parent; auto.
  Qed.
  Lemma k_list_table d c : exact d -> hs leaf (parse_list_table src m) d c.
  Proof.
    intros HE. unfold parse_list_table. dh. nested; [| |assumption]; (apply h_bind, h_unwind; [assumption|intros; dh]).
  Qed.
  Lemma k_parser_for label d c : exact d -> hs leaf (parser_for label src m) d c.
  Proof.
    intros HE. unfold parser_for. destruct (standard_admonition label).
    { unfold parse_standard_admonition. dh. nested; assumption. }
    assert (HD : forall name p, In (name, p) directive_parsers -> hs leaf (p src m) d c).
    { intros name p H. unfold directive_parsers in H. cbn [In] in H.
      repeat (destruct H as [H|H]; [injection H as _ <-|]); try contradiction; try exact Logic.I; try (now apply k_list_table);
        try (unfold parse_class; dh; nested; assumption);
        unfold parse_generic_admonition, parse_image, parse_figure, parse_code, parse_math_block, parse_sphinx_code_block,
          parse_sphinx_only, parse_aplus_questionnaire, parse_aplus_submit, parse_ae_input, parse_ae_output, parse_poi; dh.
      apply h_push_plain; [apply math_plain|assumption|intros; dh]. }
    induction directive_parsers as [|[name p] l IH].
    { cbn [find_parser]. unfold parse_unknown_directive. dh. }
    cbn [find_parser].
    destruct (str_eqb label (lit name)); [apply (HD name); left; auto|]. apply IH. intros. eapply HD. right. eauto.
  Qed.

  Lemma h_filled (Q : bool -> DocTree -> LineCursor -> Prop) x nodes d c : exact d -> stands (focused_data d) x -> forallb is_inline nodes = true ->
    (forall b d', exact d' -> Q b d' c) -> hs Q (push_filled x nodes) d c.
  Proof.
    intros HE P HN H. unfold push_filled. apply h_bind, h_place; [exact HE|exact P|]. intros [|] d1 H1; [|now apply H]. cbn [negb].
    apply h_bind, h_push_all; auto. intros [|] d2 H2; [|now apply H]. cbn [negb]. apply h_bind, h_parent; auto. intros. now apply H.
  Qed.
  Definition item_plain (item : caps -> prog (option (TreeNodeType * str))) : Prop :=
    forall cs d c (Q : option (TreeNodeType * str) -> DocTree -> LineCursor -> Prop),
      (forall x, match x with Some (n, _) => plain n = true | None => True end -> Q x d c) -> hs Q (item cs) d c.
  Lemma h_items r item (Q : bool -> DocTree -> LineCursor -> Prop) : item_plain item ->
    (forall b d' c', exact d' -> Q b d' c') ->
    forall fuel d c, exact d -> hs Q (items_loop fuel src (m_body m) r item) d c.
  Proof.
    intros HI HQ. induction fuel as [|f IH]; intros d c HE; [exact Logic.I|]. cbn [items_loop].
    apply h_bind, h_cursor. destruct (nth_error src (cur_offset c)) as [line|]; [|apply HQ; auto].
    destruct (negb _); [apply HQ; auto|]. destruct (captures r line); [|apply HQ; auto].
    apply h_bind, HI. intros [[x text]|] Hx; [|apply HQ; auto]. apply h_bind, h_inline; [exact HE|]. intros nodes d1 c1 HN HE1.
    destruct nodes; [apply HQ; auto|]. apply h_bind, h_filled; auto; [now apply plain_stands|]. intros [|] d2 HE2; [|apply HQ; auto]. cbn [negb].
    apply h_bind, h_advance, IH. exact HE2.
  Qed.
  Lemma i_one : item_plain pick_one_item.
  Proof. intros cs d c Q H. unfold pick_one_item. apply h_bind, h_cap. intros x. cbn [hsafe]. apply H. destruct (blank _); reflexivity || exact Logic.I. Qed.
  Lemma i_any : item_plain pick_any_item.
  Proof. intros cs d c Q H. unfold pick_any_item. apply h_bind, h_cap. intros x. cbn [hsafe]. apply H. destruct (blank _); reflexivity || exact Logic.I. Qed.
  Lemma i_hint t : item_plain (hint_item t).
  Proof.
    intros cs d c Q H. unfold hint_item. cbn [hsafe]. apply H. destruct (cap 3 cs); [|exact Logic.I]. destruct (cap 4 cs); [|exact Logic.I].
    destruct (blank _); [exact Logic.I|reflexivity].
  Qed.
  Lemma k_finish t d c : exact d -> hs leaf (finish_question src m t) d c.
  Proof.
    intros HE. unfold finish_question. dh. unfold items. apply h_items; [apply i_hint| |assumption]. intros b d2 c2 HE2. dh.
  Qed.
  Lemma h_choices r item d c (Q : bool -> DocTree -> LineCursor -> Prop) : item_plain item -> exact d ->
    (forall b d' c', exact d' -> Q b d' c') -> hs Q (pick_choices src m r item) d c.
  Proof.
    intros HI HE HQ. unfold pick_choices. dh; try (now apply HQ). unfold items. apply h_items; auto. intros b d3 c3 HE3. dh; now apply HQ.
  Qed.
  Lemma h_assignment d c (Q : option (list TreeNodeType) -> DocTree -> LineCursor -> Prop) : exact d ->
    (forall x d' c', exact d' -> tree d' = tree d -> match x with Some l => forallb is_inline l = true | None => True end -> Q x d' c') ->
    hs Q (assignment src m) d c.
  Proof.
    intros HE HQ. unfold assignment. h1. h1. h1. h1. apply h_bind, h_inline_tree; [apply HE|]. intros nodes d1 c1 HN I1 T1.
    assert (HE1 : exact d1) by (eapply exact_tree; eauto). dh; apply HQ; auto.
  Qed.
  Lemma h_pick_assignment r d c (Q : bool -> DocTree -> LineCursor -> Prop) : exact d -> text_column (focused_data d) = Some (m_body m) ->
    (forall b d' c', exact d' -> Q b d' c') -> hs Q (pick_assignment src m r) d c.
  Proof.
    intros HE F HQ. unfold pick_assignment. dh; try (now apply HQ). apply h_assignment; [assumption|].
    intros [l|] d2 c2 HE2 T2 Hl; [|now apply HQ]. apply h_filled; auto. unfold focused_data. rewrite T2. exact F.
  Qed.
  Lemma h_question (Q : bool -> DocTree -> LineCursor -> Prop) d c x : exact d -> plain x = true -> kind x <> KFootnote -> kind x <> KFootnoteReference ->
    (forall d', exact d' -> focused_data d' = x -> Q true d' c) -> (forall d', exact d' -> Q false d' c) -> hs Q (pushed (DPushFocus x)) d c.
  Proof.
    intros HE P K1 K2 H1 H2. cbn. intros a d' E. pose proof (place_pushed _ _ _ _ HE (plain_stands _ _ P) E) as HE'.
    destruct a; try (apply H2; exact HE'). apply H1; [exact HE'|]. exact (pushed_focus _ _ _ HE K1 K2 E).
  Qed.
  Lemma k_pick node r item t d c : item_plain item -> exact d -> plain node = true -> text_column node = Some (m_body m) ->
    kind node <> KFootnote -> kind node <> KFootnoteReference -> hs leaf (pick_question src m node r item t) d c.
  Proof.
    intros HI HE Hq HC K1 K2. unfold pick_question. apply h_bind, h_question; auto.
    intros d2 HE2 F2. cbn [negb].
    apply h_bind, h_pick_assignment; auto; [now rewrite F2|]. intros [|] d3 c3 HE3; cbn [negb]; [|now apply leaf_fail].
    apply h_bind, h_choices; auto. intros [|] d4 c4 HE4; cbn [negb]; [|now apply leaf_fail]. now apply k_finish.
  Qed.
  Lemma k_pick_one d c : exact d -> hs leaf (parse_aplus_pick_one src m) d c.
  Proof. intros HE. unfold parse_aplus_pick_one. dh. apply k_pick; [apply i_one|assumption|reflexivity|reflexivity|discriminate|discriminate]. Qed.
  Lemma k_pick_any d c : exact d -> hs leaf (parse_aplus_pick_any src m) d c.
  Proof. intros HE. unfold parse_aplus_pick_any. dh. apply k_pick; [apply i_any|assumption|reflexivity|reflexivity|discriminate|discriminate]. Qed.
  Lemma k_freetext d c : exact d -> hs leaf (parse_aplus_freetext src m) d c.
  Proof.
    intros HE. unfold parse_aplus_freetext. apply h_bind, h_arguments. intros args c1. destruct args as [|w args]; [now apply leaf_fail|].
    cbv zeta. destruct (and_then _ _) as [points|]; [|now apply leaf_fail]. h1. h1. apply h_bind, h_options. intros o c2.
    apply h_bind, h_question; [assumption|reflexivity|discriminate|discriminate| |intros d2 H2; exact H2]. intros d2 HE2 F2. cbn [negb].
    apply h_bind, h_skip. intros c3. apply h_bind, h_assignment; [assumption|]. intros [l'|] d3 c4 HE3 T3 Hl; [|now apply leaf_fail].
    apply h_bind, h_filled; auto; [unfold focused_data; rewrite T3; fold (focused_data d2); rewrite F2; reflexivity|].
    intros [|] d4 HE4; cbn [negb]; [|now apply leaf_fail]. dh. now apply k_finish.
  Qed.
End DirectiveParsers.
Lemma k_directive src base cs d c : exact d -> hs leaf (directive src base cs) d c.
Proof. intros HE. unfold directive. h2. now apply k_parser_for. Qed.
Lemma k_questionnaire_directive src base cs d c : exact d -> hs leaf (questionnaire_directive src base cs) d c.
Proof.
  intros HE. unfold questionnaire_directive. h2; first [now apply k_pick_one|now apply k_pick_any|now apply k_freetext].
Qed.

Theorem tables_keep : forall s tbl r t src base (line : str) cs d c, table s = Some tbl -> In (r, t) tbl -> captures r line = Some cs ->
  exact d -> hs leaf (t src base cs) d c.
Proof.
  intros s tbl r t src base line cs d c Ht Hin _ HE.
  assert (HX : hs leaf (empty_line src base cs) d c) by exact HE.
  assert (HU : hs leaf (back_up src base cs) d c) by exact HE.
  assert (HB : In (r, t) body_rest -> hs leaf (t src base cs) d c).
  { clear Ht Hin. unfold body_rest. intros Hin. cbn [In] in Hin.
    repeat (destruct Hin as [E|Hin]; [injection E as <- <-|]); try contradiction;
      first [ now apply k_bullet | now apply k_enumerator | now apply k_field | now apply k_footnote
            | now apply k_citation | now apply k_target | now apply k_directive
            | now apply k_comment | now apply k_line | now apply k_text ]. }
  destruct s; cbn [table] in Ht; try discriminate; apply some_inj in Ht; subst tbl;
    (unfold BODY_TRANSITIONS, BLOCK_QUOTE_TRANSITIONS, BULLET_LIST_TRANSITIONS, DEFINITION_LIST_TRANSITIONS,
       ENUMERATED_LIST_TRANSITIONS, FIELD_LIST_TRANSITIONS, LITERAL_BLOCK_TRANSITIONS, LIST_TABLE_TRANSITIONS,
       APLUS_MULTICOL_TRANSITIONS, APLUS_QUESTIONNAIRE_TRANSITIONS, empty_line_entry in Hin);
    cbn [In] in Hin;
    repeat first [ exact (HB Hin) | destruct Hin as [E|Hin]; [injection E as <- <-|] ];
    try contradiction; try assumption;
    first [ now apply k_attribution | now apply k_list_bullet | now apply k_definition
          | now apply k_list_enumerator | now apply k_list_field | now apply k_literal
          | now apply k_bullet | now apply k_col_break | now apply k_questionnaire_directive
          | now apply k_questionnaire_text ].
Qed.
Lemma new_exact : exact new_doctree.
Proof. split; [apply ib_inv, new_inv_built|]. unfold doc_local. apply (all_local_new exact_rule). constructor. Qed.
Theorem parse_columns fuel src r d : parse_source fuel src = Ret (r, d) -> exact d.
Proof.
  intros H. apply (parse_keeps exact exact table (fun _ x => x)) in H; [destruct r; exact H| |apply tables_keep|apply new_exact].
  intros d0 d1 HE E. apply (op_keeps DParent d0 AOk); auto. cbn [dop_exec]. rewrite E. reflexivity.
Qed.
