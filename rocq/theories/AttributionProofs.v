(* AttributionProofs.v -- who a quote is attributed to stands at the end of the quote:
   an attribution closes it, and nothing is put in a closed node *)
From Verif Require Import Base Unicode Regex Patterns Common Converters NodeTypes Tree DocTree History Spec TreeProofs
  DocTreeProofs HyperrefProofs Blocks BlockProofs Prog ParseLoop LoopProofs Inline InlineProofs Body Directives Parser
  ParserProofs PointsSpec LocalProofs Hoare AttributionSpec.
Require Import Lia.

(* the nodes that are still open: no attribution in them, and the outermost is the document *)
Fixpoint clean (z : TreeZipper) : Prop :=
  match z with
  | Zip n p _ => is_attribution (node_data n) = false /\ unattributed (child_data n) /\
      match p with Some q => clean q | None => kind (node_data n) = KDocument end
  end.
Lemma clean_node z : clean z -> is_attribution (node_data (z_node z)) = false /\ unattributed (child_data (z_node z)).
Proof. destruct z as [n p i]. cbn [clean z_node]. tauto. Qed.
Lemma clean_with z m : clean z -> is_attribution (node_data m) = false -> unattributed (child_data m) -> kind (node_data m) = kind (node_data (z_node z)) ->
  clean (z_with_node z m).
Proof. destruct z as [n p i]. cbn [clean z_with_node z_node]. intros (H1 & H2 & H3) A B K. split; [exact A|]. split; [exact B|]. destruct p; [exact H3|congruence]. Qed.
Definition exact (d : DocTree) : Prop := inv d /\ doc_local attributed_last d /\ clean (tree d).
Definition plain (x : TreeNodeType) : bool := negb (is_attribution x).
Lemma attribution_kind x y : kind y = kind x -> is_attribution y = is_attribution x.
Proof.
  assert (G : forall x, is_attribution x = match kind x with KAttribution => true | _ => false end) by (intros []; reflexivity).
  intros K. now rewrite !G, K.
Qed.
Lemma plain_kept x x' : plain x = true -> kind x' = kind x -> plain x' = true.
Proof. unfold plain. intros P K. now rewrite (attribution_kind _ _ K). Qed.
Definition plain_op (o : dop) : bool :=
  match o with
  | DPush x | DPushFocus x | DPushChild x => plain x
  | _ => true
  end.
Lemma dop_inv o d a d' : inv d -> dop_exec o d = Ret (a, d') -> inv d'.
Proof. intros I H. apply dop_run in H as [->|[e H]]; auto. eapply step_inv; eauto. Qed.
Lemma unattributed_app a b : unattributed (a ++ b) <-> unattributed a /\ unattributed b.
Proof. apply Forall_app. Qed.
Lemma split_last {A} (u v : list A) x w b : u ++ x :: v = w ++ [b] -> (v = [] /\ u = w /\ x = b) \/ exists v', v = v' ++ [b] /\ w = u ++ x :: v'.
Proof.
  destruct v as [|y v _] using rev_ind; intros E.
  - left. apply app_inj_tail in E as [-> ->]. auto.
  - right. exists v. change (u ++ x :: v ++ [y]) with (u ++ (x :: v) ++ [y]) in E. rewrite app_assoc in E. apply app_inj_tail in E as [<- ->]. auto.
Qed.
Lemma attributed_view x y : is_attribution x = false -> is_attribution y = false -> forall q u v, attributed_last q (u ++ x :: v) -> attributed_last q (u ++ y :: v).
Proof.
  intros Hx Hy q u v [H|(extra & w & who & -> & E & H)].
  - left. unfold unattributed in *. rewrite Forall_app, Forall_cons_iff in *. tauto.
  - apply split_last in E as [(-> & _ & ->)|(v' & -> & ->)]; [discriminate Hx|]. right. exists extra, (u ++ y :: v'), who. split; [reflexivity|].
    split; [now rewrite <- app_assoc|]. unfold unattributed in *. rewrite Forall_app, Forall_cons_iff in *. tauto.
Qed.
Lemma update_exact f d a d' : exact d -> (forall x y, f x = Ret (Some y) -> kind y = kind x /\ is_attribution x = false) ->
  update_data f d = Ret (a, d') -> doc_local attributed_last d' /\ clean (tree d').
Proof.
  intros (I & H & C) Hf E. unfold update_data in E. destruct (f (focused_data d)) as [[y|]| |] eqn:Ef; cbn [obind] in E; try discriminate;
    apply Ret_inj in E; injection E as <- <-; auto.
  apply Hf in Ef as [K A]. pose proof (attribution_kind _ _ K) as Ay. rewrite A in Ay. destruct (clean_node _ C) as [_ C2]. split.
  - apply doc_data; auto; [apply (inv_wf _ I)| |now apply attributed_view]. intros _. now left.
  - unfold set_focused_data. cbn [tree d_set_tree]. apply clean_with; auto; rewrite ?data_with_data, ?child_data_data; auto.
Qed.
Lemma child_data_add p c : node_children p <> None -> child_data (add_last p c) = child_data p ++ [node_data c].
Proof. intros H. unfold add_last. destruct (node_children p) as [cs|] eqn:E; [|congruence]. rewrite child_data_with, map_app. unfold child_data. now rewrite E. Qed.
Lemma data_add p c : node_data (add_last p c) = node_data p.
Proof. unfold add_last. apply node_data_with_children. Qed.
Lemma push_local d d' x n : exact d -> plain x = true -> DocTreeProofs.pushed d d' x n ->
  document (tree d') = rebuild (tree d) (add_last (z_node (tree d)) n) -> doc_local attributed_last d'.
Proof.
  intros (I & H & C) P HP D. eapply doc_pushed; eauto; [apply (inv_wf _ I)|]. intros x' K S.
  pose proof (plain_kept _ _ P K) as P'. split; [left; constructor|]. intros _. left. destruct (clean_node _ C) as [_ C2].
  apply unattributed_app. split; [exact C2|]. constructor; [|constructor]. now apply negb_true_iff in P'.
Qed.
Lemma pushed_plain d d' x n : plain x = true -> DocTreeProofs.pushed d d' x n -> is_attribution (node_data n) = false /\ unattributed (child_data n) /\ node_children (z_node (tree d)) <> None.
Proof.
  intros P (x' & rs & cs & -> & K & S & A & Hc & N). pose proof (plain_kept _ _ P K) as P'. apply negb_true_iff in P'. split; [exact P'|]. split; [|exact Hc].
  unfold new_node, child_data. destruct (can_have_children (kind x')); cbn; constructor.
Qed.
Lemma push_here d d' x n : exact d -> plain x = true -> DocTreeProofs.pushed d d' x n -> tree d' = z_with_node (tree d) (add_last (z_node (tree d)) n) ->
  doc_local attributed_last d' /\ clean (tree d').
Proof.
  intros HE P HP T. split; [eapply push_local; eauto; rewrite T; apply document_with|]. destruct HE as (I & H & C). destruct (pushed_plain _ _ _ _ P HP) as (A & _ & Hc).
  destruct (clean_node _ C) as [C1 C2]. rewrite T. apply clean_with; rewrite ?data_add, ?child_data_add; auto. apply unattributed_app. split; [exact C2|]. constructor; [exact A|constructor].
Qed.
Lemma push_focus d d' x n ks : exact d -> plain x = true -> DocTreeProofs.pushed d d' x n -> node_children (z_node (tree d)) = Some ks -> tree d' = Zip n (Some (tree d)) (Some (length ks)) ->
  doc_local attributed_last d' /\ clean (tree d').
Proof.
  intros HE P HP Ek T. split; [eapply push_local; eauto; rewrite T; apply focus_push_doc; auto|]. destruct HE as (I & H & C). destruct (pushed_plain _ _ _ _ P HP) as (A & B & _).
  rewrite T. cbn [clean]. auto.
Qed.
Lemma pop_exact d c d' : exact d -> pop_child d = (c, d') -> doc_local attributed_last d' /\ clean (tree d').
Proof.
  intros (I & H & C) E. apply pop_spec in E as (_ & _ & _ & E). pose proof (inv_wf _ I) as Hw.
  destruct c as [c|]; [|rewrite E; split; [apply (doc_same _ d); [exact H|now rewrite E]|exact C]].
  destruct E as (p & T & Ep & Hp). destruct (clean_node _ C) as [C1 C2]. rewrite Ep, data_add in C1. rewrite Ep, child_data_add in C2 by exact Hp. apply unattributed_app in C2 as [C2 _]. split.
  - unfold doc_local. rewrite T, document_with. unfold doc_local, document in H. rewrite Ep in H.
    destruct (rebuild_local attributed_last (tree d) Hw (add_last p c) p) as [G1 G2]; [intros; rewrite data_add in *; auto|exact H|]. apply G2.
    apply all_local_unfold in G1. unfold add_last in G1. destruct (node_children p) as [cs|] eqn:Ec; [|congruence].
    destruct G1 as [A B]. rewrite children_with_children in B. apply all_local_unfold. rewrite Ec. split; [now left|].
    apply Forall_app in B. tauto.
  - rewrite T. apply clean_with; auto. now rewrite Ep, data_add.
Qed.
Lemma parent_local d d' : wf (tree d) -> doc_local attributed_last d -> d_focus_on_parent d = Ret d' -> doc_local attributed_last d'.
Proof. intros Hw H Ep. apply d_parent_spec in Ep as (_ & D & _); [|exact Hw]. apply (doc_same _ d); [exact H|now rewrite D]. Qed.
(* the parent is clean, whatever is in the node that is left *)
Definition parent_clean (z : TreeZipper) : Prop :=
  is_attribution (node_data (z_node z)) = false /\ match z_parent z with Some q => clean q | None => False end.
Lemma parent_exact d d' : inv d -> doc_local attributed_last d -> parent_clean (tree d) -> d_focus_on_parent d = Ret d' -> clean (tree d').
Proof.
  intros I H [A C] Ep. pose proof (inv_wf _ I) as Hw. unfold d_focus_on_parent in Ep. destruct (tree d) as [n [q|] i] eqn:Et; cbn [z_node z_parent] in *; [|contradiction].
  destruct i as [i|]; [|contradiction]. rewrite focus_on_parent_wf in Ep by exact Hw. cbn [obind] in Ep. apply Ret_inj in Ep. subst d'. cbn [tree d_set_tree].
  destruct Hw as [_ Hi]. destruct (clean_node _ C) as [C1 C2]. unfold put_back. destruct (node_children (z_node q)) as [cs|] eqn:Ec; [|contradiction].
  apply clean_with; auto; rewrite ?node_data_with_children; auto. rewrite child_data_with. unfold child_data in C2. rewrite Ec in C2.
  unfold unswap. apply Forall_forall. intros y Hy. apply in_map_iff in Hy as (m & <- & Hm). unfold unattributed in C2. rewrite Forall_forall in C2.
  assert (G : In m cs \/ m = n); [|destruct G as [G|G]; [apply C2; now apply in_map|congruence]].
  assert (S : forall i y, In y (set_nth cs i n) -> In y cs \/ y = n).
  { clear. induction cs as [|x cs IH]; intros [|i] y; cbn [set_nth In]; intros Hy; try tauto; destruct Hy as [Hy|Hy]; auto. apply IH in Hy. tauto. }
  destruct (nth_error cs i) as [x|] eqn:Ex; apply in_app_or in Hm as [Hm|[<-|[]]]; auto.
  - now apply S in Hm.
  - left. eapply nth_error_In; eauto.
Qed.
Lemma label_tree o d a d' : label_op o = true -> dop_exec o d = Ret (a, d') -> tree d' = tree d.
Proof.
  destruct o; try discriminate; intros _; cbn [dop_exec].
  - intros E. apply Ret_inj in E. injection E as <- <-. reflexivity.
  - unfold next_anon_target_label. destruct (u32_add _ _); cbn [obind]; try discriminate. intros E. apply Ret_inj in E. injection E as <- <-. reflexivity.
  - unfold next_anon_reference_label. destruct (u32_add _ _); cbn [obind]; try discriminate. intros E. apply Ret_inj in E. injection E as <- <-. reflexivity.
Qed.
Lemma op_keeps o d a d' : plain_op o = true -> exact d -> dop_exec o d = Ret (a, d') -> exact d'.
Proof.
  intros P HI E. split; [eapply dop_inv; eauto; apply HI|]. pose proof (inv_wf _ (proj1 HI)) as Hw.
  assert (HS : tree d' = tree d -> doc_local attributed_last d' /\ clean (tree d')).
  { intros T. rewrite T. split; [apply (doc_same _ d); [apply HI|now rewrite T]|apply HI]. }
  assert (HL : label_op o = true -> doc_local attributed_last d' /\ clean (tree d')).
  { intros HL. apply HS. now apply (label_tree _ _ _ _ HL) in E. }
  destruct o; try discriminate P; try (apply HL; reflexivity); clear HL; cbn [dop_exec] in E; cbn [plain_op] in P.
  - destruct (is_section x); try discriminate.
    destruct (push_data d x) as [[y|y]| |] eqn:Ep; cbn [obind] in E; try discriminate; apply Ret_inj in E; injection E as <- <-.
    + apply push_data_spec in Ep as (n & PP & T). eapply push_here; eauto.
    + apply push_data_spec in Ep as (T & _). now apply HS.
  - destruct (is_section x); try discriminate.
    destruct (push_data_and_focus d x) as [[y|y]| |] eqn:Ep; cbn [obind] in E; try discriminate; apply Ret_inj in E; injection E as <- <-.
    + apply push_data_and_focus_spec in Ep as (n & ks & PP & Ek & T); [|exact Hw]. eapply push_focus; eauto.
    + apply push_data_and_focus_spec in Ep as (T & _); [|exact Hw]. now apply HS.
  - destruct (push_data_and_focus _ _) as [[y|y]| |] eqn:Ep; cbn [obind] in E; try discriminate; apply Ret_inj in E; injection E as <- <-.
    + apply push_data_and_focus_spec in Ep as (n & ks & PP & Ek & T); [|exact Hw]. eapply push_focus; eauto. reflexivity.
    + apply push_data_and_focus_spec in Ep as (T & _); [|exact Hw]. now apply HS.
  - destruct (is_section x); try discriminate.
    destruct (push_child _ _) as [[y [[]|z]]| |] eqn:Ep; cbn [obind] in E; try discriminate; apply Ret_inj in E; injection E as <- <-.
    + apply push_child_spec in Ep as (n & PP & T). eapply push_here; eauto.
    + apply push_child_spec in Ep as (T & _). now apply HS.
  - destruct (pop_child d) as [c y] eqn:Ep. apply Ret_inj in E. injection E as <- <-. eapply pop_exact; eauto.
  - destruct (d_focus_on_parent d) eqn:Ep; cbn [obind] in E; try discriminate. apply Ret_inj in E. injection E as <- <-.
    destruct (z_parent (tree d)) as [q|] eqn:Eq.
    + split; [eapply parent_local; eauto; apply HI|]. eapply parent_exact; eauto; try apply HI. split; [apply clean_node; apply HI|]. rewrite Eq.
      destruct HI as (_ & _ & C). destruct (tree d) as [n p i]. cbn [z_parent] in Eq. subst p. cbn [clean] in C. tauto.
    + apply HS. unfold d_focus_on_parent in Ep. destruct (tree d) as [n p i]. cbn [z_parent] in Eq. subst p. destruct i as [i|]; [contradiction|].
      cbn in Ep. apply Ret_inj in Ep. subst. reflexivity.
  - eapply update_exact; eauto. intros x y. destruct x; cbn; intros E'; try discriminate; apply Ret_inj, some_inj in E'; subst; split; reflexivity.
  - eapply update_exact; eauto. intros x y. destruct x; cbn; intros E'; try discriminate; apply Ret_inj, some_inj in E'; subst; split; reflexivity.
  - eapply update_exact; eauto. intros x y. destruct x; cbn [add_points]; intros E'; try discriminate.
    destruct (u32_add points_from_children n); cbn [obind] in E'; try discriminate; apply Ret_inj, some_inj in E'; subst; split; reflexivity.
  - eapply update_exact; eauto. intros x y. destruct x; cbn; intros E'; try discriminate; apply Ret_inj, some_inj in E'; subst; split; reflexivity.
Qed.
(* an attribution goes into a quote, and the quote is left *)
Lemma attribution_closes d who a d1 d2 : exact d -> dop_exec (DPush (NAttribution who)) d = Ret (a, d1) ->
  (a <> AOk -> exact d1) /\ (a = AOk -> forall b, dop_exec DParent d1 = Ret (b, d2) -> exact d2).
Proof.
  intros HI E. pose proof (inv_wf _ (proj1 HI)) as Hw. pose proof (dop_inv _ _ _ _ (proj1 HI) E) as I1. cbn [dop_exec is_section] in E.
  destruct (push_data d (NAttribution who)) as [[y|y]| |] eqn:Ep; cbn [obind] in E; try discriminate; apply Ret_inj in E; injection E as <- <-.
  - split; [congruence|]. intros _ b E2. pose proof (dop_inv _ _ _ _ I1 E2) as I2. split; [exact I2|].
    apply push_data_spec in Ep as (n & PP & T). destruct HI as (I & H & C).
    destruct (clean_node _ C) as [C1 C2].
    assert (Hq : exists extra, focused_data d = NBlockQuote extra).
    { destruct PP as (x' & rs & cs & _ & _ & _ & A & _). unfold focused_data, node_kind in *. destruct (node_data (z_node (tree d))); cbn in A; try discriminate A; eauto. }
    destruct Hq as (extra & Hq).
    assert (HL : doc_local attributed_last y).
    { eapply doc_pushed; eauto; [|rewrite T; apply document_with]. intros x' K S. split; [left; constructor|]. intros _. right. exists extra, (child_data (z_node (tree d))), who.
      split; [exact Hq|]. split; [|exact C2]. rewrite (S ltac:(discriminate) ltac:(discriminate)). reflexivity. }
    cbn [dop_exec] in E2. destruct (d_focus_on_parent y) eqn:Ef; cbn [obind] in E2; try discriminate. apply Ret_inj in E2. injection E2 as <- <-.
    split; [exact (parent_local _ _ (inv_wf _ I1) HL Ef)|]. apply (parent_exact y _ I1 HL); [|exact Ef]. rewrite T. unfold parent_clean. unfold focused_data in Hq. destruct (tree d) as [m p i]. cbn [z_with_node z_node z_parent] in *.
    split; [now rewrite data_add|]. cbn [clean] in C. destruct p as [p|]; [tauto|]. destruct C as (_ & _ & C). rewrite Hq in C. discriminate C.
  - split; [|congruence]. intros _. split; [exact I1|]. apply push_data_spec in Ep as (T & _). rewrite T. destruct HI as (I & H & C). split; [apply (doc_same _ d); [exact H|now rewrite T]|exact C].
Qed.

(* ---------- the transitions ---------- *)
Notation hs := (hsafe exact exact).
Notation leaf := (leaves exact exact).
Lemma h_doc (Q : DocTree -> DocTree -> LineCursor -> Prop) d c : Q d d c -> hs Q get_doc d c.
Proof. auto. Qed.
Lemma h_cursor (Q : LineCursor -> DocTree -> LineCursor -> Prop) d c : Q c d c -> hs Q get_cursor d c.
Proof. auto. Qed.
Lemma h_advance (Q : unit -> DocTree -> LineCursor -> Prop) d c m : Q tt d (cur_add c m) -> hs Q (advance m) d c.
Proof. auto. Qed.
Lemma h_doc_op (Q : answer -> DocTree -> LineCursor -> Prop) d c o : plain_op o = true -> exact d ->
  (forall a d', exact d' -> Q a d' c) -> hs Q (doc_op o) d c.
Proof. intros P HE H. cbn. intros a d' E. apply H. eapply op_keeps; eauto. Qed.
Lemma h_pushed (Q : bool -> DocTree -> LineCursor -> Prop) d c o : plain_op o = true -> exact d ->
  (forall b d', exact d' -> Q b d' c) -> hs Q (pushed o) d c.
Proof. intros P HE H. cbn. intros a d' E. apply H. eapply op_keeps; eauto. Qed.
Lemma h_parent (Q : unit -> DocTree -> LineCursor -> Prop) d c : exact d -> (forall u d', exact d' -> Q u d' c) -> hs Q focus_parent d c.
Proof. intros HE H. cbn. intros a d' E. apply H. apply (op_keeps DParent d a); auto. Qed.
Lemma h_label (Q : str -> DocTree -> LineCursor -> Prop) d c o : plain_op o = true -> exact d ->
  (forall s d', exact d' -> Q s d' c) -> hs Q (label_of o) d c.
Proof. intros P HE H. cbn. intros a d' E. destruct a; cbn; auto. apply H. eapply op_keeps; eauto. Qed.
Lemma h_cap (Q : str -> DocTree -> LineCursor -> Prop) d c g cs : (forall x, Q x d c) -> hs Q (get_cap g cs) d c.
Proof. intros H. unfold get_cap. destruct (cap g cs); cbn; auto. Qed.
Lemma h_cap_len (Q : nat -> DocTree -> LineCursor -> Prop) d c g cs : (forall x, Q x d c) -> hs Q (cap_len g cs) d c.
Proof. intros H. apply h_bind, h_cap. cbn. auto. Qed.
Lemma h_first (Q : char -> DocTree -> LineCursor -> Prop) d c s : (forall x, Q x d c) -> hs Q (first_char s) d c.
Proof. destruct s; cbn; auto. Qed.
Lemma h_lift {A} (Q : A -> DocTree -> LineCursor -> Prop) (m : outcome A) d c : (forall a, m = Ret a -> Q a d c) -> hs Q (lift m) d c.
Proof. destruct m; cbn; auto. Qed.
Lemma h_focus (Q : IndentationMatch -> DocTree -> LineCursor -> Prop) d c i : (forall m, Q m d c) -> hs Q (focus_matches i) d c.
Proof. intros H. unfold focus_matches. cbn. destruct (NodeTypes.body_indent (focused_data d)); cbn; auto. Qed.
Lemma runs_h {A} (Q : A -> DocTree -> LineCursor -> Prop) (p : prog A) d c : inv d -> runs false Q p d c ->
  hs (fun a d' c' => Q a d' c' /\ inv d' /\ tree d' = tree d) p d c.
Proof.
  revert d c. induction p as [a| | |k IH|o k IH|m k IH|src bi bl st k IH]; cbn [runs hsafe]; intros d c HI HS; auto; try tauto.
  destruct HS as (H1 & _ & H3). intros a d' E. pose proof (label_tree _ _ _ _ H1 E) as T. rewrite <- T.
  apply IH; [eapply dop_inv; eauto|auto].
Qed.
Lemma hs_mono {A} (P Q : A -> DocTree -> LineCursor -> Prop) (p : prog A) d c : hs P p d c ->
  (forall a d c, P a d c -> Q a d c) -> hs Q p d c.
Proof.
  intros H HF. revert d c H. induction p; cbn [hsafe]; intros d c HS; auto. destruct HS as [H1 H2]. split; auto.
Qed.
Lemma exact_tree d d' : exact d -> inv d' -> tree d' = tree d -> exact d'.
Proof. intros (A & B & C) I T. split; auto. rewrite T. split; auto. apply (doc_same _ d); [exact B|now rewrite T]. Qed.
Lemma inline_plain x : is_inline x = true -> plain x = true.
Proof. destruct x; try discriminate; reflexivity. Qed.
Lemma h_inline_tree (Q : list TreeNodeType -> DocTree -> LineCursor -> Prop) d c doc s : inv d ->
  (forall nodes d' c', forallb is_inline nodes = true -> inv d' -> tree d' = tree d -> Q nodes d' c') -> hs Q (inline_parse doc s) d c.
Proof.
  intros HI H. eapply hs_mono; [apply runs_h; [exact HI|apply inline_parse_ok; discriminate]|].
  cbn. intros a d' c' ([H1 _] & H2 & H3). auto.
Qed.
Lemma h_inline (Q : list TreeNodeType -> DocTree -> LineCursor -> Prop) d c doc s : exact d ->
  (forall nodes d' c', forallb is_inline nodes = true -> exact d' -> Q nodes d' c') -> hs Q (inline_parse doc s) d c.
Proof.
  intros HE H. apply h_inline_tree; [apply HE|]. intros nodes d' c' H1 H2 H3. apply H; auto. eapply exact_tree; eauto.
Qed.
Lemma h_push_plain (Q : bool -> DocTree -> LineCursor -> Prop) c l : forall d, forallb plain l = true -> exact d ->
  (forall b d', exact d' -> Q b d' c) -> hs Q (push_all l) d c.
Proof.
  induction l as [|x l IH]; intros d HL HE H; cbn [push_all]; [cbn; auto|]. cbn [forallb] in HL. apply andb_prop in HL as [H1 H2].
  apply h_bind, h_pushed; [exact H1|exact HE|]. intros [|] d' HE'; cbn [hsafe]; auto.
Qed.
Lemma h_push_all (Q : bool -> DocTree -> LineCursor -> Prop) c l d : forallb is_inline l = true -> exact d ->
  (forall b d', exact d' -> Q b d' c) -> hs Q (push_all l) d c.
Proof.
  intros H. apply h_push_plain. rewrite forallb_forall in *. intros x Hx. apply inline_plain. auto.
Qed.
Lemma math_plain blocks nm cl : forall n, forallb plain (math_nodes blocks nm cl n) = true.
Proof. induction blocks as [|b blocks IH]; intros n; cbn [math_nodes]; [reflexivity|]. cbn [forallb]. apply IH. Qed.
Lemma leaf_fail d c : exact d -> leaf TFailure d c.
Proof. intros H; exact H. Qed.

Ltac plain_tac := first [reflexivity | match goal with |- context[match ?x with _ => _ end] => destruct x; reflexivity end].
Ltac h1 := lazymatch goal with
  | |- hs _ (pbind _ _) _ _ => apply h_bind
  | |- hs _ get_doc _ _ => apply h_doc
  | |- hs _ get_cursor _ _ => apply h_cursor
  | |- hs _ (advance _) _ _ => apply h_advance
  | |- hs _ (doc_op _) _ _ => apply h_doc_op; [reflexivity|assumption|intros]
  | |- hs _ (pushed _) _ _ => apply h_pushed; [plain_tac|assumption|intros]
  | |- hs _ focus_parent _ _ => apply h_parent; [assumption|intros]
  | |- hs _ (label_of _) _ _ => apply h_label; [reflexivity|assumption|intros]
  | |- hs _ (get_cap _ _) _ _ => apply h_cap; intros
  | |- hs _ (cap_len _ _) _ _ => apply h_cap_len; intros
  | |- hs _ (first_char _) _ _ => apply h_first; intros
  | |- hs _ (inline_parse _ _) _ _ => apply h_inline; [assumption|intros]
  | |- hs _ (push_all _) _ _ => apply h_push_all; [assumption|assumption|intros]
  | |- hs _ (focus_matches _) _ _ => apply h_focus; intros
  | |- hs _ (lift _) _ _ => apply h_lift; intros
  end.
Ltac hsplit := match goal with
  | |- hs _ (if negb true then _ else _) _ _ => cbn [negb]
  | |- hs _ (if negb false then _ else _) _ _ => cbn [negb]
  | |- hs _ (if negb ?x then _ else _) _ _ => is_var x; destruct x; cbn [negb]
  | |- hs _ (match ?x with _ => _ end) _ _ => destruct x eqn:?
  end.
Ltac h := repeat first [ progress cbv beta zeta | h1 | match goal with |- hs _ (PRet _) _ _ => cbn [hsafe] end
  | match goal with |- hs _ PPanic _ _ => exact Logic.I end | hsplit
  | match goal with |- leaf (match ?x with _ => _ end) _ _ => destruct x eqn:? end
  | match goal with |- leaf TFailure _ _ => apply leaf_fail; assumption | |- leaf (TSuccess _ _) _ _ => assumption end ].
Lemma h_leave d c : exact d -> hs leaf leave d c.
Proof. intros. unfold leave. h. Qed.
Lemma h_quote d c i : exact d -> hs leaf (open_block_quote i) d c.
Proof. intros. unfold open_block_quote. h. Qed.
Lemma h_by_indent d c i p : exact d -> hs leaf p d c -> hs leaf (by_indent i p) d c.
Proof. intros HE H. unfold by_indent. apply h_bind, h_focus. intros [| |]; [now apply h_leave|auto|now apply h_quote]. Qed.
Lemma h_open_list d c x s : exact d -> plain x = true -> hs leaf (open_list x s) d c.
Proof. intros HE H. unfold open_list. apply h_bind, h_pushed; [exact H|exact HE|intros]. h. Qed.
Lemma h_open_node d c x s a : exact d -> plain x = true -> hs leaf (open_node x s a) d c.
Proof. intros HE H. unfold open_node. apply h_bind, h_pushed; [exact H|exact HE|intros]. h. Qed.
Lemma h_add_node d c x a : exact d -> plain x = true -> hs leaf (add_node x a) d c.
Proof. intros HE H. unfold add_node. apply h_bind, h_pushed; [exact H|exact HE|intros]. h. Qed.
Lemma h_first_block (src : list str) base ti fi st force d c (Q : option (list State * nat) -> DocTree -> LineCursor -> Prop) : exact d ->
  (forall r d' c', exact d' -> Q r d' c') ->
  hs Q (parse_first_node_block src base ti fi st force) d c.
Proof.
  intros HE HQ. unfold parse_first_node_block. h; [|now apply HQ]. cbn [hsafe]. split; [exact HE|].
  intros r d' Hr. apply HQ. destruct r; exact Hr.
Qed.
Lemma h_finish r d c : exact d -> leaf (finish_first_block r) d c.
Proof. destruct r as [[l k]|]; auto. Qed.
Ltac h2 := repeat first [ lazymatch goal with
  | |- hs _ leave _ _ => apply h_leave; assumption
  | |- hs _ (open_block_quote _) _ _ => apply h_quote; assumption
  | |- hs _ (by_indent _ _) _ _ => apply h_by_indent; [assumption|]
  | |- hs _ (open_list _ _) _ _ => apply h_open_list; [assumption|reflexivity]
  | |- hs _ (open_node _ _ _) _ _ => apply h_open_node; [assumption|reflexivity]
  | |- hs _ (add_node _ _) _ _ => apply h_add_node; [assumption|reflexivity]
  | |- hs _ (parse_first_node_block _ _ _ _ _ _) _ _ => apply h_first_block; [assumption|intros; cbn [hsafe]; now apply h_finish]
  end | progress h ].

Lemma k_paragraph src base i d c : exact d -> hs leaf (parse_paragraph src base i) d c.
Proof. intros HE. unfold parse_paragraph. h2. Qed.
Lemma k_section t st k d c : exact d -> hs leaf (open_section t st k) d c.
Proof. intros HE. unfold open_section. h2. Qed.
Ltac h3 := repeat first [ lazymatch goal with
  | |- hs _ (parse_paragraph _ _ _) _ _ => apply k_paragraph; assumption
  | |- hs _ (open_section _ _ _) _ _ => apply k_section; assumption
  end | progress h2 ].
Section Transitions.
  Variables (src : list str) (base : nat) (cs : caps) (d : DocTree) (c : LineCursor).
  Hypothesis HE : exact d.
  Lemma k_text cs' d' c' : exact d' -> hs leaf (body_text src base cs') d' c'.
  Proof. intros. unfold body_text. h3. Qed.
  Lemma k_bullet : hs leaf (body_bullet src base cs) d c.
  Proof. unfold body_bullet. h3. Qed.
  Lemma k_enumerator : hs leaf (body_enumerator src base cs) d c.
  Proof. unfold body_enumerator. h3. now apply k_text. Qed.
  Lemma k_field : hs leaf (body_field_marker src base cs) d c.
  Proof. unfold body_field_marker. h3. Qed.
  Lemma k_target : hs leaf (body_hyperlink_target src base cs) d c.
  Proof. unfold body_hyperlink_target. h3. Qed.
  Lemma k_comment : hs leaf (body_comment src base cs) d c.
  Proof. unfold body_comment. h3. Qed.
  Lemma k_line : hs leaf (body_line src base cs) d c.
  Proof. unfold body_line. h3. Qed.
  Lemma k_definition : hs leaf (definition_text src base cs) d c.
  Proof. unfold definition_text. h3. Qed.
  Lemma k_literal q : hs leaf (literal_block q src base cs) d c.
  Proof. unfold literal_block, parse_indented_literal, parse_quoted_literal. h3. Qed.
  Lemma h_closing (Q : tresult -> DocTree -> LineCursor -> Prop) who off d0 c0 : exact d0 -> (forall d', exact d' -> Q TFailure d' c0) -> (forall d', exact d' -> Q (TSuccess Pop off) d' c0) ->
    hs Q (let* ok := pushed (DPush (NAttribution who)) in if negb ok then PRet TFailure else let* _ := focus_parent in PRet (TSuccess Pop off)) d0 c0.
  Proof.
    intros H0 HF HS. cbn [pbind pushed hsafe]. intros a d1 E1. destruct (attribution_closes d0 who a d1 d1 H0 E1) as [G _].
    destruct a; cbn [negb hsafe]; try (apply HF, G; discriminate). intros b d2 E2. apply HS.
    destruct (attribution_closes d0 who AOk d1 d2 H0 E1) as [_ G2]. exact (G2 eq_refl b E2).
  Qed.
  Lemma k_attribution : hs leaf (attribution src base cs) d c.
  Proof.
    unfold attribution. apply h_bind, h_cap_len. intros i. apply h_by_indent; [assumption|].
    apply h_bind, h_cursor. apply h_bind, h_lift. intros line _. apply h_bind, h_lift. intros n _. apply h_bind, h_lift. intros suffix _. apply h_bind, h_lift. intros [ib|] _; [|exact Logic.I].
    apply h_closing; auto.
  Qed.
  Lemma k_col_break : hs leaf (aplus_col_break src base cs) d c.
  Proof. unfold aplus_col_break. h3. Qed.
  Lemma k_questionnaire_text : hs leaf (questionnaire_text src base cs) d c.
  Proof. unfold questionnaire_text. h3. Qed.
  Lemma k_footnote : hs leaf (body_footnote src base cs) d c.
  Proof. unfold body_footnote. h3. Qed.
  Lemma k_citation : hs leaf (body_citation src base cs) d c.
  Proof. unfold body_citation. h3. Qed.
  Lemma k_list_field : hs leaf (list_field_marker src base cs) d c.
  Proof. unfold list_field_marker. h3. Qed.
  Lemma k_list_bullet : hs leaf (list_bullet src base cs) d c.
  Proof. unfold list_bullet. h3. Qed.
  Lemma k_list_enumerator : hs leaf (list_enumerator src base cs) d c.
  Proof.
    unfold list_enumerator. h3; try (now apply k_text). cbn [hsafe]. split; [assumption|].
    intros r d9 Hr. destruct r; exact Hr.
  Qed.
End Transitions.

(* ---------- directives ---------- *)
Lemma h_arguments src m d c (Q : list str -> DocTree -> LineCursor -> Prop) :
  (forall args c', Q args d c') -> hs Q (arguments src m) d c.
Proof. intros HQ. unfold arguments, scan_arguments. cbn. apply HQ. Qed.
Lemma h_options src m d c (Q : option_map -> DocTree -> LineCursor -> Prop) :
  (forall x c', Q x d c') -> hs Q (options src m) d c.
Proof.
  intros HQ. unfold options, scan_options. apply h_bind, h_cursor. destruct (option_lines _ _) as [l b].
  apply h_bind, h_advance. destruct l as [|x l]; [apply HQ|]. apply h_bind, h_advance. cbn [hsafe]. apply HQ.
Qed.
Lemma h_skip src d c (Q : unit -> DocTree -> LineCursor -> Prop) : (forall c', Q tt d c') -> hs Q (skip_empty src) d c.
Proof. intros HQ. unfold skip_empty. cbn. apply HQ. Qed.
Section DirectiveParsers.
  Variables (src : list str) (m : marker).
  Ltac dh := unfold body_block; repeat first [ lazymatch goal with
    | |- hs _ (arguments _ _) _ _ => apply h_arguments; intros
    | |- hs _ (options _ _) _ _ => apply h_options; intros
    | |- hs _ (skip_empty _) _ _ => apply h_skip; intros
    end | progress h3 ].
  Ltac nested := cbn [hsafe]; split; [assumption|]; let r := fresh in let Hr := fresh in intros r ? Hr; destruct r; cbn [ends] in Hr.
  Lemma h_unwind k c (Q : unit -> DocTree -> LineCursor -> Prop) : forall d, exact d ->
    (forall d', exact d' -> Q tt d' c) -> hs Q (unwind k) d c.
  Proof.
    induction k as [|k IH]; intros d HE H; cbn [unwind]; [apply H; auto|]. apply h_bind, h_parent; auto.
  Qed.
  Lemma k_list_table d c : exact d -> hs leaf (parse_list_table src m) d c.
  Proof.
    intros HE. unfold parse_list_table. dh. nested; [| |assumption]; (apply h_bind, h_unwind; [assumption|intros; dh]).
  Qed.
  Lemma k_parser_for label d c : exact d -> hs leaf (parser_for label src m) d c.
  Proof.
    intros HE. unfold parser_for. destruct (standard_admonition label).
    { unfold parse_standard_admonition. dh. nested; assumption. }
    assert (HD : forall name p, In (name, p) directive_parsers -> hs leaf (p src m) d c).
    { intros name p H. unfold directive_parsers in H. cbn [In] in H.
      repeat (destruct H as [H|H]; [injection H as _ <-|]); try contradiction; try exact Logic.I; try (now apply k_list_table);
        try (unfold parse_class; dh; nested; assumption);
        unfold parse_generic_admonition, parse_image, parse_figure, parse_code, parse_math_block, parse_sphinx_code_block,
          parse_sphinx_only, parse_aplus_questionnaire, parse_aplus_submit, parse_ae_input, parse_ae_output, parse_poi; dh.
      apply h_push_plain; [apply math_plain|assumption|intros; dh]. }
    induction directive_parsers as [|[name p] l IH].
    { cbn [find_parser]. unfold parse_unknown_directive. dh. }
    cbn [find_parser].
    destruct (str_eqb label (lit name)); [apply (HD name); left; auto|]. apply IH. intros. eapply HD. right. eauto.
  Qed.

  Lemma h_filled (Q : bool -> DocTree -> LineCursor -> Prop) x nodes d c : exact d -> plain x = true -> forallb is_inline nodes = true ->
    (forall b d', exact d' -> Q b d' c) -> hs Q (push_filled x nodes) d c.
  Proof.
    intros HE P HN H. unfold push_filled. apply h_bind, h_pushed; [exact P|exact HE|]. intros [|] d1 H1; [|now apply H]. cbn [negb].
    apply h_bind, h_push_all; auto. intros [|] d2 H2; [|now apply H]. cbn [negb]. apply h_bind, h_parent; auto. intros. now apply H.
  Qed.
  Definition item_plain (item : caps -> prog (option (TreeNodeType * str))) : Prop :=
    forall cs d c (Q : option (TreeNodeType * str) -> DocTree -> LineCursor -> Prop),
      (forall x, match x with Some (n, _) => plain n = true | None => True end -> Q x d c) -> hs Q (item cs) d c.
  Lemma h_items r item (Q : bool -> DocTree -> LineCursor -> Prop) : item_plain item ->
    (forall b d' c', exact d' -> Q b d' c') ->
    forall fuel d c, exact d -> hs Q (items_loop fuel src (m_body m) r item) d c.
  Proof.
    intros HI HQ. induction fuel as [|f IH]; intros d c HE; [exact Logic.I|]. cbn [items_loop].
    apply h_bind, h_cursor. destruct (nth_error src (cur_offset c)) as [line|]; [|apply HQ; auto].
    destruct (negb _); [apply HQ; auto|]. destruct (captures r line); [|apply HQ; auto].
    apply h_bind, HI. intros [[x text]|] Hx; [|apply HQ; auto]. apply h_bind, h_inline; [exact HE|]. intros nodes d1 c1 HN HE1.
    destruct nodes; [apply HQ; auto|]. apply h_bind, h_filled; auto. intros [|] d2 HE2; [|apply HQ; auto]. cbn [negb].
    apply h_bind, h_advance, IH. exact HE2.
  Qed.
  Lemma i_one : item_plain pick_one_item.
  Proof. intros cs d c Q H. unfold pick_one_item. apply h_bind, h_cap. intros x. cbn [hsafe]. apply H. destruct (blank _); reflexivity || exact Logic.I. Qed.
  Lemma i_any : item_plain pick_any_item.
  Proof. intros cs d c Q H. unfold pick_any_item. apply h_bind, h_cap. intros x. cbn [hsafe]. apply H. destruct (blank _); reflexivity || exact Logic.I. Qed.
  Lemma i_hint t : item_plain (hint_item t).
  Proof.
    intros cs d c Q H. unfold hint_item. cbn [hsafe]. apply H. destruct (cap 3 cs); [|exact Logic.I]. destruct (cap 4 cs); [|exact Logic.I].
    destruct (blank _); [exact Logic.I|reflexivity].
  Qed.
  Lemma k_finish t d c : exact d -> hs leaf (finish_question src m t) d c.
  Proof.
    intros HE. unfold finish_question. dh. unfold items. apply h_items; [apply i_hint| |assumption]. intros b d2 c2 HE2. dh.
  Qed.
  Lemma h_choices r item d c (Q : bool -> DocTree -> LineCursor -> Prop) : item_plain item -> exact d ->
    (forall b d' c', exact d' -> Q b d' c') -> hs Q (pick_choices src m r item) d c.
  Proof.
    intros HI HE HQ. unfold pick_choices. dh; try (now apply HQ). unfold items. apply h_items; auto. intros b d3 c3 HE3. dh; now apply HQ.
  Qed.
  Lemma h_assignment d c (Q : option (list TreeNodeType) -> DocTree -> LineCursor -> Prop) : exact d ->
    (forall x d' c', exact d' -> match x with Some l => forallb is_inline l = true | None => True end -> Q x d' c') ->
    hs Q (assignment src m) d c.
  Proof. intros HE HQ. unfold assignment. dh; apply HQ; auto. Qed.
  Lemma h_pick_assignment r d c (Q : bool -> DocTree -> LineCursor -> Prop) : exact d ->
    (forall b d' c', exact d' -> Q b d' c') -> hs Q (pick_assignment src m r) d c.
  Proof.
    intros HE HQ. unfold pick_assignment. dh; try (now apply HQ). apply h_assignment; [assumption|].
    intros [l|] d2 c2 HE2 Hl; [|now apply HQ]. apply h_filled; auto.
  Qed.
  Lemma k_pick node r item t d c : item_plain item -> exact d -> plain node = true -> hs leaf (pick_question src m node r item t) d c.
  Proof.
    intros HI HE Hq. unfold pick_question. apply h_bind, h_pushed; [exact Hq|exact HE|]. intros [|] d2 HE2; cbn [negb]; [|exact HE2].
    apply h_bind, h_pick_assignment; auto. intros [|] d3 c3 HE3; cbn [negb]; [|now apply leaf_fail].
    apply h_bind, h_choices; auto. intros [|] d4 c4 HE4; cbn [negb]; [|now apply leaf_fail]. now apply k_finish.
  Qed.
  Lemma k_pick_one d c : exact d -> hs leaf (parse_aplus_pick_one src m) d c.
  Proof. intros HE. unfold parse_aplus_pick_one. dh. apply k_pick; [apply i_one|assumption|reflexivity]. Qed.
  Lemma k_pick_any d c : exact d -> hs leaf (parse_aplus_pick_any src m) d c.
  Proof. intros HE. unfold parse_aplus_pick_any. dh. apply k_pick; [apply i_any|assumption|reflexivity]. Qed.
  Lemma k_freetext d c : exact d -> hs leaf (parse_aplus_freetext src m) d c.
  Proof.
    intros HE. unfold parse_aplus_freetext. dh. apply h_assignment; [assumption|]. intros [l'|] d3 c3 HE3 Hl; [|now apply leaf_fail].
    apply h_bind, h_filled; auto. intros [|] d4 HE4; cbn [negb]; [|now apply leaf_fail]. dh. now apply k_finish.
  Qed.
End DirectiveParsers.
Lemma k_directive src base cs d c : exact d -> hs leaf (directive src base cs) d c.
Proof. intros HE. unfold directive. h2. now apply k_parser_for. Qed.
Lemma k_questionnaire_directive src base cs d c : exact d -> hs leaf (questionnaire_directive src base cs) d c.
Proof.
  intros HE. unfold questionnaire_directive. h2; first [now apply k_pick_one|now apply k_pick_any|now apply k_freetext].
Qed.

Theorem tables_keep : forall s tbl r t src base (line : str) cs d c, table s = Some tbl -> In (r, t) tbl -> captures r line = Some cs ->
  exact d -> hs leaf (t src base cs) d c.
Proof.
  intros s tbl r t src base line cs d c Ht Hin _ HE.
  assert (HX : hs leaf (empty_line src base cs) d c) by exact HE.
  assert (HU : hs leaf (back_up src base cs) d c) by exact HE.
  assert (HB : In (r, t) body_rest -> hs leaf (t src base cs) d c).
  { clear Ht Hin. unfold body_rest. intros Hin. cbn [In] in Hin.
    repeat (destruct Hin as [E|Hin]; [injection E as <- <-|]); try contradiction;
      first [ now apply k_bullet | now apply k_enumerator | now apply k_field | now apply k_footnote
            | now apply k_citation | now apply k_target | now apply k_directive
            | now apply k_comment | now apply k_line | now apply k_text ]. }
  destruct s; cbn [table] in Ht; try discriminate; apply some_inj in Ht; subst tbl;
    (unfold BODY_TRANSITIONS, BLOCK_QUOTE_TRANSITIONS, BULLET_LIST_TRANSITIONS, DEFINITION_LIST_TRANSITIONS,
       ENUMERATED_LIST_TRANSITIONS, FIELD_LIST_TRANSITIONS, LITERAL_BLOCK_TRANSITIONS, LIST_TABLE_TRANSITIONS,
       APLUS_MULTICOL_TRANSITIONS, APLUS_QUESTIONNAIRE_TRANSITIONS, empty_line_entry in Hin);
    cbn [In] in Hin;
    repeat first [ exact (HB Hin) | destruct Hin as [E|Hin]; [injection E as <- <-|] ];
    try contradiction; try assumption;
    first [ now apply k_attribution | now apply k_list_bullet | now apply k_definition
          | now apply k_list_enumerator | now apply k_list_field | now apply k_literal
          | now apply k_bullet | now apply k_col_break | now apply k_questionnaire_directive
          | now apply k_questionnaire_text ].
Qed.
Lemma new_exact : exact new_doctree.
Proof. split; [apply ib_inv, new_inv_built|]. split; [unfold doc_local; apply (all_local_new attributed_last); left; constructor|]. cbn. split; [reflexivity|]. split; [constructor|reflexivity]. Qed.
Theorem parse_attributed fuel src r d : parse_source fuel src = Ret (r, d) -> exact d.
Proof.
  intros H. apply (parse_keeps exact exact table (fun _ x => x)) in H; [destruct r; exact H| |apply tables_keep|apply new_exact].
  intros d0 d1 HE E. apply (op_keeps DParent d0 AOk); auto. cbn [dop_exec]. rewrite E. reflexivity.
Qed.

