(* BornProofs.v -- what kinds of nodes the parser makes: every node of a document it
   returns is of one of them *)
From Verif Require Import Base Unicode Regex Patterns Common Converters NodeTypes Tree DocTree History Spec TreeProofs
  DocTreeProofs HyperrefProofs Blocks BlockProofs Prog ParseLoop LoopProofs Inline InlineProofs Body Directives Parser
  ParserProofs PointsSpec LocalProofs Hoare Transforms TransformProofs.
Require Import Lia.

(* the kinds of nodes the parser makes, and those the transforms make of them *)
Definition born (x : TreeNodeType) : bool :=
  match kind x with
  | KDocument | KSection | KParagraph | KText | KWhiteSpace | KEmphasis | KStrongEmphasis | KLiteral | KMath | KReference
  | KSubscript | KSuperscript | KTitleReference | KInterpretedText | KFootnoteReference | KCitationReference | KSubstitutionReference
  | KBulletList | KBulletListItem | KEnumeratedList | KEnumeratedListItem | KFieldList | KFieldListItem | KDefinitionList | KDefinitionListItem
  | KBlockQuote | KAttribution | KLiteralBlock | KTransition | KComment | KFootnote | KCitation
  | KExternalHyperlinkTarget | KIndirectHyperlinkTarget
  | KAdmonition | KImage | KFigure | KCode | KMathBlock | KClass | KListTable | KSphinxCodeBlock | KSphinxOnly | KUnknownDirective
  | KAplusPOI | KAplusColBreak | KAplusQuestionnaire | KAplusPickOne | KAplusPickAny | KAplusFreeText | KAplusPickChoices | KAplusPickChoice
  | KAplusQuestionnaireHints | KAplusQuestionnaireHint | KAplusSubmit | KAplusActiveElementInput | KAplusActiveElementOutput
  | KCaption | KTBody | KTRow | KEntry => true
  | _ => false
  end.
Definition born_rule (x : TreeNodeType) (l : list TreeNodeType) : Prop := born x = true.
Definition exact (d : DocTree) : Prop := inv d /\ doc_local born_rule d.
Definition plain (x : TreeNodeType) : bool := born x.
Lemma plain_kept x x' : born x = true -> kind x' = kind x -> born x' = true.
Proof. unfold born. intros P ->. exact P. Qed.
Definition plain_op (o : dop) : bool :=
  match o with
  | DPush x | DPushFocus x | DPushChild x => born x
  | _ => true
  end.
Lemma dop_inv o d a d' : inv d -> dop_exec o d = Ret (a, d') -> inv d'.
Proof. intros I H. apply dop_run in H as [->|[e H]]; auto. eapply step_inv; eauto. Qed.
Lemma update_exact f d a d' : exact d -> (forall x y, f x = Ret (Some y) -> kind y = kind x) ->
  update_data f d = Ret (a, d') -> doc_local born_rule d'.
Proof.
  intros [I H] Hf E. unfold update_data in E. destruct (f (focused_data d)) as [[y|]| |] eqn:Ef; cbn [obind] in E; try discriminate;
    apply Ret_inj in E; injection E as <- <-; auto.
  apply Hf in Ef. apply doc_data; auto; [apply (inv_wf _ I)|].
  intros G. now apply (plain_kept _ y G).
Qed.
Lemma push_exact d d' x n : exact d -> born x = true -> DocTreeProofs.pushed d d' x n ->
  document (tree d') = rebuild (tree d) (add_last (z_node (tree d)) n) -> doc_local born_rule d'.
Proof.
  intros [I H] P HP D. eapply doc_pushed; eauto; [apply (inv_wf _ I)|]. intros x' K S.
  pose proof (plain_kept _ _ P K) as P'. split; [exact P'|auto].
Qed.
Lemma pop_exact d c d' : exact d -> pop_child d = (c, d') -> doc_local born_rule d'.
Proof.
  intros [I H] E. apply pop_spec in E as (_ & _ & _ & E). pose proof (inv_wf _ I) as Hw. destruct c as [c|]; [|apply (doc_same _ d); [exact H|now rewrite E]].
  destruct E as (p & T & Ep & Hp). unfold doc_local. rewrite T, document_with. unfold doc_local, document in H. rewrite Ep in H.
  destruct (rebuild_local born_rule (tree d) Hw (add_last p c) p) as [G1 G2]; [auto|exact H|]. apply G2.
  apply all_local_unfold in G1. unfold add_last in G1. destruct (node_children p) as [cs|] eqn:Ec; [|congruence].
  destruct G1 as [A B]. rewrite children_with_children in B. apply all_local_unfold. rewrite Ec. unfold local_ok, born_rule in *. rewrite node_data_with_children in A.
  apply Forall_app in B. tauto.
Qed.
Lemma label_tree o d a d' : label_op o = true -> dop_exec o d = Ret (a, d') -> tree d' = tree d.
Proof.
  destruct o; try discriminate; intros _; cbn [dop_exec].
  - intros E. apply Ret_inj in E. injection E as <- <-. reflexivity.
  - unfold next_anon_target_label. destruct (u32_add _ _); cbn [obind]; try discriminate. intros E. apply Ret_inj in E. injection E as <- <-. reflexivity.
  - unfold next_anon_reference_label. destruct (u32_add _ _); cbn [obind]; try discriminate. intros E. apply Ret_inj in E. injection E as <- <-. reflexivity.
Qed.
Lemma op_keeps o d a d' : plain_op o = true -> exact d -> dop_exec o d = Ret (a, d') -> exact d'.
Proof.
  intros P HI E. split; [eapply dop_inv; eauto; apply HI|]. pose proof (inv_wf _ (proj1 HI)) as Hw.
  assert (HL : label_op o = true -> doc_local born_rule d').
  { intros HL. apply (label_tree _ _ _ _ HL) in E. apply (doc_same _ d); [apply HI|now rewrite E]. }
  destruct o; try discriminate P; try (apply HL; reflexivity); clear HL; cbn [dop_exec] in E; cbn [plain_op] in P.
  - destruct (is_section x); try discriminate.
    destruct (push_data d x) as [[y|y]| |] eqn:Ep; cbn [obind] in E; try discriminate; apply Ret_inj in E; injection E as <- <-.
    + apply push_data_spec in Ep as (n & PP & T). eapply push_exact; eauto. rewrite T. apply document_with.
    + apply push_data_spec in Ep as (T & _). apply (doc_same _ d); [apply HI|now rewrite T].
  - destruct (is_section x); try discriminate.
    destruct (push_data_and_focus d x) as [[y|y]| |] eqn:Ep; cbn [obind] in E; try discriminate; apply Ret_inj in E; injection E as <- <-.
    + apply push_data_and_focus_spec in Ep as (n & ks & PP & Ek & T); [|exact Hw]. eapply push_exact; eauto. rewrite T. apply focus_push_doc; auto.
    + apply push_data_and_focus_spec in Ep as (T & _); [|exact Hw]. apply (doc_same _ d); [apply HI|now rewrite T].
  - destruct (push_data_and_focus _ _) as [[y|y]| |] eqn:Ep; cbn [obind] in E; try discriminate; apply Ret_inj in E; injection E as <- <-.
    + apply push_data_and_focus_spec in Ep as (n & ks & PP & Ek & T); [|exact Hw]. eapply push_exact; eauto; [reflexivity|]. rewrite T. apply focus_push_doc; auto.
    + apply push_data_and_focus_spec in Ep as (T & _); [|exact Hw]. apply (doc_same _ d); [apply HI|now rewrite T].
  - destruct (is_section x); try discriminate.
    destruct (push_child _ _) as [[y [[]|z]]| |] eqn:Ep; cbn [obind] in E; try discriminate; apply Ret_inj in E; injection E as <- <-.
    + apply push_child_spec in Ep as (n & PP & T). eapply push_exact; eauto. rewrite T. apply document_with.
    + apply push_child_spec in Ep as (T & _). apply (doc_same _ d); [apply HI|now rewrite T].
  - destruct (pop_child d) as [c y] eqn:Ep. apply Ret_inj in E. injection E as <- <-. eapply pop_exact; eauto.
  - destruct (d_focus_on_parent d) eqn:Ep; cbn [obind] in E; try discriminate. apply Ret_inj in E. injection E as <- <-.
    apply d_parent_spec in Ep as (_ & D & _); [|exact Hw]. apply (doc_same _ d); [apply HI|exact D].
  - eapply update_exact; eauto. intros x y. destruct x; cbn; intros E'; try discriminate; apply Ret_inj, some_inj in E'; subst; reflexivity.
  - eapply update_exact; eauto. intros x y. destruct x; cbn; intros E'; try discriminate; apply Ret_inj, some_inj in E'; subst; reflexivity.
  - eapply update_exact; eauto. intros x y. destruct x; cbn [add_points]; intros E'; try discriminate.
    destruct (u32_add points_from_children n); cbn [obind] in E'; try discriminate; apply Ret_inj, some_inj in E'; subst; reflexivity.
  - eapply update_exact; eauto. intros x y. destruct x; cbn; intros E'; try discriminate; apply Ret_inj, some_inj in E'; subst; reflexivity.
Qed.

(* ---------- the transitions ---------- *)
Notation hs := (hsafe exact exact).
Notation leaf := (leaves exact exact).
Lemma h_doc (Q : DocTree -> DocTree -> LineCursor -> Prop) d c : Q d d c -> hs Q get_doc d c.
Proof. auto. Qed.
Lemma h_cursor (Q : LineCursor -> DocTree -> LineCursor -> Prop) d c : Q c d c -> hs Q get_cursor d c.
Proof. auto. Qed.
Lemma h_advance (Q : unit -> DocTree -> LineCursor -> Prop) d c m : Q tt d (cur_add c m) -> hs Q (advance m) d c.
Proof. auto. Qed.
Lemma h_doc_op (Q : answer -> DocTree -> LineCursor -> Prop) d c o : plain_op o = true -> exact d ->
  (forall a d', exact d' -> Q a d' c) -> hs Q (doc_op o) d c.
Proof. intros P HE H. cbn. intros a d' E. apply H. eapply op_keeps; eauto. Qed.
Lemma h_pushed (Q : bool -> DocTree -> LineCursor -> Prop) d c o : plain_op o = true -> exact d ->
  (forall b d', exact d' -> Q b d' c) -> hs Q (pushed o) d c.
Proof. intros P HE H. cbn. intros a d' E. apply H. eapply op_keeps; eauto. Qed.
Lemma h_parent (Q : unit -> DocTree -> LineCursor -> Prop) d c : exact d -> (forall u d', exact d' -> Q u d' c) -> hs Q focus_parent d c.
Proof. intros HE H. cbn. intros a d' E. apply H. apply (op_keeps DParent d a); auto. Qed.
Lemma h_label (Q : str -> DocTree -> LineCursor -> Prop) d c o : plain_op o = true -> exact d ->
  (forall s d', exact d' -> Q s d' c) -> hs Q (label_of o) d c.
Proof. intros P HE H. cbn. intros a d' E. destruct a; cbn; auto. apply H. eapply op_keeps; eauto. Qed.
Lemma h_cap (Q : str -> DocTree -> LineCursor -> Prop) d c g cs : (forall x, Q x d c) -> hs Q (get_cap g cs) d c.
Proof. intros H. unfold get_cap. destruct (cap g cs); cbn; auto. Qed.
Lemma h_cap_len (Q : nat -> DocTree -> LineCursor -> Prop) d c g cs : (forall x, Q x d c) -> hs Q (cap_len g cs) d c.
Proof. intros H. apply h_bind, h_cap. cbn. auto. Qed.
Lemma h_first (Q : char -> DocTree -> LineCursor -> Prop) d c s : (forall x, Q x d c) -> hs Q (first_char s) d c.
Proof. destruct s; cbn; auto. Qed.
Lemma h_lift {A} (Q : A -> DocTree -> LineCursor -> Prop) (m : outcome A) d c : (forall a, m = Ret a -> Q a d c) -> hs Q (lift m) d c.
Proof. destruct m; cbn; auto. Qed.
Lemma h_focus (Q : IndentationMatch -> DocTree -> LineCursor -> Prop) d c i : (forall m, Q m d c) -> hs Q (focus_matches i) d c.
Proof. intros H. unfold focus_matches. cbn. destruct (NodeTypes.body_indent (focused_data d)); cbn; auto. Qed.
Lemma runs_h {A} (Q : A -> DocTree -> LineCursor -> Prop) (p : prog A) d c : inv d -> runs false Q p d c ->
  hs (fun a d' c' => Q a d' c' /\ inv d' /\ tree d' = tree d) p d c.
Proof.
  revert d c. induction p as [a| | |k IH|o k IH|m k IH|src bi bl st k IH]; cbn [runs hsafe]; intros d c HI HS; auto; try tauto.
  destruct HS as (H1 & _ & H3). intros a d' E. pose proof (label_tree _ _ _ _ H1 E) as T. rewrite <- T.
  apply IH; [eapply dop_inv; eauto|auto].
Qed.
Lemma hs_mono {A} (P Q : A -> DocTree -> LineCursor -> Prop) (p : prog A) d c : hs P p d c ->
  (forall a d c, P a d c -> Q a d c) -> hs Q p d c.
Proof.
  intros H HF. revert d c H. induction p; cbn [hsafe]; intros d c HS; auto. destruct HS as [H1 H2]. split; auto.
Qed.
Lemma exact_tree d d' : exact d -> inv d' -> tree d' = tree d -> exact d'.
Proof. intros [A B] I T. split; auto. apply (doc_same _ d); [exact B|now rewrite T]. Qed.
Lemma inline_plain x : is_inline x = true -> plain x = true.
Proof. destruct x; try discriminate; reflexivity. Qed.
Lemma h_inline_tree (Q : list TreeNodeType -> DocTree -> LineCursor -> Prop) d c doc s : inv d ->
  (forall nodes d' c', forallb is_inline nodes = true -> inv d' -> tree d' = tree d -> Q nodes d' c') -> hs Q (inline_parse doc s) d c.
Proof.
  intros HI H. eapply hs_mono; [apply runs_h; [exact HI|apply inline_parse_ok; discriminate]|].
  cbn. intros a d' c' ([H1 _] & H2 & H3). auto.
Qed.
Lemma h_inline (Q : list TreeNodeType -> DocTree -> LineCursor -> Prop) d c doc s : exact d ->
  (forall nodes d' c', forallb is_inline nodes = true -> exact d' -> Q nodes d' c') -> hs Q (inline_parse doc s) d c.
Proof.
  intros HE H. apply h_inline_tree; [apply HE|]. intros nodes d' c' H1 H2 H3. apply H; auto. eapply exact_tree; eauto.
Qed.
Lemma h_push_plain (Q : bool -> DocTree -> LineCursor -> Prop) c l : forall d, forallb plain l = true -> exact d ->
  (forall b d', exact d' -> Q b d' c) -> hs Q (push_all l) d c.
Proof.
  induction l as [|x l IH]; intros d HL HE H; cbn [push_all]; [cbn; auto|]. cbn [forallb] in HL. apply andb_prop in HL as [H1 H2].
  apply h_bind, h_pushed; [exact H1|exact HE|]. intros [|] d' HE'; cbn [hsafe]; auto.
Qed.
Lemma h_push_all (Q : bool -> DocTree -> LineCursor -> Prop) c l d : forallb is_inline l = true -> exact d ->
  (forall b d', exact d' -> Q b d' c) -> hs Q (push_all l) d c.
Proof.
  intros H. apply h_push_plain. rewrite forallb_forall in *. intros x Hx. apply inline_plain. auto.
Qed.
Lemma math_plain blocks nm cl : forall n, forallb plain (math_nodes blocks nm cl n) = true.
Proof. induction blocks as [|b blocks IH]; intros n; cbn [math_nodes]; [reflexivity|]. cbn [forallb]. apply IH. Qed.
Lemma leaf_fail d c : exact d -> leaf TFailure d c.
Proof. intros H; exact H. Qed.

Ltac plain_tac := first [reflexivity | match goal with |- context[match ?x with _ => _ end] => destruct x; reflexivity end].
Ltac h1 := lazymatch goal with
  | |- hs _ (pbind _ _) _ _ => apply h_bind
  | |- hs _ get_doc _ _ => apply h_doc
  | |- hs _ get_cursor _ _ => apply h_cursor
  | |- hs _ (advance _) _ _ => apply h_advance
  | |- hs _ (doc_op _) _ _ => apply h_doc_op; [reflexivity|assumption|intros]
  | |- hs _ (pushed _) _ _ => apply h_pushed; [plain_tac|assumption|intros]
  | |- hs _ focus_parent _ _ => apply h_parent; [assumption|intros]
  | |- hs _ (label_of _) _ _ => apply h_label; [reflexivity|assumption|intros]
  | |- hs _ (get_cap _ _) _ _ => apply h_cap; intros
  | |- hs _ (cap_len _ _) _ _ => apply h_cap_len; intros
  | |- hs _ (first_char _) _ _ => apply h_first; intros
  | |- hs _ (inline_parse _ _) _ _ => apply h_inline; [assumption|intros]
  | |- hs _ (push_all _) _ _ => apply h_push_all; [assumption|assumption|intros]
  | |- hs _ (focus_matches _) _ _ => apply h_focus; intros
  | |- hs _ (lift _) _ _ => apply h_lift; intros
  end.
Ltac hsplit := match goal with
  | |- hs _ (if negb true then _ else _) _ _ => cbn [negb]
  | |- hs _ (if negb false then _ else _) _ _ => cbn [negb]
  | |- hs _ (if negb ?x then _ else _) _ _ => is_var x; destruct x; cbn [negb]
  | |- hs _ (match ?x with _ => _ end) _ _ => destruct x eqn:?
  end.
Ltac h := repeat first [ progress cbv beta zeta | h1 | match goal with |- hs _ (PRet _) _ _ => cbn [hsafe] end
  | match goal with |- hs _ PPanic _ _ => exact Logic.I end | hsplit
  | match goal with |- leaf (match ?x with _ => _ end) _ _ => destruct x eqn:? end
  | match goal with |- leaf TFailure _ _ => apply leaf_fail; assumption | |- leaf (TSuccess _ _) _ _ => assumption end ].
Lemma h_leave d c : exact d -> hs leaf leave d c.
Proof. intros. unfold leave. h. Qed.
Lemma h_quote d c i : exact d -> hs leaf (open_block_quote i) d c.
Proof. intros. unfold open_block_quote. h. Qed.
Lemma h_by_indent d c i p : exact d -> hs leaf p d c -> hs leaf (by_indent i p) d c.
Proof. intros HE H. unfold by_indent. apply h_bind, h_focus. intros [| |]; [now apply h_leave|auto|now apply h_quote]. Qed.
Lemma h_open_list d c x s : exact d -> plain x = true -> hs leaf (open_list x s) d c.
Proof. intros HE H. unfold open_list. apply h_bind, h_pushed; [exact H|exact HE|intros]. h. Qed.
Lemma h_open_node d c x s a : exact d -> plain x = true -> hs leaf (open_node x s a) d c.
Proof. intros HE H. unfold open_node. apply h_bind, h_pushed; [exact H|exact HE|intros]. h. Qed.
Lemma h_add_node d c x a : exact d -> plain x = true -> hs leaf (add_node x a) d c.
Proof. intros HE H. unfold add_node. apply h_bind, h_pushed; [exact H|exact HE|intros]. h. Qed.
Lemma h_first_block (src : list str) base ti fi st force d c (Q : option (list State * nat) -> DocTree -> LineCursor -> Prop) : exact d ->
  (forall r d' c', exact d' -> Q r d' c') ->
  hs Q (parse_first_node_block src base ti fi st force) d c.
Proof.
  intros HE HQ. unfold parse_first_node_block. h; [|now apply HQ]. cbn [hsafe]. split; [exact HE|].
  intros r d' Hr. apply HQ. destruct r; exact Hr.
Qed.
Lemma h_finish r d c : exact d -> leaf (finish_first_block r) d c.
Proof. destruct r as [[l k]|]; auto. Qed.
Ltac h2 := repeat first [ lazymatch goal with
  | |- hs _ leave _ _ => apply h_leave; assumption
  | |- hs _ (open_block_quote _) _ _ => apply h_quote; assumption
  | |- hs _ (by_indent _ _) _ _ => apply h_by_indent; [assumption|]
  | |- hs _ (open_list _ _) _ _ => apply h_open_list; [assumption|reflexivity]
  | |- hs _ (open_node _ _ _) _ _ => apply h_open_node; [assumption|reflexivity]
  | |- hs _ (add_node _ _) _ _ => apply h_add_node; [assumption|reflexivity]
  | |- hs _ (parse_first_node_block _ _ _ _ _ _) _ _ => apply h_first_block; [assumption|intros; cbn [hsafe]; now apply h_finish]
  end | progress h ].

Lemma k_paragraph src base i d c : exact d -> hs leaf (parse_paragraph src base i) d c.
Proof. intros HE. unfold parse_paragraph. h2. Qed.
Lemma k_section t st k d c : exact d -> hs leaf (open_section t st k) d c.
Proof. intros HE. unfold open_section. h2. Qed.
Ltac h3 := repeat first [ lazymatch goal with
  | |- hs _ (parse_paragraph _ _ _) _ _ => apply k_paragraph; assumption
  | |- hs _ (open_section _ _ _) _ _ => apply k_section; assumption
  end | progress h2 ].
Section Transitions.
  Variables (src : list str) (base : nat) (cs : caps) (d : DocTree) (c : LineCursor).
  Hypothesis HE : exact d.
  Lemma k_text cs' d' c' : exact d' -> hs leaf (body_text src base cs') d' c'.
  Proof. intros. unfold body_text. h3. Qed.
  Lemma k_bullet : hs leaf (body_bullet src base cs) d c.
  Proof. unfold body_bullet. h3. Qed.
  Lemma k_enumerator : hs leaf (body_enumerator src base cs) d c.
  Proof. unfold body_enumerator. h3. now apply k_text. Qed.
  Lemma k_field : hs leaf (body_field_marker src base cs) d c.
  Proof. unfold body_field_marker. h3. Qed.
  Lemma k_target : hs leaf (body_hyperlink_target src base cs) d c.
  Proof. unfold body_hyperlink_target. h3. Qed.
  Lemma k_comment : hs leaf (body_comment src base cs) d c.
  Proof. unfold body_comment. h3. Qed.
  Lemma k_line : hs leaf (body_line src base cs) d c.
  Proof. unfold body_line. h3. Qed.
  Lemma k_definition : hs leaf (definition_text src base cs) d c.
  Proof. unfold definition_text. h3. Qed.
  Lemma k_literal q : hs leaf (literal_block q src base cs) d c.
  Proof. unfold literal_block, parse_indented_literal, parse_quoted_literal. h3. Qed.
  Lemma k_attribution : hs leaf (attribution src base cs) d c.
  Proof. unfold attribution. h3. Qed.
  Lemma k_col_break : hs leaf (aplus_col_break src base cs) d c.
  Proof. unfold aplus_col_break. h3. Qed.
  Lemma k_questionnaire_text : hs leaf (questionnaire_text src base cs) d c.
  Proof. unfold questionnaire_text. h3. Qed.
  Lemma k_footnote : hs leaf (body_footnote src base cs) d c.
  Proof. unfold body_footnote. h3. Qed.
  Lemma k_citation : hs leaf (body_citation src base cs) d c.
  Proof. unfold body_citation. h3. Qed.
  Lemma k_list_field : hs leaf (list_field_marker src base cs) d c.
  Proof. unfold list_field_marker. h3. Qed.
  Lemma k_list_bullet : hs leaf (list_bullet src base cs) d c.
  Proof. unfold list_bullet. h3. Qed.
  Lemma k_list_enumerator : hs leaf (list_enumerator src base cs) d c.
  Proof.
    unfold list_enumerator. h3; try (now apply k_text). cbn [hsafe]. split; [assumption|].
    intros r d9 Hr. destruct r; exact Hr.
  Qed.
End Transitions.

(* ---------- directives ---------- *)
Lemma h_arguments src m d c (Q : list str -> DocTree -> LineCursor -> Prop) :
  (forall args c', Q args d c') -> hs Q (arguments src m) d c.
Proof. intros HQ. unfold arguments, scan_arguments. cbn. apply HQ. Qed.
Lemma h_options src m d c (Q : option_map -> DocTree -> LineCursor -> Prop) :
  (forall x c', Q x d c') -> hs Q (options src m) d c.
Proof.
  intros HQ. unfold options, scan_options. apply h_bind, h_cursor. destruct (option_lines _ _) as [l b].
  apply h_bind, h_advance. destruct l as [|x l]; [apply HQ|]. apply h_bind, h_advance. cbn [hsafe]. apply HQ.
Qed.
Lemma h_skip src d c (Q : unit -> DocTree -> LineCursor -> Prop) : (forall c', Q tt d c') -> hs Q (skip_empty src) d c.
Proof. intros HQ. unfold skip_empty. cbn. apply HQ. Qed.
Section DirectiveParsers.
  Variables (src : list str) (m : marker).
  Ltac dh := unfold body_block; repeat first [ lazymatch goal with
    | |- hs _ (arguments _ _) _ _ => apply h_arguments; intros
    | |- hs _ (options _ _) _ _ => apply h_options; intros
    | |- hs _ (skip_empty _) _ _ => apply h_skip; intros
    end | progress h3 ].
  Ltac nested := cbn [hsafe]; split; [assumption|]; let r := fresh in let Hr := fresh in intros r ? Hr; destruct r; cbn [ends] in Hr.
  Lemma h_unwind k c (Q : unit -> DocTree -> LineCursor -> Prop) : forall d, exact d ->
    (forall d', exact d' -> Q tt d' c) -> hs Q (unwind k) d c.
  Proof.
    induction k as [|k IH]; intros d HE H; cbn [unwind]; [apply H; auto|]. apply h_bind, h_parent; auto.
  Qed.
  Lemma k_list_table d c : exact d -> hs leaf (parse_list_table src m) d c.
  Proof.
    intros HE. unfold parse_list_table. dh. nested; [| |assumption]; (apply h_bind, h_unwind; [assumption|intros; dh]).
  Qed.
  Lemma k_parser_for label d c : exact d -> hs leaf (parser_for label src m) d c.
  Proof.
    intros HE. unfold parser_for. destruct (standard_admonition label).
    { unfold parse_standard_admonition. dh. nested; assumption. }
    assert (HD : forall name p, In (name, p) directive_parsers -> hs leaf (p src m) d c).
    { intros name p H. unfold directive_parsers in H. cbn [In] in H.
      repeat (destruct H as [H|H]; [injection H as _ <-|]); try contradiction; try exact Logic.I; try (now apply k_list_table);
        try (unfold parse_class; dh; nested; assumption);
        unfold parse_generic_admonition, parse_image, parse_figure, parse_code, parse_math_block, parse_sphinx_code_block,
          parse_sphinx_only, parse_aplus_questionnaire, parse_aplus_submit, parse_ae_input, parse_ae_output, parse_poi; dh.
      apply h_push_plain; [apply math_plain|assumption|intros; dh]. }
    induction directive_parsers as [|[name p] l IH].
    { cbn [find_parser]. unfold parse_unknown_directive. dh. }
    cbn [find_parser].
    destruct (str_eqb label (lit name)); [apply (HD name); left; auto|]. apply IH. intros. eapply HD. right. eauto.
  Qed.

  Lemma h_filled (Q : bool -> DocTree -> LineCursor -> Prop) x nodes d c : exact d -> plain x = true -> forallb is_inline nodes = true ->
    (forall b d', exact d' -> Q b d' c) -> hs Q (push_filled x nodes) d c.
  Proof.
    intros HE P HN H. unfold push_filled. apply h_bind, h_pushed; [exact P|exact HE|]. intros [|] d1 H1; [|now apply H]. cbn [negb].
    apply h_bind, h_push_all; auto. intros [|] d2 H2; [|now apply H]. cbn [negb]. apply h_bind, h_parent; auto. intros. now apply H.
  Qed.
  Definition item_plain (item : caps -> prog (option (TreeNodeType * str))) : Prop :=
    forall cs d c (Q : option (TreeNodeType * str) -> DocTree -> LineCursor -> Prop),
      (forall x, match x with Some (n, _) => plain n = true | None => True end -> Q x d c) -> hs Q (item cs) d c.
  Lemma h_items r item (Q : bool -> DocTree -> LineCursor -> Prop) : item_plain item ->
    (forall b d' c', exact d' -> Q b d' c') ->
    forall fuel d c, exact d -> hs Q (items_loop fuel src (m_body m) r item) d c.
  Proof.
    intros HI HQ. induction fuel as [|f IH]; intros d c HE; [exact Logic.I|]. cbn [items_loop].
    apply h_bind, h_cursor. destruct (nth_error src (cur_offset c)) as [line|]; [|apply HQ; auto].
    destruct (negb _); [apply HQ; auto|]. destruct (captures r line); [|apply HQ; auto].
    apply h_bind, HI. intros [[x text]|] Hx; [|apply HQ; auto]. apply h_bind, h_inline; [exact HE|]. intros nodes d1 c1 HN HE1.
    destruct nodes; [apply HQ; auto|]. apply h_bind, h_filled; auto. intros [|] d2 HE2; [|apply HQ; auto]. cbn [negb].
    apply h_bind, h_advance, IH. exact HE2.
  Qed.
  Lemma i_one : item_plain pick_one_item.
  Proof. intros cs d c Q H. unfold pick_one_item. apply h_bind, h_cap. intros x. cbn [hsafe]. apply H. destruct (blank _); reflexivity || exact Logic.I. Qed.
  Lemma i_any : item_plain pick_any_item.
  Proof. intros cs d c Q H. unfold pick_any_item. apply h_bind, h_cap. intros x. cbn [hsafe]. apply H. destruct (blank _); reflexivity || exact Logic.I. Qed.
  Lemma i_hint t : item_plain (hint_item t).
  Proof.
    intros cs d c Q H. unfold hint_item. cbn [hsafe]. apply H. destruct (cap 3 cs); [|exact Logic.I]. destruct (cap 4 cs); [|exact Logic.I].
    destruct (blank _); [exact Logic.I|reflexivity].
  Qed.
  Lemma k_finish t d c : exact d -> hs leaf (finish_question src m t) d c.
  Proof.
    intros HE. unfold finish_question. dh. unfold items. apply h_items; [apply i_hint| |assumption]. intros b d2 c2 HE2. dh.
  Qed.
  Lemma h_choices r item d c (Q : bool -> DocTree -> LineCursor -> Prop) : item_plain item -> exact d ->
    (forall b d' c', exact d' -> Q b d' c') -> hs Q (pick_choices src m r item) d c.
  Proof.
    intros HI HE HQ. unfold pick_choices. dh; try (now apply HQ). unfold items. apply h_items; auto. intros b d3 c3 HE3. dh; now apply HQ.
  Qed.
  Lemma h_assignment d c (Q : option (list TreeNodeType) -> DocTree -> LineCursor -> Prop) : exact d ->
    (forall x d' c', exact d' -> match x with Some l => forallb is_inline l = true | None => True end -> Q x d' c') ->
    hs Q (assignment src m) d c.
  Proof. intros HE HQ. unfold assignment. dh; apply HQ; auto. Qed.
  Lemma h_pick_assignment r d c (Q : bool -> DocTree -> LineCursor -> Prop) : exact d ->
    (forall b d' c', exact d' -> Q b d' c') -> hs Q (pick_assignment src m r) d c.
  Proof.
    intros HE HQ. unfold pick_assignment. dh; try (now apply HQ). apply h_assignment; [assumption|].
    intros [l|] d2 c2 HE2 Hl; [|now apply HQ]. apply h_filled; auto.
  Qed.
  Lemma k_pick node r item t d c : item_plain item -> exact d -> born node = true -> hs leaf (pick_question src m node r item t) d c.
  Proof.
    intros HI HE Hq. unfold pick_question. apply h_bind, h_pushed; [exact Hq|exact HE|]. intros [|] d2 HE2; cbn [negb]; [|exact HE2].
    apply h_bind, h_pick_assignment; auto. intros [|] d3 c3 HE3; cbn [negb]; [|now apply leaf_fail].
    apply h_bind, h_choices; auto. intros [|] d4 c4 HE4; cbn [negb]; [|now apply leaf_fail]. now apply k_finish.
  Qed.
  Lemma k_pick_one d c : exact d -> hs leaf (parse_aplus_pick_one src m) d c.
  Proof. intros HE. unfold parse_aplus_pick_one. dh. apply k_pick; [apply i_one|assumption|reflexivity]. Qed.
  Lemma k_pick_any d c : exact d -> hs leaf (parse_aplus_pick_any src m) d c.
  Proof. intros HE. unfold parse_aplus_pick_any. dh. apply k_pick; [apply i_any|assumption|reflexivity]. Qed.
  Lemma k_freetext d c : exact d -> hs leaf (parse_aplus_freetext src m) d c.
  Proof.
    intros HE. unfold parse_aplus_freetext. dh. apply h_assignment; [assumption|]. intros [l'|] d3 c3 HE3 Hl; [|now apply leaf_fail].
    apply h_bind, h_filled; auto. intros [|] d4 HE4; cbn [negb]; [|now apply leaf_fail]. dh. now apply k_finish.
  Qed.
End DirectiveParsers.
Lemma k_directive src base cs d c : exact d -> hs leaf (directive src base cs) d c.
Proof. intros HE. unfold directive. h2. now apply k_parser_for. Qed.
Lemma k_questionnaire_directive src base cs d c : exact d -> hs leaf (questionnaire_directive src base cs) d c.
Proof.
  intros HE. unfold questionnaire_directive. h2; first [now apply k_pick_one|now apply k_pick_any|now apply k_freetext].
Qed.

Theorem tables_keep : forall s tbl r t src base (line : str) cs d c, table s = Some tbl -> In (r, t) tbl -> captures r line = Some cs ->
  exact d -> hs leaf (t src base cs) d c.
Proof.
  intros s tbl r t src base line cs d c Ht Hin _ HE.
  assert (HX : hs leaf (empty_line src base cs) d c) by exact HE.
  assert (HU : hs leaf (back_up src base cs) d c) by exact HE.
  assert (HB : In (r, t) body_rest -> hs leaf (t src base cs) d c).
  { clear Ht Hin. unfold body_rest. intros Hin. cbn [In] in Hin.
    repeat (destruct Hin as [E|Hin]; [injection E as <- <-|]); try contradiction;
      first [ now apply k_bullet | now apply k_enumerator | now apply k_field | now apply k_footnote
            | now apply k_citation | now apply k_target | now apply k_directive
            | now apply k_comment | now apply k_line | now apply k_text ]. }
  destruct s; cbn [table] in Ht; try discriminate; apply some_inj in Ht; subst tbl;
    (unfold BODY_TRANSITIONS, BLOCK_QUOTE_TRANSITIONS, BULLET_LIST_TRANSITIONS, DEFINITION_LIST_TRANSITIONS,
       ENUMERATED_LIST_TRANSITIONS, FIELD_LIST_TRANSITIONS, LITERAL_BLOCK_TRANSITIONS, LIST_TABLE_TRANSITIONS,
       APLUS_MULTICOL_TRANSITIONS, APLUS_QUESTIONNAIRE_TRANSITIONS, empty_line_entry in Hin);
    cbn [In] in Hin;
    repeat first [ exact (HB Hin) | destruct Hin as [E|Hin]; [injection E as <- <-|] ];
    try contradiction; try assumption;
    first [ now apply k_attribution | now apply k_list_bullet | now apply k_definition
          | now apply k_list_enumerator | now apply k_list_field | now apply k_literal
          | now apply k_bullet | now apply k_col_break | now apply k_questionnaire_directive
          | now apply k_questionnaire_text ].
Qed.
Lemma new_exact : exact new_doctree.
Proof. split; [apply ib_inv, new_inv_built|]. unfold doc_local. apply (all_local_new born_rule). reflexivity. Qed.
Theorem parse_born fuel src r d : parse_source fuel src = Ret (r, d) -> exact d.
Proof.
  intros H. apply (parse_keeps exact exact table (fun _ x => x)) in H; [destruct r; exact H| |apply tables_keep|apply new_exact].
  intros d0 d1 HE E. apply (op_keeps DParent d0 AOk); auto. cbn [dop_exec]. rewrite E. reflexivity.
Qed.

(* ---------- the transforms ---------- *)
(* what holds of the data of every node, and of the data the transforms put in,
   holds after the transforms *)
Section Kept.
  Variable P : TreeNodeType -> Prop.
  Hypothesis Pcaption : forall k, P (NCaption k).
  Hypothesis Pbody : P NTBody.
  Hypothesis Prow : P NTRow.
  Hypothesis Pentry : forall b, P (NEntry b).
  Let rule (x : TreeNodeType) (l : list TreeNodeType) : Prop := P x.
  Let all (n : TreeNode) : Prop := all_local rule n.
  Lemma all_iff n : all n <-> P (node_data n) /\ match node_children n with Some cs => Forall all cs | None => True end.
  Proof. unfold all. rewrite all_local_unfold. reflexivity. Qed.
  Lemma all_data n x : P x -> all n -> all (with_data n x).
  Proof. rewrite !all_iff, children_with_data, data_with_data. tauto. Qed.
  Lemma all_children n cs : P (node_data n) -> Forall all cs -> all (with_children n (Some cs)).
  Proof. rewrite all_iff, node_data_with_children, children_with_children. auto. Qed.
  Lemma all_mark cells : Forall all cells -> Forall all (mark_entries cells).
  Proof.
    induction cells as [|c [|c2 t] IH]; [auto|intros H; inversion H; constructor; [now apply all_data|auto]|].
    change (mark_entries (c :: c2 :: t)) with (with_data c (NEntry false) :: mark_entries (c2 :: t)). intros H. inversion H. constructor; [now apply all_data|auto].
  Qed.
  Lemma all_item item m : all item -> transform_item item = Ret m -> all m.
  Proof.
    intros A H. destruct (item_cases item) as [X|[X|[X|[X _]]]].
    - destruct X as (b & i & t & nested & rest & cells & bi & ii & ti & D & C & DN & CN & _ & E). rewrite E in H. apply ret_eq in H. subst m.
      apply all_children; [rewrite data_with_data; apply Prow|]. apply all_mark. apply all_iff in A as [_ A]. rewrite C in A. inversion A as [|? ? A1 _]; subst.
      apply all_iff in A1 as [_ A1]. now rewrite CN in A1.
    - rewrite X in H. discriminate.
    - destruct X as (b & i & t & D & E & _). rewrite E in H. apply ret_eq in H. subst m. now apply all_data.
    - rewrite X in H. apply ret_eq in H. now subst.
  Qed.
  Lemma all_map {f : TreeNode -> outcome TreeNode} l : forall l', (forall x y, In x l -> all x -> f x = Ret y -> all y) -> Forall all l -> omap f l = Ret l' -> Forall all l'.
  Proof.
    induction l as [|x l IH]; intros l' Hf HA H; cbn [omap] in H; [apply ret_eq in H; now subst|].
    apply obind_inv in H as (y & E & H). apply obind_inv in H as (ys & E2 & H). apply ret_eq in H. subst. inversion HA; subst.
    constructor; [eapply Hf; eauto; now left|]. eapply IH; eauto. intros a b Hin. apply Hf. now right.
  Qed.
  Lemma all_here n m : all n -> transform_here n = Ret m -> all m.
  Proof.
    unfold transform_here. intros A H. pose proof A as A0. apply all_iff in A0 as [A1 A2].
    destruct (node_data n) eqn:D; destruct (node_children n) as [cs|] eqn:C; try (apply ret_eq in H; now subst).
    - destruct cs as [|a [|b rest]]; try (apply ret_eq in H; now subst).
      destruct (node_data b); try (apply ret_eq in H; now subst). apply ret_eq in H. subst m.
      apply all_children; [now rewrite D|]. inversion A2 as [|? ? B1 A3]; subst. inversion A3 as [|? ? B2 A4]; subst.
      constructor; [exact B1|]. constructor; [now apply all_data|exact A4].
    - destruct cs as [|l rest]; try (apply ret_eq in H; now subst).
      destruct (node_data l) eqn:DL; try (apply ret_eq in H; now subst).
      inversion A2 as [|? ? B1 A3]; subst. rewrite children_with_data in H. apply all_iff in B1 as [B0 B1].
      destruct (node_children l) as [items|] eqn:CL.
      + apply obind_inv in H as (rows & R & H). apply ret_eq in H. subst m. apply all_children; [now rewrite D|]. constructor; [|exact A3].
        apply all_children; [rewrite data_with_data; apply Pbody|]. eapply all_map; [|exact B1|exact R]. intros x y _. apply all_item.
      + apply ret_eq in H. subst m. apply all_children; [now rewrite D|]. constructor; [|exact A3]. apply all_data; [apply Pbody|].
        apply all_iff. rewrite CL. auto.
  Qed.
  Lemma all_transform f : forall n m, all n -> transform f n = Ret m -> all m.
  Proof.
    induction f as [|f IH]; intros n m A H; cbn [transform] in H; [discriminate|]. apply obind_inv in H as (n1 & E & H).
    apply (all_here _ _ A) in E. destruct (node_children n1) as [cs|] eqn:C; [|apply ret_eq in H; now subst].
    apply obind_inv in H as (cs' & E2 & H). apply ret_eq in H. subst m. apply all_iff in E as [E0 E1]. rewrite C in E1.
    apply all_children; [exact E0|]. eapply all_map; [|exact E1|exact E2]. intros x y _. apply IH.
  Qed.
  (* on whole documents *)
  Theorem transforms_keep d d' root root' : seen_from_root (tree d) root -> seen_from_root (tree d') root' -> perform_transforms d = Ret d' ->
    Forall (fun n => P (node_data n)) (preorder root) -> Forall (fun n => P (node_data n)) (preorder root').
  Proof.
    unfold seen_from_root, perform_transforms, d_walk_to_root. intros S S' H A. rewrite S in H. cbn [obind z_node tree d_set_tree z_with_node] in H.
    apply obind_inv in H as (m & T & H). cbn in H. apply ret_eq in H. subst d'. cbn in S'. apply ret_eq in S'.
    assert (m = root') by congruence. subst m. exact (all_transform _ _ _ A T).
  Qed.
End Kept.
