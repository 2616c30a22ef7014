(* Properties28.v -- C65, C66: the columns blocks stand in *)
From Verif Require Import Base Regex Common Converters NodeTypes Tree DocTree History Spec TreeProofs DocTreeProofs HyperrefProofs Properties2
  Prog ParseLoop BlockProofs LoopProofs Parser ParserProofs ParserSpec Properties8 Properties9 Hoare PointsSpec ListSpec ColumnSpec LocalProofs ColumnProofs Properties27.
Require Import Lia.

(* of every source: a paragraph or a list directly in another block stands in the
   column where the content of that block starts, a quote to the right of it *)
Theorem C65_columns fuel src r d root n inner :
  parse_source fuel src = Ret (r, d) -> seen_from_root (tree d) root -> In n (preorder root) -> In inner (child_data n) ->
  stands (node_data n) inner.
Proof.
  intros H S Hn Hi. apply parse_columns in H as [HI HL].
  apply seen_is_document in S; [|apply (inv_wf _ HI)]. subst root.
  unfold doc_local, all_local in HL. rewrite Forall_forall in HL. specialize (HL _ Hn). unfold local_ok, exact_rule in HL.
  rewrite Forall_forall in HL. auto.
Qed.
(* so two quotes or paragraphs in each other never stand in the wrong order *)
Theorem C65_quotes_inwards fuel src r d root n c c' :
  parse_source fuel src = Ret (r, d) -> seen_from_root (tree d) root -> In n (preorder root) ->
  node_data n = NBlockQuote c -> In (NBlockQuote c') (child_data n) -> c < c'.
Proof.
  intros H S Hn E Hi. destruct (C65_columns _ _ _ _ _ _ _ H S Hn Hi) as (p & Hp & L). rewrite E in Hp. apply some_inj in Hp. now subst.
Qed.

(* the column an item of a bullet, numbered or field list stands in *)
Definition item_column (l x : TreeNodeType) : option nat :=
  match l, x with
  | NBulletList _ _ _, NBulletListItem _ c _ => Some c
  | NEnumeratedList _ _ _ _ _, NEnumeratedListItem _ _ _ c _ => Some c
  | NFieldList _, NFieldListItem _ _ c _ => Some c
  | _, _ => None
  end.
Lemma preorder_trans n m : In m (preorder n) -> forall p, In n (preorder p) -> In m (preorder p).
Proof.
  intros Hm p. induction p as [i rf k dt|i rf k dt cs IH] using node_ind'; rewrite !(preorder_unfold (Node _ _ _ _ _)); cbn [node_children].
  - intros [<-|[]]. rewrite preorder_unfold in Hm. exact Hm.
  - intros [<-|H]; [rewrite preorder_unfold in Hm; exact Hm|]. right. apply in_flat_map in H as (c & Hc & H). apply in_flat_map.
    rewrite Forall_forall in IH. exists c. auto.
Qed.
(* it is the column where the content of the block begins that the list is in *)
Theorem C66_items_partial fuel src r d root n cs l x c :
  parse_source fuel src = Ret (r, d) -> seen_from_root (tree d) root -> In n (preorder root) ->
  node_children n = Some cs -> In l cs -> In x (child_data l) -> item_column (node_data l) x = Some c ->
  text_column (node_data n) = Some c.
Proof.
  intros H S Hn Ec Hl Hx Hc.
  assert (Hln : In (node_data l) (child_data n)) by (unfold child_data; rewrite Ec; now apply in_map).
  pose proof (C65_columns _ _ _ _ _ _ _ H S Hn Hln) as G.
  assert (Hlr : In l (preorder root)).
  { eapply preorder_trans; [|exact Hn]. eapply preorder_in_child; eauto. rewrite preorder_unfold. now left. }
  destruct (C64_items_agree _ _ _ _ _ _ H S Hlr) as (B & F & M).
  unfold bullets_agree in B. unfold fields_agree in F. rewrite Forall_forall in B, F. specialize (B _ Hx). specialize (F _ Hx).
  destruct (node_data l); try discriminate; destruct x; try discriminate; cbn [item_column] in Hc; apply some_inj in Hc; subst; cbn in B, F, G.
  - destruct B as (_ & -> & _). exact G.
  - cbn in M.
    match type of Hx with In (NEnumeratedListItem ?a ?b ?e ?i ?t) _ =>
      assert (Hy : In (a, b, e, i) (numbers_of (child_data l))) by (unfold numbers_of; apply in_flat_map; eexists; split; [exact Hx|now left]) end.
    rewrite M in Hy. unfold in_sequence in Hy. apply in_map_iff in Hy as (j & Ej & _). injection Ej as _ _ _ <-. exact G.
  - subst. exact G.
Qed.
(* not so the terms of a definition list: a term that ends a quote is taken into
   the list in the quote *)
Definition two_terms : list str := map lit
  ["Text"; ""; "  term"; "    Inner."; ""; "outer"; "   Outer."; ""; "More."]%string.
Definition nodes_of (o : outcome (presult * DocTree)) : list (TreeNodeType * list TreeNodeType) :=
  match root_of o with
  | Some root => map (fun n => (node_data n, child_data n)) (preorder root)
  | None => []
  end.
Theorem C66_refuted : exists r d root n, parse_source 60 two_terms = Ret (r, d) /\ r <> RFailure /\ seen_from_root (tree d) root /\ In n (preorder root) /\
  node_data n = NDefinitionList 2 /\
  child_data n = [NDefinitionListItem (lit "  term") [] 4; NDefinitionListItem (lit "outer") [] 3] /\
  nth_error two_terms 5 = Some (lit "outer").
Proof.
  assert (X : exists root n, root_of (parse_source 60 two_terms) = Some root /\ nth_error (preorder root) 4 = Some n /\ node_data n = NDefinitionList 2 /\
    child_data n = [NDefinitionListItem (lit "  term") [] 4; NDefinitionListItem (lit "outer") [] 3]).
  { eexists. eexists. repeat (split; [vm_compute; reflexivity|]). vm_compute. reflexivity. }
  destruct X as (root & n & X1 & X2 & X3 & X4). destruct (root_of_seen _ _ X1) as (r & d & E & S). exists r, d, root, n.
  split; [exact E|]. split.
  { assert (Y : match parse_source 60 two_terms with Ret (RFailure, _) => true | _ => false end = false) by (vm_compute; reflexivity).
    rewrite E in Y. intros ->. discriminate. }
  split; [exact S|]. split; [eapply nth_error_In; exact X2|]. split; [exact X3|]. split; [exact X4|reflexivity].
Qed.
Definition nested : list str := map lit
  ["Text"; ""; "- item"; ""; "  7. seven"; ""; "  8. eight"; ""; "     More."; ""; "       Quote."; ""; "         Inner."; ""; "  :field: value"; "";
   ".. note::"; ""; "   * a"; "   * b"]%string.
Example C65_ex :
  filter (fun x => match text_column x with Some _ => true | None => false end) (map fst (nodes_of (parse_source 60 nested))) =
  [NDocument; NParagraph 0; NBulletList 45%N 0 2; NBulletListItem 45%N 0 2; NParagraph 2;
   NEnumeratedList Period Arabic 7 2 2; NEnumeratedListItem Period Arabic 7 2 5; NParagraph 5;
   NEnumeratedListItem Period Arabic 8 2 5; NParagraph 5; NParagraph 5; NBlockQuote 7; NParagraph 7; NBlockQuote 9; NParagraph 9;
   NFieldList 2; NFieldListItem (lit "field") [NText (lit "field")] 2 10; NParagraph 10;
   NAdmonition 3 None None AdmNote; NBulletList 42%N 3 5; NBulletListItem 42%N 3 5; NParagraph 5; NBulletListItem 42%N 3 5; NParagraph 5].
Proof. vm_compute. reflexivity. Qed.
Print Assumptions C65_columns.
Print Assumptions C65_quotes_inwards.
Print Assumptions C66_items_partial.
Print Assumptions C66_refuted.
