(* Properties27.v -- C64: the items of a list *)
From Verif Require Import Base Regex Common Converters NodeTypes Tree DocTree History Spec TreeProofs DocTreeProofs HyperrefProofs Properties2
  Prog ParseLoop BlockProofs LoopProofs Parser ParserProofs ParserSpec Properties8 Properties9 Hoare PointsSpec ListSpec LocalProofs ItemProofs.
Require Import Lia.

(* of every source: the items of a bullet list have its bullet and stand where it
   stands, the fields of a field list stand where it stands, and a numbered list
   has as many items as it counts, numbered one after the other from its first
   number, all with its delimiters and its kind of numerals *)
Theorem C64_items_agree fuel src r d root n :
  parse_source fuel src = Ret (r, d) -> seen_from_root (tree d) root -> In n (preorder root) ->
  bullets_agree (node_data n) (child_data n) /\ fields_agree (node_data n) (child_data n) /\ numbers_follow (node_data n) (child_data n).
Proof.
  intros H S Hn. apply parse_exact in H as [HI HL].
  apply seen_is_document in S; [|apply (inv_wf _ HI)]. subst root.
  unfold doc_local, all_local in HL. rewrite Forall_forall in HL. exact (HL _ Hn).
Qed.
(* the number of the item in any one place, and how many places there are *)
Theorem C64_number_in_place fuel src r d root n delims k start count i j delims' k' number i' :
  parse_source fuel src = Ret (r, d) -> seen_from_root (tree d) root -> In n (preorder root) ->
  node_data n = NEnumeratedList delims k start count i ->
  length (numbers_of (child_data n)) = N.to_nat count /\
  (nth_error (numbers_of (child_data n)) j = Some (delims', k', number, i') ->
   delims' = delims /\ k' = k /\ number = (start + N.of_nat j)%N /\ i' = i).
Proof.
  intros H S Hn E. destruct (C64_items_agree _ _ _ _ _ _ H S Hn) as (_ & _ & G).
  rewrite E in G. cbn in G. rewrite G. unfold in_sequence. split; [now rewrite map_length, seq_length|]. intros Hj. rewrite nth_error_map in Hj.
  destruct (nth_error (seq 0 _) j) as [q|] eqn:Eq; [|discriminate]. cbn in Hj. apply some_inj in Hj. injection Hj as <- <- <- <-.
  assert (q = j); [|subst; auto].
  assert (Hlt : j < length (seq 0 (N.to_nat count))) by (apply nth_error_Some; congruence). rewrite seq_length in Hlt.
  apply (nth_error_nth _ _ 0) in Eq. rewrite seq_nth in Eq; [|exact Hlt]. lia.
Qed.

Definition lists : list str := map lit
  ["* one"; "* two"; "- three"; ""; "7. seven"; ""; "8. eight"; ""; "9. nine"; ""; "11. eleven"; ""; "iv) four"; ""; "v) five"; ""; ":field: a"; ":other: b"]%string.
Definition lists_of (o : outcome (presult * DocTree)) : list (TreeNodeType * list TreeNodeType) :=
  match root_of o with
  | Some root => flat_map (fun n => match node_data n with
      | NBulletList _ _ _ | NEnumeratedList _ _ _ _ _ | NFieldList _ => [(node_data n, child_data n)]
      | _ => [] end) (preorder root)
  | None => []
  end.
Example C64_ex : lists_of (parse_source 60 lists) =
  [(NBulletList 42%N 0 2, [NBulletListItem 42%N 0 2; NBulletListItem 42%N 0 2]);
   (NBulletList 45%N 0 2, [NBulletListItem 45%N 0 2]);
   (NEnumeratedList Period Arabic 7 3 0,
    [NEnumeratedListItem Period Arabic 7 0 3; NEnumeratedListItem Period Arabic 8 0 3; NEnumeratedListItem Period Arabic 9 0 3]);
   (NEnumeratedList Period Arabic 11 1 0, [NEnumeratedListItem Period Arabic 11 0 4]);
   (NEnumeratedList RParen LowerRoman 4 2 0, [NEnumeratedListItem RParen LowerRoman 4 0 4; NEnumeratedListItem RParen LowerRoman 5 0 3]);
   (NFieldList 0, [NFieldListItem (lit "field") [NText (lit "field")] 0 8; NFieldListItem (lit "other") [NText (lit "other")] 0 8])].
Proof. vm_compute. reflexivity. Qed.
Print Assumptions C64_items_agree.
Print Assumptions C64_number_in_place.
