(* Properties30.v -- C68: who a quote is attributed to stands at its end *)
From Verif Require Import Base Regex Common Converters NodeTypes Tree DocTree History Spec TreeProofs DocTreeProofs HyperrefProofs Properties2
  Prog ParseLoop BlockProofs LoopProofs Parser ParserProofs ParserSpec Properties8 Properties9 Hoare PointsSpec LocalProofs AttributionSpec AttributionProofs.

(* of every source: an attribution is the last thing in a block quote, and there
   is no other in it nor anywhere else *)
Theorem C68_attribution_last fuel src r d root n :
  parse_source fuel src = Ret (r, d) -> seen_from_root (tree d) root -> In n (preorder root) ->
  attributed_last (node_data n) (child_data n).
Proof.
  intros H S Hn. apply parse_attributed in H as (HI & HL & _).
  apply seen_is_document in S; [|apply (inv_wf _ HI)]. subst root.
  unfold doc_local, all_local in HL. rewrite Forall_forall in HL. exact (HL _ Hn).
Qed.
(* so whatever comes after the attribution is not in that quote *)
Theorem C68_nothing_after fuel src r d root n before who after :
  parse_source fuel src = Ret (r, d) -> seen_from_root (tree d) root -> In n (preorder root) ->
  child_data n = before ++ NAttribution who :: after ->
  after = [] /\ unattributed before /\ exists extra, node_data n = NBlockQuote extra.
Proof.
  intros H S Hn E. destruct (C68_attribution_last _ _ _ _ _ _ H S Hn) as [G|(extra & w & who' & Hq & E' & G)].
  - rewrite E in G. apply Forall_app in G as [_ G]. apply Forall_cons_iff in G as [G _]. discriminate G.
  - rewrite E in E'. apply split_last in E' as [(-> & -> & _)|(v' & -> & ->)]; [eauto|].
    apply Forall_app in G as [_ G]. apply Forall_cons_iff in G as [G _]. discriminate G.
Qed.

Definition quotes : list str := map lit
  ["  one"; ""; "  -- Smith"; ""; "  two"; ""; "    three"; ""; "    -- Jones,"; "       1999"; ""; "    -- Ash"; ""; "  four"; ""; "* five"; ""; "    six"; ""; "    --- Doe"]%string.
Definition quotes_of (o : outcome (presult * DocTree)) : list (TreeNodeType * list TreeNodeType) :=
  match root_of o with
  | Some root => flat_map (fun n => match node_data n with NBlockQuote _ => [(node_data n, child_data n)] | _ => [] end) (preorder root)
  | None => []
  end.
Example C68_ex : quotes_of (parse_source 60 quotes) =
  [(NBlockQuote 2, [NParagraph 2; NAttribution (lit "Smith")]);
   (NBlockQuote 2, [NParagraph 2; NBlockQuote 4; NBlockQuote 4; NParagraph 2]);
   (NBlockQuote 4, [NParagraph 4; NAttribution (lit "Jones, 1999")]);
   (NBlockQuote 4, [NAttribution (lit "Ash")]);
   (NBlockQuote 4, [NParagraph 4; NAttribution (lit "- Doe")])].
Proof. vm_compute. reflexivity. Qed.
Print Assumptions C68_attribution_last.
Print Assumptions C68_nothing_after.
