(* Properties31.v -- C69: columns of a point of interest *)
From Coq Require Import Permutation.
From Verif Require Import Base Unicode Regex Patterns Common Converters NodeTypes Tree DocTree History Blocks Prog ParseLoop
  Inline Body Directives Parser Spec TreeProofs DocTreeProofs HyperrefProofs Properties2 InlineSpec Utf8Latex Writer Transforms SimpleSpec PointsSpec ParserSpec Properties9 Properties12 Properties14.

(* In a document as in C47, the line ::newcol, indented like the contents of a point
   of interest and after an empty line, starts a new column: the columns are written
   in order inside the one box, with the command \newcol between each two, and what
   follows the box follows it. *)
Theorem C69_columns_partial ord o d1 title opts first more gap d2 : (forall l, Permutation (ord l) l) ->
  simple (d1 ++ (Columned title opts first more, gap) :: d2) = true ->
  exists states out before after, translated ord o (document_source (d1 ++ (Columned title opts first more, gap) :: d2)) (REOF states) out /\
    concat out = before ++ box_latex (Interest title opts) (blocks_latex first ++ flat_map (fun x => lit "\newcol" ++ nl2 ++ blocks_latex (snd x)) more) ++
      elements_latex (styles d1) d2 ++ after.
Proof.
  intros Hord H. destruct (C47_simple_documents ord o _ Hord H) as (states & out & Ht & E).
  exists states, out, ((if print_full_document o then lit "\documentclass{aplus}" ++ nl1 ++ lit "\begin{document}" ++ nl2 else []) ++ elements_latex [] d1),
    (if print_full_document o then lit "\end{document}" ++ nl1 else []).
  split; [exact Ht|]. rewrite E. unfold document_latex. rewrite elements_latex_app. cbn [elements_latex element_latex style_of app]. rewrite app_nil_r, <- !app_assoc. reflexivity.
Qed.
(* The empty lines around ::newcol say nothing. *)
Theorem C69_empty_lines_partial ord o d1 title opts first more more' gap d2 : (forall l, Permutation (ord l) l) ->
  simple (d1 ++ (Columned title opts first more, gap) :: d2) = true -> simple (d1 ++ (Columned title opts first more', gap) :: d2) = true ->
  map snd more = map snd more' ->
  exists s s' out out', translated ord o (document_source (d1 ++ (Columned title opts first more, gap) :: d2)) (REOF s) out /\
    translated ord o (document_source (d1 ++ (Columned title opts first more', gap) :: d2)) (REOF s') out' /\ concat out = concat out'.
Proof.
  intros Hord H H' El. destruct (C47_simple_documents ord o _ Hord H) as (s & out & Ht & E). destruct (C47_simple_documents ord o _ Hord H') as (s' & out' & Ht' & E').
  exists s, s', out, out'. split; [exact Ht|]. split; [exact Ht'|]. rewrite E, E'. unfold document_latex. rewrite !elements_latex_app. cbn [elements_latex element_latex style_of].
  assert (Q : columns_latex more = columns_latex more'); [|now rewrite Q].
  unfold columns_latex. rewrite !flat_map_concat_map, <- (map_map snd (fun b => lit "\newcol" ++ nl2 ++ blocks_latex b) more), El, map_map. reflexivity.
Qed.
(* of every source, whether or not it could be read to its end: a column break stands
   directly in a point of interest, and has no contents *)
Theorem C69_place fuel src r d root n : parse_source fuel src = Ret (r, d) -> seen_from_root (tree d) root -> In n (preorder root) ->
  (In NAplusColBreak (child_data n) -> node_kind n = KAplusPOI) /\ (node_data n = NAplusColBreak -> child_data n = []).
Proof.
  intros H S Hn. destruct (C11_parsed_is_built _ _ _ _ H) as [es HB]. pose proof (reachable_inv _ _ (built_reachable _ _ HB)) as I.
  apply seen_is_document in S; [|apply (inv_wf _ I)]. subst root.
  pose proof (inv_ok _ I) as O. unfold tree_ok in O. rewrite Forall_forall in O. destruct (O _ Hn) as [G1 G2]. unfold child_data. split.
  - intros Hc. destruct (node_children n) as [cs|] eqn:Ec; [|destruct Hc]. apply in_map_iff in Hc as (m & Em & Hm).
    specialize (G2 _ _ eq_refl Hm). unfold node_kind in G2 at 2. rewrite Em in G2. destruct (node_kind n); vm_compute in G2; try discriminate G2; reflexivity.
  - intros E. unfold node_kind in G1. rewrite E in G1. destruct (node_children n) as [cs|]; [|reflexivity].
    destruct G1 as [_ G1]. discriminate (G1 eq_refl).
Qed.
(* Directly after a line of a paragraph, ::newcol is a line of the paragraph; indented
   otherwise it is text; and what follows it on its line is lost. *)
Theorem C69_columns_refuted :
  run_on [".. point-of-interest:: Notes"; ""; "   Left."; "   ::newcol"; ""; "   Right."]%string =
    Some (true, lit "\begin{poi}{Notes}" ++ nl2 ++ lit "Left." ++ nl1 ++ lit "::newcol" ++ nl2 ++ lit "Right." ++ nl2 ++ lit "\end{poi}" ++ nl2) /\
  run_on [".. point-of-interest:: Notes"; ""; "   Left."; ""; "     ::newcol"; ""; "   Right."]%string =
    Some (true, lit "\begin{poi}{Notes}" ++ nl2 ++ lit "Left." ++ nl2 ++ lit "\begin{quotation}" ++ nl1 ++ lit "::newcol" ++ nl2 ++ lit "\end{quotation}" ++ nl2 ++
      lit "Right." ++ nl2 ++ lit "\end{poi}" ++ nl2) /\
  run_on [".. point-of-interest:: Notes"; ""; "   Left."; ""; "   ::newcolumns and more"; ""; "   Right."]%string =
    Some (true, lit "\begin{poi}{Notes}" ++ nl2 ++ lit "Left." ++ nl2 ++ lit "\newcol" ++ nl2 ++ lit "Right." ++ nl2 ++ lit "\end{poi}" ++ nl2).
Proof. split; [vm_compute; reflexivity|]. split; vm_compute; reflexivity. Qed.

Definition says (s : str) : block := Para [Txt s].
Example C69_ex :
  let box := Columned (lit "Notes") [] (BCons (says (lit "Left.")) 1 BNil)
    [(1, 1, BCons (says (lit "Middle.")) 1 (BCons (Quote 2 (BCons (says (lit "Deep.")) 0 BNil)) 0 BNil)); (2, 0, BCons (says (lit "Right.")) 0 BNil)] in
  simple [(Block (says (lit "Before.")), 1); (box, 1); (Block (says (lit "After.")), 0)] = true /\
  document_source [(box, 0)] =
    [lit ".. point-of-interest:: Notes"; []; lit "   Left."; []; []; lit "   ::newcol"; []; lit "   Middle."; []; lit "     Deep."; []; []; lit "   ::newcol"; lit "   Right."] /\
  run_on ["Before."; ""; ".. point-of-interest:: Notes"; ""; "   Left."; ""; ""; "   ::newcol"; ""; "   Middle."; ""; "     Deep."; ""; ""; "   ::newcol"; "   Right."; ""; "After."]%string =
    Some (true, lit "Before." ++ nl2 ++ lit "\begin{poi}{Notes}" ++ nl2 ++ lit "Left." ++ nl2 ++ lit "\newcol" ++ nl2 ++ lit "Middle." ++ nl2 ++
      lit "\begin{quotation}" ++ nl1 ++ lit "Deep." ++ nl2 ++ lit "\end{quotation}" ++ nl2 ++ lit "\newcol" ++ nl2 ++ lit "Right." ++ nl2 ++ lit "\end{poi}" ++ nl2 ++
      lit "After." ++ nl2).
Proof. split; [vm_compute; reflexivity|]. split; vm_compute; reflexivity. Qed.
Print Assumptions C69_columns_partial.
Print Assumptions C69_empty_lines_partial.
Print Assumptions C69_columns_refuted.
Print Assumptions C69_place.
