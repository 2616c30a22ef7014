(* Properties9.v -- C11: sections of parsed documents; and every theorem about
   built documents applies to parsed ones *)
From Coq Require Import Lia.
From Verif Require Import Base Regex Common NodeTypes Tree DocTree History Spec TreeProofs DocTreeProofs HyperrefProofs Properties2
  Prog ParseLoop BlockProofs LoopProofs Parser ParserProofs ParserSpec NestProofs Properties8.

Lemma parse_dsteps fuel src bi bl st d r d' : parse table fuel src bi bl st d = Ret (r, d') -> table st <> None -> dsteps d d'.
Proof.
  intros H Ht. eapply (parse_good table tables_safe (S (src_size src))) in H; [apply H|lia|now apply config_live].
Qed.
(* the parser changes documents only by the operations of History.v *)
Theorem C11_parsed_is_built fuel src r d : parse_source fuel src = Ret (r, d) -> exists es, built es d.
Proof.
  intros H. apply parse_dsteps in H; [|discriminate].
  destruct (dsteps_run new_doctree new_doctree d [] (run_nil _ _) H) as [es E]. exists es. exact E.
Qed.
(* in the document a source parses to, every section is directly in the document
   or directly in a section of a strictly lower level *)
Theorem C11_sections_nest fuel src r d root path i parent n title level style :
  parse_source fuel src = Ret (r, d) -> seen_from_root (tree d) root ->
  node_at root path = Some parent -> node_at root (path ++ [i]) = Some n ->
  node_data n = NSection title level style ->
  node_data parent = NDocument \/
  exists title' level' style', node_data parent = NSection title' level' style' /\ level' < level.
Proof.
  intros H S Hp Hn En. destruct (C11_parsed_is_built _ _ _ _ H) as [es HB].
  apply parse_dsteps in H; [|discriminate].
  assert (HN : nested d) by (eapply dsteps_nested; eauto; [apply ib_inv, new_inv_built|apply nested_new]).
  apply seen_is_document in S; [|apply (inv_wf _ (reachable_inv _ _ (built_reachable _ _ HB)))]. subst root.
  unfold nested, edges_ok in HN. rewrite Forall_forall in HN. pose proof (HN _ (node_at_in _ _ _ Hp)) as HE.
  rewrite (node_at_app _ _ _ _ Hp) in Hn. cbn [node_at] in Hn. destruct (node_children parent) as [cs|] eqn:Ec; [|discriminate].
  destruct (nth_error cs i) as [c|] eqn:Ei; [|discriminate]. apply some_inj in Hn. subst c.
  exact (HE cs n Ec (nth_error_In _ _ Ei) _ _ _ En).
Qed.
(* levels follow from the order in which the styles first appear *)
Theorem C11_levels fuel src r d : parse_source fuel src = Ret (r, d) ->
  exists styles, forall root n title level style, seen_from_root (tree d) root ->
    In n (preorder root) -> node_data n = NSection title level style ->
    In style styles /\ level = level_after styles style.
Proof.
  intros H. destruct (C11_parsed_is_built _ _ _ _ H) as [es HB]. exists (styles_of es).
  intros. eapply C10_in_document; eauto.
Qed.
(* sections contain sections of other styles only *)
Corollary C11_other_style fuel src r d root path i parent n t l s t' l' s' :
  parse_source fuel src = Ret (r, d) -> seen_from_root (tree d) root ->
  node_at root path = Some parent -> node_at root (path ++ [i]) = Some n ->
  node_data n = NSection t l s -> node_data parent = NSection t' l' s' -> s <> s'.
Proof.
  intros H S Hp Hn En Ep ->. destruct (C11_sections_nest _ _ _ _ _ _ _ _ _ _ _ _ H S Hp Hn En) as [E|(t2 & l2 & s2 & E & Hl)];
    rewrite Ep in E; [discriminate|]. injection E as <- <- <-.
  destruct (C11_parsed_is_built _ _ _ _ H) as [es HB].
  pose proof (node_at_in _ _ _ Hp). pose proof (node_at_in _ _ _ Hn).
  destruct (C10_in_document _ _ _ _ _ _ _ HB S H0 Ep) as [_ E1]. destruct (C10_in_document _ _ _ _ _ _ _ HB S H1 En) as [_ E2]. lia.
Qed.
Definition chapters : list str := map lit
  ["One"; "==="; ""; "text"; ""; "Two"; "---"; ""; "Three"; "~~~~~"; ""; "more text"; "";
   "Four"; "----"; ""; "Five"; "===="]%string.
Definition root_of (o : outcome (presult * DocTree)) : option TreeNode :=
  match o with
  | Ret (_, d) => match z_walk_to_root (tree d) with Ret (Zip n None None) => Some n | _ => None end
  | _ => None
  end.
Lemma root_of_seen o root : root_of o = Some root -> exists r d, o = Ret (r, d) /\ seen_from_root (tree d) root.
Proof.
  unfold root_of, seen_from_root. destruct o as [[r d]| |]; try discriminate.
  destruct (z_walk_to_root (tree d)) as [[n [p|] [i|]]| |] eqn:E; try discriminate. intros H. apply some_inj in H. subst. eauto.
Qed.
Example C11_ex : exists root, root_of (parse_source 40 chapters) = Some root /\
  option_map node_data (node_at root []) = Some NDocument /\
  option_map node_data (node_at root [0]) = Some (NSection (lit "One") 1 (Under 61%N)) /\
  option_map node_data (node_at root [0; 1]) = Some (NSection (lit "Two") 2 (Under 45%N)) /\
  option_map node_data (node_at root [0; 1; 0]) = Some (NSection (lit "Three") 3 (Under 126%N)) /\
  option_map node_data (node_at root [0; 2]) = Some (NSection (lit "Four") 2 (Under 45%N)) /\
  option_map node_data (node_at root [1]) = Some (NSection (lit "Five") 1 (Under 61%N)).
Proof.
  eexists. split; [vm_compute; reflexivity|].
  split; [vm_compute; reflexivity|]. split; [vm_compute; reflexivity|]. split; [vm_compute; reflexivity|].
  split; [vm_compute; reflexivity|]. split; vm_compute; reflexivity.
Qed.
Print Assumptions C11_sections_nest.
Print Assumptions C11_levels.
