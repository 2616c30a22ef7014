(* Properties26.v -- C37, C33 for documents that come from the parser: which nodes it
   makes, which of them cannot be written *)
From Coq Require Import String.
From Verif Require Import Base Unicode Regex Common NodeTypes Tree DocTree History Spec TreeProofs DocTreeProofs HyperrefProofs Blocks BlockProofs
  Prog ParseLoop LoopProofs Parser ParserProofs ParserSpec PointsSpec LocalProofs Hoare Transforms TransformProofs TransformSpec BornProofs Utf8Latex Writer WriterSpec TexSpec WriterProofs
  Properties2 Properties4 Properties9 Properties14.
Require Import Lia.

(* what the parser can make and the writer cannot write *)
Definition troublesome (n : TreeNode) : Prop :=
  In (node_kind n) [KExternalHyperlinkTarget; KIndirectHyperlinkTarget; KSubstitutionReference] \/
  exists bi t w hr sc al, node_data n = NListTable bi t None w hr sc al.

Lemma born_unwritable x : born x = true -> In (kind x) unwritable_kinds -> In (kind x) [KExternalHyperlinkTarget; KIndirectHyperlinkTarget; KSubstitutionReference].
Proof.
  unfold born, unwritable_kinds. intros B H. cbn [In] in H. cbn [In].
  repeat (destruct H as [H|H]; [rewrite <- H in B |- *; first [discriminate B | tauto]|]). contradiction.
Qed.
(* Whatever the source, of the 57 kinds of nodes the writer has no text for the
   parser makes only three: link targets with an address, link targets that name
   another one, and substitution references. *)
Theorem C37_kinds_made fuel src r d root n : parse_source fuel src = Ret (r, d) -> seen_from_root (tree d) root -> In n (preorder root) ->
  In (node_kind n) unwritable_kinds -> In (node_kind n) [KExternalHyperlinkTarget; KIndirectHyperlinkTarget; KSubstitutionReference].
Proof.
  intros H S Hn Hk. apply parse_born in H as [HI HL]. apply seen_is_document in S; [|apply (inv_wf _ HI)]. subst root.
  unfold doc_local, all_local in HL. rewrite Forall_forall in HL. apply (born_unwritable (node_data n)); [exact (HL _ Hn)|exact Hk].
Qed.
Lemma parsed_root fuel src r d : parse_source fuel src = Ret (r, d) -> seen_from_root (tree d) (document (tree d)).
Proof. intros H. apply parse_born in H as [HI _]. apply seen_document, (inv_wf _ HI). Qed.
Lemma transformed_root d d' root : seen_from_root (tree d) root -> perform_transforms d = Ret d' -> exists root', seen_from_root (tree d') root'.
Proof.
  unfold seen_from_root at 1. unfold perform_transforms, d_walk_to_root. intros S T. rewrite S in T. cbn [obind z_node tree d_set_tree z_with_node] in T.
  apply obind_inv in T as (m & _ & T). cbn in T. apply ret_eq in T. exists m. subst d'. reflexivity.
Qed.
Lemma born_after fuel src r d d' root' : parse_source fuel src = Ret (r, d) -> perform_transforms d = Ret d' -> seen_from_root (tree d') root' ->
  Forall (fun n => born (node_data n) = true) (preorder root').
Proof.
  intros H T S'. pose proof (parsed_root _ _ _ _ H) as S. apply parse_born in H as [HI HL].
  eapply (transforms_keep (fun x => born x = true)); [reflexivity|reflexivity|reflexivity|reflexivity|exact S|exact S'|exact T|].
  unfold doc_local, all_local in HL. exact HL.
Qed.
(* A document that was parsed and transformed can be written exactly if it has
   none of these nodes and no list table without widths (which is left by a
   table that could not be parsed). *)
Theorem C37_from_source_partial fuel src r d d' root' ord o : parse_source fuel src = Ret (r, d) -> perform_transforms d = Ret d' ->
  seen_from_root (tree d') root' ->
  ((exists out, write_to_larst ord o d' = Ret out) <-> (forall n, In n (preorder root') -> ~ troublesome n)).
Proof.
  intros H T S. pose proof (born_after _ _ _ _ _ _ H T S) as B. destruct (C37_writable_partial ord o d' root' S) as [W _]. rewrite <- W.
  rewrite Forall_forall in B |- *. split; intros A n Hn.
  - destruct (A n Hn) as [A1 A2]. intros [X|(bi & t & w & hr & sc & al & X)]; [|exact (A2 _ _ _ _ _ _ X)].
    apply A1. unfold unwritable_kinds. cbn [In] in X |- *. intuition.
  - split.
    + intros X. apply (A n Hn). left. apply (born_unwritable (node_data n) (B n Hn) X).
    + intros bi t w hr sc al X. apply (A n Hn). right. now exists bi, t, w, hr, sc, al.
Qed.
(* and if there were none before the transforms *)
Theorem C37_parsed_is_written_partial fuel src r d d' root ord o : parse_source fuel src = Ret (r, d) -> perform_transforms d = Ret d' ->
  seen_from_root (tree d) root -> (forall n, In n (preorder root) -> ~ troublesome n) ->
  exists out, write_to_larst ord o d' = Ret out.
Proof.
  intros H T S A.
  set (P := fun x => ~ (In (kind x) [KExternalHyperlinkTarget; KIndirectHyperlinkTarget; KSubstitutionReference] \/ exists bi t w hr sc al, x = NListTable bi t None w hr sc al)).
  assert (HP : forall x, (match kind x with KCaption | KTBody | KTRow | KEntry => True | _ => False end) -> P x).
  { intros x K [X|(bi & t & w & hr & sc & al & ->)]; [|exact K]. cbn [In] in X. destruct X as [X|[X|[X|[]]]]; rewrite <- X in K; exact K. }
  destruct (transformed_root _ _ _ S T) as (root' & S').
  apply (C37_from_source_partial fuel src r d d' root' ord o H T S').
  assert (K : Forall (fun n => P (node_data n)) (preorder root')).
  { eapply (transforms_keep P); [intros; apply HP; exact I|apply HP; exact I|apply HP; exact I|intros; apply HP; exact I|exact S|exact S'|exact T|].
    apply Forall_forall. intros n Hn. apply (A n Hn). }
  rewrite Forall_forall in K. exact K.
Qed.
(* Sources that are parsed and make the program panic when they are written: a
   link target with an address, one that names another, a substitution
   reference, a list table without items, one with an item that is not a list. *)
Theorem C37_sources_refuted :
  Forall (fun src => exists r d d', parse_source 100 src = Ret (r, d) /\ perform_transforms d = Ret d' /\ forall ord o, write_to_larst ord o d' = Panic)
    [[lit ".. _rust: https://rust-lang.org"; []; lit "a"]; [lit ".. _rust: other_"; []; lit "a"]; [lit "See |this|."];
     [lit ".. list-table::"; []; lit "   a"]; [lit ".. list-table::"; []; lit "   * a"]].
Proof.
  assert (G : forall src, match parse_source 100 src with Ret (r, d) => match perform_transforms d with Ret d' => match write_to_larst (fun l => l) (MkOptions StdOut false false) d' with Panic => true | _ => false end | _ => false end | _ => false end = true ->
    exists r d d', parse_source 100 src = Ret (r, d) /\ perform_transforms d = Ret d' /\ forall ord o, write_to_larst ord o d' = Panic).
  { intros src H. destruct (parse_source 100 src) as [[r d]| |] eqn:Ep; try discriminate. destruct (perform_transforms d) as [d'| |] eqn:Et; try discriminate.
    exists r, d, d'. split; [reflexivity|]. split; [exact Et|]. intros ord o.
    destruct (transformed_root _ _ _ (parsed_root _ _ _ _ Ep) Et) as (root' & S').
    destruct (C37_writable_partial ord o d' root' S') as [W1 [W2|W2]]; [|exact W2]. apply W1 in W2.
    destruct (C37_writable_partial (fun l => l) (MkOptions StdOut false false) d' root' S') as [W3 _]. apply W3 in W2 as (out & W2). rewrite W2 in H. discriminate. }
  constructor; [apply G; vm_compute; reflexivity|]. constructor; [apply G; vm_compute; reflexivity|]. constructor; [apply G; vm_compute; reflexivity|].
  constructor; [apply G; vm_compute; reflexivity|]. constructor; [apply G; vm_compute; reflexivity|]. constructor.
Qed.
Example C37_source_ex : exists r d d', parse_source 100 [lit "Title"; lit "====="; []; lit "- a"; []; lit ".. list-table::"; []; lit "   * - b"; lit "     - c"] = Ret (r, d) /\
  perform_transforms d = Ret d' /\ (forall n, In n (preorder (document (tree d))) -> ~ troublesome n) /\ length (preorder (document (tree d))) = 16.
Proof.
  eexists. eexists. eexists. split; [vm_compute; reflexivity|]. split; [vm_compute; reflexivity|]. split; [|vm_compute; reflexivity].
  intros n Hn. vm_compute in Hn. repeat (destruct Hn as [<-|Hn]; [intros [X|(bi & t & w & hr & sc & al & X)]; [vm_compute in X; intuition discriminate|discriminate X]|]). contradiction.
Qed.
Print Assumptions C37_kinds_made.
Print Assumptions C37_from_source_partial.
Print Assumptions C37_parsed_is_written_partial.
Print Assumptions C37_sources_refuted.

(* ===== C33 ===== *)
(* The parser makes no raw nodes: for documents that come from a source nothing
   has to be asked of them. *)
Theorem C33_from_source_partial fuel src r d d' root' ord o out : is_order ord -> parse_source fuel src = Ret (r, d) -> perform_transforms d = Ret d' ->
  seen_from_root (tree d') root' -> write_to_larst ord o d' = Ret out ->
  Forall (fun n => Forall env_balanced (raw_texts n)) (preorder root') ->
  Forall (fun n => Forall (Forall (fun c => c <> ch "}")) (env_names (node_data n))) (preorder root') ->
  env_balanced (concat out).
Proof.
  intros O H T S W A B. eapply C33_balanced_partial; eauto. pose proof (born_after _ _ _ _ _ _ H T S) as K.
  eapply Forall_impl; [|exact K]. intros n Kn E. cbn beta in Kn. unfold node_kind in E. unfold born in Kn. rewrite E in Kn. discriminate.
Qed.
Print Assumptions C33_from_source_partial.
