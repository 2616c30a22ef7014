(* Properties11.v -- C43: the points of a questionnaire *)
From Verif Require Import Base Regex Common NodeTypes Tree DocTree History Spec TreeProofs DocTreeProofs HyperrefProofs Properties2
  Writer Prog ParseLoop BlockProofs LoopProofs Parser ParserProofs ParserSpec Properties8 Properties9 Hoare PointsSpec LocalProofs PointsProofs.
Require Import Lia.

(* when parsing does not fail, the total a questionnaire carries is the sum of
   the points of the questions directly in it *)
Theorem C43_points_add_up fuel src r d root n total :
  parse_source fuel src = Ret (r, d) -> r <> RFailure -> seen_from_root (tree d) root -> In n (preorder root) ->
  questionnaire_total (node_data n) = Some total -> total = points_of (child_data n).
Proof.
  intros H Hr S Hn Ht. apply parse_exact in H.
  assert (HE : exact d) by (destruct r; auto; now destruct Hr). destruct HE as [HI HL].
  apply seen_is_document in S; [|apply (inv_wf _ HI)]. subst root.
  unfold doc_local, all_local in HL. rewrite Forall_forall in HL. exact (HL _ Hn _ Ht).
Qed.
(* when it fails the total may be too high, never too low *)
Theorem C43_failed_at_least fuel src r d root n total :
  parse_source fuel src = Ret (r, d) -> seen_from_root (tree d) root -> In n (preorder root) ->
  questionnaire_total (node_data n) = Some total -> (points_of (child_data n) <= total)%N.
Proof.
  intros H S Hn Ht. apply parse_exact in H.
  assert (HE : least d) by (destruct r; auto; now apply exact_least). destruct HE as [HI HL].
  apply seen_is_document in S; [|apply (inv_wf _ HI)]. subst root.
  unfold doc_local, all_local in HL. rewrite Forall_forall in HL. exact (HL _ Hn _ Ht).
Qed.
(* what the writer puts in front of a questionnaire: the maximum it was given, or
   else that sum *)
Theorem C43_written fuel src r d root n total ord full refs :
  parse_source fuel src = Ret (r, d) -> r <> RFailure -> seen_from_root (tree d) root -> In n (preorder root) ->
  questionnaire_total (node_data n) = Some total ->
  pre_string ord full (node_data n) refs =
    Ret (lit "\begin{quiz}{" ++ questionnaire_key (node_data n) ++ lit "}{" ++
         dec (match given_maximum (node_data n) with Some p => p | None => points_of (child_data n) end) ++ lit "}" ++ [10%N]).
Proof.
  intros H Hr S Hn Ht. pose proof (C43_points_add_up _ _ _ _ _ _ _ H Hr S Hn Ht) as E.
  destruct (node_data n); try discriminate. cbn [questionnaire_total] in Ht. apply some_inj in Ht. rewrite <- Ht in E.
  cbn [pre_string questionnaire_key given_maximum]. apply f_equal. unfold begin_env, braces, nl. rewrite <- E.
  rewrite <- !app_assoc. reflexivity.
Qed.

Definition quiz : list str := map lit
  [".. questionnaire:: 1 A"; "  :submissions: 4"; ""; "  Some text."; "";
   "  .. pick-one:: 10"; "    :required:"; ""; "    What is 1+1?"; ""; "    a. 1"; "    *b. 2"; "";
   "  .. pick-any:: 20"; ""; "    Pick two."; ""; "    +*a. this"; "    *b. that"; "    c. neither"; "";
   "  .. freetext:: 5 string"; ""; "    Write test."; ""; "    test"]%string.
Definition quiz_failed : list str := map lit
  [".. questionnaire:: 1 A"; "  :submissions: 4"; ""; "  Some text."; "";
   "  .. pick-any:: 20"; "    :randomized:"; "    :correct-count: many"; ""; "    Pick two."; ""; "    +*a. this"; "    *b. that"]%string.
Definition result_and_total (o : outcome (presult * DocTree)) (path : list nat) : option (presult * option N * N) :=
  match o, root_of o with
  | Ret (r, _), Some root => option_map (fun n => (r, questionnaire_total (node_data n), points_of (child_data n))) (node_at root path)
  | _, _ => None
  end.
Example C43_ex : result_and_total (parse_source 40 quiz) [0] = Some (REOF [SBody; SAplusQuestionnaire], Some 35%N, 35%N).
Proof. vm_compute. reflexivity. Qed.
(* a question that fails leaves the total too high: failure cannot be dropped from C43 *)
Example C43_failed_ex : result_and_total (parse_source 40 quiz_failed) [0] = Some (RFailure, Some 20%N, 0%N).
Proof. vm_compute. reflexivity. Qed.
Print Assumptions C43_points_add_up.
Print Assumptions C43_written.
