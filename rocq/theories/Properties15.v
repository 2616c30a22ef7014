(* Properties15.v -- C51: the key, the difficulty and the points of an exercise *)
From Coq Require Import Permutation.
From Verif Require Import Base Unicode Regex Patterns Common Converters NodeTypes Tree DocTree History Blocks Prog ParseLoop
  Inline Body Directives Parser Spec InlineSpec Utf8Latex Writer Transforms SimpleSpec ExerciseSpec ExerciseProofs BoxProofs Properties12 Properties14.

(* What the argument is divided into, for every argument (ExerciseSpec.v). *)
Theorem C51_division s key grade points : exercise_args s = (key, grade, points) <-> exercise_parts s key grade points.
Proof. exact (exercise_args_spec s key grade points). Qed.
Print Assumptions C51_division.
(* an argument has one division *)
Theorem C51_one_division s k1 g1 p1 k2 g2 p2 : exercise_parts s k1 g1 p1 -> exercise_parts s k2 g2 p2 -> k1 = k2 /\ g1 = g2 /\ p1 = p2.
Proof.
  intros H1 H2. apply exercise_args_spec in H1, H2. rewrite H1 in H2. inversion H2. auto.
Qed.
Print Assumptions C51_one_division.

(* An exercise with a key of letters and digits is written with its key and its
   points (10 if none are given) in a document as in C47. *)
Theorem C51_exercise_partial ord o d1 key grade points opts bs gap d2 : (forall l, Permutation (ord l) l) ->
  simple (d1 ++ (Block (Boxed (Exercise key grade points opts) bs), gap) :: d2) = true ->
  exists states out before settings after, translated ord o (document_source (d1 ++ (Block (Boxed (Exercise key grade points opts) bs), gap) :: d2)) (REOF states) out /\
    concat out = before ++ lit "\begin{submit}[" ++ settings ++ lit "]{" ++ key ++ lit "}{" ++ dec (match points with Some p => p | None => 10%N end) ++ lit "}" ++ nl1
      ++ blocks_latex bs ++ lit "\end{submit}" ++ nl2 ++ after.
Proof.
  intros Hord H. destruct (C49_contents_end_partial ord o d1 _ bs gap d2 Hord H) as (states & out & before & Ht & E).
  exists states, out, before, (join (lit ",") (exercise_options opts)),
    (elements_latex (styles d1) d2 ++ (if print_full_document o then lit "\end{document}" ++ nl1 else [])).
  split; [exact Ht|]. rewrite E. unfold box_latex. cbn [box_env box_details].
  rewrite <- !app_assoc. reflexivity.
Qed.
Print Assumptions C51_exercise_partial.

(* A key with another sign in it is cut there, and difficulty and points are lost. *)
Theorem C51_keys_refuted :
  exercise_parts (lit "my_ex A100") (lit "my") [] [] /\
  exercise_parts (lit "ex-1 B20") (lit "ex") [] [] /\
  run_on [".. submit:: my_ex A100"; "   :config: c.yaml"; ""; "   Do it."; ""]%string =
    Some (true, lit "\begin{submit}[config=c.yaml,submissions=10,points-to-pass=0,category=submit,status=unlisted]{my}{10}" ++ nl1 ++ lit "Do it." ++ nl2 ++ lit "\end{submit}" ++ nl2) /\
  run_on [".. submit:: ex1 A100"; "   :config: c.yaml"; ""; "   Do it."; ""]%string =
    Some (true, lit "\begin{submit}[config=c.yaml,submissions=10,points-to-pass=0,category=submit,status=unlisted]{ex1}{100}" ++ nl1 ++ lit "Do it." ++ nl2 ++ lit "\end{submit}" ++ nl2).
Proof.
  split; [apply exercise_args_spec; vm_compute; reflexivity|]. split; [apply exercise_args_spec; vm_compute; reflexivity|].
  split; vm_compute; reflexivity.
Qed.
Print Assumptions C51_keys_refuted.
Example C51_ex : exercise_parts (lit "ex1  B100 and more") (lit "ex1") (lit "B") (lit "100") /\
  simple [(Block (Boxed (Exercise (lit "ex1") (lit "B") (Some 100%N) [(lit "config", lit "c.yaml")]) (BCons (Para [Txt (lit "Do it.")]) 0 BNil)), 1)] = true.
Proof. split; [|vm_compute; reflexivity]. exists (lit "  "), (lit " and more"). repeat split; try reflexivity. right. eexists. split; reflexivity. Qed.
