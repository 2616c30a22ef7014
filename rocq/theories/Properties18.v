(* Properties18.v -- C54: questions keep their points, answers and hints *)
From Coq Require Import Permutation.
From Verif Require Import Base Unicode Regex Patterns Common Converters NodeTypes Tree DocTree History Blocks Prog ParseLoop
  Inline Body Directives Parser Spec InlineSpec Utf8Latex Writer Transforms SimpleSpec MarkupSpec Properties12 Properties14.

(* ---------- what a question should become ---------- *)
(* One line per answer: right, wrong or neither as marked in the source, its text
   as LaTeX and its label. *)
Definition answer_line (verdict : verdict) (text label : str) : str :=
  (match verdict with Wrong => lit "\wrong " | Right => lit "\right " | Neutral => lit "\undet " end) ++ text ++ lit " \label{" ++ label ++ lit "}" ++ nl1.
Definition answer_lines (cs : list choice) : str :=
  concat (map (fun c => answer_line (c_verdict c) (chunks_latex (c_answer c)) (c_label c)) cs).
(* One line per hint.  In the source a leading exclamation mark says that the
   hint is for those who did NOT give the answer; `\feedback{!\ref{a}}` says the
   same in LaTeX. *)
Definition hint_line (others : bool) (label text : str) : str :=
  lit "\feedback{" ++ (if others then lit "!" else []) ++ lit "\ref{" ++ label ++ lit "}}{" ++ text ++ lit "}" ++ nl1.
(* what the program writes instead: the exclamation marks turned around *)
Definition hint_lines_turned (hs : list hint) : str :=
  concat (map (fun h => hint_line (negb (h_other h)) (h_label h) (chunks_latex (h_text h))) hs).
Definition sum (l : list N) : N := fold_right N.add 0%N l.
Definition points_of (x : part * nat) : N :=
  match fst x with Prose _ => 0%N | Asked (Pick _ n _ _ _ _) | Asked (Free n _ _ _ _ _) => n end.

(* A questionnaire is worth what its argument says, or else what its questions
   are worth together; every question in it is written with its own points and
   its answers in order, each right, wrong or neither as in the source. *)
Theorem C54_questions_partial ord o d1 q gap d2 ps1 any n opts asked cs hs g ps2 : (forall l, Permutation (ord l) l) ->
  q_parts q = ps1 ++ (Asked (Pick any n opts asked cs hs), g) :: ps2 ->
  simple (d1 ++ (Block (Quiz q), gap) :: d2) = true ->
  exists states out before between options after,
    translated ord o (document_source (d1 ++ (Block (Quiz q), gap) :: d2)) (REOF states) out /\
    concat out = before ++
      lit "\begin{quiz}{" ++ q_key q ++ lit "}{" ++ dec (match q_points q with Some p => p | None => sum (map points_of (q_parts q)) end) ++ lit "}" ++ nl1 ++
      between ++
      lit "\begin{pick}" ++ options ++ lit "{" ++ (if any then lit "any" else lit "one") ++ lit "}{" ++ dec n ++ lit "}" ++ nl1 ++
      (match asked with Some t => para_latex t | None => [] end) ++
      lit "\begin{answers}" ++ nl1 ++ answer_lines cs ++ lit "\end{answers}" ++ nl2 ++
      hint_lines_turned hs ++ nl1 ++ lit "\end{pick}" ++ nl2 ++
      after.
Proof.
  intros Hord Eq H. destruct (C47_simple_documents ord o _ Hord H) as (states & out & Ht & E).
  exists states, out, ((if print_full_document o then lit "\documentclass{aplus}" ++ nl1 ++ lit "\begin{document}" ++ nl2 else []) ++ elements_latex [] d1),
    (flat_map (fun x => part_latex (fst x)) ps1), (each_comma (pick_options any opts)),
    (flat_map (fun x => part_latex (fst x)) ps2 ++ lit "\end{quiz}" ++ nl2 ++ elements_latex (styles d1) d2 ++ (if print_full_document o then lit "\end{document}" ++ nl1 else [])).
  split; [exact Ht|]. rewrite E. unfold document_latex. rewrite elements_latex_app. cbn [elements_latex element_latex style_of app latex]. rewrite app_nil_r. unfold quiz_latex, quiz_begin.
  assert (Ep : sum (map points_of (q_parts q)) = all_points (q_parts q)).
  { generalize (q_parts q). induction l as [|[x gx] l IH]; [reflexivity|]. cbn [map sum fold_right all_points]. fold (sum (map points_of l)). rewrite IH.
    destruct x as [t|[? ? ? ? ? ?|? ? ? ? ? ?]]; reflexivity. }
  rewrite Ep, Eq, flat_map_app. cbn [flat_map fst part_latex question_latex].
  assert (Ec : answer_lines cs = flat_map choice_latex cs) by (unfold answer_lines; now rewrite flat_map_concat_map).
  assert (Eh : hint_lines_turned hs = flat_map (hint_latex (fun h => lit "\ref{" ++ h_label h ++ lit "}")) hs).
  { unfold hint_lines_turned. rewrite flat_map_concat_map. f_equal. apply map_ext. intros h. unfold hint_line, hint_latex. destruct (h_other h); cbn [negb]; rewrite <- ?app_assoc; reflexivity. }
  rewrite Ec, Eh. rewrite <- !app_assoc. reflexivity.
Qed.
(* The hints reach the wrong students: a hint for those who gave the answer is
   marked as one for those who did not, and the other way around.  The mark that
   an answer is ticked from the start is not written, nor is the answer a hint
   to a free text is for. *)
Definition run_lines (src : list str) : option (bool * str) :=
  match parse_source 100 src with
  | Ret (r, d) =>
      match perform_transforms d with
      | Ret d' => match write_to_larst (fun l => l) (MkOptions StdOut false false) d' with
                  | Ret out => Some (match r with RFailure => false | _ => true end, concat out)
                  | _ => None
                  end
      | _ => None
      end
  | _ => None
  end.
Theorem C54_hints_refuted :
  run_lines [lit ".. questionnaire:: q A"; []; lit "   .. pick-one:: 1"; []; lit "      a. right"; lit "      +*b. left"; []; lit "      a " ++ [167%N] ++ lit " good"; lit "      !b " ++ [167%N] ++ lit " fine"] =
    Some (true, lit "\begin{quiz}{q}{1}" ++ nl1 ++ lit "\begin{pick}{one}{1}" ++ nl1 ++ lit "\begin{answers}" ++ nl1 ++
      answer_line Wrong (lit "right") (lit "a") ++ answer_line Right (lit "left") (lit "b") ++ lit "\end{answers}" ++ nl2 ++
      hint_line true (lit "a") (lit "good") ++ hint_line false (lit "b") (lit "fine") ++ nl1 ++ lit "\end{pick}" ++ nl2 ++ lit "\end{quiz}" ++ nl2) /\
  run_lines [lit ".. questionnaire:: q A"; []; lit "   .. freetext:: 1 string"; []; lit "      Where?"; []; lit "      here"; []; lit "      there " ++ [167%N] ++ lit " almost"] =
    Some (true, lit "\begin{quiz}{q}{1}" ++ nl1 ++ lit "\begin{freetext}{string}{1}{here}" ++ nl1 ++ lit "Where?" ++ nl2 ++ lit "\feedback{!}{almost}" ++ nl2 ++ lit "\end{freetext}" ++ nl2 ++ lit "\end{quiz}" ++ nl2).
Proof. split; vm_compute; reflexivity. Qed.
Definition asked_question : question :=
  Pick true 3 [] (Some [Txt (lit "Which?")]) [{| c_ticked := true; c_verdict := Right; c_label := lit "a"; c_answer := [Txt (lit "this & that")] |}] [{| h_other := true; h_label := lit "a"; h_text := [Txt (lit "no")] |}].
Example C54_ex : let d := [(Block (Para [Txt (lit "Now:")]), 1);
    (Block (Quiz {| q_key := lit "q"; q_grade := lit "A"; q_points := None; q_settings := []; q_parts := [(Asked asked_question, 1); (Asked asked_question, 0)] |}), 0)] in
  simple d = true /\
  run_lines (document_source d) = Some (true, document_latex false d) /\
  document_latex false d = lit "Now:" ++ nl2 ++ lit "\begin{quiz}{q}{6}" ++ nl1 ++ question_latex asked_question ++ question_latex asked_question ++ lit "\end{quiz}" ++ nl2 /\
  question_latex asked_question = lit "\begin{pick}{any}{3}" ++ nl1 ++ lit "Which?" ++ nl2 ++ lit "\begin{answers}" ++ nl1 ++ lit "\right this \& that \label{a}" ++ nl1 ++ lit "\end{answers}" ++ nl2 ++
    lit "\feedback{\ref{a}}{no}" ++ nl2 ++ lit "\end{pick}" ++ nl2.
Proof. split; [vm_compute; reflexivity|]. split; [vm_compute; reflexivity|]. split; vm_compute; reflexivity. Qed.
Print Assumptions C54_questions_partial.
Print Assumptions C54_hints_refuted.
