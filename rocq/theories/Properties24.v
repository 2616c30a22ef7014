(* Properties24.v -- C62: a quote keeps who said it *)
From Coq Require Import Permutation Lia ZifyBool ZifyNat ZifyN.
From Verif Require Import Base Unicode Regex Patterns Common Converters NodeTypes Tree DocTree History Blocks Prog ParseLoop
  Inline Body Directives Parser Spec InlineSpec Utf8Latex Writer Transforms SimpleSpec MarkupSpec Properties12 Properties14 Properties18.

(* what a quote with an attribution should become: the attribution is the last line inside the quotation *)
Definition attributed (said who : str) : str :=
  lit "\begin{quotation}" ++ nl1 ++ said ++ lit "-- " ++ who ++ nl1 ++ lit "\end{quotation}" ++ nl2.
Definition quoted (said : str) : str := lit "\begin{quotation}" ++ nl1 ++ said ++ lit "\end{quotation}" ++ nl2.

(* the lines of an attribution, on one line *)
Definition one_line_of (ls : list str) : str := join (lit " ") ls.
(* A block quote that ends in an attribution, anywhere in a document, becomes one
   quotation: what is said in it, then the attribution as it is written in the
   source, its lines joined by single spaces, inside the quotation and nowhere else. *)
Theorem C62_attributions_partial ord o d1 extra bs who hang more gap d2 : (forall l, Permutation (ord l) l) ->
  simple (d1 ++ (Block (Said extra bs who hang more), gap) :: d2) = true ->
  exists states out before after,
    translated ord o (document_source (d1 ++ (Block (Said extra bs who hang more), gap) :: d2)) (REOF states) out /\
    concat out = before ++ attributed (blocks_latex bs) (one_line_of (who :: more)) ++ after.
Proof.
  intros Hord H. destruct (C47_simple_documents ord o _ Hord H) as (states & out & Ht & E).
  exists states, out, ((if print_full_document o then lit "\documentclass{aplus}" ++ nl1 ++ lit "\begin{document}" ++ nl2 else []) ++ elements_latex [] d1),
    (elements_latex (styles d1) d2 ++ (if print_full_document o then lit "\end{document}" ++ nl1 else [])).
  split; [exact Ht|]. rewrite E. unfold document_latex, attributed, one_line_of. rewrite elements_latex_app. cbn [elements_latex element_latex style_of app latex]. rewrite app_nil_r.
  rewrite <- !app_assoc. reflexivity.
Qed.
(* An attribution separates two quotes: what is quoted after it is another
   quotation, also when nothing but an empty line is between them. *)
Theorem C62_quotes_apart_partial ord o d1 extra bs who hang more gap extra2 bs2 gap2 d2 : (forall l, Permutation (ord l) l) ->
  simple (d1 ++ (Block (Said extra bs who hang more), gap) :: (Block (Quote extra2 bs2), gap2) :: d2) = true ->
  exists states out before after,
    translated ord o (document_source (d1 ++ (Block (Said extra bs who hang more), gap) :: (Block (Quote extra2 bs2), gap2) :: d2)) (REOF states) out /\
    concat out = before ++ attributed (blocks_latex bs) (one_line_of (who :: more)) ++ quoted (blocks_latex bs2) ++ after.
Proof.
  intros Hord H. destruct (C47_simple_documents ord o _ Hord H) as (states & out & Ht & E).
  exists states, out, ((if print_full_document o then lit "\documentclass{aplus}" ++ nl1 ++ lit "\begin{document}" ++ nl2 else []) ++ elements_latex [] d1),
    (elements_latex (styles d1) d2 ++ (if print_full_document o then lit "\end{document}" ++ nl1 else [])).
  split; [exact Ht|]. rewrite E. unfold document_latex, attributed, quoted, one_line_of. rewrite elements_latex_app. cbn [elements_latex element_latex style_of app latex]. rewrite !app_nil_r.
  rewrite <- !app_assoc. reflexivity.
Qed.
(* What is lost.  Inline markup in an attribution is not read and the characters
   that mean something to LaTeX are not escaped; three hyphens leave one of them
   in the name; inside an item of a numbered list the name is cut off; without an
   empty line before it the attribution is text of the paragraph. *)
Theorem C62_attributions_refuted :
  run_lines [lit "  said"; []; lit "  -- Me *and* you & co"] = Some (true, attributed (lit "said" ++ nl2) (lit "Me *and* you & co")) /\
  run_lines [lit "  said"; []; lit "  --- Him"] = Some (true, attributed (lit "said" ++ nl2) (lit "- Him")) /\
  run_lines [lit "1. a"; []; lit "     said"; []; lit "     -- Him"] =
    Some (true, lit "\begin{enumerate}" ++ nl1 ++ lit "\item a" ++ nl2 ++ attributed (lit "said" ++ nl2) [] ++ lit "\end{enumerate}" ++ nl2) /\
  run_lines [lit "  said"; lit "  -- Him"] = Some (true, quoted (lit "said" ++ nl1 ++ lit "-- Him" ++ nl2)).
Proof. split; [vm_compute; reflexivity|]. split; [vm_compute; reflexivity|]. split; vm_compute; reflexivity. Qed.
Example C62_ex : let d := [(Block (Para [Txt (lit "As they say:")]), 1);
      (Block (Said 2 (BCons (Para [Txt (lit "never "); Emph (lit "ever")]) 1 (BCons (Bullets 45%N (ICons [Txt (lit "a")] 0 BNil INil)) 0 BNil)) (lit "An old friend") 0 []), 1);
      (Block (Quote 3 (BCons (Para [Txt (lit "well")]) 1 (BCons (Said 2 (BCons (Para [Txt (lit "deep")]) 0 BNil) (lit "Somebody") 3 [lit "or other,"; lit "on Monday"]) 1 BNil))), 1);
      (Block (Para [Txt (lit "and so on")]), 0)] in
  simple d = true /\
  document_source d = [lit "As they say:"; []; lit "  never *ever*"; []; lit "  - a"; []; lit "  -- An old friend"; []; lit "   well"; []; lit "     deep"; []; lit "     -- Somebody"; lit "        or other,"; lit "        on Monday"; []; []; lit "and so on"] /\
  run_lines (document_source d) = Some (true, document_latex false d) /\
  document_latex false d = lit "As they say:" ++ nl2 ++
    attributed (lit "never \textit{ever}" ++ nl2 ++ lit "\begin{itemize}" ++ nl1 ++ lit "\item a" ++ nl2 ++ lit "\end{itemize}" ++ nl2) (lit "An old friend") ++
    quoted (lit "well" ++ nl2 ++ attributed (lit "deep" ++ nl2) (lit "Somebody or other, on Monday")) ++ lit "and so on" ++ nl2.
Proof. split; [vm_compute; reflexivity|]. split; [vm_compute; reflexivity|]. split; vm_compute; reflexivity. Qed.
Print Assumptions C62_attributions_partial.
Print Assumptions C62_quotes_apart_partial.
Print Assumptions C62_attributions_refuted.
