(* Properties17.v -- C53: footnotes and citations keep their bodies *)
From Coq Require Import Permutation.
From Verif Require Import Base Unicode Regex Patterns Common Converters NodeTypes Tree DocTree History Blocks Prog ParseLoop
  Inline Body Directives Parser Spec InlineSpec Utf8Latex Writer Transforms SimpleSpec Properties12 Properties14.

(* In a document as in C47 a footnote or citation is written as one command that
   holds its first paragraph and all its blocks, in order, and what follows it
   in the source follows the command. *)
Theorem C53_note_body_partial ord o d1 m t g more gap d2 : (forall l, Permutation (ord l) l) ->
  simple (d1 ++ (Block (Entry m t g more), gap) :: d2) = true ->
  exists states out before after, translated ord o (document_source (d1 ++ (Block (Entry m t g more), gap) :: d2)) (REOF states) out /\
    concat out = before ++
      (match m with Citation l => lit "\bibitem{" ++ l ++ lit "}" | Footnote _ => lit "\footnote{" end) ++ nl1 ++
      para_latex t ++ blocks_latex more ++ (match m with Citation _ => [] | Footnote _ => lit "}" ++ nl1 end) ++ nl1 ++ elements_latex (styles d1) d2 ++ after.
Proof.
  intros Hord H. destruct (C47_simple_documents ord o _ Hord H) as (states & out & Ht & E).
  exists states, out, ((if print_full_document o then lit "\documentclass{aplus}" ++ nl1 ++ lit "\begin{document}" ++ nl2 else []) ++ elements_latex [] d1),
    (if print_full_document o then lit "\end{document}" ++ nl1 else []).
  split; [exact Ht|]. rewrite E. unfold document_latex. rewrite elements_latex_app. cbn [elements_latex element_latex style_of app latex]. rewrite app_nil_r, <- !app_assoc.
  destruct m; cbn [note_begin note_end]; rewrite <- !app_assoc; reflexivity.
Qed.
(* In an item of a numbered list, or inside a standard admonition, everything
   after the first line falls out of the note and becomes a quotation. *)
Theorem C53_note_body_refuted :
  run_on ["1. item"; ""; "   .. [cit] Smith,"; "      1999"; ""; "2. next"]%string =
    Some (true, lit "\begin{enumerate}" ++ nl1 ++ lit "\item item" ++ nl2 ++ lit "\bibitem{cit}" ++ nl1 ++ lit "Smith," ++ nl2 ++ nl1 ++
      lit "\begin{quotation}" ++ nl1 ++ lit "1999" ++ nl2 ++ lit "\end{quotation}" ++ nl2 ++ lit "\item next" ++ nl2 ++ lit "\end{enumerate}" ++ nl2) /\
  run_on [".. note::"; ""; "   .. [1] Smith,"; "      1999"; ""; "next"]%string =
    Some (true, lit "\begin{note}" ++ nl1 ++ lit "\footnote{" ++ nl1 ++ lit "Smith," ++ nl2 ++ lit "}" ++ nl2 ++
      lit "\begin{quotation}" ++ nl1 ++ lit "1999" ++ nl2 ++ lit "\end{quotation}" ++ nl2 ++ lit "\end{note}" ++ nl2 ++ lit "next" ++ nl2).
Proof. split; vm_compute; reflexivity. Qed.
Example C53_ex : simple [(Block (Para [Txt (lit "As said "); Cite (lit "cit"); Txt (lit " before.")]), 1);
    (Block (Entry (Citation (lit "cit")) [Txt (lit "Smith," ++ nl1 ++ lit "1999")] 1 (BCons (Para [Txt (lit "more")]) 0 BNil)), 1); (Block (Para [Txt (lit "After.")]), 0)] = true /\
  run_on ["As said [cit]_ before."; ""; ".. [cit] Smith,"; "   1999"; ""; "   more"; ""; "After."]%string =
    Some (true, lit "As said \cite{cit} before." ++ nl2 ++ lit "\bibitem{cit}" ++ nl1 ++ lit "Smith," ++ nl1 ++ lit "1999" ++ nl2 ++ lit "more" ++ nl2 ++ nl1 ++ lit "After." ++ nl2).
Proof. split; vm_compute; reflexivity. Qed.
Print Assumptions C53_note_body_partial.
Print Assumptions C53_note_body_refuted.
