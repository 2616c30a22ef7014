(* Properties16.v -- C52: literal blocks *)
From Coq Require Import Permutation.
From Verif Require Import Base Unicode Regex Patterns Common Converters NodeTypes Tree DocTree History Blocks Prog ParseLoop
  Inline Body Directives Parser Spec InlineSpec Utf8Latex Writer Transforms SimpleSpec Properties12 Properties14.

(* In a document as in C47, every line of a literal block is written, in order,
   without the common indentation, between the paragraph that announces it and
   what follows; the block may contain anything. *)
Theorem C52_literal_block_partial ord o d1 t ls gap d2 : (forall l, Permutation (ord l) l) ->
  simple (d1 ++ (Verbatim t ls, gap) :: d2) = true ->
  exists states out before after, translated ord o (document_source (d1 ++ (Verbatim t ls, gap) :: d2)) (REOF states) out /\
    concat out = before ++ para_latex t ++ lit "\begin{codeblock}" ++ nl1 ++
      unicode_text_to_latex (join nl1 (ls ++ repeat [] gap)) ++ nl1 ++ lit "\end{codeblock}" ++ nl2 ++ elements_latex (styles d1) d2 ++ after.
Proof.
  intros Hord H. destruct (C47_simple_documents ord o _ Hord H) as (states & out & Ht & E).
  exists states, out, ((if print_full_document o then lit "\documentclass{aplus}" ++ nl1 ++ lit "\begin{document}" ++ nl2 else []) ++ elements_latex [] d1),
    (if print_full_document o then lit "\end{document}" ++ nl1 else []).
  split; [exact Ht|]. rewrite E. unfold document_latex. rewrite elements_latex_app. cbn [elements_latex element_latex style_of app]. rewrite app_nil_r, <- !app_assoc. reflexivity.
Qed.
(* In an item of a numbered list, or inside an admonition, the first characters
   of the lines are lost and deeper lines fall out of the block. *)
Theorem C52_literal_block_refuted :
  run_on ["1. para::"; ""; "     literal"; ""; "       code"; ""; "2. next"]%string =
    Some (true, lit "\begin{enumerate}" ++ nl1 ++ lit "\item para:" ++ nl2 ++ lit "\begin{codeblock}" ++ nl1 ++ lit "eral" ++ nl2 ++ lit "\end{codeblock}" ++ nl2 ++
      lit "\begin{quotation}" ++ nl1 ++ lit "code" ++ nl2 ++ lit "\end{quotation}" ++ nl2 ++ lit "\item next" ++ nl2 ++ lit "\end{enumerate}" ++ nl2) /\
  run_on [".. note::"; ""; "   para::"; ""; "     literal"; ""; "next"]%string =
    Some (true, lit "\begin{note}" ++ nl1 ++ lit "para:" ++ nl2 ++ lit "\begin{codeblock}" ++ nl1 ++ lit "eral" ++ nl2 ++ lit "\end{codeblock}" ++ nl2 ++
      lit "\end{note}" ++ nl2 ++ lit "next" ++ nl2).
Proof. split; vm_compute; reflexivity. Qed.
Example C52_ex : simple [(Block (Para [Txt (lit "Before.")]), 1); (Verbatim [Txt (lit "So:")] [lit "if (a_b) {"; lit "   * no list"; lit "}"], 1); (Block (Para [Txt (lit "After.")]), 0)] = true /\
  run_on ["Before."; ""; "So::"; ""; "   if (a_b) {"; "      * no list"; "   }"; ""; "After."]%string =
    Some (true, lit "Before." ++ nl2 ++ lit "So:" ++ nl2 ++ lit "\begin{codeblock}" ++ nl1 ++ lit "if (a\_ b) \{" ++ nl1 ++ lit "   * no list" ++ nl1 ++ lit "\}" ++ nl2 ++
      lit "\end{codeblock}" ++ nl2 ++ lit "After." ++ nl2).
Proof. split; vm_compute; reflexivity. Qed.
Print Assumptions C52_literal_block_partial.
Print Assumptions C52_literal_block_refuted.
