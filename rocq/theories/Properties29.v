(* Properties29.v -- C67: quoted literal blocks *)
From Coq Require Import Permutation.
From Verif Require Import Base Unicode Regex Patterns Common Converters NodeTypes Tree DocTree History Blocks Prog ParseLoop
  Inline Body Directives Parser Spec InlineSpec Utf8Latex Writer Transforms SimpleSpec Properties12 Properties14.

(* In a document as in C47, after a paragraph that ends with two colons, lines
   that all begin with the same sign of punctuation are a literal block: they are
   written in order, without the sign and the spaces after it, whatever else they
   say, between that paragraph and what follows. *)
Theorem C67_quoted_block_partial ord o d1 t q ls gap d2 : (forall l, Permutation (ord l) l) ->
  simple (d1 ++ (Quoted t q ls, gap) :: d2) = true ->
  exists states out before after, translated ord o (document_source (d1 ++ (Quoted t q ls, gap) :: d2)) (REOF states) out /\
    concat out = before ++ para_latex t ++ lit "\begin{codeblock}" ++ nl1 ++
      unicode_text_to_latex (join nl1 (map snd ls)) ++ nl1 ++ lit "\end{codeblock}" ++ nl2 ++ elements_latex (styles d1) d2 ++ after.
Proof.
  intros Hord H. destruct (C47_simple_documents ord o _ Hord H) as (states & out & Ht & E).
  exists states, out, ((if print_full_document o then lit "\documentclass{aplus}" ++ nl1 ++ lit "\begin{document}" ++ nl2 else []) ++ elements_latex [] d1),
    (if print_full_document o then lit "\end{document}" ++ nl1 else []).
  split; [exact Ht|]. rewrite E. unfold document_latex. rewrite elements_latex_app. cbn [elements_latex element_latex style_of app]. rewrite app_nil_r, <- !app_assoc. reflexivity.
Qed.
(* The sign and the spaces after it say nothing: with another sign, and other
   spaces, the same LaTeX is written. *)
Theorem C67_sign_partial ord o d1 t q q' ls ls' gap d2 : (forall l, Permutation (ord l) l) ->
  simple (d1 ++ (Quoted t q ls, gap) :: d2) = true -> simple (d1 ++ (Quoted t q' ls', gap) :: d2) = true -> map snd ls = map snd ls' ->
  exists s s' out out', translated ord o (document_source (d1 ++ (Quoted t q ls, gap) :: d2)) (REOF s) out /\
    translated ord o (document_source (d1 ++ (Quoted t q' ls', gap) :: d2)) (REOF s') out' /\ concat out = concat out'.
Proof.
  intros Hord H H' El. destruct (C47_simple_documents ord o _ Hord H) as (s & out & Ht & E). destruct (C47_simple_documents ord o _ Hord H') as (s' & out' & Ht' & E').
  exists s, s', out, out'. split; [exact Ht|]. split; [exact Ht'|]. rewrite E, E'. unfold document_latex. rewrite !elements_latex_app. cbn [elements_latex element_latex style_of]. now rewrite El.
Qed.
(* The indentation inside a quoted block is lost, and a line with another sign, or none, stops the translation. *)
Theorem C67_quoted_block_refuted :
  run_on ["So::"; ""; "> if x {"; ">     y"; "> }"]%string =
    Some (true, lit "So:" ++ nl2 ++ lit "\begin{codeblock}" ++ nl1 ++ lit "if x \{" ++ nl1 ++ lit "y" ++ nl1 ++ lit "\}" ++ nl1 ++ lit "\end{codeblock}" ++ nl2) /\
  run_on ["So::"; ""; "> one"; "two"]%string = Some (false, lit "So:" ++ nl2).
Proof. split; vm_compute; reflexivity. Qed.
Example C67_ex :
  simple [(Block (Para [Txt (lit "Before.")]), 1);
          (Quoted [Txt (lit "They "); Strong (lit "wrote"); Txt (lit " this:")] 62%N [(1, lit "if (a_b) {"); (0, []); (4, lit "* no list"); (1, lit "> }")], 2);
          (Block (Quote 3 (BCons (Para [Txt (lit "After.")]) 0 BNil)), 0)] = true /\
  document_source [(Quoted [Txt (lit "They "); Strong (lit "wrote"); Txt (lit " this:")] 62%N [(1, lit "if (a_b) {"); (0, []); (4, lit "* no list"); (1, lit "> }")], 0)] =
    [lit "They **wrote** this::"; []; lit "> if (a_b) {"; lit ">"; lit ">    * no list"; lit "> > }"] /\
  run_on ["Before."; ""; "They **wrote** this::"; ""; "> if (a_b) {"; ">"; ">    * no list"; "> > }"; ""; ""; "   After."]%string =
    Some (true, lit "Before." ++ nl2 ++ lit "They \textbf{wrote} this:" ++ nl2 ++ lit "\begin{codeblock}" ++ nl1 ++ lit "if (a\_ b) \{" ++ nl2 ++ lit "* no list" ++ nl1 ++ lit "> \}" ++ nl1 ++
      lit "\end{codeblock}" ++ nl2 ++ lit "\begin{quotation}" ++ nl1 ++ lit "After." ++ nl2 ++ lit "\end{quotation}" ++ nl2).
Proof. split; [vm_compute; reflexivity|]. split; vm_compute; reflexivity. Qed.
Print Assumptions C67_quoted_block_partial.
Print Assumptions C67_sign_partial.
Print Assumptions C67_quoted_block_refuted.
