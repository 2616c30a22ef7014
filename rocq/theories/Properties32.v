(* Properties32.v -- C70: blocks of code *)
From Coq Require Import Permutation.
From Verif Require Import Base Unicode Regex Patterns Common Converters NodeTypes Tree DocTree History Blocks Prog ParseLoop
  Inline Body Directives Parser Spec InlineSpec Utf8Latex Writer Transforms SimpleSpec Properties12 Properties14.

(* In a document as in C47, the lines of a code-block directive, also when it is
   called sourcecode, are written in order and character by character between the
   beginning and the end of one code environment that names the language (python if
   the directive names none), whatever options the directive has. *)
Theorem C70_code_block_partial ord o d1 older lang opts ls gap d2 : (forall l, Permutation (ord l) l) ->
  simple (d1 ++ (Block (Leaf (Listing older lang opts ls)), gap) :: d2) = true ->
  exists states out before after, translated ord o (document_source (d1 ++ (Block (Leaf (Listing older lang opts ls)), gap) :: d2)) (REOF states) out /\
    concat out = before ++ lit "\begin{codeblock}[" ++ match lang with [] => lit "python" | _ => lang end ++ lit "]" ++ nl1 ++
      join nl1 ls ++ nl1 ++ lit "\end{codeblock}" ++ nl2 ++ elements_latex (styles d1) d2 ++ after.
Proof.
  intros Hord H. destruct (C47_simple_documents ord o _ Hord H) as (states & out & Ht & E).
  exists states, out, ((if print_full_document o then lit "\documentclass{aplus}" ++ nl1 ++ lit "\begin{document}" ++ nl2 else []) ++ elements_latex [] d1),
    (if print_full_document o then lit "\end{document}" ++ nl1 else []).
  split; [exact Ht|]. rewrite E. unfold document_latex. rewrite elements_latex_app. cbn [elements_latex element_latex style_of latex leaf_latex app]. rewrite app_nil_r, <- !app_assoc. reflexivity.
Qed.
(* The two names of the directive mean the same. *)
Theorem C70_names_partial ord o d1 lang opts ls gap d2 : (forall l, Permutation (ord l) l) ->
  simple (d1 ++ (Block (Leaf (Listing true lang opts ls)), gap) :: d2) = true -> simple (d1 ++ (Block (Leaf (Listing false lang opts ls)), gap) :: d2) = true ->
  exists s s' out out', translated ord o (document_source (d1 ++ (Block (Leaf (Listing true lang opts ls)), gap) :: d2)) (REOF s) out /\
    translated ord o (document_source (d1 ++ (Block (Leaf (Listing false lang opts ls)), gap) :: d2)) (REOF s') out' /\ concat out = concat out'.
Proof.
  intros Hord H H'. destruct (C47_simple_documents ord o _ Hord H) as (s & out & Ht & E). destruct (C47_simple_documents ord o _ Hord H') as (s' & out' & Ht' & E').
  exists s, s', out, out'. split; [exact Ht|]. split; [exact Ht'|]. rewrite E, E'. unfold document_latex. rewrite !elements_latex_app. reflexivity.
Qed.
(* The lines of a code directive are lost, whatever they are: with other lines the
   same LaTeX is written. *)
Theorem C70_code_refuted ord o d1 lang opts opts' ls ls' gap d2 : (forall l, Permutation (ord l) l) ->
  simple (d1 ++ (Block (Leaf (Code lang opts ls)), gap) :: d2) = true -> simple (d1 ++ (Block (Leaf (Code lang opts' ls')), gap) :: d2) = true ->
  exists s s' out out', translated ord o (document_source (d1 ++ (Block (Leaf (Code lang opts ls)), gap) :: d2)) (REOF s) out /\
    translated ord o (document_source (d1 ++ (Block (Leaf (Code lang opts' ls')), gap) :: d2)) (REOF s') out' /\ concat out = concat out'.
Proof.
  intros Hord H H'. destruct (C47_simple_documents ord o _ Hord H) as (s & out & Ht & E). destruct (C47_simple_documents ord o _ Hord H') as (s' & out' & Ht' & E').
  exists s, s', out, out'. split; [exact Ht|]. split; [exact Ht'|]. rewrite E, E'. unfold document_latex. rewrite !elements_latex_app. reflexivity.
Qed.

Example C70_ex :
  let ls := [lit "if a_b {"; lit "    c # $1"; []; lit "}"] in
  let doc (l : leaf) := [(Block (Leaf l), 1); (Block (Para [Txt (lit "After.")]), 0)] in
  simple (doc (Listing true (lit "rust") [(lit "linenos", [])] ls)) = true /\ simple (doc (Listing false (lit "rust") [(lit "linenos", [])] ls)) = true /\
  simple (doc (Code (lit "rust") [] ls)) = true /\ simple (doc (Code (lit "rust") [] [lit "other"])) = true /\
  document_source (doc (Listing true (lit "rust") [(lit "linenos", [])] ls)) =
    [lit ".. sourcecode:: rust"; lit "   :linenos:"; []; lit "   if a_b {"; lit "       c # $1"; []; lit "   }"; []; lit "After."] /\
  run_on [".. sourcecode:: rust"; "   :linenos:"; ""; "   if a_b {"; "       c # $1"; ""; "   }"; ""; "After."]%string =
    Some (true, lit "\begin{codeblock}[rust]" ++ nl1 ++ lit "if a_b {" ++ nl1 ++ lit "    c # $1" ++ nl2 ++ lit "}" ++ nl1 ++ lit "\end{codeblock}" ++ nl2 ++ lit "After." ++ nl2) /\
  run_on [".. code:: rust"; ""; "   if a_b {"; "       c # $1"; ""; "   }"; ""; "After."]%string =
    Some (true, lit "\begin{codeblock}[rust]" ++ nl1 ++ lit "\end{codeblock}" ++ nl2 ++ lit "After." ++ nl2).
Proof. split; [vm_compute; reflexivity|]. split; [vm_compute; reflexivity|]. split; [vm_compute; reflexivity|]. split; [vm_compute; reflexivity|]. split; [vm_compute; reflexivity|]. split; vm_compute; reflexivity. Qed.
Print Assumptions C70_code_block_partial.
Print Assumptions C70_names_partial.
Print Assumptions C70_code_refuted.
