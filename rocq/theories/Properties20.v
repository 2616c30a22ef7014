(* Properties20.v -- C57: hyperlink targets label what follows them *)
From Coq Require Import Permutation.
From Verif Require Import Base Unicode Regex Patterns Common Converters NodeTypes Tree DocTree History Blocks Prog ParseLoop
  Inline Body Directives Parser Spec InlineSpec Utf8Latex Writer WriterSpec WriterProofs Transforms SimpleSpec MarkupSpec Properties12 Properties14.

Definition label_line (name : str) : str := lit "\rstlabel{" ++ normalize_refname name ++ lit "}" ++ nl1.
(* In a document as in C47, targets in front of a title (each with any number of
   empty lines after it) become labels in front of the heading, in order, before
   the label the title itself makes. *)
Theorem C57_targets_partial ord o d1 names over t c n gap d2 : (forall l, Permutation (ord l) l) ->
  simple (d1 ++ (Marked names over t c n, gap) :: d2) = true ->
  exists states out before after,
    translated ord o (document_source (d1 ++ (Marked names over t c n, gap) :: d2)) (REOF states) out /\
    concat out = before ++ elements_latex [] d1 ++
      concat (map label_line (map fst names)) ++ label_line t ++
      lit "\" ++ heading (level_after (styles d1) (if over then OverAndUnder c else Under c)) ++ lit "{" ++ t ++ lit "}" ++ nl2 ++
      elements_latex (styles d1 ++ [if over then OverAndUnder c else Under c]) d2 ++ after.
Proof.
  intros Hord H. destruct (C47_simple_documents ord o _ Hord H) as (states & out & Ht & E).
  exists states, out, (if print_full_document o then lit "\documentclass{aplus}" ++ nl1 ++ lit "\begin{document}" ++ nl2 else []),
    (if print_full_document o then lit "\end{document}" ++ nl1 else []).
  split; [exact Ht|]. rewrite E. unfold document_latex. rewrite elements_latex_app. cbn [elements_latex element_latex style_of app].
  unfold title_latex, targets_latex, label_line, title_style. rewrite map_map, <- flat_map_concat_map.
  rewrite <- !app_assoc. reflexivity.
Qed.

(* the names a document offers: those of its targets, and its titles *)
Definition offered (e : element) : list str :=
  match e with
  | Under_title t _ _ | Over_title t _ _ => [t]
  | Marked names _ t _ _ => map fst names ++ [t]
  | _ => []
  end.
Lemma offered_labels d : forall seen name, In name (flat_map (fun x => offered (fst x)) d) ->
  contains (elements_latex seen d) (lit "\rstlabel{" ++ normalize_refname name ++ lit "}").
Proof.
  assert (T : forall l t, contains (title_latex l t) (lit "\rstlabel{" ++ normalize_refname t ++ lit "}")).
  { intros l t. exists [], (nl1 ++ lit "\" ++ heading l ++ lit "{" ++ t ++ lit "}" ++ nl2). unfold title_latex. cbn [app]. now rewrite <- !app_assoc. }
  induction d as [|[e g] d IH]; intros seen name; [intros []|]. cbn [flat_map fst elements_latex]. intros I. apply in_app_or in I as [I|I].
  - apply contains_app_l. destruct e as [t c n|t c n|names over t c n|c n|t ls|t q ls|ds|ti op fi mo|b]; try (destruct I; fail); cbn [offered element_latex] in *.
    + destruct I as [<-|[]]. apply T.
    + destruct I as [<-|[]]. apply T.
    + apply in_app_or in I as [I|[<-|[]]]; [apply contains_app_l|apply contains_app_r, T].
      unfold targets_latex. rewrite flat_map_concat_map. apply in_map_iff in I as (x & <- & Hx).
      apply (contains_concat (lit "\rstlabel{" ++ normalize_refname (fst x) ++ lit "}" ++ nl1)); [apply (in_map (fun x => lit "\rstlabel{" ++ normalize_refname (fst x) ++ lit "}" ++ nl1)); exact Hx|].
      exists [], nl1. cbn [app]. now rewrite <- !app_assoc.
  - apply contains_app_r, IH, I.
Qed.
Lemma paragraph_chunks d : forall seen t g c, In (Block (Para t), g) d -> In c t -> contains (elements_latex seen d) (chunk_latex c).
Proof.
  induction d as [|[e g0] d IH]; intros seen t g c I C; [destruct I|]. cbn [elements_latex]. destruct I as [I|I].
  - assert (Ee : e = Block (Para t)) by exact (f_equal fst I). subst e. apply contains_app_l. cbn [element_latex latex]. unfold para_latex. apply contains_app_l.
    unfold chunks_latex. rewrite flat_map_concat_map. apply (contains_concat (chunk_latex c)); [now apply in_map|apply contains_refl].
  - apply contains_app_r, (IH _ t g); assumption.
Qed.
(* A reference in a paragraph points at a label that is there, if a target or a
   title of the document has the same name up to upper case and white space (C17),
   wherever they are. *)
Theorem C57_references_partial ord o d name text gap ref : (forall l, Permutation (ord l) l) -> simple d = true ->
  In name (flat_map (fun x => offered (fst x)) d) -> In (Block (Para text), gap) d ->
  normalize_refname ref = normalize_refname name ->
  exists states out, translated ord o (document_source d) (REOF states) out /\
    contains (concat out) (lit "\rstlabel{" ++ normalize_refname name ++ lit "}") /\
    (In (Link ref) text -> contains (concat out) (lit "\ref{" ++ normalize_refname name ++ lit "}")) /\
    (In (Phrase ref) text -> contains (concat out) (lit "\hyperref[" ++ normalize_refname name ++ lit "]{" ++ ref ++ lit "}")).
Proof.
  intros Hord H I P En. destruct (C47_simple_documents ord o _ Hord H) as (states & out & Ht & E).
  exists states, out. split; [exact Ht|]. rewrite E. unfold document_latex. rewrite <- En.
  split; [|split].
  - rewrite En. apply contains_app_r, contains_app_l, offered_labels, I.
  - intros C. apply contains_app_r, contains_app_l. apply (paragraph_chunks d [] text gap (Link ref) P C).
  - intros C. apply contains_app_r, contains_app_l. apply (paragraph_chunks d [] text gap (Phrase ref) P C).
Qed.

(* Elsewhere the label is lost, and a reference to it is written all the same: in
   front of a paragraph, a list or an image, or at the end of the source.  A
   target whose name is one letter, or has one letter after its last hyphen, is
   taken for a comment.  A target that is an alias of another one makes the
   program panic, and so does one with an address.  The text of a target inside a
   paragraph is lost as well. *)
Theorem C57_lost_refuted :
  run_on [".. _abc:"; ""; "Text."; ""; "See abc_."]%string = Some (true, lit "Text." ++ nl2 ++ lit "See \ref{abc}." ++ nl2) /\
  run_on [".. _abc:"; ""; "* one"; ""; "See abc_."]%string =
    Some (true, lit "\begin{itemize}" ++ nl1 ++ lit "\item one" ++ nl2 ++ lit "\end{itemize}" ++ nl2 ++ lit "See \ref{abc}." ++ nl2) /\
  run_on [".. _abc:"; ""; ".. image:: x.png"; ""; "See abc_."]%string = Some (true, lit "\includegraphics{x.png}" ++ nl1 ++ lit "See \ref{abc}." ++ nl2) /\
  run_on ["See abc_."; ""; ".. _abc:"]%string = Some (true, lit "See \ref{abc}." ++ nl2) /\
  run_on [".. _a:"; ""; "Title"; "====="; ""; "See a_."]%string =
    Some (true, lit "% _a:" ++ nl2 ++ lit "\rstlabel{title}" ++ nl1 ++ lit "\chapter{Title}" ++ nl2 ++ lit "See \ref{a}." ++ nl2) /\
  run_on [".. _a-b:"; ""; "Title"; "====="; ""; "See a-b_."]%string =
    Some (true, lit "% _a-b:" ++ nl2 ++ lit "\rstlabel{title}" ++ nl1 ++ lit "\chapter{Title}" ++ nl2 ++ lit "See \ref{a-b}." ++ nl2) /\
  run_on [".. _abc: other_"; ""; "Title"; "====="; ""; "See abc_."]%string = None /\
  run_on [".. _abc: http://x"; ""; "Title"; "====="; ""; "See abc_."]%string = None /\
  run_on ["Some _`words here`, see `words here`_."]%string = Some (true, lit "Some , see \hyperref[words here]{words here}." ++ nl2).
Proof.
  split; [vm_compute; reflexivity|]. split; [vm_compute; reflexivity|]. split; [vm_compute; reflexivity|]. split; [vm_compute; reflexivity|]. split; [vm_compute; reflexivity|].
  split; [vm_compute; reflexivity|]. split; [vm_compute; reflexivity|]. split; vm_compute; reflexivity.
Qed.

Definition manual : document :=
  [(Block (Para [Txt (lit "See "); Link (lit "start"); Txt (lit ", "); Phrase (lit "The END"); Txt (lit " or "); Phrase (lit "last  steps"); Txt (lit ".")]), 1);
   (Marked [(lit "intro", 0); (lit "Start", 1)] true (lit "Introduction") 61%N 12, 1);
   (Block (Bullets 42%N (ICons [Txt (lit "one")] 0 BNil INil)), 1);
   (Marked [(lit "the end", 2)] false (lit "Last steps") 45%N 10, 0);
   (Block (Para [Txt (lit "Done.")]), 0)].
Example C57_ex : simple manual = true /\
  document_source manual =
    [lit "See start_, `The END`_ or `last  steps`_."; [];
     lit ".. _intro:"; lit ".. _Start:"; []; lit "============"; lit "Introduction"; lit "============"; [];
     lit "* one"; [];
     lit ".. _the end:"; []; []; lit "Last steps"; lit "----------"; lit "Done."] /\
  In (lit "Start") (flat_map (fun x => offered (fst x)) manual) /\ In (lit "Last steps") (flat_map (fun x => offered (fst x)) manual) /\
  normalize_refname (lit "start") = normalize_refname (lit "Start") /\
  normalize_refname (lit "last  steps") = normalize_refname (lit "Last steps") /\
  run_on ["See start_, `The END`_ or `last  steps`_."; "";
     ".. _intro:"; ".. _Start:"; ""; "============"; "Introduction"; "============"; ""; "* one"; "";
     ".. _the end:"; ""; ""; "Last steps"; "----------"; "Done."]%string =
    Some (true, lit "See \ref{start}, \hyperref[the end]{The END} or \hyperref[last steps]{last  steps}." ++ nl2 ++
      lit "\rstlabel{intro}" ++ nl1 ++ lit "\rstlabel{start}" ++ nl1 ++ lit "\rstlabel{introduction}" ++ nl1 ++ lit "\chapter{Introduction}" ++ nl2 ++
      lit "\begin{itemize}" ++ nl1 ++ lit "\item one" ++ nl2 ++ lit "\end{itemize}" ++ nl2 ++
      lit "\rstlabel{the end}" ++ nl1 ++ lit "\rstlabel{last steps}" ++ nl1 ++ lit "\section{Last steps}" ++ nl2 ++ lit "Done." ++ nl2).
Proof.
  split; [vm_compute; reflexivity|]. split; [vm_compute; reflexivity|].
  split; [right; left; reflexivity|]. split; [do 4 right; left; reflexivity|]. split; [vm_compute; reflexivity|]. split; vm_compute; reflexivity.
Qed.
Print Assumptions C57_targets_partial.
Print Assumptions C57_references_partial.
Print Assumptions C57_lost_refuted.
