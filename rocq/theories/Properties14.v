(* Properties14.v -- C49: where the contents of a directive end; C50: how often
   they are written *)
From Coq Require Import Permutation.
From Verif Require Import Base Unicode Regex Patterns Common Converters NodeTypes Tree DocTree History Blocks Prog ParseLoop
  Inline Body Directives Parser Spec InlineSpec Utf8Latex Writer Transforms SimpleSpec Properties12.

(* ---------- C49 ---------- *)
Lemma elements_latex_app d1 : forall seen d2, elements_latex seen (d1 ++ d2) = elements_latex seen d1 ++ elements_latex (seen ++ styles d1) d2.
Proof.
  induction d1 as [|[e g] d1 IH]; intros seen d2; cbn [app elements_latex styles flat_map].
  - now rewrite app_nil_r.
  - rewrite IH, <- !app_assoc. reflexivity.
Qed.
(* In a document as in C47, what comes after a directive with contents is written
   after the end of its environment, and its contents are written inside it. *)
Theorem C49_contents_end_partial ord o d1 x bs gap d2 : (forall l, Permutation (ord l) l) ->
  simple (d1 ++ (Block (Boxed x bs), gap) :: d2) = true ->
  exists states out before, translated ord o (document_source (d1 ++ (Block (Boxed x bs), gap) :: d2)) (REOF states) out /\
    concat out = before ++ box_latex x (blocks_latex bs) ++ elements_latex (styles d1) d2 ++
      (if print_full_document o then lit "\end{document}" ++ nl1 else []).
Proof.
  intros Hord H. destruct (C47_simple_documents ord o _ Hord H) as (states & out & Ht & E).
  exists states, out, ((if print_full_document o then lit "\documentclass{aplus}" ++ nl1 ++ lit "\begin{document}" ++ nl2 else []) ++ elements_latex [] d1).
  split; [exact Ht|]. rewrite E. unfold document_latex. rewrite elements_latex_app. cbn [elements_latex element_latex style_of latex app]. rewrite app_nil_r, <- !app_assoc. reflexivity.
Qed.
(* whole runs on literal sources *)
Definition run_on (src : list string) : option (bool * str) :=
  match parse_source 100 (map lit src) with
  | Ret (r, d) =>
      match perform_transforms d with
      | Ret d' => match write_to_larst (fun l => l) (MkOptions StdOut false false) d' with
                  | Ret out => Some (match r with RFailure => false | _ => true end, concat out)
                  | _ => None
                  end
      | _ => None
      end
  | _ => None
  end.
(* Elsewhere the next block is taken for contents: a paragraph of the item after
   an admonition in a numbered list; one of an admonition after another one in
   it; any block after a directive whose only text is on the line of the marker. *)
Theorem C49_contents_end_refuted :
  run_on ["1. one"; ""; "   .. note::"; ""; "      Inside."; ""; "   Outside."; ""]%string =
    Some (true, lit "\begin{enumerate}" ++ nl1 ++ lit "\item one" ++ nl2 ++
      lit "\begin{note}" ++ nl1 ++ lit "Inside." ++ nl2 ++ lit "Outside." ++ nl2 ++ lit "\end{note}" ++ nl2 ++ lit "\end{enumerate}" ++ nl2) /\
  run_on [".. note::"; ""; "   .. warning::"; ""; "      Inside."; ""; "   Outside."; ""]%string =
    Some (true, lit "\begin{note}" ++ nl1 ++
      lit "\begin{warning}" ++ nl1 ++ lit "Inside." ++ nl2 ++ lit "Outside." ++ nl2 ++ lit "\end{warning}" ++ nl2 ++ lit "\end{note}" ++ nl2) /\
  run_on [".. note:: Inside."; ""; "Outside."; ""]%string =
    Some (true, lit "\begin{note}" ++ nl1 ++ lit "Inside." ++ nl2 ++ lit "Outside." ++ nl2 ++ lit "\end{note}" ++ nl2) /\
  run_on ["* one"; ""; "  .. note:: Inside."; ""; "* two"]%string =
    Some (true, lit "\begin{itemize}" ++ nl1 ++ lit "\item one" ++ nl2 ++
      lit "\begin{note}" ++ nl1 ++ lit "Inside." ++ nl2 ++ lit "\begin{itemize}" ++ nl1 ++ lit "\item two" ++ nl2 ++ lit "\end{itemize}" ++ nl2 ++ lit "\end{note}" ++ nl2 ++ lit "\end{itemize}" ++ nl2).
Proof. split; [vm_compute; reflexivity|]. split; [vm_compute; reflexivity|]. split; vm_compute; reflexivity. Qed.

(* ---------- C50 ---------- *)
(* For the directives of C47: the contents once, between the begin and the end. *)
Theorem C50_contents_once_partial ord o x bs gap : (forall l, Permutation (ord l) l) -> print_full_document o = false ->
  simple [(Block (Boxed x bs), gap)] = true ->
  exists states out begins, translated ord o (document_source [(Block (Boxed x bs), gap)]) (REOF states) out /\
    (forall bs', box_latex x (blocks_latex bs') = begins ++ blocks_latex bs' ++ lit "\end{" ++ box_env x ++ lit "}" ++ nl2) /\
    concat out = begins ++ blocks_latex bs ++ lit "\end{" ++ box_env x ++ lit "}" ++ nl2.
Proof.
  intros Hord Hf H. destruct (C47_simple_documents ord o _ Hord H) as (states & out & Ht & E). exists states, out.
  assert (B : exists begins, forall s, box_latex x s = begins ++ s ++ lit "\end{" ++ box_env x ++ lit "}" ++ nl2).
  { unfold box_latex. eexists. intros s. rewrite !app_assoc. reflexivity. }
  destruct B as (begins & B). exists begins. split; [exact Ht|]. split; [intros bs'; apply B|]. rewrite E. unfold document_latex. rewrite Hf.
  cbn [elements_latex element_latex style_of latex app]. rewrite !app_nil_r. apply B.
Qed.
(* The contents of a class directive are written twice. *)
Theorem C50_contents_once_refuted :
  run_on [".. class:: red"; ""; "   Hello."; ""; "Outside."]%string = Some (true, lit "Hello." ++ nl2 ++ lit "Hello." ++ nl2 ++ lit "Outside." ++ nl2) /\
  run_on [".. class:: red"; ""; "   * one"; "   * two"; ""; "Outside."]%string =
    Some (true, lit "\begin{itemize}" ++ nl1 ++ lit "\item one" ++ nl2 ++ lit "\item two" ++ nl2 ++ lit "\item one" ++ nl2 ++ lit "\item two" ++ nl2 ++ lit "\end{itemize}" ++ nl2 ++ lit "Outside." ++ nl2).
Proof. split; vm_compute; reflexivity. Qed.
Example C49_C50_ex : simple [(Block (Para [Txt (lit "Before.")]), 1); (Block (Boxed (Standard (lit "note") []) (BCons (Para [Txt (lit "Inside.")]) 0 BNil)), 1); (Block (Para [Txt (lit "Outside.")]), 0)] = true /\
  simple [(Block (Boxed (Standard (lit "note") []) (BCons (Para [Txt (lit "Inside.")]) 0 BNil)), 1)] = true.
Proof. split; vm_compute; reflexivity. Qed.
Print Assumptions C49_contents_end_partial.
Print Assumptions C49_contents_end_refuted.
Print Assumptions C50_contents_once_partial.
Print Assumptions C50_contents_once_refuted.
