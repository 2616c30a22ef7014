(* Properties19.v -- C55: definition lists keep their terms and definitions, and
   C56: field lists keep their names and bodies *)
From Coq Require Import Permutation.
From Verif Require Import Base Unicode Regex Patterns Common Converters NodeTypes Tree DocTree History Blocks Prog ParseLoop
  Inline Body Directives Parser Spec InlineSpec Utf8Latex Writer Transforms SimpleSpec MarkupSpec Properties12 Properties14 Properties18.

(* ---------- C55 ---------- *)
(* what one definition should become: an item that starts with the term in bold
   type and, after a colon, what the term is said to be, with commas between,
   followed by the definition *)
Definition defined_item (term : str) (kinds : list str) (definition : str) : str :=
  lit "\item \textbf{" ++ term ++ lit "}" ++
  (if Nat.eqb (length kinds) 0 then [] else lit ": " ++ join (lit ", ") kinds) ++ nl2 ++ definition ++ nl1.
(* In a document as in C47 the definitions are written in order, each with its
   term, nothing else is inside the list, and the document goes on after it. *)
Theorem C55_definitions_partial ord o d1 ds gap d2 : (forall l, Permutation (ord l) l) ->
  simple (d1 ++ (Terms ds, gap) :: d2) = true ->
  exists states out before after,
    translated ord o (document_source (d1 ++ (Terms ds, gap) :: d2)) (REOF states) out /\
    concat out = before ++ elements_latex [] d1 ++
      lit "\begin{itemize}" ++ nl1 ++ concat (map (fun x => defined_item (d_term x) (d_kinds x) (blocks_latex (d_body x))) ds) ++ lit "\end{itemize}" ++ nl2 ++
      elements_latex (styles d1) d2 ++ after.
Proof.
  intros Hord H. destruct (C47_simple_documents ord o _ Hord H) as (states & out & Ht & E).
  exists states, out, (if print_full_document o then lit "\documentclass{aplus}" ++ nl1 ++ lit "\begin{document}" ++ nl2 else []),
    (if print_full_document o then lit "\end{document}" ++ nl1 else []).
  split; [exact Ht|]. rewrite E. unfold document_latex. rewrite elements_latex_app. cbn [elements_latex element_latex style_of app]. rewrite app_nil_r.
  replace (concat (map (fun x => defined_item (d_term x) (d_kinds x) (blocks_latex (d_body x))) ds)) with (flat_map definition_latex ds).
  2:{ rewrite flat_map_concat_map. f_equal. apply map_ext. intros x. unfold definition_latex, defined_item. now destruct (d_kinds x). }
  rewrite <- !app_assoc. reflexivity.
Qed.
(* Elsewhere what follows the list is lost.  After a definition list, a bullet
   list, a numbered list or a comment at the same indentation makes the program
   report an error and write nothing from there on; an over-lined title does the
   same without an error; and a definition list inside an item of a bullet list
   that has a next item makes the program panic.  Terms are not escaped. *)
Definition one_definition : list str := [lit "term"; lit "   def one"; []].
Definition one_definition_latex : str := lit "\begin{itemize}" ++ nl1 ++ defined_item (lit "term") [] (lit "def one" ++ nl2) ++ lit "\end{itemize}" ++ nl2.
Theorem C55_lost_refuted :
  run_lines (one_definition ++ [lit "* item"; []; lit "end"]) = Some (false, one_definition_latex) /\
  run_lines (one_definition ++ [lit "1. item"; []; lit "end"]) = Some (false, one_definition_latex) /\
  run_lines (one_definition ++ [lit ".. comment"; []; lit "end"]) = Some (false, one_definition_latex) /\
  run_lines (one_definition ++ [lit "====="; lit "Title"; lit "====="; []; lit "end"]) = Some (true, one_definition_latex) /\
  run_lines [lit "* item"; []; lit "  term"; lit "     def one"; []; lit "* next item"; []; lit "end"] = None /\
  run_lines [lit "a & b"; lit "   c & d"] = Some (true, lit "\begin{itemize}" ++ nl1 ++ defined_item (lit "a & b") [] (lit "c \& d" ++ nl2) ++ lit "\end{itemize}" ++ nl2).
Proof. split; [vm_compute; reflexivity|]. split; [vm_compute; reflexivity|]. split; [vm_compute; reflexivity|]. split; [vm_compute; reflexivity|]. split; vm_compute; reflexivity. Qed.
Definition glossary : document :=
  [(Under_title (lit "Glossary") 61%N 8, 1);
   (Terms
     [{| d_term := lit "rain"; d_kinds := [lit "noun"; lit "verb"]; d_extra := 3;
         d_body := BCons (Para [Txt (lit "Water," ++ nl1 ++ lit "falling")]) 1 (BCons (Bullets 42%N (ICons [Txt (lit "in May")] 0 BNil (ICons [Txt (lit "in June")] 0 BNil INil))) 0 BNil) |};
      {| d_term := lit "wind"; d_kinds := []; d_extra := 1; d_body := BCons (Para [Txt (lit "Air & dust")]) 1 BNil |};
      {| d_term := lit "sun"; d_kinds := [lit "star"]; d_extra := 2;
         d_body := BCons (Boxed (Standard (lit "note") []) (BCons (Para [Txt (lit "Rare.")]) 1 BNil)) 1 BNil |}], 1);
   (Block (Para [Txt (lit "That is all.")]), 0)].
Example C55_ex : simple glossary = true /\
  document_source glossary =
    [lit "Glossary"; lit "========"; [];
     lit "rain : noun : verb"; lit "   Water,"; lit "   falling"; []; lit "   * in May"; lit "   * in June";
     lit "wind"; lit " Air & dust"; [];
     lit "sun : star"; lit "  .. note::"; []; lit "     Rare."; []; []; [];
     lit "That is all."] /\
  run_lines (document_source glossary) = Some (true, document_latex false glossary) /\
  document_latex false glossary =
    lit "\rstlabel{glossary}" ++ nl1 ++ lit "\chapter{Glossary}" ++ nl2 ++
    lit "\begin{itemize}" ++ nl1 ++
    lit "\item \textbf{rain}: noun, verb" ++ nl2 ++ lit "Water," ++ nl1 ++ lit "falling" ++ nl2 ++
    lit "\begin{itemize}" ++ nl1 ++ lit "\item in May" ++ nl2 ++ lit "\item in June" ++ nl2 ++ lit "\end{itemize}" ++ nl2 ++ nl1 ++
    lit "\item \textbf{wind}" ++ nl2 ++ lit "Air \& dust" ++ nl2 ++ nl1 ++
    lit "\item \textbf{sun}: star" ++ nl2 ++ lit "\begin{note}" ++ nl1 ++ lit "Rare." ++ nl2 ++ lit "\end{note}" ++ nl2 ++ nl1 ++
    lit "\end{itemize}" ++ nl2 ++
    lit "That is all." ++ nl2.
Proof. split; [vm_compute; reflexivity|]. split; [vm_compute; reflexivity|]. split; vm_compute; reflexivity. Qed.
Print Assumptions C55_definitions_partial.
Print Assumptions C55_lost_refuted.

(* ---------- C56 ---------- *)
(* a field: its name, its first paragraph, the empty lines after it, more blocks *)
Record field := { f_name : str; f_text : text; f_gap : nat; f_more : blocks }.
Fixpoint bodies (fs : list field) : items :=
  match fs with [] => INil | f :: fs => ICons (f_text f) (f_gap f) (f_more f) (bodies fs) end.
Definition field_item (name body : str) : str := lit "\item \textbf{" ++ name ++ lit "}" ++ nl2 ++ body ++ nl1.
Lemma fields_are fs : fields_latex (map f_name fs) (bodies fs) = concat (map (fun f => field_item (f_name f) (para_latex (f_text f) ++ blocks_latex (f_more f))) fs).
Proof.
  induction fs as [|f fs IH]; [reflexivity|]. cbn [map bodies fields_latex hd tl concat]. rewrite IH. unfold field_item. rewrite <- !app_assoc. reflexivity.
Qed.
(* In a document as in C47 a field list is written as one item per field, in
   order, with its name and its whole body. *)
Theorem C56_fields_partial ord o d1 fs gap d2 : (forall l, Permutation (ord l) l) ->
  simple (d1 ++ (Block (Fields (map f_name fs) (bodies fs)), gap) :: d2) = true ->
  exists states out before after,
    translated ord o (document_source (d1 ++ (Block (Fields (map f_name fs) (bodies fs)), gap) :: d2)) (REOF states) out /\
    concat out = before ++ elements_latex [] d1 ++
      lit "\begin{itemize}" ++ nl1 ++ concat (map (fun f => field_item (f_name f) (para_latex (f_text f) ++ blocks_latex (f_more f))) fs) ++ lit "\end{itemize}" ++ nl2 ++
      elements_latex (styles d1) d2 ++ after.
Proof.
  intros Hord H. destruct (C47_simple_documents ord o _ Hord H) as (states & out & Ht & E).
  exists states, out, (if print_full_document o then lit "\documentclass{aplus}" ++ nl1 ++ lit "\begin{document}" ++ nl2 else []),
    (if print_full_document o then lit "\end{document}" ++ nl1 else []).
  split; [exact Ht|]. rewrite E. unfold document_latex. rewrite elements_latex_app. cbn [elements_latex element_latex style_of app latex]. rewrite app_nil_r, fields_are.
  rewrite <- !app_assoc. reflexivity.
Qed.
(* A field with one line of text, an empty line and a further paragraph indented
   by less than the width of the marker loses that paragraph: it becomes a block
   quote after the list.  Names are not escaped, and markup in them is not
   translated. *)
Theorem C56_bodies_refuted :
  run_lines [lit ":a & *b*: c & *d*"; []; lit "   more"; []; lit "end"] =
    Some (true, lit "\begin{itemize}" ++ nl1 ++ field_item (lit "a & *b*") (lit "c \& \textit{d}" ++ nl2) ++ lit "\end{itemize}" ++ nl2 ++
      lit "\begin{quotation}" ++ nl1 ++ lit "more" ++ nl2 ++ lit "\end{quotation}" ++ nl2 ++ lit "end" ++ nl2) /\
  run_lines [lit ":a: c"; lit "   d"; []; lit "   more"; []; lit "end"] =
    Some (true, lit "\begin{itemize}" ++ nl1 ++ field_item (lit "a") (lit "c" ++ nl1 ++ lit "d" ++ nl2 ++ lit "more" ++ nl2) ++ lit "\end{itemize}" ++ nl2 ++ lit "end" ++ nl2).
Proof. split; vm_compute; reflexivity. Qed.
Definition forecast : list field :=
  [{| f_name := lit "Place"; f_text := [Txt (lit "Here" ++ nl1 ++ lit "and "); Strong (lit "there")]; f_gap := 1;
      f_more := BCons (Fields [lit "north"] (ICons [Txt (lit "cold")] 0 BNil INil)) 1 (BCons (Para [Txt (lit "and so on")]) 1 BNil) |};
   {| f_name := lit "Best time"; f_text := [Txt (lit "Now")]; f_gap := 0; f_more := BNil |}].
Example C56_ex : let d := [(Block (Para [Txt (lit "Weather")]), 1); (Block (Fields (map f_name forecast) (bodies forecast)), 1); (Block (Numbered Period Digits 1%N (ICons [Txt (lit "done")] 0 BNil INil)), 0)] in
  simple d = true /\
  document_source d =
    [lit "Weather"; [];
     lit ":Place: Here"; lit "        and **there**"; []; lit "        :north: cold"; []; lit "        and so on"; [];
     lit ":Best time: Now"; []; lit "1. done"] /\
  run_lines (document_source d) = Some (true, document_latex false d) /\
  document_latex false d =
    lit "Weather" ++ nl2 ++ lit "\begin{itemize}" ++ nl1 ++
    lit "\item \textbf{Place}" ++ nl2 ++ lit "Here" ++ nl1 ++ lit "and \textbf{there}" ++ nl2 ++
    lit "\begin{itemize}" ++ nl1 ++ lit "\item \textbf{north}" ++ nl2 ++ lit "cold" ++ nl2 ++ nl1 ++ lit "\end{itemize}" ++ nl2 ++ lit "and so on" ++ nl2 ++ nl1 ++
    lit "\item \textbf{Best time}" ++ nl2 ++ lit "Now" ++ nl2 ++ nl1 ++ lit "\end{itemize}" ++ nl2 ++
    lit "\begin{enumerate}" ++ nl1 ++ lit "\item done" ++ nl2 ++ lit "\end{enumerate}" ++ nl2.
Proof. split; [vm_compute; reflexivity|]. split; [vm_compute; reflexivity|]. split; vm_compute; reflexivity. Qed.
Print Assumptions C56_fields_partial.
Print Assumptions C56_bodies_refuted.
