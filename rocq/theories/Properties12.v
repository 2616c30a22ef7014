(* Properties12.v -- C47: simple documents, from their source to the LaTeX *)
From Coq Require Import Permutation.
From Verif Require Import Base Unicode Regex Patterns Common Converters NodeTypes Tree DocTree History Blocks Prog ParseLoop
  Inline Body Directives Parser Spec RegexProofs BlockProofs TreeProofs DocTreeProofs HyperrefProofs InlineSpec RegexGroups InlineProofs LoopProofs
  Utf8Latex Writer WriterProofs Transforms TextProofs OpenProofs SimpleSpec LineProofs Properties7 RunProofs StepProofs ParaProofs LeaveProofs GroupProofs
  OpenerProofs LeafProofs NestedProofs DocumentProofs.

(* The whole program on a source of these lines: parsed, transformed, written.
   main.rs run(): the result of the parser is not looked at before writing. *)
Definition translated (ord : hash_order) (o : Options) (src : list str) (r : presult) (out : list str) : Prop :=
  exists fuel0, forall fuel, fuel0 <= fuel -> exists d d',
    parse_source fuel src = Ret (r, d) /\ perform_transforms d = Ret d' /\ write_to_larst ord o d' = Ret out.

Lemma posts_sections full (secs : list section_of) : posts full (sec_entries secs) = post_string full NDocument None.
Proof.
  unfold sec_entries. induction secs as [|[[[t l] sty] acc] secs IH]; cbn [map app posts].
  - destruct (post_string full NDocument None); cbn; [now rewrite app_nil_r|reflexivity|reflexivity].
  - rewrite IH. cbn [post_string obind]. destruct full; reflexivity.
Qed.
Lemma posts_frames full tag (L : list frame) e t : Forall (deeper 0 tag) L -> posts full e = Ret t -> posts full (fentries L ++ e) = Ret (ends_of L ++ t).
Proof.
  intros HF He. induction HF as [|f L Hf HF IH]; [exact He|]. cbn [fentries map app posts]. fold (fentries L).
  rewrite (end_of_post full f 0 MText) by (apply (deeper_ended 0 tag (Para [])); [now destruct tag|exact Hf]).
  rewrite IH. cbn [obind ends_of map concat]. fold (ends_of L). now rewrite app_assoc.
Qed.

(* the options of a directive are written in some order (hash_map) *)
Theorem C47_simple_documents ord o d : (forall l, Permutation (ord l) l) -> simple d = true ->
  exists states out, translated ord o (document_source d) (REOF states) out /\
    concat out = document_latex (print_full_document o) d.
Proof.
  set (full := print_full_document o). intros Hord H. unfold simple in H. apply andb_prop in H as [H Hdep]. apply andb_prop in H as [Hne Hok].
  apply Nat.leb_le in Hdep. set (src := document_source d).
  assert (Hlen : 0 < length src).
  { subst src. destruct d as [|[e g] d]; [discriminate|]. cbn [elements_ok] in Hok. apply andb_prop in Hok as [Hok _]. apply andb_prop in Hok as [Hok _].
    apply andb_prop in Hok as [Hok _]. destruct (element_nonempty e Hok) as (l & ls & E & _).
    unfold document_source. cbn [flat_map fst]. rewrite E. cbn. lia. }
  set (pre := if full then lit "\documentclass{aplus}" ++ nl1 ++ lit "\begin{document}" ++ nl2 else []).
  assert (Epre : pre_string ord full NDocument None = Ret pre) by (subst pre; destruct full; reflexivity).
  pose proof (under_new ord full pre Epre) as Hu.
  assert (Hat : at_ ord full src (initial 0 SBody new_doctree) (fstack [] ++ sec_stack []) (fentries [] ++ sec_entries []) pre [] 0 0).
  { split; [|exact Hu|reflexivity|cbn; lia]. cbn [initial cf_stack]. replace (length src <=? 0) with false by (symmetry; apply Nat.leb_gt; exact Hlen). reflexivity. }
  destruct (run_elements ord full Hord src (document_depth d) ltac:(lia) d TNone 0 [] [] (initial 0 SBody new_doctree) pre [] 0 [])
    as (c' & L' & secs' & t & seen' & q & tag & Hs & Ha & HL & Et & Hq).
  all: try exact Hok; try exact Hat; try reflexivity; auto.
  - cbn. lia.
  - cbn [app]. pose proof (Nat.le_max_r 1 (length (uniq (styles d)))). lia.
  - pose proof (at_doc _ _ _ _ _ _ _ _ _ _ Ha) as Hu'.
    set (post := if full then lit "\end{document}" ++ nl1 else []).
    assert (Epost : posts full (fentries L' ++ sec_entries secs') = Ret (ends_of L' ++ post)).
    { apply (posts_frames full tag); [exact HL|]. rewrite posts_sections. subst post. destruct full; reflexivity. }
    destruct (under_done ord full _ _ _ _ _ Hu' Epost) as (d' & out & Ed & Ew & Ec).
    exists (rev (fstack L' ++ sec_stack secs')), out. split.
    + destruct (run_steps src 0 _ _ _ Hs (run_end ord full src 0 _ _ _ _ _ _ _ Ha ltac:(lia) Hq)) as (f0 & Hf).
      exists f0. intros f Hle. exists (cf_doc c'), d'. split; [|split; [exact Ed|exact Ew]].
      unfold parse_source. unfold parse. apply Hf. lia.
    + rewrite Ec, <- app_assoc, (app_assoc t), Et. cbn [ends_of map concat app]. reflexivity.
Qed.
Print Assumptions C47_simple_documents.

(* ---------- a document with everything in it ---------- *)
Definition report : document :=
  [(Over_title (lit "Annual report") 61%N 13, 0);
   (Block (Para [Txt (lit "Costs rose by 5% & profits fell." ++ nl1 ++ lit "See "); Emph (lit "below"); Txt (lit " for the" ++ nl1 ++ lit "details, or ask "); Phrase (lit "the board"); Txt (lit ", that is ");
      Cite (lit "Smith"); Txt (lit " and "); Note (lit "1")]), 2);
   (Block (Quote 3 (BCons (Para [Txt (lit "Never again")]) 1 (BCons (Bullets 43%N (ICons [Txt (lit "said one")] 1 BNil INil)) 0 BNil))), 1);
   (Under_title (lit "Causes") 45%N 6, 1);
   (Block (Bullets 42%N
      (ICons [Txt (lit "rain" ++ nl1 ++ lit "and "); Strong (lit "snow")] 1
         (BCons (Bullets 45%N (ICons [Txt (lit "in May")] 0 BNil (ICons [Txt (lit "in June")] 2 (BCons (Para [Txt (lit "which was wet")]) 0 BNil) INil))) 1
           (BCons (Para [Txt (lit "and")]) 0 BNil))
      (ICons [Txt (lit "wind")] 0 BNil INil))), 1);
   (Block (Remark (lit "to be continued")), 1);
   (Quoted [Txt (lit "They wrote:")] 62%N [(1, lit "wind: 100%"); (0, []); (3, lit "> $ rain_now"); (0, lit "1. item")], 2);
   (Verbatim [Txt (lit "The log of" ++ nl1 ++ lit "the "); Strong (lit "storm"); Txt (lit " says:")] [lit "wind: 100%"; lit "    $ rain_now"; []; lit ".. note::"], 1);
   (Block (Leaf (Listing false (lit "rust") [(lit "linenos", []); (lit "caption", lit "the cause")] [lit "if rain {"; lit "    wet *= 2;"; []; lit "}"])), 1);
   (Block (Bullets 45%N (ICons [Txt (lit "figures")] 1
      (BCons (Leaf (Picture (lit "img/costs.png") [(lit "width", lit "5.5cm"); (lit "scale", lit "50%"); (lit "align", lit "center")])) 1 BNil) INil)), 1);
   (Block (Numbered Period Digits 9%N
      (ICons [Txt (lit "plan")] 1 (BCons (Numbered Parens Auto 1%N (ICons [Txt (lit "save" ++ nl1 ++ lit "more")] 0 BNil (ICons [Txt (lit "spend")] 1 BNil INil))) 0 BNil)
      (ICons [Txt (lit "act")] 0 BNil INil))), 1);
   (Block (Leaf (Formulas [(lit "name", lit "model")] [lit "a = b"; lit "+ c"] [[lit "d = e"]])), 2);
   (Block (Boxed (Titled (lit "Do not panic") [(lit "class", lit "red")])
      (BCons (Para [Txt (lit "Keep calm.")]) 1
        (BCons (Boxed (Standard (lit "note") []) (BCons (Para [Txt (lit "Tea helps.")]) 1 (BCons (Bullets 42%N (ICons [Txt (lit "green")] 0 BNil (ICons [Txt (lit "black")] 0 BNil INil))) 0 BNil))) 1
          (BCons (Boxed (Custom (lit "spoiler") (lit "ending") [(lit "level", lit "2")]) (BCons (Para [Txt (lit "They all live.")]) 0 BNil)) 0 BNil)))), 1);
   (Block (Boxed (Only (lit "html")) (BCons (Para [Txt (lit "Click here.")]) 0 BNil)), 1);
   (Block (Boxed (Exercise (lit "ex1") (lit "B") (Some 100%N) [(lit "config", lit "ex1/config.yaml"); (lit "submissions", lit "5"); (lit "ajax", [])])
      (BCons (Para [Txt (lit "Add the numbers.")]) 1
        (BCons (Leaf (Input (lit "numbers") [(lit "title", lit "The numbers"); (lit "type", lit "dropdown:list")])) 1
          (BCons (Leaf (Output (lit "sum") [(lit "config", lit "sum.yaml"); (lit "inputs", lit "numbers"); (lit "status", lit "hidden")])) 1 BNil)))), 1);
   (Block (Boxed (Interest (lit "Next year") [(lit "columns", lit "2 3"); (lit "hidden", [])])
      (BCons (Numbered RParen Digits 1%N (ICons [Txt (lit "Hope.")] 0 BNil INil)) 0 BNil)), 1);
   (Block (Entry (Citation (lit "Smith")) [Txt (lit "Smith," ++ nl1 ++ lit "1999.")] 2
      (BCons (Para [Txt (lit "Out of print.")]) 1 (BCons (Bullets 42%N (ICons [Txt (lit "reprint")] 1 (BCons (Entry (Footnote (lit "12")) [Txt (lit "In May.")] 0 BNil) 0 BNil) INil)) 0 BNil))), 1);
   (Block (Entry (Footnote (lit "1")) [Txt (lit "Says who?")] 0 BNil), 1);
   (Block (Figure (lit "img/map.png") [(lit "name", lit "The Map"); (lit "width", lit "5cm"); (lit "align", lit "left")] [Txt (lit "The" ++ nl1); Emph (lit "dry"); Txt (lit " parts")] 1
      (BCons (Para [Txt (lit "Source: us.")]) 1 (BCons (Bullets 42%N (ICons [Txt (lit "red")] 1 (BCons (Figure (lit "red.png") [] [Txt (lit "red")] 1 BNil) 1 BNil) INil)) 1 BNil))), 1);
   (Rule 42%N 12, 1);
   (Under_title (lit "Cures") 45%N 5, 0);
   (Over_title (lit "Appendix") 61%N 9, 0);
   (Block (Para [Emph (lit "None"); Txt (lit ".")]), 3)].
Example C47_ex : simple report = true /\
  document_source report =
    [lit "============="; lit "Annual report"; lit "=============";
     lit "Costs rose by 5% & profits fell."; lit "See *below* for the"; lit "details, or ask `the board`_, that is [Smith]_ and [1]_"; []; [];
     lit "   Never again"; []; lit "   + said one"; []; [];
     lit "Causes"; lit "------"; [];
     lit "* rain"; lit "  and **snow**"; []; lit "  - in May"; lit "  - in June"; []; []; lit "    which was wet"; []; lit "  and";
     lit "* wind"; [];
     lit ".. to be continued"; [];
     lit "They wrote::"; []; lit "> wind: 100%"; lit ">"; lit ">   > $ rain_now"; lit ">1. item"; []; [];
     lit "The log of"; lit "the **storm** says::"; []; lit "   wind: 100%"; lit "       $ rain_now"; []; lit "   .. note::"; [];
     lit ".. code-block:: rust"; lit "   :linenos:"; lit "   :caption: the cause"; []; lit "   if rain {"; lit "       wet *= 2;"; []; lit "   }"; [];
     lit "- figures"; []; lit "  .. image:: img/costs.png"; lit "     :width: 5.5cm"; lit "     :scale: 50%"; lit "     :align: center"; []; [];
     lit "9. plan"; []; lit "   (#) save"; lit "       more"; lit "   (#) spend"; []; lit "10. act"; [];
     lit ".. math::"; lit "   :name: model"; []; lit "   a = b"; lit "   + c"; []; lit "   d = e"; []; [];
     lit ".. admonition:: Do not panic"; lit "   :class: red"; []; lit "   Keep calm."; [];
     lit "   .. note::"; []; lit "      Tea helps."; []; lit "      * green"; lit "      * black"; [];
     lit "   .. spoiler:: ending"; lit "      :level: 2"; []; lit "      They all live."; [];
     lit ".. only:: html"; []; lit "   Click here."; [];
     lit ".. submit:: ex1 B100"; lit "   :config: ex1/config.yaml"; lit "   :submissions: 5"; lit "   :ajax:"; []; lit "   Add the numbers."; [];
     lit "   .. ae-input:: numbers"; lit "      :title: The numbers"; lit "      :type: dropdown:list"; [];
     lit "   .. ae-output:: sum"; lit "      :config: sum.yaml"; lit "      :inputs: numbers"; lit "      :status: hidden"; []; [];
     lit ".. point-of-interest:: Next year"; lit "   :columns: 2 3"; lit "   :hidden:"; []; lit "   1) Hope."; [];
     lit ".. [Smith] Smith,"; lit "   1999."; []; []; lit "   Out of print."; []; lit "   * reprint"; []; lit "     .. [12] In May."; [];
     lit ".. [1] Says who?"; [];
     lit ".. figure:: img/map.png"; lit "   :name: The Map"; lit "   :width: 5cm"; lit "   :align: left"; []; lit "   The"; lit "   *dry* parts"; [];
     lit "   Source: us."; []; lit "   * red"; []; lit "     .. figure:: red.png"; []; lit "        red"; []; []; []; [];
     lit "************"; [];
     lit "Cures"; lit "-----";
     lit "========="; lit "Appendix"; lit "=========";
     lit "*None*."; []; []; []] /\
  document_latex true report =
    lit "\documentclass{aplus}" ++ nl1 ++ lit "\begin{document}" ++ nl2 ++
    lit "\rstlabel{annual report}" ++ nl1 ++ lit "\chapter{Annual report}" ++ nl2 ++
    lit "Costs rose by 5\% \& profits fell." ++ nl1 ++ lit "See \textit{below} for the" ++ nl1 ++ lit "details, or ask \hyperref[the board]{the board}, that is \cite{Smith} and \footnotemark" ++ nl2 ++
    lit "\begin{quotation}" ++ nl1 ++ lit "Never again" ++ nl2 ++
    lit "\begin{itemize}" ++ nl1 ++ lit "\item said one" ++ nl2 ++ lit "\end{itemize}" ++ nl2 ++ lit "\end{quotation}" ++ nl2 ++
    lit "\rstlabel{causes}" ++ nl1 ++ lit "\section{Causes}" ++ nl2 ++
    lit "\begin{itemize}" ++ nl1 ++ lit "\item rain" ++ nl1 ++ lit "and \textbf{snow}" ++ nl2 ++
    lit "\begin{itemize}" ++ nl1 ++ lit "\item in May" ++ nl2 ++ lit "\item in June" ++ nl2 ++ lit "which was wet" ++ nl2 ++
    lit "\end{itemize}" ++ nl2 ++ lit "and" ++ nl2 ++ lit "\item wind" ++ nl2 ++ lit "\end{itemize}" ++ nl2 ++
    lit "% to be continued" ++ nl2 ++
    lit "They wrote:" ++ nl2 ++ lit "\begin{codeblock}" ++ nl1 ++ lit "wind: 100\%" ++ nl2 ++ lit "> \$ rain\_ now" ++ nl1 ++ lit "1. item" ++ nl1 ++ lit "\end{codeblock}" ++ nl2 ++
    lit "The log of" ++ nl1 ++ lit "the \textbf{storm} says:" ++ nl2 ++
    lit "\begin{codeblock}" ++ nl1 ++ lit "wind: 100\%" ++ nl1 ++ lit "    \$ rain\_ now" ++ nl2 ++ lit ".. note::" ++ nl2 ++ lit "\end{codeblock}" ++ nl2 ++
    lit "\begin{codeblock}[rust]" ++ nl1 ++ lit "if rain {" ++ nl1 ++ lit "    wet *= 2;" ++ nl2 ++ lit "}" ++ nl1 ++ lit "\end{codeblock}" ++ nl2 ++
    lit "\begin{itemize}" ++ nl1 ++ lit "\item figures" ++ nl2 ++
    lit "\includegraphics[width=5.5cm,scale=50.00%,align=center]{img/costs.png}" ++ nl1 ++ lit "\end{itemize}" ++ nl2 ++
    lit "\begin{enumerate}" ++ nl1 ++ lit "\item plan" ++ nl2 ++
    lit "\begin{enumerate}" ++ nl1 ++ lit "\item save" ++ nl1 ++ lit "more" ++ nl2 ++ lit "\item spend" ++ nl2 ++ lit "\end{enumerate}" ++ nl2 ++
    lit "\item act" ++ nl2 ++ lit "\end{enumerate}" ++ nl2 ++
    lit "\rstlabel{model1}" ++ nl1 ++ lit "\begin{equation}" ++ nl1 ++ lit "a = b" ++ nl1 ++ lit "+ c" ++ nl1 ++ lit "\end{equation}" ++ nl2 ++
    lit "\rstlabel{model2}" ++ nl1 ++ lit "\begin{equation}" ++ nl1 ++ lit "d = e" ++ nl1 ++ lit "\end{equation}" ++ nl2 ++
    lit "\begin{admonition}{Do not panic}" ++ nl1 ++ lit "Keep calm." ++ nl2 ++
    lit "\begin{note}" ++ nl1 ++ lit "Tea helps." ++ nl2 ++ lit "\begin{itemize}" ++ nl1 ++ lit "\item green" ++ nl2 ++ lit "\item black" ++ nl2 ++ lit "\end{itemize}" ++ nl2 ++ lit "\end{note}" ++ nl2 ++
    lit "\begin{spoiler}[level=2]{ending}" ++ nl1 ++ lit "They all live." ++ nl2 ++ lit "\end{spoiler}" ++ nl2 ++ lit "\end{admonition}" ++ nl2 ++
    lit "\begin{only}[html]" ++ nl1 ++ lit "Click here." ++ nl2 ++ lit "\end{only}" ++ nl2 ++
    lit "\begin{submit}[config=ex1/config.yaml,submissions=5,points-to-pass=0,category=submit,status=unlisted,ajax]{ex1}{100}" ++ nl1 ++ lit "Add the numbers." ++ nl2 ++
    lit "\aeinput[type=dropdown:list,]{numbers}{The numbers}" ++ nl2 ++
    lit "\aeoutput[config=sum.yaml,type=text,status=hidden,]{sum}{numbers}{}" ++ nl2 ++ lit "\end{submit}" ++ nl2 ++
    lit "\begin{poi}[hidden,columns=2 3,]{Next year}" ++ nl2 ++ lit "\begin{enumerate}" ++ nl1 ++ lit "\item Hope." ++ nl2 ++ lit "\end{enumerate}" ++ nl2 ++ lit "\end{poi}" ++ nl2 ++
    lit "\bibitem{Smith}" ++ nl1 ++ lit "Smith," ++ nl1 ++ lit "1999." ++ nl2 ++ lit "Out of print." ++ nl2 ++
    lit "\begin{itemize}" ++ nl1 ++ lit "\item reprint" ++ nl2 ++ lit "\footnote{" ++ nl1 ++ lit "In May." ++ nl2 ++ lit "}" ++ nl2 ++ lit "\end{itemize}" ++ nl2 ++ nl1 ++
    lit "\footnote{" ++ nl1 ++ lit "Says who?" ++ nl2 ++ lit "}" ++ nl2 ++
    lit "\begin{center}" ++ nl1 ++ lit "\includegraphics[width=5cm]{img/map.png}" ++ nl1 ++ lit "\captionof{figure}{The" ++ nl1 ++ lit "\textit{dry} parts}" ++ nl1 ++ lit "Source: us." ++ nl2 ++
    lit "\begin{itemize}" ++ nl1 ++ lit "\item red" ++ nl2 ++ lit "\begin{center}" ++ nl1 ++ lit "\includegraphics{red.png}" ++ nl1 ++ lit "\captionof{figure}{red}" ++ nl1 ++ lit "\end{center}" ++ nl2 ++
    lit "\end{itemize}" ++ nl2 ++ lit "\label{the map}" ++ nl1 ++ lit "\end{center}" ++ nl2 ++
    lit "\hrulefill" ++ nl2 ++
    lit "\rstlabel{cures}" ++ nl1 ++ lit "\section{Cures}" ++ nl2 ++
    lit "\rstlabel{appendix}" ++ nl1 ++ lit "\chapter{Appendix}" ++ nl2 ++
    lit "\textit{None}." ++ nl2 ++
    lit "\end{document}" ++ nl1.
Proof. split; [vm_compute; reflexivity|]. split; vm_compute; reflexivity. Qed.

(* a questionnaire *)
Definition survey : document :=
  [(Block (Para [Txt (lit "Before we start")]), 1);
   (Block (Quiz {| q_key := lit "q1"; q_grade := lit "A"; q_points := None; q_settings := [(lit "title", lit "Survey"); (lit "submissions", lit "4")];
     q_parts :=
       [(Prose [Txt (lit "Answer all" ++ nl1 ++ lit "questions & be "); Emph (lit "honest"); Txt (lit ".")], 1);
        (Asked (Pick false 10 [(lit "required", [])] (Some [Txt (lit "What is" ++ nl1); Emph (lit "this"); Txt (lit "?")])
          [{| c_ticked := false; c_verdict := Wrong; c_label := lit "a"; c_answer := [Txt (lit "one & two")] |};
           {| c_ticked := true; c_verdict := Right; c_label := lit "b.c"; c_answer := [Emph (lit "three")] |}]
          [{| h_other := true; h_label := lit "a"; h_text := [Txt (lit "no")] |};
           {| h_other := false; h_label := lit "b.c"; h_text := [Txt (lit "yes")] |}]), 2);
        (Asked (Pick true 5 [(lit "randomized", []); (lit "correct-count", lit "2")] None
          [{| c_ticked := true; c_verdict := Neutral; c_label := lit "1"; c_answer := [Txt (lit "maybe")] |};
           {| c_ticked := false; c_verdict := Right; c_label := lit "2"; c_answer := [Txt (lit "sure")] |}] []), 1);
        (Prose [Txt (lit "One more")], 1);
        (Asked (Free 7 (lit "string") [] [Txt (lit "Say hello.")] (lit "hello_ world") [{| h_other := false; h_label := lit "hi"; h_text := [Txt (lit "short")] |}]), 0)] |}), 1);
   (Block (Bullets 42%N (ICons [Txt (lit "thanks")] 0 BNil INil)), 0)].
Example C47_ex_quiz : simple survey = true /\
  document_source survey =
    [lit "Before we start"; [];
     lit ".. questionnaire:: q1 A"; lit "   :title: Survey"; lit "   :submissions: 4"; [];
     lit "   Answer all"; lit "   questions & be *honest*."; [];
     lit "   .. pick-one:: 10"; lit "      :required:"; [];
     lit "      What is"; lit "      *this*?"; [];
     lit "      a. one & two"; lit "      +*b.c. *three*"; [];
     lit "      !a " ++ [167%N] ++ lit " no"; lit "      b.c " ++ [167%N] ++ lit " yes"; []; [];
     lit "   .. pick-any:: 5"; lit "      :randomized:"; lit "      :correct-count: 2"; []; lit "      +?1. maybe"; lit "      *2. sure"; [];
     lit "   One more"; [];
     lit "   .. freetext:: 7 string"; []; lit "      Say hello."; []; lit "      hello_ world"; []; lit "      hi " ++ [167%N] ++ lit " short"; [];
     lit "* thanks"] /\
  document_latex false survey =
    lit "Before we start" ++ nl2 ++
    lit "\begin{quiz}{q1}{22}" ++ nl1 ++ lit "Answer all" ++ nl1 ++ lit "questions \& be \textit{honest}." ++ nl2 ++
    lit "\begin{pick}[required,]{one}{10}" ++ nl1 ++ lit "What is" ++ nl1 ++ lit "\textit{this}?" ++ nl2 ++
    lit "\begin{answers}" ++ nl1 ++ lit "\wrong one \& two \label{a}" ++ nl1 ++ lit "\right \textit{three} \label{b.c}" ++ nl1 ++ lit "\end{answers}" ++ nl2 ++
    lit "\feedback{\ref{a}}{no}" ++ nl1 ++ lit "\feedback{!\ref{b.c}}{yes}" ++ nl2 ++ lit "\end{pick}" ++ nl2 ++
    lit "\begin{pick}[randomized,correct-count=2,]{any}{5}" ++ nl1 ++
    lit "\begin{answers}" ++ nl1 ++ lit "\undet maybe \label{1}" ++ nl1 ++ lit "\right sure \label{2}" ++ nl1 ++ lit "\end{answers}" ++ nl2 ++ nl1 ++ lit "\end{pick}" ++ nl2 ++
    lit "One more" ++ nl2 ++
    lit "\begin{freetext}{string}{7}{hello_ world}" ++ nl1 ++ lit "Say hello." ++ nl2 ++ lit "\feedback{!}{short}" ++ nl2 ++ lit "\end{freetext}" ++ nl2 ++ lit "\end{quiz}" ++ nl2 ++
    lit "\begin{itemize}" ++ nl1 ++ lit "\item thanks" ++ nl2 ++ lit "\end{itemize}" ++ nl2.
Proof. split; [vm_compute; reflexivity|]. split; vm_compute; reflexivity. Qed.

(* Deeper than the limit: five lists inside one another and then an item of
   another list outside all of them make a document of the same kind, but the
   parser gives up on that line. *)
Fixpoint lists (n : nat) : block :=
  match n with
  | 0 => Para [Txt (lit "deep")]
  | S m => Bullets 42%N (ICons [Txt (lit "item")] 1 (BCons (lists m) 0 BNil) INil)
  end.
Definition deep (n : nat) : document := [(Block (lists n), 1); (Block (Bullets 43%N (ICons [Txt (lit "after")] 0 BNil INil)), 0)].
Definition result_kind (x : outcome (presult * DocTree)) : option presult := match x with Ret (r, _) => Some r | _ => None end.
Example C47_limit : simple (deep 4) = true /\ simple (deep 5) = false /\ elements_ok TNone 0 (deep 5) = true /\
  result_kind (parse_source 100 (document_source (deep 4))) = Some (REOF [SBody; SBulletList; SListItem]) /\
  result_kind (parse_source 100 (document_source (deep 5))) = Some RFailure.
Proof. split; [vm_compute; reflexivity|]. split; [vm_compute; reflexivity|]. split; [vm_compute; reflexivity|]. split; vm_compute; reflexivity. Qed.
