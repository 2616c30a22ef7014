(* Properties25.v -- C63: what stands inside other blocks is translated like what stands alone *)
From Coq Require Import Permutation Lia ZifyBool ZifyNat ZifyN.
From Verif Require Import Base Unicode Regex Patterns Common Converters NodeTypes Tree DocTree History Blocks Prog ParseLoop
  Inline Body Directives Parser Spec InlineSpec Utf8Latex Writer Transforms SimpleSpec MarkupSpec Properties12 Properties14 Properties18.

(* ---------- places in a document ---------- *)
Fixpoint then_blocks (bs more : blocks) : blocks := match bs with BNil => more | BCons b gap bs => BCons b gap (then_blocks bs more) end.
Fixpoint then_items (its more : items) : items := match its with INil => more | ICons t gap bs its => ICons t gap bs (then_items its more) end.
(* what blocks can stand in: a quote, a box, a footnote or citation, the legend
   of a figure, an item of a list after its first paragraph *)
Inductive around :=
| In_quote (extra : nat)
| In_said (extra : nat) (who : str) (hang : nat) (more : list str)
| In_box (x : box)
| In_note (m : note) (t : text) (gap : nat)
| In_figure (uri : str) (opts : settings) (caption : text) (gap : nat)
| In_bullets (c : char) (earlier : items) (t : text) (gap : nat) (later : items)
| In_numbered (d : EnumDelims) (s : numbering) (first : N) (earlier : items) (t : text) (gap : nat) (later : items)
| In_fields (names : list str) (earlier : items) (t : text) (gap : nat) (later : items).
Definition put (w : around) (bs : blocks) : block :=
  match w with
  | In_quote extra => Quote extra bs
  | In_said extra who hang more => Said extra bs who hang more
  | In_box x => Boxed x bs
  | In_note m t gap => Entry m t gap bs
  | In_figure uri opts t gap => Figure uri opts t gap bs
  | In_bullets c its1 t gap its2 => Bullets c (then_items its1 (ICons t gap bs its2))
  | In_numbered d s n its1 t gap its2 => Numbered d s n (then_items its1 (ICons t gap bs its2))
  | In_fields names its1 t gap its2 => Fields names (then_items its1 (ICons t gap bs its2))
  end.
(* a hole among blocks: between two others, or further in *)
Inductive place :=
| Between (before after : blocks)
| Within (before : blocks) (w : around) (p : place) (gap : nat) (after : blocks).
Fixpoint fill (p : place) (bs : blocks) : blocks :=
  match p with
  | Between before after => then_blocks before (then_blocks bs after)
  | Within before w p gap after => then_blocks before (BCons (put w (fill p bs)) gap after)
  end.
(* the blocks as a document of their own, or at the end of its part at the top level *)
Fixpoint as_document (bs : blocks) : document := match bs with BNil => [] | BCons b gap bs => (Block b, gap) :: as_document bs end.

Lemma then_blocks_latex bs : forall more, blocks_latex (then_blocks bs more) = blocks_latex bs ++ blocks_latex more.
Proof. induction bs as [|b gap bs IH]; intros more; [reflexivity|]. cbn [then_blocks blocks_latex]. now rewrite IH, app_assoc. Qed.
Lemma then_items_latex its : forall more, items_latex (then_items its more) = items_latex its ++ items_latex more.
Proof. induction its as [|t gap bs its IH]; intros more; [reflexivity|]. cbn [then_items items_latex]. rewrite IH, <- !app_assoc. reflexivity. Qed.
Lemma then_fields_latex its : forall names, exists rest pre, forall more, fields_latex names (then_items its more) = pre ++ fields_latex rest more.
Proof.
  induction its as [|t gap bs its IH]; intros names; [now exists names, []|]. destruct (IH (tl names)) as (rest & pre & E).
  exists rest. eexists. intros more. cbn [then_items fields_latex]. rewrite E. rewrite !app_assoc. reflexivity.
Qed.
Lemma put_latex w : exists before after, forall bs, latex (put w bs) = before ++ blocks_latex bs ++ after.
Proof.
  destruct w as [extra|extra who|x|m t gap|uri opts t gap|c its1 t gap its2|d s n its1 t gap its2|names its1 t gap its2]; cbn [put latex].
  - exists (lit "\begin{quotation}" ++ nl1). eexists. intros bs. rewrite <- !app_assoc. reflexivity.
  - exists (lit "\begin{quotation}" ++ nl1). eexists. intros bs. rewrite <- !app_assoc. reflexivity.
  - exists (lit "\begin{" ++ box_env x ++ lit "}" ++ box_details x ++ nl1). eexists. intros bs. unfold box_latex. rewrite <- !app_assoc. reflexivity.
  - exists (note_begin m ++ para_latex t). eexists. intros bs. rewrite <- !app_assoc. reflexivity.
  - exists (figure_begin uri opts ++ caption_latex t). eexists. intros bs. rewrite <- !app_assoc. reflexivity.
  - exists (lit "\begin{itemize}" ++ nl1 ++ items_latex its1 ++ lit "\item " ++ para_latex t). eexists. intros bs. rewrite then_items_latex. cbn [items_latex]. rewrite <- !app_assoc. reflexivity.
  - exists (lit "\begin{enumerate}" ++ nl1 ++ items_latex its1 ++ lit "\item " ++ para_latex t). eexists. intros bs. rewrite then_items_latex. cbn [items_latex]. rewrite <- !app_assoc. reflexivity.
  - destruct (then_fields_latex its1 names) as (rest & pre & E).
    exists (lit "\begin{itemize}" ++ nl1 ++ pre ++ lit "\item \textbf{" ++ hd [] rest ++ lit "}" ++ nl2 ++ para_latex t). eexists. intros bs. rewrite E. cbn [fields_latex]. rewrite <- !app_assoc. reflexivity.
Qed.
Lemma fill_latex p : exists before after, forall bs, blocks_latex (fill p bs) = before ++ blocks_latex bs ++ after.
Proof.
  induction p as [b1 b2|b1 w p (pre & post & IH) gap b2].
  - exists (blocks_latex b1), (blocks_latex b2). intros bs. cbn [fill]. now rewrite !then_blocks_latex.
  - destruct (put_latex w) as (x & y & E). exists (blocks_latex b1 ++ x ++ pre), (post ++ y ++ blocks_latex b2). intros bs. cbn [fill].
    rewrite then_blocks_latex. cbn [blocks_latex]. rewrite E, IH, <- !app_assoc. reflexivity.
Qed.
Lemma as_document_latex bs : forall seen, elements_latex seen (as_document bs) = blocks_latex bs.
Proof. induction bs as [|b gap bs IH]; intros seen; [reflexivity|]. cbn [as_document elements_latex element_latex blocks_latex]. now rewrite IH. Qed.
Lemma as_document_styles bs : styles (as_document bs) = [].
Proof. induction bs as [|b gap bs IH]; [reflexivity|]. cbn [as_document styles flat_map fst style_of app]. exact IH. Qed.

(* Places in a document: in blocks at the top level, or in what stands only there:
   the first or another column of a point of interest, a definition. *)
Inductive spot :=
| Plain (p : place)
| In_first_column (title : str) (opts : settings) (p : place) (more : list (nat * nat * blocks)) (gap : nat)
| In_column (title : str) (opts : settings) (first : blocks) (earlier : list (nat * nat * blocks)) (e1 e2 : nat) (p : place)
    (later : list (nat * nat * blocks)) (gap : nat)
| In_definition (earlier : list definition) (term : str) (kinds : list str) (extra : nat) (p : place) (later : list definition) (gap : nat).
Definition fill_spot (s : spot) (bs : blocks) : document :=
  match s with
  | Plain p => as_document (fill p bs)
  | In_first_column title opts p more gap => [(Columned title opts (fill p bs) more, gap)]
  | In_column title opts first earlier e1 e2 p later gap => [(Columned title opts first (earlier ++ (e1, e2, fill p bs) :: later), gap)]
  | In_definition earlier term kinds extra p later gap =>
      [(Terms (earlier ++ {| d_term := term; d_kinds := kinds; d_extra := extra; d_body := fill p bs |} :: later), gap)]
  end.
Lemma fill_spot_latex s : exists before after, forall seen bs, elements_latex seen (fill_spot s bs) = before ++ blocks_latex bs ++ after.
Proof.
  destruct s as [p|title opts p more gap|title opts first earlier e1 e2 p later gap|earlier term kinds extra p later gap]; destruct (fill_latex p) as (pre & post & E);
    cbn [fill_spot].
  - exists pre, post. intros seen bs. rewrite as_document_latex. apply E.
  - exists (lit "\begin{poi}" ++ box_details (Interest title opts) ++ nl1 ++ pre), (post ++ columns_latex more ++ lit "\end{poi}" ++ nl2).
    intros seen bs. cbn [elements_latex element_latex]. rewrite E, app_nil_r. unfold box_latex. change (box_env (Interest title opts)) with (lit "poi").
    rewrite <- !app_assoc. reflexivity.
  - exists (lit "\begin{poi}" ++ box_details (Interest title opts) ++ nl1 ++ blocks_latex first ++ columns_latex earlier ++ lit "\newcol" ++ nl2 ++ pre),
      (post ++ columns_latex later ++ lit "\end{poi}" ++ nl2).
    intros seen bs. cbn [elements_latex element_latex]. unfold columns_latex at 1. rewrite flat_map_app. cbn [flat_map snd]. rewrite E, app_nil_r. unfold box_latex. change (box_env (Interest title opts)) with (lit "poi").
    unfold columns_latex. rewrite <- !app_assoc. reflexivity.
  - exists (lit "\begin{itemize}" ++ nl1 ++ flat_map definition_latex earlier ++ lit "\item \textbf{" ++ term ++ lit "}" ++
        match kinds with [] => [] | _ => lit ": " ++ join (lit ", ") kinds end ++ nl2 ++ pre), (post ++ nl1 ++ flat_map definition_latex later ++ lit "\end{itemize}" ++ nl2).
    intros seen bs. cbn [elements_latex element_latex]. rewrite flat_map_app. cbn [flat_map]. unfold definition_latex at 2. cbn [d_term d_kinds d_body]. rewrite E, app_nil_r.
    rewrite <- !app_assoc. reflexivity.
Qed.
Lemma fill_spot_styles s bs : styles (fill_spot s bs) = [].
Proof. destruct s; cbn [fill_spot]; [apply as_document_styles|reflexivity..]. Qed.

(* For every place in a document, however deep, there is one LaTeX text before
   it and one after it such that whatever blocks are put there, the whole is
   written as the text before, what is written for these blocks if they are the
   whole source, and the text after. *)
Theorem C63_nesting_partial ord o d1 s d2 : (forall l, Permutation (ord l) l) -> print_full_document o = false ->
  exists before after, forall bs,
    simple (as_document bs) = true -> simple (d1 ++ fill_spot s bs ++ d2) = true ->
    exists states states_alone out alone,
      translated ord o (document_source (d1 ++ fill_spot s bs ++ d2)) (REOF states) out /\
      translated ord o (document_source (as_document bs)) (REOF states_alone) alone /\
      concat out = before ++ concat alone ++ after.
Proof.
  intros Hord Ho. destruct (fill_spot_latex s) as (pre & post & E). exists (elements_latex [] d1 ++ pre), (post ++ elements_latex (styles d1) d2). intros bs H1 H2.
  destruct (C47_simple_documents ord o _ Hord H1) as (st1 & out1 & T1 & E1). destruct (C47_simple_documents ord o _ Hord H2) as (st2 & out2 & T2 & E2).
  exists st2, st1, out2, out1. split; [exact T2|]. split; [exact T1|]. rewrite E1, E2. unfold document_latex. rewrite Ho. cbn [app]. rewrite !app_nil_r.
  rewrite !elements_latex_app, !as_document_latex, fill_spot_styles, E, app_nil_r, <- !app_assoc. reflexivity.
Qed.
(* Where it is not so: a literal block in an item of a numbered list loses the
   first characters of its lines, which alone or in a bullet list it does not;
   the second line of a footnote in such an item is a quote of its own. *)
Theorem C63_nesting_refuted :
  run_lines [lit "b::"; []; lit "   code"] = Some (true, lit "b:" ++ nl2 ++ lit "\begin{codeblock}" ++ nl1 ++ lit "code" ++ nl1 ++ lit "\end{codeblock}" ++ nl2) /\
  run_lines [lit "1. a"; []; lit "   b::"; []; lit "      code"] =
    Some (true, lit "\begin{enumerate}" ++ nl1 ++ lit "\item a" ++ nl2 ++ lit "b:" ++ nl2 ++ lit "\begin{codeblock}" ++ nl1 ++ lit "e" ++ nl1 ++ lit "\end{codeblock}" ++ nl2 ++ lit "\end{enumerate}" ++ nl2) /\
  run_lines [lit ".. [1] one"; lit "  two"] = Some (true, lit "\footnote{" ++ nl1 ++ lit "one" ++ nl1 ++ lit "two" ++ nl2 ++ lit "}" ++ nl2) /\
  run_lines [lit "1. a"; []; lit "   .. [1] one"; lit "     two"] =
    Some (true, lit "\begin{enumerate}" ++ nl1 ++ lit "\item a" ++ nl2 ++ lit "\footnote{" ++ nl1 ++ lit "one" ++ nl2 ++ lit "}" ++ nl2 ++ lit "\begin{quotation}" ++ nl1 ++ lit "two" ++ nl2 ++ lit "\end{quotation}" ++ nl2 ++ lit "\end{enumerate}" ++ nl2).
Proof. split; [vm_compute; reflexivity|]. split; [vm_compute; reflexivity|]. split; vm_compute; reflexivity. Qed.

(* in a quote in the second item of a bullet list in a point of interest *)
Definition far_in : place :=
  Within (BCons (Para [Txt (lit "first")]) 1 BNil) (In_box (Interest (lit "Here") []))
    (Within BNil (In_bullets 45%N (ICons [Txt (lit "one")] 0 BNil INil) [Txt (lit "two")] 1 INil)
      (Within BNil (In_quote 2) (Between (BCons (Para [Txt (lit "it says")]) 1 BNil) (BCons (Para [Txt (lit "no more")]) 0 BNil)) 0 BNil) 1 (BCons (Para [Txt (lit "and")]) 0 BNil)) 1 (BCons (Para [Txt (lit "last")]) 0 BNil).
Definition some_blocks : blocks := BCons (Para [Txt (lit "a & "); Strong (lit "b")]) 1 (BCons (Numbered Period Digits 1 (ICons [Txt (lit "c")] 1 BNil (ICons [Txt (lit "d")] 0 BNil INil))) 1 BNil).
Example C63_ex : let d := [(Under_title (lit "Title") 61%N 5, 1)] ++ fill_spot (Plain far_in) some_blocks ++ [] in
  simple (as_document some_blocks) = true /\ simple d = true /\
  document_source d = [lit "Title"; lit "====="; []; lit "first"; []; lit ".. point-of-interest:: Here"; []; lit "   - one"; lit "   - two"; []; lit "       it says"; []; lit "       a & **b**"; []; lit "       1. c"; []; lit "       2. d"; []; lit "       no more"; []; lit "   and"; []; lit "last"] /\
  run_lines (document_source d) = Some (true, document_latex false d) /\
  run_lines (document_source (as_document some_blocks)) = Some (true, document_latex false (as_document some_blocks)).
Proof. split; [vm_compute; reflexivity|]. split; [vm_compute; reflexivity|]. split; [vm_compute; reflexivity|]. split; vm_compute; reflexivity. Qed.
(* in a quote in the second column, and in a definition *)
Definition further : place := Within (BCons (Para [Txt (lit "so")]) 1 BNil) (In_quote 2) (Between (BCons (Para [Txt (lit "it says")]) 1 BNil) BNil) 0 BNil.
Example C63_columns_ex :
  let d := fill_spot (In_column (lit "Here") [] (BCons (Para [Txt (lit "left")]) 1 BNil) [] 1 1 further [(1, 0, BCons (Para [Txt (lit "right")]) 0 BNil)] 1) some_blocks
    ++ fill_spot (In_definition [] (lit "a term") [lit "a kind"] 3 further [] 0) some_blocks in
  simple d = true /\ simple (as_document some_blocks) = true /\
  document_source d = [lit ".. point-of-interest:: Here"; []; lit "   left"; []; []; lit "   ::newcol"; []; lit "   so"; []; lit "     it says"; []; lit "     a & **b**"; []; lit "     1. c"; []; lit "     2. d"; []; []; lit "   ::newcol"; lit "   right"; [];
    lit "a term : a kind"; lit "   so"; []; lit "     it says"; []; lit "     a & **b**"; []; lit "     1. c"; []; lit "     2. d"; []] /\
  run_lines (document_source d) = Some (true, document_latex false d).
Proof. split; [vm_compute; reflexivity|]. split; [vm_compute; reflexivity|]. split; vm_compute; reflexivity. Qed.
Print Assumptions C63_nesting_partial.
Print Assumptions C63_nesting_refuted.
