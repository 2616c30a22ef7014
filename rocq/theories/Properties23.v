(* Properties23.v -- C60: layout that says nothing changes nothing; C61: what comes later does not change what came before *)
From Coq Require Import Permutation Lia.
From Verif Require Import Base Unicode Regex Patterns Common Converters NodeTypes Tree DocTree History Blocks Prog ParseLoop
  Inline Body Directives Parser Spec InlineSpec Utf8Latex Writer Transforms SimpleSpec MarkupSpec Properties12 Properties14 Properties18.

(* ---------- documents that say the same ---------- *)
(* The same blocks with other bullets, other numbers, delimiters and styles of
   numbers, other numbers of empty lines, another indentation of quotes and who said a quote written on other lines. *)
Inductive same_block : block -> block -> Prop :=
| same_bullets c c' its its' : same_items its its' -> same_block (Bullets c its) (Bullets c' its')
| same_numbered d s n d' s' n' its its' : same_items its its' -> same_block (Numbered d s n its) (Numbered d' s' n' its')
| same_fields names its its' : same_items its its' -> same_block (Fields names its) (Fields names its')
| same_quote extra extra' bs bs' : same_blocks bs bs' -> same_block (Quote extra bs) (Quote extra' bs')
| same_cited extra extra' bs bs' who who' hang hang' more more' : same_blocks bs bs' -> join (lit " ") (who :: more) = join (lit " ") (who' :: more') ->
    same_block (Said extra bs who hang more) (Said extra' bs' who' hang' more')
| same_boxed x bs bs' : same_blocks bs bs' -> same_block (Boxed x bs) (Boxed x bs')
| same_entry m t gap gap' bs bs' : same_blocks bs bs' -> same_block (Entry m t gap bs) (Entry m t gap' bs')
| same_figure uri opts t gap gap' bs bs' : same_blocks bs bs' -> same_block (Figure uri opts t gap bs) (Figure uri opts t gap' bs')
| same_quiz key grade points opts ps ps' : map fst ps = map fst ps' ->
    same_block (Quiz {| q_key := key; q_grade := grade; q_points := points; q_settings := opts; q_parts := ps |})
               (Quiz {| q_key := key; q_grade := grade; q_points := points; q_settings := opts; q_parts := ps' |})
| same_table title opts r r' c c' rows rows' : map fst rows = map fst rows' ->
    same_block (Tabular {| t_title := title; t_settings := opts; t_row := r; t_cell := c; t_rows := rows |})
               (Tabular {| t_title := title; t_settings := opts; t_row := r'; t_cell := c'; t_rows := rows' |})
| same_itself b : same_block b b
with same_blocks : blocks -> blocks -> Prop :=
| same_bnil : same_blocks BNil BNil
| same_bcons b b' gap gap' bs bs' : same_block b b' -> same_blocks bs bs' -> same_blocks (BCons b gap bs) (BCons b' gap' bs')
with same_items : items -> items -> Prop :=
| same_inil : same_items INil INil
| same_icons t gap gap' bs bs' its its' : same_blocks bs bs' -> same_items its its' -> same_items (ICons t gap bs its) (ICons t gap' bs' its').
Definition same_definition (x y : definition) : Prop := d_term x = d_term y /\ d_kinds x = d_kinds y /\ same_blocks (d_body x) (d_body y).
(* A title may be underlined with another sign, or over- and underlined, if all
   titles of the same style change in the same way: f says how. *)
Definition title_of (e : element) : option (list str * str) :=
  match e with Under_title t _ _ | Over_title t _ _ => Some ([], t) | Marked names _ t _ _ => Some (map fst names, t) | _ => None end.
Inductive same_element (f : SectionLineStyle -> SectionLineStyle) : element * nat -> element * nat -> Prop :=
| same_title e e' x s gap gap' : title_of e = Some x -> title_of e' = Some x -> style_of e = Some s -> style_of e' = Some (f s) ->
    same_element f (e, gap) (e', gap')
| same_rule c n c' n' gap gap' : same_element f (Rule c n, gap) (Rule c' n', gap')
| same_verbatim t ls gap : same_element f (Verbatim t ls, gap) (Verbatim t ls, gap)
| same_quoted t q q' ls ls' gap gap' : map snd ls = map snd ls' -> same_element f (Quoted t q ls, gap) (Quoted t q' ls', gap')
| same_terms ds ds' gap gap' : Forall2 same_definition ds ds' -> same_element f (Terms ds, gap) (Terms ds', gap')
| same_columned title opts bs bs' more more' gap gap' : same_blocks bs bs' -> Forall2 (fun x y => same_blocks (snd x) (snd y)) more more' ->
    same_element f (Columned title opts bs more, gap) (Columned title opts bs' more', gap')
| same_one_block b b' gap gap' : same_block b b' -> same_element f (Block b, gap) (Block b', gap').

Scheme same_block_mut := Induction for same_block Sort Prop
with same_blocks_mut := Induction for same_blocks Sort Prop
with same_items_mut := Induction for same_items Sort Prop.
Lemma flat_map_fst {A B} (g : A -> list B) : forall l l' : list (A * nat), map fst l = map fst l' ->
  flat_map (fun x => g (fst x)) l = flat_map (fun x => g (fst x)) l'.
Proof. induction l as [|[a n] l IH]; intros [|[a' n'] l'] E; try discriminate; [reflexivity|]. cbn in E. injection E as -> E. cbn [flat_map fst]. now rewrite (IH _ E). Qed.
Lemma same_latex b b' (H : same_block b b') : latex b = latex b'.
Proof.
  apply (same_block_mut (fun b b' _ => latex b = latex b') (fun bs bs' _ => blocks_latex bs = blocks_latex bs')
    (fun its its' _ => items_latex its = items_latex its' /\ forall names, fields_latex names its = fields_latex names its')); intros; cbn [latex blocks_latex items_latex fields_latex]; auto.
  - now rewrite (proj1 H0).
  - now rewrite (proj1 H0).
  - now rewrite (proj2 H0).
  - now rewrite H0.
  - rewrite H0. match goal with E : join _ _ = join _ _ |- _ => now rewrite E end.
  - now rewrite H0.
  - now rewrite H0.
  - now rewrite H0.
  - unfold quiz_latex, quiz_begin. cbn [q_key q_points q_parts]. rewrite (flat_map_fst part_latex ps ps') by assumption.
    assert (E : all_points ps = all_points ps'); [|now rewrite E]. unfold all_points. rewrite <- (map_map fst (fun x => match x with Prose _ => 0%N | Asked q => question_points q end)).
    rewrite <- (map_map fst (fun x => match x with Prose _ => 0%N | Asked q => question_points q end) ps'). congruence.
  - unfold table_latex, table_begin, table_rows. cbn [t_title t_rows]. rewrite (flat_map_fst row_latex rows rows') by assumption.
    assert (E : forall t t', map fst (t_rows t) = map fst (t_rows t') -> columns t = columns t').
    { intros t t'. unfold columns. generalize (t_rows t') as l'. induction (t_rows t) as [|[a n] l IH]; intros [|[a' n'] l'] E; try discriminate; [reflexivity|]. cbn in E. injection E as -> E. cbn [fold_right fst]. now rewrite (IH _ E). }
    rewrite (E {| t_title := title; t_settings := opts; t_row := r; t_cell := c; t_rows := rows |} {| t_title := title; t_settings := opts; t_row := r'; t_cell := c'; t_rows := rows' |}) by assumption. reflexivity.
  - now rewrite H0, H1.
  - destruct H1 as [H1 H2]. split; [now rewrite H0, H1|]. intros names. now rewrite H0, H2.
Qed.
Lemma same_blocks_latex bs bs' (H : same_blocks bs bs') : blocks_latex bs = blocks_latex bs'.
Proof. induction H; [reflexivity|]. cbn [blocks_latex]. now rewrite (same_latex _ _ H), IHsame_blocks. Qed.
Lemma style_renamed f a b : (forall x y, f x = f y -> x = y) -> style_eqb (f a) (f b) = style_eqb a b.
Proof.
  intros Hf. assert (E : forall x y, style_eqb x y = true <-> x = y).
  { intros x y. destruct x as [x|x], y as [y|y]; cbn; split; intros Q; try discriminate; try (apply N.eqb_eq in Q; now subst); injection Q as ->; apply N.eqb_refl. }
  destruct (style_eqb a b) eqn:Q.
  - apply E in Q as ->. now apply E.
  - destruct (style_eqb (f a) (f b)) eqn:Q'; [|reflexivity]. apply E, Hf, E in Q'. congruence.
Qed.
Lemma uniq_renamed f (Hf : forall x y, f x = f y -> x = y) l : uniq (map f l) = map f (uniq l).
Proof.
  induction l as [|a l IH]; [reflexivity|]. cbn [map uniq]. f_equal. rewrite IH. generalize (uniq l) as u. intros u.
  induction u as [|x u IHu]; [reflexivity|]. cbn [map filter]. rewrite (style_renamed f x a Hf). destruct (style_eqb x a); cbn [negb map]; now rewrite IHu.
Qed.
Lemma level_renamed f (Hf : forall x y, f x = f y -> x = y) l s : level_after (map f l) (f s) = level_after l s.
Proof.
  unfold level_after. rewrite (uniq_renamed f Hf). f_equal. generalize (uniq l) as u. intros u.
  induction u as [|x u IHu]; [reflexivity|]. cbn [map index_of]. rewrite (style_renamed f s x Hf). now rewrite IHu.
Qed.
Lemma title_written seen e x s gap : title_of e = Some x -> style_of e = Some s ->
  element_latex seen e gap = flat_map (fun n => lit "\rstlabel{" ++ normalize_refname n ++ lit "}" ++ nl1) (fst x) ++ title_latex (level_after seen s) (snd x).
Proof.
  destruct e as [t c n|t c n|names over t c n|c n|t ls|t q ls|ds|ti op fi mo|b]; cbn [title_of style_of element_latex]; intros H1 H2; try discriminate; injection H1 as <-; injection H2 as <-; try reflexivity.
  cbn [fst snd]. unfold targets_latex. f_equal. rewrite !flat_map_concat_map, map_map. reflexivity.
Qed.
Lemma same_elements f (Hf : forall x y, f x = f y -> x = y) d d' : Forall2 (same_element f) d d' ->
  forall seen, elements_latex (map f seen) d' = elements_latex seen d.
Proof.
  induction 1 as [|[e gap] [e' gap'] d d' He Hd IH]; intros seen; [reflexivity|]. cbn [elements_latex].
  assert (E : element_latex (map f seen) e' gap' = element_latex seen e gap /\ style_of e' = Datatypes.option_map f (style_of e)).
  { inversion He as [? ? x s ? ? H1 H2 H3 H4|? ? ? ? ? ?|? ? ?|? ? ? ? ? ? ? H1|ds ds' ? ? H1|ti op bs bs' mo mo' ? ? H1 H2|b b' ? ? H1]; subst.
    - rewrite H3, H4. split; [|reflexivity]. rewrite (title_written _ _ _ _ _ H2 H4), (title_written _ _ _ _ _ H1 H3). now rewrite (level_renamed f Hf).
    - split; reflexivity.
    - split; reflexivity.
    - split; [|reflexivity]. cbn [element_latex]. now rewrite H1.
    - split; [|reflexivity]. cbn [element_latex]. f_equal. f_equal. f_equal. clear -H1. induction H1 as [|x y ds ds' (E1 & E2 & E3) _ IH]; [reflexivity|]. cbn [flat_map]. rewrite IH. f_equal.
      unfold definition_latex. now rewrite E1, E2, (same_blocks_latex _ _ E3).
    - split; [|reflexivity]. cbn [element_latex]. rewrite (same_blocks_latex _ _ H1). f_equal. f_equal. clear -H2.
      induction H2 as [|x y mo mo' E _ IH]; [reflexivity|]. unfold columns_latex in *. cbn [flat_map]. now rewrite IH, (same_blocks_latex _ _ E).
    - split; [|reflexivity]. cbn [element_latex]. symmetry. now apply same_latex. }
  destruct E as [E1 E2]. rewrite E1, E2. f_equal. destruct (style_of e) as [s|]; cbn [Datatypes.option_map].
  - change ([f s]) with (map f [s]). rewrite <- map_app. apply IH.
  - rewrite !app_nil_r. apply IH.
Qed.

(* Two documents that differ only in layout are translated into the same LaTeX. *)
Theorem C60_layout_partial ord o f d d' : (forall l, Permutation (ord l) l) -> (forall x y, f x = f y -> x = y) ->
  simple d = true -> simple d' = true -> Forall2 (same_element f) d d' ->
  exists states states' out out',
    translated ord o (document_source d) (REOF states) out /\
    translated ord o (document_source d') (REOF states') out' /\
    concat out = concat out'.
Proof.
  intros Hord Hf H H' Hs. destruct (C47_simple_documents ord o d Hord H) as (states & out & Ht & E).
  destruct (C47_simple_documents ord o d' Hord H') as (states' & out' & Ht' & E').
  exists states, states', out, out'. split; [exact Ht|]. split; [exact Ht'|]. rewrite E, E'. unfold document_latex.
  pose proof (same_elements f Hf d d' Hs []) as Q. cbn [map] in Q. now rewrite Q.
Qed.
(* Where layout matters although it should not: the empty lines after a literal
   block are written in it, and items with another number of spaces after the
   bullet are another list. *)
Theorem C60_layout_refuted :
  (run_lines [lit "x::"; []; lit "   y"; []; lit "z"] = Some (true, lit "x:" ++ nl2 ++ lit "\begin{codeblock}" ++ nl1 ++ lit "y" ++ nl2 ++ lit "\end{codeblock}" ++ nl2 ++ lit "z" ++ nl2) /\
   run_lines [lit "x::"; []; lit "   y"; []; []; lit "z"] = Some (true, lit "x:" ++ nl2 ++ lit "\begin{codeblock}" ++ nl1 ++ lit "y" ++ nl2 ++ nl1 ++ lit "\end{codeblock}" ++ nl2 ++ lit "z" ++ nl2)) /\
  (run_lines [lit "* a"; lit "* b"] = Some (true, lit "\begin{itemize}" ++ nl1 ++ lit "\item a" ++ nl2 ++ lit "\item b" ++ nl2 ++ lit "\end{itemize}" ++ nl2) /\
   run_lines [lit "*  a"; lit "* b"] = Some (true, lit "\begin{itemize}" ++ nl1 ++ lit "\item a" ++ nl2 ++ lit "\end{itemize}" ++ nl2 ++ lit "\begin{itemize}" ++ nl1 ++ lit "\item b" ++ nl2 ++ lit "\end{itemize}" ++ nl2)).
Proof. split; split; vm_compute; reflexivity. Qed.
(* the same in two layouts *)
Definition tight : document :=
  [(Under_title (lit "Fruit") 61%N 5, 0); (Under_title (lit "Apples") 45%N 6, 1);
   (Block (Bullets 42%N (ICons [Txt (lit "red")] 1 (BCons (Numbered Period Digits 1 (ICons [Txt (lit "sweet")] 1 BNil (ICons [Txt (lit "sour")] 0 BNil INil))) 0 BNil) (ICons [Txt (lit "green")] 0 BNil INil))), 1);
   (Block (Para [Txt (lit "Quoted")]), 1); (Block (Quote 1 (BCons (Para [Txt (lit "keeps the doctor away")]) 0 BNil)), 1);
   (Under_title (lit "Bread") 61%N 5, 0)].
Definition wide : document :=
  [(Over_title (lit "Fruit") 35%N 9, 2); (Under_title (lit "Apples") 61%N 9, 3);
   (Block (Bullets 43%N (ICons [Txt (lit "red")] 2 (BCons (Numbered Parens (Roman false) 3 (ICons [Txt (lit "sweet")] 3 BNil (ICons [Txt (lit "sour")] 1 BNil INil))) 1 BNil) (ICons [Txt (lit "green")] 0 BNil INil))), 2);
   (Block (Para [Txt (lit "Quoted")]), 2); (Block (Quote 6 (BCons (Para [Txt (lit "keeps the doctor away")]) 0 BNil)), 4);
   (Over_title (lit "Bread") 35%N 6, 1)].
(* a renaming of styles under which the two documents say the same *)
Definition swap (a b s : SectionLineStyle) : SectionLineStyle := if style_eqb s a then b else if style_eqb s b then a else s.
Lemma swap_injective a b x y : swap a b x = swap a b y -> x = y.
Proof.
  assert (E : forall x y, style_eqb x y = true <-> x = y).
  { intros u v. destruct u as [u|u], v as [v|v]; cbn; split; intros Q; try discriminate; try (apply N.eqb_eq in Q; now subst); injection Q as ->; apply N.eqb_refl. }
  assert (F : forall x y, style_eqb x y = false -> x <> y) by (intros u v Q Q'; apply E in Q'; congruence).
  unfold swap. destruct (style_eqb x a) eqn:X1, (style_eqb y a) eqn:Y1; try (apply E in X1); try (apply E in Y1); subst; auto.
  - destruct (style_eqb y b) eqn:Y2; [apply E in Y2; subst; auto|]. intros <-. now apply F in Y2.
  - destruct (style_eqb x b) eqn:X2; [apply E in X2; subst; auto|]. intros ->. now apply F in X2.
  - destruct (style_eqb x b) eqn:X2, (style_eqb y b) eqn:Y2; try (apply E in X2); try (apply E in Y2); subst; auto.
    + intros <-. now apply F in Y1.
    + intros ->. now apply F in X1.
Qed.
Definition renaming (s : SectionLineStyle) : SectionLineStyle := swap (Under 61%N) (Under 45%N) (swap (Under 61%N) (OverAndUnder 35%N) s).
Example C60_ex : simple tight = true /\ simple wide = true /\ (forall x y, renaming x = renaming y -> x = y) /\ Forall2 (same_element renaming) tight wide /\
  document_source tight = [lit "Fruit"; lit "====="; lit "Apples"; lit "------"; []; lit "* red"; []; lit "  1. sweet"; []; lit "  2. sour"; lit "* green"; []; lit "Quoted"; []; lit " keeps the doctor away"; []; lit "Bread"; lit "====="] /\
  document_source wide = [lit "#########"; lit "Fruit"; lit "#########"; []; []; lit "Apples"; lit "========="; []; []; []; lit "+ red"; []; []; lit "  (iii) sweet"; []; []; []; lit "  (iv) sour"; []; []; lit "+ green"; []; [];
    lit "Quoted"; []; []; lit "      keeps the doctor away"; []; []; []; []; lit "######"; lit "Bread"; lit "######"; []] /\
  run_lines (document_source tight) = run_lines (document_source wide) /\
  run_lines (document_source tight) = Some (true, document_latex false tight).
Proof.
  split; [vm_compute; reflexivity|]. split; [vm_compute; reflexivity|]. split.
  { intros x y Q. unfold renaming in Q. now apply swap_injective, swap_injective in Q. }
  split.
  { repeat (constructor; [|]); [| | | | | |constructor].
    - eapply same_title; reflexivity.
    - eapply same_title; reflexivity.
    - apply same_one_block, same_bullets, same_icons; [apply same_bcons; [apply same_numbered|apply same_bnil]|].
      + apply same_icons; [apply same_bnil|]. apply same_icons; [apply same_bnil|apply same_inil].
      + apply same_icons; [apply same_bnil|apply same_inil].
    - apply same_one_block, same_itself.
    - apply same_one_block, same_quote, same_bcons; [apply same_itself|apply same_bnil].
    - eapply same_title; reflexivity. }
  split; [vm_compute; reflexivity|]. split; [vm_compute; reflexivity|]. split; vm_compute; reflexivity.
Qed.

(* ---------- C61 ---------- *)
(* What is written for a document stays as it is when more is added at its end:
   the new text is written after it.  If there are no titles in one of the two
   parts, it is what would be written for the second part alone. *)
Theorem C61_growing_partial ord o d1 d2 : (forall l, Permutation (ord l) l) ->
  simple d1 = true -> simple d2 = true -> simple (d1 ++ d2) = true ->
  exists states1 states2 states out1 out2 out first second begins ends,
    translated ord o (document_source d1) (REOF states1) out1 /\
    translated ord o (document_source d2) (REOF states2) out2 /\
    translated ord o (document_source d1 ++ document_source d2) (REOF states) out /\
    (begins, ends) = (if print_full_document o then (lit "\documentclass{aplus}" ++ nl1 ++ lit "\begin{document}" ++ nl2, lit "\end{document}" ++ nl1) else ([], [])) /\
    concat out1 = begins ++ first ++ ends /\
    concat out = begins ++ first ++ second ++ ends /\
    (styles d1 = [] \/ styles d2 = [] -> concat out2 = begins ++ second ++ ends).
Proof.
  intros Hord H1 H2 H. destruct (C47_simple_documents ord o _ Hord H1) as (st1 & out1 & T1 & E1). destruct (C47_simple_documents ord o _ Hord H2) as (st2 & out2 & T2 & E2).
  destruct (C47_simple_documents ord o _ Hord H) as (st & out & T & E).
  assert (Es : document_source (d1 ++ d2) = document_source d1 ++ document_source d2) by (unfold document_source; apply flat_map_app). rewrite Es in T.
  exists st1, st2, st, out1, out2, out, (elements_latex [] d1), (elements_latex (styles d1) d2).
  exists (if print_full_document o then lit "\documentclass{aplus}" ++ nl1 ++ lit "\begin{document}" ++ nl2 else []), (if print_full_document o then lit "\end{document}" ++ nl1 else []).
  split; [exact T1|]. split; [exact T2|]. split; [exact T|]. split; [destruct (print_full_document o); reflexivity|]. split; [exact E1|]. split.
  - rewrite E. unfold document_latex. rewrite elements_latex_app. cbn [app]. rewrite <- ?app_assoc. reflexivity.
  - intros Hs. rewrite E2. unfold document_latex. f_equal. f_equal. destruct Hs as [Hs|Hs]; [now rewrite Hs|].
    generalize (@nil SectionLineStyle) at 1 as a. generalize (styles d1) as b. clear -Hs. induction d2 as [|[e gap] d2 IH]; [reflexivity|]. intros b a.
    cbn [styles flat_map fst] in Hs. destruct (style_of e) eqn:Q; [discriminate|]. cbn [app] in Hs. cbn [elements_latex]. rewrite Q. f_equal; [|now apply IH].
    destruct e; try discriminate; reflexivity.
Qed.
(* More at the end can change or take away what came before: a note on one line
   takes in the blocks after it, an empty directive or a substitution makes the
   program panic before anything is written, and a number that is too large
   for an item ends the translation. *)
Theorem C61_growing_refuted :
  (run_lines [lit ".. note:: a"; []; lit "b"] = Some (true, lit "\begin{note}" ++ nl1 ++ lit "a" ++ nl2 ++ lit "b" ++ nl2 ++ lit "\end{note}" ++ nl2) /\
   run_lines [lit ".. note:: a"; []; lit "b"; []; lit "c"] = Some (true, lit "\begin{note}" ++ nl1 ++ lit "a" ++ nl2 ++ lit "b" ++ nl2 ++ lit "c" ++ nl2 ++ lit "\end{note}" ++ nl2)) /\
  (run_lines [lit "one"] = Some (true, lit "one" ++ nl2) /\
   run_lines [lit "one"; []; lit ".. note::"] = None /\
   run_lines [lit "one"; []; lit "|two|"] = None /\
   run_lines [lit "one"; []; lit "99999999999999999999. two"; []; lit "three"] = Some (false, lit "one" ++ nl2)).
Proof. repeat split; vm_compute; reflexivity. Qed.
Example C61_ex : simple tight = true /\ simple [(Block (Para [Txt (lit "End.")]), 0)] = true /\ simple (tight ++ [(Block (Para [Txt (lit "End.")]), 0)]) = true.
Proof. split; [vm_compute; reflexivity|]. split; vm_compute; reflexivity. Qed.
Print Assumptions C60_layout_partial.
Print Assumptions C60_layout_refuted.
Print Assumptions C61_growing_partial.
Print Assumptions C61_growing_refuted.
