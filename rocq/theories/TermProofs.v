(* TermProofs.v -- the parser on definition lists (used for C47 and C55). *)
From Coq Require Import Permutation.
From Verif Require Import Base Unicode Regex Patterns Common Converters NodeTypes Tree DocTree History Blocks Prog ParseLoop
  Inline Body Directives Parser Spec RegexProofs BlockProofs TreeProofs DocTreeProofs HyperrefProofs InlineSpec RegexGroups InlineProofs LoopProofs
  Utf8Latex Writer WriterProofs Transforms TextProofs OpenProofs SimpleSpec LineProofs Properties7 RunProofs StepProofs ParaProofs LeaveProofs GroupProofs
  OpenerProofs LeafProofs QuizRunProofs NestedProofs.

(* ---------- pieces of a term line ---------- *)
Definition no_colon (l : str) : bool := forallb (fun c => negb (N.eqb c 58)) l.
Lemma split_piece a : forall cur s, no_colon a = true -> (s = [] \/ exists s', s = lit " : " ++ s') ->
  split_str_aux (lit " : ") (a ++ s) cur 0 = split_str_aux (lit " : ") s (rev a ++ cur) 0.
Proof.
  induction a as [|c a IH]; intros cur s Ha Hs; [reflexivity|]. cbn [no_colon forallb] in Ha. apply andb_true_iff in Ha as [Hc Ha].
  cbn [app rev]. rewrite <- app_assoc. cbn [app]. rewrite <- (IH (c :: cur) s Ha Hs). cbn [split_str_aux].
  replace (starts_with (lit " : ") (c :: a ++ s)) with false; [reflexivity|]. symmetry.
  change (lit " : ") with [32%N; 58%N; 32%N] in *. cbn [starts_with]. destruct (N.eqb 32 c) eqn:E; [|reflexivity]. cbn [andb].
  destruct a as [|d a]; cbn [app].
  - destruct Hs as [-> |(s' & ->)]; reflexivity.
  - cbn [forallb] in Ha. apply andb_true_iff in Ha as [Hd _]. apply negb_true_iff in Hd. rewrite N.eqb_sym, Hd. reflexivity.
Qed.
Lemma split_join l : l <> [] -> forallb no_colon l = true -> split_str (lit " : ") (join (lit " : ") l) = l.
Proof.
  unfold split_str. induction l as [|a l IH]; intros Hne Hl; [congruence|]. cbn [forallb] in Hl. apply andb_true_iff in Hl as [Ha Hl]. destruct l as [|b l].
  - cbn [join]. pose proof (split_piece a [] [] Ha (or_introl eq_refl)) as H. rewrite app_nil_r in H. rewrite H. cbn [split_str_aux]. rewrite app_nil_r, rev_involutive. reflexivity.
  - change (join (lit " : ") (a :: b :: l)) with (a ++ lit " : " ++ join (lit " : ") (b :: l)). rewrite split_piece; [|exact Ha|right; eauto].
    rewrite app_nil_r. change (lit " : ") with [32%N; 58%N; 32%N] at 2. cbn [app split_str_aux].
    change (starts_with (lit " : ") (32%N :: 58%N :: 32%N :: join (lit " : ") (b :: l))) with true. cbn iota. rewrite rev_involutive. f_equal.
    change (length (lit " : ") - 1) with 2. cbn [split_str_aux]. apply IH; [discriminate|exact Hl].
Qed.
Lemma filter_all {A} (f : A -> bool) l : forallb f l = true -> filter f l = l.
Proof. induction l as [|a l IH]; [reflexivity|]. cbn. intros H. apply andb_true_iff in H as [-> H]. f_equal. auto. Qed.

(* ---------- the line below a term ---------- *)
Lemma indented_no_line l : 1 <= indent_of l -> captures LINE l = None.
Proof.
  intros H. destruct l as [|x s]; [cbn in H; lia|]. cbn [indent_of] in H. destruct (is_whitespace x) eqn:Ex; [|lia]. clear H.
  destruct (captures LINE (x :: s)) as [cs|] eqn:E; [|reflexivity]. exfalso.
  destruct (captures_sound _ _ _ E) as (p & u & new & Ep & R & _). apply relc_rel in R. unfold LINE in R. cbn [Seq] in R.
  apply rel_cat_inv in R as (t1 & R1 & R2). apply rel_grp_inv in R1. apply alts_chars in R1 as (c & g & Hin & Eg & Hg).
  assert (c = x) by congruence. subst c. assert (Hc : is_ascii_punct x = true).
  { rewrite <- punct_quote. unfold is_quote_char, cls_of. apply existsb_exists. exists x. split; [exact Hin|apply N.eqb_refl]. }
  apply punct_ink in Hc. congruence.
Qed.
Lemma line_ink l : blank l = false -> exists w c t, l = w ++ c :: t /\ ws w /\ is_whitespace c = false.
Proof.
  induction l as [|a l IH]; [discriminate|]. cbn. destruct (is_whitespace a) eqn:E; cbn.
  - intros H. destruct (IH H) as (w & c & t & -> & Hw & Hc). exists (a :: w), c, t. split; [reflexivity|]. split; [|exact Hc]. unfold ws in *. cbn. now rewrite E.
  - intros _. exists [], a, l. repeat split; auto.
Qed.
Lemma line_text l : blank l = false -> exists cs w, captures TEXT l = Some cs /\ cap 1 cs = Some w /\ length w = indent_of l.
Proof.
  intros H. destruct (line_ink l H) as (w & c & t & -> & Hw & Hc). destruct (ink_text w c t Hw Hc) as (cs & E & C1).
  exists cs, w. split; [exact E|]. split; [exact C1|]. symmetry. now apply ink_indent.
Qed.

Lemma definition_shape x : definition_ok x = true ->
  starts_text (term_line x) = true /\ like_enumerator (term_line x) = false /\ forallb no_colon (d_term x :: d_kinds x) = true /\ forallb (fun l => negb (blank l)) (d_kinds x) = true /\
  1 <= d_extra x /\ is_bnil (d_body x) = false /\ blocks_ok TQuote (d_body x) = true.
Proof.
  unfold definition_ok. intros H. apply andb_true_iff in H as [H Hb]. apply andb_true_iff in H as [H Hn]. apply andb_true_iff in H as [H He]. apply andb_true_iff in H as [H Hk].
  apply andb_true_iff in H as [H Hc]. unfold text_line in H. apply andb_true_iff in H as [H _]. apply andb_true_iff in H as [Hst Hen].
  apply negb_true_iff in Hen, Hn. apply Nat.leb_le in He. repeat (split; [assumption|]). exact Hb.
Qed.
Lemma body_first x : definition_ok x = true -> exists l ls, blocks_source (d_extra x) (d_body x) = l :: ls /\ l <> [] /\ blank l = false /\ indent_of l = d_extra x.
Proof.
  intros H. destruct (definition_shape _ H) as (_ & _ & _ & _ & _ & Hn & Hb). destruct (inside_first _ Hn Hb) as (b & gap & bs & -> & Hok & Hq).
  destruct (first_line b (d_extra x) Hok Hq) as (l & ls & E & H1 & H2 & H3). cbn [blocks_source]. rewrite E. cbn [app]. do 2 eexists. split; [reflexivity|]. auto.
Qed.

Section Terms.
  Variables (ord : hash_order) (full : bool).
  Notation under := (under ord full).
  Notation at_ := (at_ ord full).
  Hypothesis (Hord : forall l, Permutation (ord l) l).
  Variable src : list str.

  Lemma term_ender p x rest : definition_ok x = true -> skipn p src = term_line x :: blocks_source (d_extra x) (d_body x) ++ rest -> ender ord full src 0 p 0 MPlain.
  Proof.
    intros Hok E. destruct (definition_shape _ Hok) as (Hst & Hen & _ & _ & He & _). destruct (body_first _ Hok) as (l & ls & El & _ & _ & Hi).
    rewrite El in E. cbn [app] in E. apply skipn_cons in E as [Hl E]. apply skipn_cons in E as [Hl2 _]. split.
    - apply (leaver_text ord full src 0 p 0 (term_line x) Hl Hst Hen). unfold next_line_ok. rewrite Hl2, indented_no_line by lia. exact I.
    - exact (list_line_term src p 0 (term_line x) Hl Hst Hen).
  Qed.
  (* the list opens *)
  Lemma step_terms c S0 y st r e s seen p n x rest : home S0 y 0 -> table S0 = Some BODY_TRANSITIONS -> child_is_allowed (kind y) KDefinitionList = Ret true ->
    at_ src c (S0 :: st) ((y, r) :: e) s seen p n -> n <= 9 -> definition_ok x = true ->
    skipn p src = term_line x :: blocks_source (d_extra x) (d_body x) ++ rest ->
    exists c', steps src 0 c c' /\
      at_ src c' (SDefinitionList :: S0 :: st) ((NDefinitionList 0, None) :: (y, r) :: e) (s ++ lit "\begin{itemize}" ++ nl1) seen p (n + 1).
  Proof.
    intros Hh Htb Hk Hat Hn Hok E. pose proof (at_cur _ _ _ _ _ _ _ _ _ _ Hat) as Hc. pose proof (at_doc _ _ _ _ _ _ _ _ _ _ Hat) as Hu.
    destruct (definition_shape _ Hok) as (Hst & Hen & _ & _ & He & _). destruct (body_first _ Hok) as (l & ls & El & _ & Hb & Hi).
    rewrite El in E. cbn [app] in E. apply skipn_cons in E as [Hl E]. apply skipn_cons in E as [Hl2 _].
    destruct (find_text BODY_TRANSITIONS [] (term_line x) (or_introl eq_refl) eq_refl Hst Hen) as (cs & Hf & C1). cbn [app] in Hf.
    destruct (line_text _ Hb) as (tcs & w & Et & Ct & Hw).
    destruct (exec_open ord full (parse table 0) (cf_doc c) (NDefinitionList 0) _ s seen (lit "\begin{itemize}" ++ nl1) (cf_cur c)
      (fun ok => PRet (if ok then TSuccess (Push [SDefinitionList]) None else TFailure)) Hu) as (d' & Ed & Hu').
    { reflexivity. } { reflexivity. } { reflexivity. }
    { rewrite (under_data _ _ _ _ _ _ _ _ Hu). exact Hk. }
    { reflexivity. }
    assert (Hex : pexec (parse table 0) (body_text src 0 cs) (cf_doc c) (cf_cur c) = Ret (TSuccess (Push [SDefinitionList]) None, d', cf_cur c)).
    { unfold body_text. rewrite (cap_len_ok _ _ _ _ _ _ _ C1). unfold get_cursor. cbn [pbind pexec length Nat.add]. rewrite Hc, Hl2, indented_no_line, Et by lia.
      rewrite (cap_len_ok _ _ _ _ _ _ _ Ct), Hw, Hi. replace (0 <? d_extra x + 0) with true by (symmetry; apply Nat.ltb_lt; lia).
      rewrite (exec_by_indent _ _ _ _ _ _ _ (under_data _ _ _ _ _ _ _ _ Hu) (home_indent _ _ _ Hh)), match_same. exact Ed. }
    destruct (step_transition ord full src 0 c S0 st ((y, r) :: e) s seen p n _ BODY_TRANSITIONS body_text cs (Push [SDefinitionList]) None
      ((NDefinitionList 0, None) :: (y, r) :: e) (s ++ lit "\begin{itemize}" ++ nl1) seen d' (cf_cur c) (n + 1) (SDefinitionList :: S0 :: st)
      Hat Hn Hl (home_live _ _ _ Hh) Htb Hf) as (c1 & Hs & Ha); auto.
    { exists 0. intros f Hf0. eapply exec_up; [exact Hex|exact Hf0]. }
    exists c1. split; [exact Hs|]. rewrite Hc, Nat.add_0_r in Ha. exact Ha.
  Qed.
  (* a term *)
  Definition term_node (x : definition) : TreeNodeType := NDefinitionListItem (d_term x) (d_kinds x) (d_extra x).
  Definition term_begin (x : definition) : str :=
    lit "\item \textbf{" ++ d_term x ++ lit "}" ++ match d_kinds x with [] => [] | _ => lit ": " ++ join (lit ", ") (d_kinds x) end ++ nl2.
  Lemma step_term c st e s seen p n x rest :
    at_ src c (SDefinitionList :: st) ((NDefinitionList 0, None) :: e) s seen p n -> n <= 9 -> definition_ok x = true ->
    skipn p src = term_line x :: blocks_source (d_extra x) (d_body x) ++ rest ->
    exists c', steps src 0 c c' /\
      at_ src c' (SListItem :: SDefinitionList :: st) ((term_node x, None) :: (NDefinitionList 0, None) :: e) (s ++ term_begin x) seen (p + 1) 0.
  Proof.
    intros Hat Hn Hok E. pose proof (at_cur _ _ _ _ _ _ _ _ _ _ Hat) as Hc. pose proof (at_doc _ _ _ _ _ _ _ _ _ _ Hat) as Hu.
    destruct (definition_shape _ Hok) as (Hst & Hen & Hnc & Hkb & He & _). destruct (body_first _ Hok) as (l & ls & El & _ & Hb & Hi).
    rewrite El in E. cbn [app] in E. apply skipn_cons in E as [Hl E]. apply skipn_cons in E as [Hl2 _].
    destruct (find_definition [] (term_line x) eq_refl Hst Hen) as (cs & Hf & C1). cbn [app] in Hf.
    destruct (exec_open ord full (parse table 0) (cf_doc c) (term_node x) _ s seen (term_begin x) (cf_cur c)
      (fun ok => PRet (if ok then TSuccess (Push [SListItem]) (Some 1) else TFailure)) Hu) as (d' & Ed & Hu').
    { reflexivity. } { reflexivity. } { reflexivity. }
    { rewrite (under_data _ _ _ _ _ _ _ _ Hu). reflexivity. }
    { cbn [term_node pre_string]. unfold term_begin, braces. change (nl ++ nl) with nl2. rewrite <- !app_assoc. reflexivity. }
    assert (Hex : pexec (parse table 0) (definition_text src 0 cs) (cf_doc c) (cf_cur c) = Ret (TSuccess (Push [SListItem]) (Some 1), d', cf_cur c)).
    { unfold definition_text. rewrite (cap_len_ok _ _ _ _ _ _ _ C1). unfold get_cursor. cbn [pbind pexec length Nat.add]. rewrite Hc, Hl2, Hi, Hl.
      replace (d_extra x + 0 <=? 0) with false by (symmetry; apply Nat.leb_gt; lia). unfold term_line. rewrite split_join by (discriminate || exact Hnc).
      rewrite filter_all by exact Hkb. rewrite Nat.add_0_r. exact Ed. }
    destruct (step_transition ord full src 0 c SDefinitionList st ((NDefinitionList 0, None) :: e) s seen p n _ DEFINITION_LIST_TRANSITIONS definition_text cs (Push [SListItem]) (Some 1)
      ((term_node x, None) :: (NDefinitionList 0, None) :: e) (s ++ term_begin x) seen d' (cf_cur c) 0 (SListItem :: SDefinitionList :: st)
      Hat Hn Hl I eq_refl Hf) as (c1 & Hs & Ha); auto.
    { exists 0. intros f Hf0. eapply exec_up; [exact Hex|exact Hf0]. }
    { lia. }
    exists c1. split; [exact Hs|]. rewrite Hc in Ha. exact Ha.
  Qed.

  Definition terms_depth (ds : list definition) : nat := fold_right (fun x m => Nat.max (blocks_depth (d_body x)) m) 0 ds.
  Lemma term_item x : definition_ok x = true -> item_line 0 (term_line x).
  Proof.
    intros Hok. destruct (definition_shape _ Hok) as (Hst & _). change (term_line x) with (pad 0 (term_line x)).
    split; [now apply pad_not_blank|]. split; [now apply pad_indent|]. split; [now apply pad_no_line|]. now apply pad_text.
  Qed.
  Lemma run_terms ds : forall e st L c s seen p n rest,
    forallb definition_ok ds = true -> Forall (deeper 0 TNone) L ->
    at_ src c (fstack L ++ SDefinitionList :: st) (fentries L ++ (NDefinitionList 0, None) :: e) s seen p n ->
    n + length L <= 9 -> terms_depth ds <= 6 ->
    past_blanks (skipn p src) = past_blanks (terms_source ds ++ rest) -> head_ok 1 rest -> low 0 rest ->
    outcome_at ord full src 0 SDefinitionList st ((NDefinitionList 0, None) :: e) c s seen rest (match ds with [] => n | _ => 0 end) (deeper 0 TNone)
      (Nat.max (length L) (1 + terms_depth ds)) (ends_of L ++ flat_map definition_latex ds).
  Proof.
    induction ds as [|x ds IH]; intros e st L c s seen p n rest Hok HL Hat Hn Hd E Hr Hlow.
    { exists c, L, [], p. split; [apply steps_refl|]. split; [rewrite app_nil_r; exact Hat|]. split; [cbn; now rewrite app_nil_r|]. split; [exact HL|]. split; [qlia|exact E]. }
    cbn [forallb] in Hok. apply andb_true_iff in Hok as [Hx Hds]. destruct (definition_shape _ Hx) as (Hst & Hen & _ & _ & He & Hnb & Hbs).
    change (terms_depth (x :: ds)) with (Nat.max (blocks_depth (d_body x)) (terms_depth ds)) in *.
    change (terms_source (x :: ds)) with (term_line x :: blocks_source (d_extra x) (d_body x) ++ terms_source ds) in E. cbn [app] in E. rewrite <- app_assoc in E.
    set (rest_m := terms_source ds ++ rest) in *.
    assert (Hne : term_line x <> []) by (intros H; rewrite H in Hst; discriminate).
    rewrite past_blanks_cons in E by exact Hne.
    destruct (approach ord full src 0 L SDefinitionList st _ s seen c p n _ (Forall_impl _ (deeper_skippable 0 TNone) HL) ltac:(split; [exact I|]; eexists; reflexivity)
      Hat ltac:(qlia) E (past_blanks_cons _ _ Hne)) as (c1 & p1 & Hs1 & Ha1 & E1).
    pose proof (term_ender p1 x rest_m Hx E1) as Hen1.
    destruct (unwind ord full src 0 p1 0 MPlain Hen1) with (L := L) (c := c1) (st := SDefinitionList :: st) (e := (NDefinitionList 0, @None (list str)) :: e) (s := s) (seen := seen) (n := n)
      as (c2 & Hs2 & Ha2); auto; try discriminate; try qlia.
    { eapply Forall_impl; [|exact HL]. intros. now apply strict_ended. }
    destruct (step_term c2 st e _ seen p1 (n + length L) x rest_m Ha2 ltac:(qlia) Hx E1) as (c3 & Hs3 & Ha3).
    assert (Hrm : head_ok 1 rest_m /\ low 0 rest_m).
    { unfold rest_m. destruct ds as [|y ds]; [split; [exact Hr|exact Hlow]|]. cbn [forallb] in Hds. apply andb_true_iff in Hds as [Hy _].
      cbn [terms_source flat_map app]. pose proof (term_item y Hy) as B. split.
      - cbn. right. exists 0. split; [exact B|qlia].
      - unfold low. destruct B as (B1 & B2 & _). rewrite past_blanks_cons by (intros H; rewrite H in B1; discriminate). split; [exact B1|]. now rewrite B2. }
    destruct Hrm as [Hrm1 Hrm2].
    assert (E2 : skipn (p1 + 1) src = blocks_source (d_extra x) (d_body x) ++ rest_m).
    { change (term_line x :: blocks_source (d_extra x) (d_body x) ++ rest_m) with ([term_line x] ++ blocks_source (d_extra x) (d_body x) ++ rest_m) in E1. now apply skipn_past in E1. }
    destruct (inside_first _ Hnb Hbs) as (b & gap & bs & Eb & _ & Hq).
    destruct (proj1 (proj2 (nested ord full Hord)) (d_body x) src 0 (d_extra x) SListItem (term_node x) None ((NDefinitionList 0, None) :: e) (SDefinitionList :: st) [] TQuote c3 _ seen (p1 + 1) 0 rest_m Hbs
      (home_definition _ _ _) (Forall_nil _) (fun _ => eq_refl) Ha3) as (tag & c4 & L4 & t4 & q4 & Hs4 & Ha4 & Et4 & HF4 & HL4 & Hpb4).
    { rewrite Eb. cbn [first_opens length]. destruct b; cbn [opens]; try discriminate Hq; qlia. }
    { qlia. } { now left. } { now rewrite E2. }
    { eapply head_ok_mono; [|exact Hrm1]. exact He. } { eapply low_mono; [|exact Hrm2]. qlia. }
    set (item := (SListItem, term_node x)).
    destruct (IH e st (L4 ++ [item]) c4 ((s ++ ends_of L) ++ term_begin x ++ t4) seen q4 0 rest Hds) as (c5 & L5 & t5 & q5 & Hs5 & Ha5 & Et5 & HF5 & HL5 & Hpb5); auto.
    { apply Forall_app. split; [eapply Forall_impl; [|exact HF4]; intros f; apply deeper_weaken; qlia|]. constructor; [|constructor]. cbn. qlia. }
    { rewrite fstack_app, fentries_app, <- !app_assoc. cbn [fstack fentries map fst snd app item]. rewrite <- !app_assoc in Ha4. cbn [fstack fentries map] in Ha4.
      eapply at_weaken; [exact Ha4|destruct (is_bnil (d_body x)); qlia]. }
    { rewrite app_length. cbn [length] in *. qlia. }
    { qlia. }
    exists c5, L5, (ends_of L ++ term_begin x ++ t4 ++ t5), q5.
    split; [eapply steps_trans; [|exact Hs5]; eapply steps_trans; [|exact Hs4]; eapply steps_trans; [|exact Hs3]; eapply steps_trans; eauto|].
    split; [rewrite <- !app_assoc in Ha5; rewrite <- ?app_assoc; eapply at_weaken; [exact Ha5|destruct ds; qlia]|].
    split; [|split; [exact HF5|]; split; [|exact Hpb5]].
    - cbn [flat_map]. unfold definition_latex. assert (Ei : ends_of [item] = nl1) by reflexivity. cbn [ends_of map concat app] in Et4.
      rewrite <- !app_assoc. f_equal. unfold term_begin. rewrite <- !app_assoc. do 5 f_equal. rewrite Et5, ends_of_app, Ei. rewrite app_assoc, (app_assoc t4), Et4, <- app_assoc. reflexivity.
    - rewrite app_length in HL5. cbn [length] in *. qlia.
  Qed.
End Terms.
