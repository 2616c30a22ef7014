(* NewcolProofs.v -- points of interest whose contents stand in columns (used for C47) *)
From Coq Require Import Permutation.
From Verif Require Import Base Unicode Regex Patterns Common Converters NodeTypes Tree DocTree History Blocks Prog ParseLoop
  Inline Body Directives Parser Spec RegexProofs BlockProofs TreeProofs DocTreeProofs HyperrefProofs InlineSpec RegexGroups InlineProofs LoopProofs
  Utf8Latex Writer WriterProofs Transforms TextProofs OpenProofs SimpleSpec LineProofs Properties7 RunProofs StepProofs ParaProofs NumberProofs GreedyProofs LeaveProofs GroupProofs
  MarkerProofs OpenerProofs LeafProofs ShiftProofs BoxProofs QuizRunProofs NestedProofs TermProofs.

Lemma nc_text : exists cs, captures TEXT newcol = Some cs /\ cap 1 cs = Some (repeat 32%N 3).
Proof. eexists. split; [vm_compute; reflexivity|reflexivity]. Qed.
Lemma nc_break : exists cs, captures APLUS_COL_BREAK newcol = Some cs /\ cap 1 cs = Some (repeat 32%N 3).
Proof. eexists. split; [vm_compute; reflexivity|reflexivity]. Qed.
Lemma nc_blank : captures BLANK_LINE newcol = None. Proof. vm_compute. reflexivity. Qed.
Lemma nc_bullet : captures BULLET newcol = None. Proof. vm_compute. reflexivity. Qed.
Lemma nc_enum : captures ENUMERATOR newcol = None. Proof. vm_compute. reflexivity. Qed.
Lemma nc_field : captures FIELD_MARKER newcol = None. Proof. vm_compute. reflexivity. Qed.
Lemma nc_attribution : captures ATTRIBUTION newcol = None. Proof. vm_compute. reflexivity. Qed.
Lemma nc_rest : exists cs, find_transition newcol body_rest = Some (body_text, cs) /\ cap 1 cs = Some (repeat 32%N 3).
Proof.
  destruct nc_text as (cs & E & C). exists cs. split; [|exact C]. unfold body_rest. cbn [find_transition].
  rewrite nc_bullet, nc_enum, nc_field, E.
  replace (captures FOOTNOTE newcol) with (@None (list (nat * (nat * str)))) by (vm_compute; reflexivity).
  replace (captures CITATION newcol) with (@None (list (nat * (nat * str)))) by (vm_compute; reflexivity).
  replace (captures HYPERLINK_TARGET newcol) with (@None (list (nat * (nat * str)))) by (vm_compute; reflexivity).
  replace (captures DIRECTIVE newcol) with (@None (list (nat * (nat * str)))) by (vm_compute; reflexivity).
  replace (captures COMMENT newcol) with (@None (list (nat * (nat * str)))) by (vm_compute; reflexivity).
  replace (captures LINE newcol) with (@None (list (nat * (nat * str)))) by (vm_compute; reflexivity).
  reflexivity.
Qed.

Section Newcol.
  Variables (ord : hash_order) (full : bool).
  Notation under := (under ord full).
  Notation at_ := (at_ ord full).
  Hypothesis (Hord : forall l, Permutation (ord l) l).
  Variable src : list str.

  (* the line ends what is indented more, in all body states *)
  Lemma newcol_ender p : nth_error src p = Some newcol ->
    (forall nx, nth_error src (S p) = Some nx -> captures LINE nx = None) -> ender ord full src 0 p 3 MPlain.
  Proof.
    intros Hl Hg.
    assert (T : forall cs, cap 1 cs = Some (repeat 32%N 3) -> forall call d x r e s seen cur m, under d ((x, r) :: e) s seen -> e <> [] -> cur_offset cur = p ->
      inner x -> NodeTypes.body_indent x = Some m -> 0 + 3 < m -> pexec call (body_text src 0 cs) d cur = pexec call leave d cur).
    { intros cs C1 call d x r e s seen cur m Hu Hne Hc Hi Hm Hj. unfold body_text. rewrite (cap_len_ok _ _ _ _ _ _ _ C1), pad_length.
      unfold get_cursor. cbn [pbind pexec]. rewrite Hc. pose proof (under_data _ _ _ _ _ _ _ _ Hu) as Hx.
      assert (Q : pexec call (parse_paragraph src 0 (3 + 0)) d cur = pexec call leave d cur).
      { unfold parse_paragraph. rewrite (exec_by_indent _ _ _ _ _ _ _ Hx Hm), match_less by (rewrite Nat.add_comm; exact Hj). reflexivity. }
      destruct (nth_error src (S p)) as [nx|] eqn:En; [|exact Q]. rewrite (Hg _ eq_refl).
      destruct (captures TEXT nx) as [tcs|] eqn:Et; [|exact Q].
      unfold cap_len at 1. destruct (captures_ws _ _ _ Et) as (w & t' & u & new & _ & _ & _ & Ecs).
      assert (exists w', cap 1 tcs = Some w') as (w' & Cw).
      { subst tcs. cbn [app cap Nat.eqb]. destruct (cap 1 (new ++ [(1, (0, w))])) eqn:E; [eauto|].
        exfalso. clear - E. induction new as [|[k [o v]] new IH]; cbn in E; [discriminate|]. destruct (k =? 1); [discriminate|auto]. }
      unfold get_cap. rewrite Cw. cbn [unwrap lift pbind]. destruct (3 + 0 <? length w' + 0); [|exact Q].
      rewrite (exec_by_indent _ _ _ _ _ _ _ Hx Hm), match_less by (rewrite Nat.add_comm; exact Hj). reflexivity. }
    split.
    - exists newcol. split; [exact Hl|]. destruct nc_rest as (cs & E & C1). intros tbl [-> | [-> | ->]].
      + exists body_text, cs. split; [|exact (T cs C1)]. unfold BODY_TRANSITIONS, empty_line_entry. now rewrite find_none by exact nc_blank.
      + exists body_text, cs. split; [|exact (T cs C1)]. unfold BLOCK_QUOTE_TRANSITIONS, empty_line_entry.
        rewrite find_none by exact nc_blank. now rewrite find_none by exact nc_attribution.
      + destruct nc_break as (bcs & Eb & Cb). exists aplus_col_break, bcs. split.
        * unfold APLUS_MULTICOL_TRANSITIONS, empty_line_entry. rewrite find_none by exact nc_blank. now apply find_some.
        * intros call d x r e s seen cur m Hu Hne Hc Hi Hm Hj. unfold aplus_col_break. rewrite (cap_len_ok _ _ _ _ _ _ _ Cb), pad_length.
          rewrite (exec_by_indent _ _ _ _ _ _ _ (under_data _ _ _ _ _ _ _ _ Hu) Hm), match_less by exact Hj. reflexivity.
    - exists newcol. split; [exact Hl|]. split; [exact nc_blank|]. split; [exact nc_bullet|]. split; [exact nc_enum|]. split; [exact nc_field|].
      exists 58%N, (lit ":newcol"). split; reflexivity.
  Qed.
  (* the next column begins *)
  Lemma step_newcol c st e s seen p n title opts :
    at_ src c (SAplusMultiCol :: st) ((interest_node 3 title opts, None) :: e) s seen p n -> n <= 9 -> nth_error src p = Some newcol ->
    exists c', steps src 0 c c' /\
      at_ src c' (SAplusMultiCol :: st) ((interest_node 3 title opts, None) :: e) (s ++ lit "\newcol" ++ nl2) seen (p + 1) 0.
  Proof.
    intros Hat Hn Hl. pose proof (at_cur _ _ _ _ _ _ _ _ _ _ Hat) as Hc. pose proof (at_doc _ _ _ _ _ _ _ _ _ _ Hat) as Hu.
    destruct nc_break as (cs & Eb & C1).
    assert (Hf : find_transition newcol APLUS_MULTICOL_TRANSITIONS = Some (aplus_col_break, cs)).
    { unfold APLUS_MULTICOL_TRANSITIONS, empty_line_entry. rewrite find_none by exact nc_blank. now apply find_some. }
    destruct (exec_push ord full (parse table 0) (cf_doc c) NAplusColBreak _ s seen (lit "\newcol" ++ nl2) [] (cf_cur c)
      (fun ok => PRet (if ok then TSuccess Neither (Some 1) else TFailure)) Hu) as (d1 & Ed1 & Hu1); try reflexivity.
    { rewrite (under_data _ _ _ _ _ _ _ _ Hu). reflexivity. }
    rewrite app_nil_r in Hu1.
    assert (Hex : pexec (parse table 0) (aplus_col_break src 0 cs) (cf_doc c) (cf_cur c) = Ret (TSuccess Neither (Some 1), d1, cf_cur c)).
    { unfold aplus_col_break. rewrite (cap_len_ok _ _ _ _ _ _ _ C1), pad_length.
      rewrite (exec_by_indent _ _ _ _ _ 3 _ (under_data _ _ _ _ _ _ _ _ Hu) eq_refl), match_same. exact Ed1. }
    destruct (step_transition ord full src 0 c SAplusMultiCol st _ s seen p n _ APLUS_MULTICOL_TRANSITIONS aplus_col_break cs Neither (Some 1)
      ((interest_node 3 title opts, None) :: e) (s ++ lit "\newcol" ++ nl2) seen d1 (cf_cur c) 0 (SAplusMultiCol :: st) Hat Hn Hl I eq_refl Hf) as (c1 & Hst1 & Ha); eauto.
    { exists 0. intros f Hf0. eapply exec_up; [exact Hex|exact Hf0]. }
    { lia. }
    exists c1. split; [exact Hst1|]. rewrite Hc in Ha. exact Ha.
  Qed.
  Definition columns_depth (m : nat) (more : list (nat * nat * blocks)) : nat := fold_right (fun x m => Nat.max (blocks_depth (snd x)) m) m more.
  Lemma columns_depth_max m more : m <= columns_depth m more /\ Forall (fun x => blocks_depth (snd x) <= columns_depth m more) more.
  Proof.
    induction more as [|x more [IH1 IH2]]; [split; [apply Nat.le_refl|constructor]|]. cbn [columns_depth fold_right]. fold (columns_depth m more).
    split; [lia|]. constructor; [lia|]. eapply Forall_impl; [|exact IH2]. cbn. intros. lia.
  Qed.
  (* what comes after a column *)
  Lemma columns_low more rest : forallb column_ok more = true -> head_ok 3 rest -> low 3 rest ->
    head_ok 3 (columns_source more ++ rest) /\ low 3 (columns_source more ++ rest).
  Proof.
    intros Hok Hr Hlow. destruct more as [|[[g1 g2] bs] more]; [split; assumption|]. cbn [forallb] in Hok. apply andb_true_iff in Hok as [Hx _].
    unfold column_ok in Hx. cbn [fst snd] in Hx. do 2 apply andb_true_iff in Hx as [Hx _]. apply Nat.leb_le in Hx.
    unfold columns_source. cbn [flat_map fst snd]. rewrite <- !app_assoc. split.
    - destruct g1 as [|g1]; [lia|]. cbn. now left.
    - unfold low. rewrite past_blanks_repeat. cbn [app]. rewrite past_blanks_cons by discriminate. cbn. split; [reflexivity|apply Nat.le_refl].
  Qed.
  Lemma run_columns more : forall e st L tag c s seen p rest title opts,
    forallb column_ok more = true -> Forall (deeper 3 tag) L ->
    at_ src c (fstack L ++ SAplusMultiCol :: st) (fentries L ++ (interest_node 3 title opts, None) :: e) s seen p 0 ->
    length L <= 7 -> Forall (fun x => blocks_depth (snd x) <= 7) more -> e <> [] ->
    past_blanks (skipn p src) = past_blanks (columns_source more ++ rest) -> head_ok 3 rest -> low 3 rest ->
    exists tag', outcome_at ord full src 0 SAplusMultiCol st ((interest_node 3 title opts, None) :: e) c s seen rest 0 (deeper (0 + 3) tag')
      (columns_depth (length L) more) (ends_of L ++ columns_latex more).
  Proof.
    induction more as [|[[g1 g2] bs] more IH]; intros e st L tag c s seen p rest title opts Hok HL Hat HLn Hd Hne E Hr Hlow.
    { exists tag, c, L, [], p. split; [apply steps_refl|]. split; [rewrite app_nil_r; exact Hat|]. split; [cbn; now rewrite app_nil_r|]. split; [exact HL|]. split; [apply Nat.le_refl|exact E]. }
    cbn [forallb] in Hok. apply andb_true_iff in Hok as [Hx Hmore]. unfold column_ok in Hx. cbn [fst snd] in Hx.
    apply andb_true_iff in Hx as [Hx Hbs]. apply andb_true_iff in Hx as [_ Hnb]. apply negb_true_iff in Hnb.
    apply Forall_cons_iff in Hd as [Hd1 Hd]. cbn [snd] in Hd1.
    destruct (columns_low more rest Hmore Hr Hlow) as [Hr' Hlow']. set (rest' := columns_source more ++ rest) in *.
    unfold columns_source in E. cbn [flat_map fst snd] in E. fold (columns_source more) in E. rewrite <- !app_assoc in E. cbn [app] in E. rewrite <- app_assoc in E. fold rest' in E.
    rewrite past_blanks_repeat in E. set (after := repeat [] g2 ++ blocks_source 3 bs ++ rest') in *.
    assert (Hnc : newcol <> []) by discriminate. rewrite (past_blanks_cons _ _ Hnc) in E.
    destruct (approach ord full src 0 L SAplusMultiCol st _ s seen c p 0 _ (Forall_impl _ (deeper_skippable 3 tag) HL) ltac:(split; [exact I|]; eexists; reflexivity)
      Hat ltac:(lia) E (past_blanks_cons _ _ Hnc)) as (c1 & p1 & Hs1 & Ha1 & E1).
    pose proof E1 as E1'. apply skipn_cons in E1' as [Hl E2].
    assert (He : ender ord full src 0 p1 3 MPlain).
    { apply newcol_ender; [exact Hl|]. intros nx Hx2. unfold after in E2. destruct g2 as [|g2].
      - destruct (inside_first bs Hnb Hbs) as (b & gap & bs' & Eb & Hb & Hq). destruct (first_line b 3 Hb Hq) as (l0 & ls0 & El0 & _ & _ & Hi).
        rewrite Eb in E2. cbn [repeat app blocks_source] in E2. rewrite El0 in E2. cbn [app] in E2. apply skipn_cons in E2 as [E2 _]. rewrite E2 in Hx2. apply some_inj in Hx2. subst nx.
        apply indented_no_line. rewrite Hi. lia.
      - cbn [repeat app] in E2. apply skipn_cons in E2 as [E2 _]. rewrite E2 in Hx2. apply some_inj in Hx2. subst nx. exact nil_line. }
    destruct (unwind ord full src 0 p1 3 MPlain He) with (L := L) (c := c1) (st := SAplusMultiCol :: st) (e := (interest_node 3 title opts, @None (list str)) :: e) (s := s) (seen := seen) (n := 0)
      as (c2 & Hs2 & Ha2); auto; try discriminate; try (cbn; lia).
    { eapply Forall_impl; [|exact HL]. intros f. apply deeper_plain. lia. }
    destruct (step_newcol c2 st e _ seen p1 _ title opts Ha2 ltac:(lia) Hl) as (c3 & Hs3 & Ha3).
    destruct (inside_first bs Hnb Hbs) as (b & gap & bs' & Eb & _ & Hq).
    destruct (proj1 (proj2 (nested ord full Hord)) bs src 0 3 SAplusMultiCol (interest_node 3 title opts) None e st [] TQuote c3 _ seen (p1 + 1) 0 rest' Hbs
      (box_home (Interest title opts) AdmNote 3) (Forall_nil _) (fun _ => eq_refl) Ha3) as (tag4 & c4 & L4 & t4 & q4 & Hs4 & Ha4 & Et4 & HF4 & HL4 & Hpb4).
    { rewrite Eb. cbn [first_opens length]. destruct b; cbn [opens]; try discriminate Hq; qlia. }
    { lia. } { now left. }
    { rewrite Nat.add_1_r, E2. unfold after. now rewrite past_blanks_repeat. }
    { exact Hr'. } { exact Hlow'. }
    rewrite Hnb in Ha4.
    destruct (IH e st L4 tag4 c4 _ seen q4 rest title opts Hmore HF4 Ha4) as (tag5 & c5 & L5 & t5 & q5 & Hs5 & Ha5 & Et5 & HF5 & HL5 & Hpb5); auto.
    { cbn [length] in HL4. lia. }
    exists tag5, c5, L5, (ends_of L ++ (lit "\newcol" ++ nl2) ++ t4 ++ t5), q5.
    split; [eapply steps_trans; [|exact Hs5]; eapply steps_trans; [|exact Hs4]; eapply steps_trans; [|exact Hs3]; eapply steps_trans; eauto|].
    split; [rewrite <- !app_assoc in Ha5; rewrite <- ?app_assoc; exact Ha5|].
    split; [|split; [exact HF5|]; split; [|exact Hpb5]].
    - unfold columns_latex. cbn [flat_map snd]. fold (columns_latex more). cbn [ends_of map concat app] in Et4. rewrite <- !app_assoc. do 3 f_equal.
      rewrite Et5. rewrite app_assoc, Et4. reflexivity.
    - cbn [length] in HL4. unfold columns_depth in *. cbn [fold_right snd]. etransitivity; [exact HL5|]. clear - HL4.
      induction more as [|y more IHm]; cbn [fold_right]; lia.
  Qed.

  (* the whole point of interest *)
  Lemma columned_first title opts first rest p : block_ok (Boxed (Interest title opts) first) = true ->
    skipn p src = source 0 (Boxed (Interest title opts) first) ++ rest -> ender ord full src 0 p 0 MPlain.
  Proof.
    intros Hok E. cbn [source] in E. cbn [app] in E. apply skipn_cons in E as [Hl _].
    cbn [block_ok] in Hok. do 3 apply andb_true_iff in Hok as [Hok _].
    assert (Ha : argument_ok (box_argument (Interest title opts)) = true) by (unfold box_ok in Hok; apply andb_true_iff in Hok as [Hok _]; now apply andb_true_iff in Hok as [Hok _]).
    split; [eapply leaver_directive|eapply list_line_directive]; eauto; now apply box_name_ok.
  Qed.
  Lemma run_columned c S0 x st r e s seen p n title opts first more rest :
    block_ok (Boxed (Interest title opts) first) = true -> forallb column_ok more = true -> home S0 x 0 ->
    at_ src c (S0 :: st) ((x, r) :: e) s seen p n -> n <= 9 -> columns_depth (blocks_depth first) more <= 7 ->
    skipn p src = source 0 (Boxed (Interest title opts) first) ++ columns_source more ++ rest -> head_ok 0 rest -> low 0 rest ->
    outcome_at ord full src 0 S0 st ((x, r) :: e) c s seen rest 0 (deeper 0 TBox) (1 + columns_depth (blocks_depth first) more)
      (box_latex (Interest title opts) (blocks_latex first ++ columns_latex more)).
  Proof.
    intros Hok Hmore Hh Hat Hn Hd E Hr Hlow. set (bx := Interest title opts) in *.
    cbn [block_ok] in Hok. apply andb_true_iff in Hok as [Hok Hbs]. apply andb_true_iff in Hok as [Hok Hne]. apply andb_true_iff in Hok as [Hbx Hal]. apply negb_true_iff in Hne.
    destruct (inside_first _ Hne Hbs) as (b & gap & first' & Ebs & Hb & Hq).
    assert (Hpr : proper (blocks_source 0 first)).
    { rewrite Ebs. cbn [blocks_source]. destruct (first_line b 0 Hb Hq) as (l0 & ls0 & El0 & _ & Hl0 & Hi0). rewrite El0. cbn [app]. exists l0. eexists. split; [reflexivity|]. split; [exact Hl0|exact Hi0]. }
    assert (Esrc : source 0 (Boxed bx first) = directive_source 0 (box_name bx) (box_argument bx) (box_settings bx) (blocks_source 0 first)).
    { cbn [source]. unfold directive_source. f_equal. rewrite map_app. f_equal.
      - rewrite !map_map. apply map_ext. reflexivity.
      - rewrite (shift_to first TQuote (0 + 3) Hbs). destruct (blocks_source 0 first) eqn:Q; [now apply proper_nonempty in Hpr|]. reflexivity. }
    rewrite Esrc in E.
    destruct (columns_low more rest Hmore) as [Hr' Hlow'].
    { eapply head_ok_mono; [|exact Hr]. qlia. } { eapply low_mono; [|exact Hlow]. qlia. }
    destruct (columns_depth_max (blocks_depth first) more) as [Hm1 Hm2].
    destruct (step_open_box ord full Hord src 0 bx c S0 x 0 st r e s seen p n _ _ AdmNote eq_refl Hbx Hpr Hh Hat ltac:(qlia) E) as (c1 & q1 & g1 & Hs1 & Ha1 & E1).
    pose proof (box_home bx AdmNote (0 + 3)) as Hbh. pose proof (box_end bx AdmNote (0 + 3) Hbx ltac:(discriminate)) as Hbe.
    destruct (proj1 (proj2 (nested ord full Hord)) first src 0 (0 + 3) (fst (box_frame bx AdmNote (0 + 3))) (snd (box_frame bx AdmNote (0 + 3))) None ((x, r) :: e) (S0 :: st) [] TQuote c1 _ seen q1 0
      (columns_source more ++ rest) Hbs Hbh (Forall_nil _) (fun _ => eq_refl) Ha1) as (tag & c2 & L & t & q & Hs2 & Ha2 & Et & HF & HL & Hpb).
    { rewrite Ebs. cbn [first_opens length]. destruct b; cbn [opens]; try discriminate Hq; qlia. }
    { qlia. } { now left. } { rewrite E1, past_blanks_repeat. now rewrite (shift_to first TQuote (0 + 3) Hbs). }
    { exact Hr'. } { exact Hlow'. }
    rewrite Hne in Ha2. cbn [length] in HL. cbn [ends_of map concat app] in Et.
    destruct (run_columns more ((x, r) :: e) (S0 :: st) L tag c2 _ seen q rest title opts Hmore HF Ha2) as (tag5 & c5 & L5 & t5 & q5 & Hs5 & Ha5 & Et5 & HF5 & HL5 & Hpb5); auto.
    { qlia. } { eapply Forall_impl; [|exact Hm2]. cbn. intros. qlia. } { discriminate. }
    { eapply head_ok_mono; [|exact Hr]. qlia. } { eapply low_mono; [|exact Hlow]. qlia. }
    exists c5, (L5 ++ [box_frame bx AdmNote (0 + 3)]), (box_pre bx ++ t ++ t5), q5.
    split; [eapply steps_trans; [|exact Hs5]; eapply steps_trans; eauto|]. rewrite fstack_app, fentries_app, ends_of_app. rewrite <- !app_assoc. cbn [fstack fentries map app].
    split. { rewrite <- !app_assoc in Ha5. exact Ha5. }
    split. { rewrite box_latex_eq. f_equal. rewrite ends_one, Hbe. rewrite (app_assoc t5), Et5, (app_assoc t), (app_assoc t), Et. rewrite <- !app_assoc. reflexivity. }
    split. { apply Forall_app. split; [eapply Forall_impl; [|exact HF5]; intros f; apply deeper_weaken; qlia|]. constructor; [|constructor]. cbn. qlia. }
    split; [|exact Hpb5]. rewrite app_length. cbn [length]. assert (G : columns_depth (length L) more <= columns_depth (blocks_depth first) more).
    { clear - HL. unfold columns_depth. induction more as [|y more IHm]; cbn [fold_right]; qlia. }
    qlia.
  Qed.
End Newcol.
