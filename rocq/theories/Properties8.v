(* Properties8.v -- C01-C03: the parse loop as a whole *)
From Coq Require Import Lia.
From Verif Require Import Base Regex Common NodeTypes Tree DocTree History Prog ParseLoop BlockProofs LoopProofs Parser ParserProofs ParserSpec.
From Verif Require Import ConformanceBase.

(* ---------- one pass, case by case ---------- *)
Inductive pass (call : parse_call) (src : list str) (bi : nat) (c : config) : next -> Prop :=
| p_stuck : cf_changed c = false -> 10 <= cf_count c -> pass call src bi c (Done RFailure (cf_doc c))
| p_empty : cf_stack c = [] -> pass call src bi c (Done (REmptyStateStack []) (cf_doc c))
| p_eof rest : cf_stack c = SEOF :: rest -> pass call src bi c (Done (REOF (rev rest)) (cf_doc c))
| p_fail rest : cf_stack c = SFailure :: rest -> pass call src bi c (Done RFailure (cf_doc c))
| p_past s rest tbl : cf_stack c = s :: rest -> table s = Some tbl -> nth_error src (cur_offset (cf_cur c)) = None ->
    pass call src bi c (Done RFailure (cf_doc c))
| p_none s rest tbl d1 : cf_stack c = s :: rest -> table s = Some tbl ->
    (tbl = [] \/ exists line, nth_error src (cur_offset (cf_cur c)) = Some line /\ find_transition line tbl = None) ->
    d_focus_on_parent (cf_doc c) = Ret d1 -> (cf_changed c = true \/ cf_count c < 10) ->
    pass call src bi c (end_check src (MkCfg rest d1 (cf_cur c) false (cf_count c)))
| p_match s rest tbl line t cs r d cur : cf_stack c = s :: rest -> table s = Some tbl ->
    nth_error src (cur_offset (cf_cur c)) = Some line -> find_transition line tbl = Some (t, cs) ->
    pexec call (t src bi cs) (cf_doc c) (cf_cur c) = Ret (r, d, cur) -> (cf_changed c = true \/ cf_count c < 10) ->
    pass call src bi c (check_end src (after_transition c rest r d cur)).
Lemma iterate_pass call src bi c n : iterate table call src bi c = Ret n -> pass call src bi c n.
Proof.
  unfold iterate. destruct (negb (cf_changed c) && (10 <=? cf_count c)) eqn:E.
  { intros H. apply Ret_inj in H. subst. apply andb_prop in E as [E1 E2]. apply Nat.leb_le in E2.
    constructor; auto. destruct (cf_changed c); auto; discriminate. }
  assert (Hst : cf_changed c = true \/ cf_count c < 10).
  { destruct (cf_changed c); auto. right. apply Nat.leb_gt. exact E. }
  destruct (cf_stack c) as [|s rest] eqn:HS.
  { intros H. apply Ret_inj in H. subst. constructor; auto. }
  assert (HB : forall tbl, table s = Some tbl ->
      (let no_match := let! d := d_focus_on_parent (cf_doc c) in
         Ret (end_check src (MkCfg rest d (cf_cur c) false (cf_count c))) in
       match tbl with
       | [] => no_match
       | _ => match nth_error src (cur_offset (cf_cur c)) with
              | None => Ret (Done RFailure (cf_doc c))
              | Some line => match find_transition line tbl with
                 | None => no_match
                 | Some (t, cs) =>
                     let! (r, d, cur) := pexec call (t src bi cs) (cf_doc c) (cf_cur c) in
                     Ret (check_end src (after_transition c rest r d cur))
                 end
              end
       end) = Ret n -> pass call src bi c n).
  { intros tbl Ht H. cbv zeta in H.
    assert (HNM : (tbl = [] \/ exists line, nth_error src (cur_offset (cf_cur c)) = Some line /\ find_transition line tbl = None) ->
       (let! d := d_focus_on_parent (cf_doc c) in
         Ret (end_check src (MkCfg rest d (cf_cur c) false (cf_count c)))) = Ret n -> pass call src bi c n).
    { intros Hc H'. destruct (d_focus_on_parent (cf_doc c)) as [d1| |] eqn:Ed; cbn [obind] in H'; try discriminate.
      apply Ret_inj in H'. subst n. eapply p_none; eauto. }
    destruct tbl as [|e tbl]; [apply HNM; auto|].
    destruct (nth_error src (cur_offset (cf_cur c))) as [line|] eqn:El.
    2:{ apply Ret_inj in H. subst. eapply p_past; eauto. }
    destruct (find_transition line (e :: tbl)) as [[t cs]|] eqn:Ef.
    2:{ apply HNM; eauto. }
    destruct (pexec call (t src bi cs) (cf_doc c) (cf_cur c)) as [[[tr d'] cur]| |] eqn:Ep; cbn [obind] in H; try discriminate.
    apply Ret_inj in H. subst n. eapply p_match; eauto. }
  destruct s; intros H;
    try (apply Ret_inj in H; subst; solve [eapply p_eof; eauto|eapply p_fail; eauto]);
    match type of H with match table ?s with _ => _ end = _ => destruct (table s) as [tbl|] eqn:Et end;
    try discriminate; apply (HB tbl eq_refl H).
Qed.
Lemma end_check_more src c : exists c', end_check src c = More c' /\ cf_doc c' = cf_doc c /\ cf_cur c' = cf_cur c /\
  cf_changed c' = cf_changed c /\ cf_count c' = cf_count c.
Proof. unfold end_check. destruct (_ <=? _); eexists; (split; [reflexivity|]); auto. Qed.
Lemma find_none line tbl : find_transition line tbl = None <-> forall r t, In (r, t) tbl -> captures r line = None.
Proof.
  induction tbl as [|[r t] tbl IH]; cbn [find_transition In].
  - split; auto. intros _ r t [].
  - destruct (captures r line) eqn:E.
    + split; [discriminate|]. intros H. rewrite (H r t) in E; auto. discriminate.
    + rewrite IH. split; intros H r' t'; [|intros; apply (H r' t'); auto]. intros [H'|H']; [injection H' as <- <-; auto|eauto].
Qed.
Lemma matches_iff src c s rest tbl line : cf_stack c = s :: rest -> table s = Some tbl ->
  nth_error src (cur_offset (cf_cur c)) = Some line ->
  some_pattern_matches src c <-> find_transition line tbl <> None.
Proof.
  intros H1 H2 H3. split.
  - intros (s' & rest' & tbl' & line' & r & t & E1 & E2 & E3 & E4 & E5).
    assert (s' = s) by congruence. subst s'. assert (tbl' = tbl) by congruence. subst tbl'.
    assert (line' = line) by (unfold line_of in E3; congruence). subst line'.
    intros F. apply E5. rewrite find_none in F. eauto.
  - intros H. destruct (find_transition line tbl) as [[t cs]|] eqn:E; [|congruence].
    apply find_in in E as (r & Hin & Hc). exists s, rest, tbl, line, r, t. repeat split; auto. congruence.
Qed.
(* what a pass does to the counter *)
Lemma iteration_count src bi c c' : iteration src bi c c' -> count_ok c ->
  count_ok c' /\ line_of c <= line_of c' /\ cf_count c < 10 /\
  ((line_of c < line_of c' /\ cf_count c' = 0) \/
   (line_of c' = line_of c /\ some_pattern_matches src c /\ cf_count c' = S (cf_count c) /\ cf_changed c' = false) \/
   (line_of c' = line_of c /\ ~ some_pattern_matches src c /\ cf_count c' = cf_count c /\ cf_changed c' = false)).
Proof.
  intros [fuel H] Hk. apply iterate_pass in H.
  assert (HK : cf_changed c = true \/ cf_count c < 10 -> cf_count c < 10).
  { intros [Hc|Hc]; auto. rewrite (Hk Hc). lia. }
  remember (More c') as n eqn:E.
  destruct H as [| | | | |s rest tbl d1 HS Ht Hn Hd HC|s rest tbl line t cs r d cur HS Ht Hl Hf Hp HC]; try discriminate.
  - destruct (end_check_more src (MkCfg rest d1 (cf_cur c) false (cf_count c))) as (c2 & E2 & Hd2 & Hc2 & Hg2 & Hn2).
    rewrite E in E2. injection E2 as <-. cbn in Hd2, Hc2, Hg2, Hn2. unfold line_of. rewrite Hc2.
    repeat split; auto; [intros X; congruence|]. right. right. repeat split; auto.
    destruct Hn as [->|(line & Hl & Hf)].
    + intros (s' & rest' & tbl' & line' & r & t & E1 & E2 & E3 & E4 & E5).
      assert (s' = s) by congruence. subst s'. assert (tbl' = []) by congruence. subst. destruct E4.
    + rewrite (matches_iff src c s rest tbl line) by auto. congruence.
  - assert (HM : some_pattern_matches src c) by (rewrite (matches_iff src c s rest tbl line) by auto; congruence).
    destruct (pexec_cursor _ _ _ _ _ _ _ Hp) as [Hcur Hbase].
    destruct r as [pp adv|]; cbn [after_transition check_end] in E; [|discriminate].
    set (stack := match pp with Push states => rev states ++ cf_stack c | Pop => rest | Neither => cf_stack c end) in *.
    set (cur' := match adv with Some n => cur_add cur n | None => cur end) in *.
    assert (Hcur' : cur_offset (cf_cur c) <= cur_offset cur' /\ cur_baseline cur' = cur_baseline (cf_cur c)).
    { subst cur'. destruct adv; [destruct cur; cbn in *; split; [lia|auto]|auto]. }
    clearbody cur' stack. destruct (cur_sum cur' =? cur_sum (cf_cur c)) eqn:Es.
    + apply Nat.eqb_eq in Es. unfold cur_sum in Es.
      destruct (end_check_more src (MkCfg stack d cur' false (S (cf_count c)))) as (c2 & E2 & Hd2 & Hc2 & Hg2 & Hn2).
      rewrite E in E2. injection E2 as <-. cbn in Hd2, Hc2, Hg2, Hn2. unfold line_of. rewrite Hc2.
      split; [intros X; congruence|]. split; [lia|]. split; [auto|]. right. left. repeat split; auto. lia.
    + apply Nat.eqb_neq in Es. unfold cur_sum in Es.
      destruct (end_check_more src (MkCfg stack d cur' true 0)) as (c2 & E2 & Hd2 & Hc2 & Hg2 & Hn2).
      rewrite E in E2. injection E2 as <-. cbn in Hd2, Hc2, Hg2, Hn2. unfold line_of. rewrite Hc2.
      split; [intros X; auto|]. split; [lia|]. split; [auto|]. left. split; auto. lia.
Qed.

(* ===== C01 ===== *)
(* the parser run on any lines, at any indent, from any state and document, has an
   outcome (a result or a panic), and that outcome does not depend on the fuel *)
Theorem C01_parse_terminates src base_indent base_line start d :
  exists fuel out, out <> OutOfFuel /\
    forall fuel', fuel <= fuel' -> parse table fuel' src base_indent base_line start d = out.
Proof.
  assert (HF : exists fuel, parse table fuel src base_indent base_line start d <> OutOfFuel).
  { destruct (table start) as [tbl|] eqn:Et.
    - apply (loop_finishes table tables_safe); [|discriminate]. apply initial_ok. destruct start; cbn in *; auto; discriminate.
    - exists 1. unfold parse. cbn [parse_loop]. unfold iterate, initial. cbn [cf_changed cf_count cf_stack negb andb Nat.leb cf_doc].
      destruct start; cbn in Et; try discriminate; cbn; discriminate. }
  destruct HF as [fuel HF]. exists fuel, (parse table fuel src base_indent base_line start d). split; auto.
  intros fuel' Hle. apply parse_le; auto.
Qed.
Corollary C01_source_terminates src :
  exists fuel out, out <> OutOfFuel /\ forall fuel', fuel <= fuel' -> parse_source fuel' src = out.
Proof. exact (C01_parse_terminates src 0 0 SBody new_doctree). Qed.

Lemma iteration_ok src bi c c' : iteration src bi c c' -> config_ok src c -> count_ok c -> more_ok src c c'.
Proof.
  intros [fuel H] Hc Hk. exact (iterate_ok table tables_safe _ _ _ _ _ (parse_good table tables_safe _ fuel) Hc Hk H).
Qed.
Lemma no_more_at_end src bi c c' : at_end src c -> iteration src bi c c' -> False.
Proof. intros [rest E] [fuel H]. unfold iterate in H. rewrite E in H. destruct (_ && _); discriminate. Qed.
Lemma config_live start : table start <> None -> live start.
Proof. destruct start; cbn; auto; congruence. Qed.
Lemma first_pass src bi bl st d c' : iteration src bi (initial bl st d) c' -> live st.
Proof.
  intros [fuel H]. unfold iterate, initial in H. cbn [cf_changed cf_count cf_stack negb andb Nat.leb cf_doc] in H.
  destruct st; cbn; auto; cbn in H; discriminate.
Qed.
Lemma runs_end src bi : forall m1 m2 m3 (f : nat -> config), config_ok src (f 0) -> count_ok (f 0) ->
  length src - line_of (f 0) <= m1 -> 11 - cf_count (f 0) <= m2 -> length (cf_stack (f 0)) <= m3 ->
  (forall n, iteration src bi (f n) (f (S n))) -> False.
Proof.
  induction m1 as [m1 IH1] using lt_wf_ind. intros m2.
  induction m2 as [m2 IH2] using lt_wf_ind. intros m3.
  induction m3 as [m3 IH3] using lt_wf_ind. intros f Hc Hn H1 H2 H3 H.
  pose proof (iteration_ok _ _ _ _ (H 0) Hc Hn) as (Hc' & Hn' & _ & Hle & _ & Hcnt & [He|Hb]).
  { exact (no_more_at_end _ _ _ _ He (H 1)). }
  set (g := fun n => f (S n)). unfold line_of in *.
  destruct Hb as [[Ha Hb]|[Ha [Hb|[Hb Hs]]]].
  - apply (IH1 (length src - cur_offset (cf_cur (f 1)))) with (m2 := 11) (m3 := length (cf_stack (f 1))) (f := g);
      unfold g; auto; lia.
  - assert (Hlt : cf_count (f 0) < 10).
    { destruct Hcnt as [Hch|Hch]; auto. rewrite (Hn Hch). lia. }
    apply (IH2 (11 - cf_count (f 1))) with (m3 := length (cf_stack (f 1))) (f := g); unfold g; auto; lia.
  - apply (IH3 (length (cf_stack (f 1)))) with (f := g); unfold g; auto; lia.
Qed.
(* no parse goes round its loop forever *)
Theorem C01_no_infinite_run src base_indent base_line start d (f : nat -> config) :
  f 0 = initial base_line start d -> ~ forall n, iteration src base_indent (f n) (f (S n)).
Proof.
  intros H0 H. assert (Hl : live start) by (apply first_pass with src base_indent base_line d (f 1); rewrite <- H0; auto).
  apply (runs_end src base_indent (length src - line_of (f 0)) (11 - cf_count (f 0)) (length (cf_stack (f 0))) f); auto;
    rewrite H0; [now apply initial_ok|discriminate].
Qed.
(* what the counter counts *)
Lemma stalled_inv src bi bl st d c k : stalled src bi bl st d c k -> cf_count c = k /\ count_ok c /\ k <= 10.
Proof.
  intros H. induction H as [|c c' k H IH I L|c c' k H IH I L M|c c' k H IH I L M].
  - split; [reflexivity|]. split; [discriminate|lia].
  - destruct IH as (IH1 & IH2 & IH3). destruct (iteration_count _ _ _ _ I IH2) as (Hk & Hle & Hlt & [[A B]|[[A _]|[A _]]]); try contradiction.
    split; auto. split; auto. lia.
  - destruct IH as (IH1 & IH2 & IH3). destruct (iteration_count _ _ _ _ I IH2) as (Hk & Hle & Hlt & [[A B]|[(A & M' & B & _)|(A & M' & B & _)]]).
    + lia.
    + split; [congruence|]. split; auto. lia.
    + contradiction.
  - destruct IH as (IH1 & IH2 & IH3). destruct (iteration_count _ _ _ _ I IH2) as (Hk & Hle & Hlt & [[A B]|[(A & M' & B & _)|(A & M' & B & _)]]).
    + lia.
    + contradiction.
    + split; [congruence|]. auto.
Qed.
(* at most ten passes in a row match something without moving to another line *)
Theorem C01_bounded_stalls src base_indent base_line start d c k :
  stalled src base_indent base_line start d c k -> k <= 10.
Proof. intros H. apply (stalled_inv _ _ _ _ _ _ _ H). Qed.
(* a document with a nested list, a title, a directive and a definition list *)
Definition sample : list str := map lit
  ["Title"; "====="; ""; "- a"; "- b"; ""; "  1. c"; ""; ".. note:: Careful"; ""; "    Text *here*."; "";
   "term"; "  definition"]%string.
Definition result_of (o : outcome (presult * DocTree)) : option presult :=
  match o with Ret (r, _) => Some r | _ => None end.
Lemma result_of_ret o r : result_of o = Some r -> exists d, o = Ret (r, d).
Proof. destruct o as [[r' d]| |]; cbn; try discriminate. intros H. apply some_inj in H. subst. eauto. Qed.
Lemma parse_source_le f g src r d : f <= g -> parse_source f src = Ret (r, d) -> parse_source g src = Ret (r, d).
Proof. unfold parse_source. intros H E. rewrite <- E. apply parse_le; auto. rewrite E. discriminate. Qed.
Lemma sample_result : result_of (parse_source 60 sample) = Some (REOF [SBody; SSection; SDefinitionList; SListItem]).
Proof. vm_compute. reflexivity. Qed.
Example C01_ex : exists d, forall fuel', 60 <= fuel' ->
  parse_source fuel' sample = Ret (REOF [SBody; SSection; SDefinitionList; SListItem], d).
Proof.
  destruct (result_of_ret _ _ sample_result) as [d E]. exists d. intros f Hf.
  exact (parse_source_le 60 f sample _ d Hf E).
Qed.
Print Assumptions C01_parse_terminates.
Print Assumptions C01_no_infinite_run.

(* ===== C02 ===== *)
Lemma reached_inv src bi bl st d c : live st -> reached src bi bl st d c -> config_ok src c /\ count_ok c.
Proof.
  intros Hl H. induction H as [|c c' H [IH1 IH2] I].
  - split; [now apply initial_ok|discriminate].
  - destruct (iteration_ok _ _ _ _ I IH1 IH2) as (A & B & _). auto.
Qed.
(* what a parse returns is what one of the configurations it goes through returns *)
Lemma loop_reached src bi bl st d fuel : forall c r d', reached src bi bl st d c ->
  parse_loop table fuel src bi c = Ret (r, d') -> exists c', reached src bi bl st d c' /\ returns src bi c' r d'.
Proof.
  induction fuel as [|f IH]; cbn [parse_loop]; intros c r d' HR H; [discriminate|].
  fold (parse table f) in H. destruct (iterate table (parse table f) src bi c) as [n| |] eqn:E; cbn [obind] in H; try discriminate.
  destruct n as [r1 d1|c1].
  - apply Ret_inj in H. injection H as -> ->. exists c. split; auto. exists f. auto.
  - apply (IH c1); auto. eapply r_next; eauto. exists f. auto.
Qed.
Theorem C02_result_reached src base_indent base_line start d fuel r d' :
  parse table fuel src base_indent base_line start d = Ret (r, d') ->
  exists c, reached src base_indent base_line start d c /\ returns src base_indent c r d'.
Proof. apply loop_reached. constructor. Qed.
Lemma reached_live src bi bl st d c : reached src bi bl st d c -> c = initial bl st d \/ live st.
Proof. intros H. induction H as [|c c' H [->|IH] I]; auto. right. eapply first_pass; eauto. Qed.
Lemma reached_live_next src bi bl st d c c' : reached src bi bl st d c -> iteration src bi c c' -> live st.
Proof. intros H I. destruct (reached_live _ _ _ _ _ _ H) as [->|]; auto. eapply first_pass; eauto. Qed.
(* from one pass to the next the cursor never goes back, whatever the lines say,
   and keeps the line the parser was started at *)
Theorem C02_forward src base_indent base_line start d c c' :
  reached src base_indent base_line start d c -> iteration src base_indent c c' -> line_of c <= line_of c'.
Proof.
  intros H I. pose proof (reached_live_next _ _ _ _ _ _ _ H I) as Hl.
  destruct (reached_inv _ _ _ _ _ _ Hl H) as [Hc Hk].
  destruct (iteration_ok _ _ _ _ I Hc Hk) as (_ & _ & _ & A & _). exact A.
Qed.
Theorem C02_base_line src base_indent base_line start d c :
  reached src base_indent base_line start d c -> cur_baseline (cf_cur c) = base_line.
Proof.
  intros H. induction H as [|c c' H IH I]; [reflexivity|].
  pose proof (reached_live_next _ _ _ _ _ _ _ H I) as Hl.
  destruct (reached_inv _ _ _ _ _ _ Hl H) as [Hc Hk].
  destruct (iteration_ok _ _ _ _ I Hc Hk) as (_ & _ & _ & _ & B & _). congruence.
Qed.
(* along a whole run *)
Theorem C02_never_back src base_indent base_line start d (f : nat -> config) len :
  f 0 = initial base_line start d -> (forall n, n < len -> iteration src base_indent (f n) (f (S n))) ->
  forall n m, n <= m <= len -> line_of (f n) <= line_of (f m).
Proof.
  intros H0 H. assert (HR : forall n, n <= len -> reached src base_indent base_line start d (f n)).
  { induction n as [|n IH]; intros Hn; [rewrite H0; constructor|]. eapply r_next; [apply IH; lia|apply H; lia]. }
  intros n m [H1 H2]. induction m as [|m IH]; [replace n with 0 by lia; lia|].
  destruct (Nat.eq_dec n (S m)) as [->|Hne]; [lia|].
  pose proof (C02_forward _ _ _ _ _ _ _ (HR m ltac:(lia)) (H m ltac:(lia))). specialize (IH ltac:(lia) ltac:(lia)). lia.
Qed.
(* a parse started in a state with transitions reports the end of input only when
   the cursor is past every line *)
Theorem C02_end_of_input src base_indent base_line start d c states d' :
  table start <> None -> reached src base_indent base_line start d c ->
  returns src base_indent c (REOF states) d' -> length src <= line_of c.
Proof.
  intros Ht H [fuel R]. pose proof (config_live start Ht) as Hl.
  destruct (reached_inv _ _ _ _ _ _ Hl H) as [Hc Hk].
  destruct (iterate_ok table tables_safe _ _ _ _ _ (parse_good table tables_safe _ fuel) Hc Hk R) as (_ & _ & A). eauto.
Qed.
Corollary C02_source_end src fuel states d :
  parse_source fuel src = Ret (REOF states, d) ->
  exists c, reached src 0 0 SBody new_doctree c /\ returns src 0 c (REOF states) d /\ length src <= line_of c.
Proof.
  intros H. apply C02_result_reached in H as (c & HR & R). exists c. repeat split; auto.
  apply (C02_end_of_input src 0 0 SBody new_doctree c states d); auto; discriminate.
Qed.
(* conversely: once past every line, a parse that goes on at all ends there *)
Theorem C02_past_end_stops src base_indent base_line start d c c' :
  reached src base_indent base_line start d c -> iteration src base_indent c c' -> length src <= line_of c' ->
  exists states, forall r d', returns src base_indent c' r d' -> (r = REOF states \/ r = RFailure) /\ d' = cf_doc c'.
Proof.
  intros H I E. assert (HA : at_end src c').
  { pose proof (reached_live_next _ _ _ _ _ _ _ H I) as Hl. destruct (reached_inv _ _ _ _ _ _ Hl H) as [Hc Hk].
    destruct I as [fuel I]. apply iterate_pass in I. remember (More c') as n eqn:E0.
    assert (HE : forall c0, end_check src c0 = More c' -> at_end src c').
    { intros c0 E9. unfold end_check in E9. destruct (length src <=? cur_offset (cf_cur c0)) eqn:E1.
      - injection E9 as <-. eexists. reflexivity.
      - apply Nat.leb_gt in E1. injection E9 as <-. unfold line_of in E. lia. }
    destruct I as [| | | | |s rest tbl d1 HS Ht Hn Hd HC|s rest tbl line t cs r d1 cur HS Ht Hl1 Hf Hp HC]; try discriminate; try exact (HE _ E0).
    destruct (after_transition c rest r d1 cur) as [r2 d2|c2] eqn:E2; cbn [check_end] in E0; [discriminate|]. exact (HE _ E0). }
  destruct HA as [rest HA]. exists (rev rest). intros r d' [fuel R]. unfold iterate in R. rewrite HA in R.
  destruct (_ && _); apply Ret_inj in R; injection R as <- <-; auto.
Qed.
Example C02_ex : exists d c, parse_source 60 sample = Ret (REOF [SBody; SSection; SDefinitionList; SListItem], d) /\
  reached sample 0 0 SBody new_doctree c /\ 14 <= line_of c.
Proof.
  destruct (result_of_ret _ _ sample_result) as [d E]. destruct (C02_source_end _ _ _ _ E) as (c & HR & _ & HL).
  exists d, c. auto.
Qed.
Print Assumptions C02_forward.
Print Assumptions C02_end_of_input.

(* ===== C03 ===== *)
(* after ten matching passes on one line the next pass returns Failure, with the
   document as it is *)
Theorem C03_stuck_fails src base_indent base_line start d c :
  stalled src base_indent base_line start d c 10 ->
  returns src base_indent c RFailure (cf_doc c) /\ (forall c', ~ iteration src base_indent c c') /\
  (forall r d', returns src base_indent c r d' -> r = RFailure /\ d' = cf_doc c).
Proof.
  intros H. destruct (stalled_inv _ _ _ _ _ _ _ H) as (A & B & _).
  assert (E : negb (cf_changed c) && (10 <=? cf_count c) = true).
  { rewrite A. destruct (cf_changed c) eqn:E; [rewrite (B E) in A; discriminate|reflexivity]. }
  unfold returns, iteration, iterate. rewrite E.
  split; [exists 0; reflexivity|]. split; [intros c' [fuel X]; discriminate|].
  intros r d' [fuel X]. apply Ret_inj in X. injection X as <- <-. auto.
Qed.
(* before that a pass returns Failure only for another reason: the parser was
   started in the Failure state, or on no lines at all, or a transition failed *)
Lemma reached_line src bi bl st d c : reached src bi bl st d c ->
  c = initial bl st d \/ at_end src c \/ line_of c < length src.
Proof.
  intros H. induction H as [|c c' H IH I]; auto. right. clear IH. destruct I as [fuel I]. apply iterate_pass in I. remember (More c') as n eqn:E0.
  assert (HE : forall c0, end_check src c0 = More c' -> at_end src c' \/ line_of c' < length src).
  { intros c0 E9. unfold end_check in E9. destruct (length src <=? cur_offset (cf_cur c0)) eqn:E1.
    - injection E9 as <-. left. eexists. reflexivity.
    - apply Nat.leb_gt in E1. injection E9 as <-. auto. }
  destruct I as [| | | | |s rest tbl d1 HS Ht Hn Hd HC|s rest tbl line t cs r d1 cur HS Ht Hl1 Hf Hp HC]; try discriminate; try exact (HE _ E0).
  destruct (after_transition c rest r d1 cur) as [r2 d2|c2] eqn:E2; cbn [check_end] in E0; [discriminate|]. exact (HE _ E0).
Qed.
Lemma stalled_reached src bi bl st d c k : stalled src bi bl st d c k -> reached src bi bl st d c.
Proof. induction 1; [constructor|eapply r_next; eauto..]. Qed.
Theorem C03_not_before src base_indent base_line start d c k d' :
  stalled src base_indent base_line start d c k -> k < 10 -> returns src base_indent c RFailure d' ->
  start = SFailure \/ src = [] \/
  exists s rest tbl line r t cs fuel cur, cf_stack c = s :: rest /\ table s = Some tbl /\
    nth_error src (line_of c) = Some line /\ In (r, t) tbl /\ captures r line = Some cs /\
    pexec (parse table fuel) (t src base_indent cs) (cf_doc c) (cf_cur c) = Ret (TFailure, d', cur).
Proof.
  intros H Hk [fuel R]. destruct (stalled_inv _ _ _ _ _ _ _ H) as (A & B & _). pose proof (stalled_reached _ _ _ _ _ _ _ H) as HR.
  apply iterate_pass in R.
  remember (Done RFailure d') as n eqn:E0.
  destruct R as [C1 C2|C1|rest C1|rest C1|s rest tbl HS Ht Hn|s rest tbl d1 HS Ht Hn Hd HC|s rest tbl line t cs r d1 cur HS Ht Hl1 Hf Hp HC]; try discriminate.
  - lia.
  - left. destruct (reached_live _ _ _ _ _ _ HR) as [->|Hl].
    + cbn in C1. congruence.
    + destruct (reached_inv _ _ _ _ _ _ Hl HR) as [(l & HL & HS) _]. exfalso.
      destruct HS as [HS|[HS _]]; rewrite C1 in HS.
      * rewrite <- HS in HL. inversion HL; subst. auto.
      * discriminate.
  - right. left. destruct (reached_line _ _ _ _ _ _ HR) as [->|[[r2 Hr]|Hl]].
    + cbn in Hn. destruct src; auto. discriminate.
    + rewrite HS in Hr. injection Hr as -> _. discriminate.
    + apply nth_error_None in Hn. unfold line_of in Hl. lia.
  - right. right. destruct r as [pp adv|]; cbn [after_transition check_end] in E0.
    + unfold end_check in E0. discriminate.
    + injection E0 as <-. apply find_in in Hf as (r & Hin & Hcap).
      exists s, rest, tbl, line, r, t, cs, fuel, cur. unfold line_of. auto 10.
Qed.

(* running the loop by hand *)
Definition matchesb (src : list str) (c : config) : bool :=
  match cf_stack c with
  | [] => false
  | s :: _ => match table s, nth_error src (line_of c) with
              | Some tbl, Some line => match find_transition line tbl with Some _ => true | None => false end
              | _, _ => false
              end
  end.
Lemma matchesb_ok src c : matchesb src c = true <-> some_pattern_matches src c.
Proof.
  unfold matchesb. destruct (cf_stack c) as [|s rest] eqn:HS.
  { split; [discriminate|]. intros (s & rest & tbl & line & r & t & E & _). congruence. }
  destruct (table s) as [tbl|] eqn:Ht.
  2:{ split; [discriminate|]. intros (s' & rest' & tbl & line & r & t & E & E2 & _). congruence. }
  destruct (nth_error src (line_of c)) as [line|] eqn:Hl.
  2:{ split; [discriminate|]. intros (s' & rest' & tbl' & line & r & t & E & E2 & E3 & _). congruence. }
  rewrite (matches_iff src c s rest tbl line) by auto. destruct (find_transition line tbl); split; congruence.
Qed.
Fixpoint walk (src : list str) (bi : nat) (n : nat) (c : config) (k : nat) : option (config * nat) :=
  match n with
  | 0 => Some (c, k)
  | S n => match iterate table (parse table 50) src bi c with
           | Ret (More c') => walk src bi n c' (if negb (line_of c' =? line_of c) then 0
                                                else if matchesb src c then S k else k)
           | _ => None
           end
  end.
Lemma walk_stalled src bi bl st d n : forall c k c' k', stalled src bi bl st d c k ->
  walk src bi n c k = Some (c', k') -> stalled src bi bl st d c' k'.
Proof.
  induction n as [|n IH]; cbn [walk]; intros c k c' k' H E.
  - apply some_inj in E. injection E as <- <-. auto.
  - destruct (iterate _ _ _ _ _) as [[|c1]| |] eqn:Ei; try discriminate.
    assert (I : iteration src bi c c1) by (exists 50; auto).
    apply (IH c1 _ c' k') in E; auto. destruct (line_of c1 =? line_of c) eqn:El; cbn [negb].
    + apply Nat.eqb_eq in El. destruct (matchesb src c) eqn:Em.
      * apply st_stayed with c; auto. now apply matchesb_ok.
      * apply st_popped with c; auto. rewrite <- matchesb_ok. congruence.
    + apply Nat.eqb_neq in El. apply st_moved with c k; auto.
Qed.
Definition walk_count (src : list str) (n : nat) : option nat :=
  option_map snd (walk src 0 n (initial 0 SBody new_doctree) 0).
Definition nested10 : list str := flat_map (fun i => [repeat 32%N (2 * i) ++ lit "- a"; []]) (seq 0 12) ++ [lit "x"].
Lemma walk_count_stalled src n k : walk_count src n = Some k -> exists c, stalled src 0 0 SBody new_doctree c k.
Proof.
  unfold walk_count. intros H. destruct (walk src 0 n (initial 0 SBody new_doctree) 0) as [[c k']|] eqn:E; [|discriminate].
  apply some_inj in H. cbn in H. subst. exists c. eapply walk_stalled; [|exact E]. constructor.
Qed.
(* twelve bullet lists inside each other, then a paragraph: the ten passes in which
   list items close on the paragraph's line make the parser give up *)
Example C03_ex : exists c, stalled nested10 0 0 SBody new_doctree c 10 /\
  returns nested10 0 c RFailure (cf_doc c).
Proof.
  destruct (walk_count_stalled nested10 55 10) as [c H]; [vm_compute; reflexivity|].
  exists c. split; [exact H|]. apply (C03_stuck_fails _ _ _ _ _ _ H).
Qed.
Lemma nested10_result : result_of (parse_source 200 nested10) = Some RFailure.
Proof. vm_compute. reflexivity. Qed.
(* a failure of another kind: an overline whose title has no underline *)
Definition broken_title : list str := map lit ["a"; ""; "===="; "x"]%string.
Definition walk_fails (src : list str) (n : nat) : bool :=
  match walk src 0 n (initial 0 SBody new_doctree) 0 with
  | Some (c, k) => (k <? 10) && match iterate table (parse table 50) src 0 c with Ret (Done RFailure _) => true | _ => false end
  | None => false
  end.
Example C03_not_before_ex : exists c k d', stalled broken_title 0 0 SBody new_doctree c k /\ k < 10 /\
  returns broken_title 0 c RFailure d'.
Proof.
  assert (H : walk_fails broken_title 2 = true) by (vm_compute; reflexivity). unfold walk_fails in H.
  destruct (walk broken_title 0 2 (initial 0 SBody new_doctree) 0) as [[c k]|] eqn:E; [|discriminate].
  apply andb_prop in H as [H1 H2]. apply Nat.ltb_lt in H1.
  destruct (iterate table (parse table 50) broken_title 0 c) as [[[| |] d'|]| |] eqn:E2; try discriminate.
  exists c, k, d'. split; [eapply walk_stalled; [constructor|exact E]|]. split; [exact H1|]. exists 50. exact E2.
Qed.
Print Assumptions C03_stuck_fails.
Print Assumptions C03_not_before.
