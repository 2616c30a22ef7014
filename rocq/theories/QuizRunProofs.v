(* QuizRunProofs.v -- running over a questionnaire (used for C47). *)
From Verif Require Import Base Unicode Regex Patterns Common Converters NodeTypes Tree DocTree History Blocks Prog ParseLoop
  Inline Body Directives Parser Spec RegexProofs BlockProofs TreeProofs DocTreeProofs HyperrefProofs InlineSpec RegexGroups InlineProofs LoopProofs
  Utf8Latex Writer WriterProofs Transforms TextProofs RefnameProofs OpenProofs SimpleSpec LineProofs Properties7 RunProofs StepProofs ChunkProofs Properties13 ParaProofs NumberProofs LeaveProofs GroupProofs
  MarkerProofs OpenerProofs EntryProofs LeafProofs ShiftProofs ConverterProofs ExerciseProofs BoxProofs GreedyProofs ChoiceProofs QuizProofs QuestionProofs.

(* ---------- empty lines do not count ---------- *)
Fixpoint past_blanks (l : list str) : list str :=
  match l with [] :: t => past_blanks t | _ => l end.
Lemma past_blanks_split l : exists g, l = repeat [] g ++ past_blanks l.
Proof.
  induction l as [|[|c s] l [g IH]]; [now exists 0| |now exists 0].
  exists (S g). cbn [past_blanks repeat app]. now f_equal.
Qed.
Lemma past_blanks_repeat g l : past_blanks (repeat [] g ++ l) = past_blanks l.
Proof. induction g; [reflexivity|]. exact IHg. Qed.
Lemma past_blanks_cons s l : s <> [] -> past_blanks (s :: l) = s :: l.
Proof. destruct s; [congruence|reflexivity]. Qed.

Lemma past_blanks_head l t : past_blanks l <> [] :: t.
Proof. induction l as [|[|c s] l IH]; cbn; [discriminate|exact IH|discriminate]. Qed.

Definition low (k : nat) (rest : list str) : Prop := low_head k (past_blanks rest).
Lemma low_mono k k' rest : k <= k' -> low k rest -> low k' rest.
Proof. unfold low. destruct (past_blanks rest); [trivial|]. cbn. intros H [A B]. split; [exact A|lia]. Qed.
Lemma head_ok_mono k k' rest : k <= k' -> head_ok k rest -> head_ok k' rest.
Proof. destruct rest as [|l rest]; [trivial|]. cbn. intros H [G|(j & Hb & Hj)]; [now left|]. right. exists j. split; [exact Hb|lia]. Qed.

Lemma no_prefix {A} (a : A) X Y : a :: X ++ Y = Y -> False.
Proof. intros H. apply (f_equal (@length A)) in H. cbn [length] in H. rewrite app_length in H. lia. Qed.
(* ---------- the markers of questions ---------- *)
Definition question_names : list str := [lit "pick-one"; lit "pick-any"; lit "freetext"].
Lemma pad_firstn j (l r : str) : firstn (j + length l) (pad j (l ++ r)) = pad j l.
Proof.
  unfold pad. rewrite app_assoc. replace (j + length l) with (length (repeat 32%N j ++ l)) by (rewrite app_length, repeat_length; reflexivity).
  rewrite firstn_app, Nat.sub_diag, firstn_O, app_nil_r. apply firstn_all.
Qed.
Lemma question_line_reads j name c u : In name question_names -> is_whitespace c = false ->
  exists cs, captures APLUS_QUESTIONNAIRE_DIRECTIVE (pad j (lit ".. " ++ name ++ lit ":: " ++ c :: u)) = Some cs /\
    cap 1 cs = Some (repeat 32%N j) /\ cap 2 cs = Some name /\ whole cs = pad j (lit ".. " ++ name ++ lit ":: ").
Proof.
  intros Hn Hc. apply captures_yields. unfold rexec, APLUS_QUESTIONNAIRE_DIRECTIVE. cbn [Seq].
  change (lit ".. " ++ name ++ lit ":: " ++ c :: u) with (46%N :: 46%N :: 32%N :: [] ++ name ++ lit ":: " ++ c :: u).
  apply reads_pad; [reflexivity|]. apply cat_yields. change (Lit (q "..")) with (Cat (Chr 46%N) (Chr 46%N)). apply cat_yields, m_chr, m_chr. apply cat_yields.
  unfold spaces1, space, Chr at 1.
  apply m_plus; [reflexivity|reflexivity|no_more; unfold question_names in Hn; cbn [In] in Hn; (destruct Hn as [<- | [<- | [<- | []]]]); reflexivity|]. cbn [length].
  apply cat_yields, grp_yields.
  assert (Rest : forall cs i, i = j + length (lit ".. " ++ name) -> yields (rmatch (Cat (Lit (q "::")) after) i (lit ":: " ++ c :: u) cs
      (fun i0 s cs0 => Some (i0, (0, (0, firstn i0 (pad j (46%N :: 46%N :: 32%N :: [] ++ name ++ lit ":: " ++ c :: u)))) :: cs0)))
      (fun x => snd x = (0, (0, pad j (lit ".. " ++ name ++ lit ":: "))) :: cs)).
  { intros cs i ->. apply cat_yields. change (Lit (q "::")) with (Cat (Chr 58%N) (Chr 58%N)). change (lit ":: " ++ c :: u) with (58%N :: 58%N :: 32%N :: [] ++ c :: u).
    apply cat_yields, m_chr, m_chr. unfold after. apply m_alt. unfold spaces1, space, Chr. apply m_plus; [reflexivity|reflexivity|no_more; now apply space_not|].
    eexists. split; [reflexivity|]. cbn [snd length]. do 3 f_equal.
    change (46%N :: 46%N :: 32%N :: [] ++ name ++ 58%N :: 58%N :: 32%N :: [] ++ c :: u) with (lit ".. " ++ name ++ lit ":: " ++ c :: u).
    replace (lit ".. " ++ name ++ lit ":: " ++ c :: u) with ((lit ".. " ++ name ++ lit ":: ") ++ c :: u) by (rewrite <- !app_assoc; reflexivity).
    rewrite <- (pad_firstn j (lit ".. " ++ name ++ lit ":: ") (c :: u)). f_equal. rewrite !app_length. cbn [length lit]. lia. }
  assert (Done : forall i0 name0 i, name0 = name -> i = j + length (lit ".. " ++ name) -> i - i0 = length name ->
    yields (rmatch (Cat (Lit (q "::")) after) i (lit ":: " ++ c :: u) ((2, (i0, firstn (i - i0) (name0 ++ lit ":: " ++ c :: u))) :: [(1, (0, repeat 32%N j))])
      (fun i1 s cs0 => Some (i1, (0, (0, firstn i1 (pad j (46%N :: 46%N :: 32%N :: [] ++ name ++ lit ":: " ++ c :: u)))) :: cs0)))
      (fun x => cap 1 (snd x) = Some (repeat 32%N j) /\ cap 2 (snd x) = Some name /\ whole (snd x) = pad j (lit ".. " ++ name ++ lit ":: "))).
  { intros i0 name0 i -> Hi Hl. destruct (Rest ((2, (i0, firstn (i - i0) (name ++ lit ":: " ++ c :: u))) :: [(1, (0, repeat 32%N j))]) i Hi) as (x & Ex & Hx).
    exists x. split; [exact Ex|]. rewrite Hx, Hl. rewrite firstn_app, Nat.sub_diag, firstn_O, app_nil_r, firstn_all. repeat split. }
  clear Rest. unfold question_names in Hn. cbn [In] in Hn. destruct Hn as [<- | [<- | [<- | []]]].
  - cbn [Alts]. apply m_alt. cbn [Lit q lit app]. do 7 (apply cat_yields, m_chr). apply m_chr. apply (Done _ (lit "pick-one")); [reflexivity|cbn; lia|cbn [length lit]; lia].
  - cbn [Alts]. apply m_alt2; [reflexivity|]. apply m_alt. cbn [Lit q lit app]. do 7 (apply cat_yields, m_chr). apply m_chr. apply (Done _ (lit "pick-any")); [reflexivity|cbn; lia|cbn [length lit]; lia].
  - cbn [Alts]. apply m_alt2; [reflexivity|]. apply m_alt2; [reflexivity|]. cbn [Lit q lit app]. do 7 (apply cat_yields, m_chr). apply m_chr. apply (Done _ (lit "freetext")); [reflexivity|cbn; lia|cbn [length lit]; lia].
Qed.

Lemma question_named q : In (question_name q) question_names.
Proof. destruct q as [[] | ]; cbn; auto. Qed.
Lemma argument_given q : question_ok q = true -> exists c u, question_argument q = c :: u /\ is_whitespace c = false.
Proof.
  intros H. unfold question_ok in H. apply andb_true_iff in H as [H _]. apply andb_true_iff in H as [H _]. apply andb_true_iff in H as [H _]. apply andb_true_iff in H as [H _].
  destruct (argument_starts _ H) as [E | (c & u & E & Hc & _)]; [|eauto]. exfalso. destruct q; cbn [question_argument] in E; pose proof (dec_nonempty points) as Q; [congruence|].
  destruct (dec points); [congruence|discriminate].
Qed.
Lemma find_question q j : question_ok q = true -> exists cs,
  find_transition (pad j (marker_line (question_name q) (question_argument q))) APLUS_QUESTIONNAIRE_TRANSITIONS = Some (questionnaire_directive, cs) /\
  cap 1 cs = Some (repeat 32%N j) /\ cap 2 cs = Some (question_name q) /\ whole cs = pad j (lit ".. " ++ question_name q ++ lit "::" ++ lead (question_argument q)).
Proof.
  intros H. destruct (argument_given _ H) as (c & u & E & Hc). destruct (question_line_reads j (question_name q) c u (question_named q) Hc) as (cs & Ec & C1 & C2 & C3).
  exists cs. rewrite E. split; [|split; [exact C1|split; [exact C2|exact C3]]].
  change (marker_line (question_name q) (c :: u)) with (46%N :: 46%N :: 32%N :: question_name q ++ lit "::" ++ 32%N :: c :: u) in *.
  unfold APLUS_QUESTIONNAIRE_TRANSITIONS, empty_line_entry. cbn [find_transition]. unfold pad at 1. rewrite ink_blank by reflexivity.
  change (46%N :: 46%N :: 32%N :: question_name q ++ lit "::" ++ 32%N :: c :: u) with (lit ".. " ++ question_name q ++ lit ":: " ++ c :: u). rewrite Ec. reflexivity.
Qed.
Lemma find_prose l j : starts_text l = true -> exists cs, find_transition (pad j l) APLUS_QUESTIONNAIRE_TRANSITIONS = Some (questionnaire_text, cs) /\ cap 1 cs = Some (repeat 32%N j).
Proof.
  intros H. destruct (starts_text_inv _ H) as (c & t & -> & _ & Hc). unfold APLUS_QUESTIONNAIRE_TRANSITIONS, empty_line_entry. cbn [find_transition].
  destruct (ink_text (repeat 32%N j) c t (ws_pad j) Hc) as (cs & E & C1). change (captures TEXT (pad j (c :: t)) = Some cs) in E.
  replace (captures BLANK_LINE (pad j (c :: t))) with (@None caps) by (symmetry; now apply ink_blank).
  destruct (captures APLUS_QUESTIONNAIRE_DIRECTIVE (pad j (c :: t))) as [cs'|] eqn:E'; [|exists cs; rewrite E; auto].
  exfalso. unfold APLUS_QUESTIONNAIRE_DIRECTIVE in E'. cbn [Seq] in E'. unfold captures in E'. destruct (rexec _ _) as [[n cs2]|] eqn:Ex; [|discriminate].
  apply rexec_sound in Ex as (p & u & new & _ & _ & R & _). unfold pad in R. apply leading_ws in R as (n2 & i & _ & R); [|exact Hc|apply ws_pad|].
  - apply relc_cat_inv in R as (s1 & n1 & n3 & R1 & _ & _). apply relc_lit_inv in R1 as [E1 _]. apply (f_equal (hd 0%N)) in E1. change (c = 46%N) in E1. subst c. discriminate H.
  - clear. intros x s v m i Hx R. apply relc_cat_inv in R as (s1 & n1 & n2 & R1 & _ & _). apply relc_lit_inv in R1 as [E _].
    apply (f_equal (hd 0%N)) in E. change (x = 46%N) in E. subst x. discriminate.
Qed.

Section Run.
  Variables (ord : hash_order) (full : bool).
  Notation fresh := (fresh ord full).
  Notation under := (under ord full).
  Notation at_ := (at_ ord full).
  Variable (src : list str).
  Notation here := (here src).

  Lemma indent_further p k name arg opts body rest : skipn p src = directive_source k name arg opts body ++ rest -> forallb setting_ok opts = true -> proper body ->
    exists x, indent_on_subsequent_lines src (S p) = Some (k + 3, x).
  Proof.
    intros E Ho (l0 & X & -> & Hl & Hi). apply (skipn_cons _ _ _ _) in E as [_ E]. unfold indent_on_subsequent_lines. destruct opts as [|kv opts].
    - cbn [map app below] in E. apply (skipn_cons _ _ _ _) in E as [_ E]. rewrite E. cbn [first_indent_of]. rewrite shifted_blank, Hl, shifted_indent, Hi, Nat.add_0_r by exact Hl. eauto.
    - cbn [map app] in E. apply (skipn_cons _ _ _ _) in E as [_ E]. rewrite E. destruct opts as [|kv2 opts].
      + cbn [map app below first_indent_of]. replace (blank (shifted (k + 3) [])) with true by reflexivity. rewrite shifted_blank, Hl, shifted_indent, Hi, Nat.add_0_r by exact Hl. eauto.
      + cbn [map app first_indent_of]. change (shifted (k + 3) (setting_line kv2)) with (pad (k + 3) (setting_line kv2)).
        unfold setting_line. cbn [lit app]. unfold pad. rewrite ink_not_blank by reflexivity. rewrite ink_indent by (first [apply ws_pad|reflexivity]). rewrite repeat_length. eauto.
  Qed.

  (* ---------- one question ---------- *)
  Lemma step_question q j qn n0 z seen st ys s c p g tail : question_ok qn = true ->
    skipn p src = directive_source j (question_name qn) (question_argument qn) (question_settings qn) (question_body qn) ++ repeat [] g ++ tail -> left_of (j + 3) tail ->
    sound z -> fresh (cf_doc c) z (quiz_node j q n0) ys s seen -> (n0 + question_points qn <= u32_max)%N -> placed src c (SAplusQuestionnaire :: st) p 0 ->
    exists c' p' ys', steps src 0 c c' /\ placed src c' (SAplusQuestionnaire :: st) p' 0 /\
      fresh (cf_doc c') z (quiz_node j q (n0 + question_points qn)) ys' (s ++ question_latex qn) seen /\ skipn p' src = tail.
  Proof.
    intros Hok E Ht Hz F Hn Hp. pose proof (pl_cur _ _ _ _ _ Hp) as Hc. destruct (find_question qn j Hok) as (cs & Hf & C1 & C2 & C3).
    pose proof (question_proper _ Hok) as Hpr. pose proof Hok as Hok'. unfold question_ok in Hok'. apply andb_true_iff in Hok' as [Hok' _]. apply andb_true_iff in Hok' as [Hok' _].
    apply andb_true_iff in Hok' as [Hok' _]. apply andb_true_iff in Hok' as [Ha Ho].
    destruct (indent_further p j _ _ _ _ _ E Ho Hpr) as (x & Hi).
    assert (Hl : nth_error src p = Some (pad j (marker_line (question_name qn) (question_argument qn)))) by (unfold directive_source in E; cbn [app] in E; now apply skipn_cons in E).
    set (m := MkMarker (j + 3) (length (pad j (lit ".. " ++ question_name qn ++ lit "::" ++ lead (question_argument qn)))) (match question_argument qn with [] => true | _ => false end)).
    destruct (does_question ord full src q j n0 qn j p g tail m (cf_doc c) z ys s seen (cf_cur c) Hok E Ht eq_refl eq_refl eq_refl Hz F Hn Hc) as (d' & n & cur' & Ed & F' & Hh & Hb).
    assert (Hex : forall call, pexec call (questionnaire_directive src 0 cs) (cf_doc c) (cf_cur c) = Ret (TSuccess Neither None, d', cur')).
    { intros call. rewrite <- (Ed call). unfold questionnaire_directive. rewrite (cap_len_ok _ _ _ _ _ _ _ C1), repeat_length, (get_cap_ok _ _ _ _ _ _ _ C2). unfold get_cursor. cbn [pbind pexec].
      rewrite Hc, Hl. cbn [unwrap lift pbind]. unfold focus_matches, get_doc. cbn [pbind pexec]. rewrite (fresh_data _ _ _ _ _ _ _ _ F).
      change (NodeTypes.body_indent (quiz_node j q n0)) with (Some j). cbn [pbind pexec]. rewrite Hi, !Nat.add_0_r, match_same.
      unfold match_len. rewrite C3. unfold empty_after.
      replace (skipn (length (pad j (lit ".. " ++ question_name qn ++ lit "::" ++ lead (question_argument qn)))) (pad j (marker_line (question_name qn) (question_argument qn)))) with (question_argument qn) by (symmetry; apply after_marker).
      rewrite arg_not_blank by exact Ha. fold m. destruct qn as [[]|]; reflexivity. }
    destruct (placed_step src 0 c SAplusQuestionnaire st p 0 _ APLUS_QUESTIONNAIRE_TRANSITIONS questionnaire_directive cs Neither None d' cur' 0 (SAplusQuestionnaire :: st) Hp ltac:(lia) Hl I eq_refl Hf) as (c' & Hs & P' & D'); auto.
    { exists 0. intros f _. apply Hex. }
    { intros E0. exfalso. rewrite Nat.add_0_r in E0. unfold QuizProofs.here in Hh. rewrite E0, E in Hh. rewrite app_assoc in Hh. unfold directive_source in Hh. cbn [app] in Hh. exact (no_prefix _ _ _ Hh). }
    exists c', (cur_offset cur' + 0), (ys ++ [n]). split; [exact Hs|]. split; [exact P'|]. rewrite D'. split; [exact F'|]. rewrite Nat.add_0_r. exact Hh.
  Qed.
  (* ---------- one paragraph ---------- *)
  Lemma step_prose q j n0 t z seen st ys s c p rest : para_ok t = true -> skipn p src = map (pad j) (text_lines t) ++ rest -> para_ends j rest ->
    sound z -> fresh (cf_doc c) z (quiz_node j q n0) ys s seen -> placed src c (SAplusQuestionnaire :: st) p 0 ->
    exists c' p' ys', steps src 0 c c' /\ placed src c' (SAplusQuestionnaire :: st) p' 0 /\ fresh (cf_doc c') z (quiz_node j q n0) ys' (s ++ para_latex t) seen /\ skipn p' src = rest.
  Proof.
    intros Hok E Hr Hz F Hp. pose proof (pl_cur _ _ _ _ _ Hp) as Hc. pose proof (para_ok_lines _ Hok) as [Hne Hls]. pose proof (para_ok_inv _ Hok) as (Hch & Hwr & _).
    destruct (para_ok_first _ Hok) as (l & more & El & Hst & _). destruct (find_prose l j Hst) as (cs & Hf & C1).
    assert (Hl : nth_error src p = Some (pad j l)) by (rewrite El in E; cbn [map app] in E; now apply skipn_cons in E).
    destruct (fresh_into ord full (cf_doc c) z _ ys s seen (NParagraph j) F Hz eq_refl eq_refl eq_refl) as (d1 & E1 & F1).
    destruct (chunks_writes ord full t Hwr) as (ss & FF & Ess).
    destruct (fresh_all_text ord full _ (NParagraph j) seen (or_introl eq_refl) _ _ FF (chunks_in_text t Hwr) _ _ _ F1) as (d2 & cs' & E2 & F2). cbn [app] in F2. rewrite Ess in F2.
    destruct (fresh_back ord full d2 (cf_doc c) z _ ys s seen (NParagraph j) cs' _ seen [] nl2 Hz F F2 eq_refl eq_refl eq_refl) as (d3 & n & E3 & F3).
    set (cur' := cur_add (cf_cur c) (newlines (chunks_source t))).
    assert (Hex : forall call, pexec call (questionnaire_text src 0 cs) (cf_doc c) (cf_cur c) = Ret (TSuccess Neither (Some 1), d3, cur')).
    { intros call. unfold questionnaire_text. rewrite (cap_len_ok _ _ _ _ _ _ _ C1), repeat_length. unfold focus_matches, get_doc, get_cursor. cbn [pbind pexec].
      rewrite (fresh_data _ _ _ _ _ _ _ _ F). change (NodeTypes.body_indent (quiz_node j q n0)) with (Some j). cbn [pbind pexec]. rewrite match_same. cbn [pbind pexec]. rewrite Hc.
      rewrite (read_para_block src p j rest (text_lines t)); [|exact E|exact Hne|eapply Forall_impl; [|exact Hls]; now intros ? [? _]|exact Hr]. cbn [lift pbind tb_lines]. unfold join_lines.
      replace (join [newline] (text_lines t)) with (chunks_source t) by (unfold text_lines; now rewrite split_lines_join).
      revert call. eapply does_bind; [apply does_inline; exact Hch|]. destruct (flat_map chunk_nodes t) as [|x0 xs] eqn:En.
      { exfalso. revert En. apply chunks_some; [exact Hch|]. now apply para_nonempty. }
      eapply does_bind; [apply does_pushed; exact E1|]. cbn [negb]. eapply does_bind; [intros call; apply E2|]. cbn [negb].
      destruct (does_parent d2 d3 cur' E3) as (u & Eu). eapply does_bind; [exact Eu|]. apply does_ret. }
    destruct (placed_step src 0 c SAplusQuestionnaire st p 0 _ APLUS_QUESTIONNAIRE_TRANSITIONS questionnaire_text cs Neither (Some 1) d3 cur' 0 (SAplusQuestionnaire :: st) Hp ltac:(lia) Hl I eq_refl Hf) as (c' & Hs & P' & D'); auto.
    { exists 0. intros f _. apply Hex. }
    { intros E0. exfalso. unfold cur' in E0. clear -E0 Hc. destruct (cf_cur c); cbn in *; lia. }
    exists c', (cur_offset cur' + 1), (ys ++ [n]). split; [exact Hs|]. split; [exact P'|]. rewrite D'. split; [exact F3|].
    apply skipn_past in E. rewrite map_length in E. rewrite <- E. f_equal. unfold text_lines. rewrite split_lines_length. unfold cur'. clear -Hc. destruct (cf_cur c); cbn in *; lia.
  Qed.

  (* ---------- all of them ---------- *)
  Definition part_ok (x : part) : bool := match x with Prose t => para_ok t | Asked q => question_ok q end.
  Lemma part_first x j : part_ok x = true -> exists l X, part_source j x = l :: X /\ blank l = false /\ indent_of l = j /\ l <> [].
  Proof.
    destruct x as [t|q]; cbn [part_ok part_source]; intros H.
    - destruct (para_ok_first _ H) as (l & more & El & Hst & _). rewrite El. eexists _, _. split; [reflexivity|]. split; [now apply pad_not_blank|]. split; [now apply pad_indent|].
      apply pad_nonempty. destruct l; [discriminate|discriminate].
    - eexists _, _. split; [reflexivity|]. unfold marker_line, pad. cbn [lit app]. split; [now apply ink_not_blank|]. split; [|destruct j; discriminate].
      rewrite ink_indent by (first [apply ws_pad|reflexivity]). apply repeat_length.
  Qed.
  Lemma all_points_cons x gap ps : all_points ((x, gap) :: ps) = (match x with Prose _ => 0 | Asked q => question_points q end + all_points ps)%N.
  Proof. reflexivity. Qed.
  Lemma run_parts q j z seen st rest : sound z -> para_ends j rest -> left_of j (past_blanks rest) -> forall ps n0 c p ys s, parts_ok ps = true -> (n0 + all_points ps <= u32_max)%N ->
    fresh (cf_doc c) z (quiz_node j q n0) ys s seen -> placed src c (SAplusQuestionnaire :: st) p 0 -> past_blanks (skipn p src) = past_blanks (parts_source j ps ++ rest) ->
    exists c' p' ys', steps src 0 c c' /\ placed src c' (SAplusQuestionnaire :: st) p' 0 /\
      fresh (cf_doc c') z (quiz_node j q (n0 + all_points ps)) ys' (s ++ flat_map (fun x => part_latex (fst x)) ps) seen /\ past_blanks (skipn p' src) = past_blanks rest.
  Proof.
    intros Hz Hr Hlo. induction ps as [|[x gap] ps IH]; intros n0 c p ys s Hok Hn F Hp E.
    - exists c, p, ys. split; [apply steps_refl|]. split; [exact Hp|]. split; [|exact E]. cbn [flat_map]. rewrite app_nil_r. unfold all_points. cbn [map fold_right]. rewrite N.add_0_r. exact F.
    - cbn [parts_ok] in Hok. apply andb_true_iff in Hok as [Hok Hps]. apply andb_true_iff in Hok as [Hx Hgap]. change (part_ok x = true) in Hx. rewrite all_points_cons in Hn.
      destruct (part_first x j Hx) as (l0 & X0 & E0 & Hb0 & Hi0 & Hne0).
      set (after := repeat [] gap ++ parts_source j ps ++ rest).
      assert (Ex : past_blanks (skipn p src) = part_source j x ++ after).
      { rewrite E. unfold parts_source. cbn [flat_map fst snd]. rewrite <- !app_assoc. unfold after, parts_source. rewrite E0. cbn [app]. now apply past_blanks_cons. }
      destruct (past_blanks_split (skipn p src)) as (g & Eg). rewrite Ex in Eg.
      destruct (placed_blanks src 0 SAplusQuestionnaire st (part_source j x ++ after) ltac:(split; [exact I|eexists; reflexivity]) g c p 0 Hp ltac:(lia) Eg) as (c1 & Hs1 & P1 & D1).
      assert (P2 : placed src c1 (SAplusQuestionnaire :: st) (p + g) 0) by (destruct g; exact P1). rewrite <- D1 in F.
      assert (E1 : skipn (p + g) src = part_source j x ++ after) by (apply skipn_past in Eg; now rewrite repeat_length in Eg).
      (* what follows *)
      assert (Hla : left_of (j + 1) (past_blanks after)).
      { unfold after. rewrite past_blanks_repeat. destruct ps as [|[y gy] ps']; [eapply left_of_more; [|exact Hlo]; lia|].
        cbn [parts_ok] in Hps. apply andb_true_iff in Hps as [Hps _]. apply andb_true_iff in Hps as [Hy _]. destruct (part_first y j Hy) as (l1 & X1 & E1' & Hb1 & Hi1 & Hne1).
        unfold parts_source. cbn [flat_map fst]. rewrite E1'. cbn [app]. rewrite past_blanks_cons by exact Hne1. split; [exact Hb1|lia]. }
      assert (G : exists c2 p2 ys2, steps src 0 c1 c2 /\ placed src c2 (SAplusQuestionnaire :: st) p2 0 /\
        fresh (cf_doc c2) z (quiz_node j q (n0 + match x with Prose _ => 0 | Asked q => question_points q end)%N) ys2 (s ++ part_latex x) seen /\ past_blanks (skipn p2 src) = past_blanks after).
      { destruct x as [t|qn]; cbn [part_ok part_source part_latex] in *.
        - destruct (step_prose q j n0 t z seen st ys s c1 (p + g) after Hx E1) as (c2 & p2 & ys2 & Hs2 & P3 & F2 & E2); auto.
          { unfold after. destruct gap; [|now left]. destruct ps; [exact Hr|discriminate]. }
          exists c2, p2, ys2. rewrite N.add_0_r, E2. auto.
        - destruct (past_blanks_split after) as (g2 & Eg2). rewrite Eg2 in E1.
          destruct (step_question q j qn n0 z seen st ys s c1 (p + g) g2 (past_blanks after) Hx E1) as (c2 & p2 & ys2 & Hs2 & P3 & F2 & E2); auto.
          { eapply left_of_more; [|exact Hla]. lia. } { lia. }
          exists c2, p2, ys2. rewrite E2. split; [exact Hs2|]. split; [exact P3|]. split; [exact F2|]. clear. destruct (past_blanks_split after) as (g & E). rewrite E at 2. now rewrite past_blanks_repeat. }
      destruct G as (c2 & p2 & ys2 & Hs2 & P3 & F2 & E2).
      destruct (IH _ c2 p2 ys2 _ Hps ltac:(rewrite <- N.add_assoc; exact Hn) F2 P3) as (c3 & p3 & ys3 & Hs3 & P4 & F3 & E3).
      { rewrite E2. unfold after. apply past_blanks_repeat. }
      exists c3, p3, ys3. split; [eapply steps_trans; [exact Hs1|]; eapply steps_trans; eauto|]. split; [exact P4|]. split; [|exact E3].
      rewrite all_points_cons, N.add_assoc. cbn [flat_map fst]. rewrite app_assoc. exact F3.
  Qed.
  (* ---------- the questionnaire ---------- *)
  Lemma quiz_parts q : quiz_ok q = true -> argument_ok (quiz_argument q) = true /\ forallb setting_ok (q_settings q) = true /\ nonempty (q_key q) = true /\ forallb is_ascii_alnum (q_key q) = true /\
    length (q_grade q) <= 1 /\ forallb is_ascii_upper (q_grade q) = true /\ (forall p, q_points q = Some p -> (p <= u32_max)%N) /\ q_parts q <> [] /\ parts_ok (q_parts q) = true /\ (all_points (q_parts q) <= u32_max)%N.
  Proof.
    unfold quiz_ok. intros H. apply andb_true_iff in H as [H Ht]. apply andb_true_iff in H as [H Hps]. apply andb_true_iff in H as [H Hpt]. apply andb_true_iff in H as [H Hg]. apply andb_true_iff in H as [H Hl].
    apply andb_true_iff in H as [H Hk]. apply andb_true_iff in H as [H Hne]. apply andb_true_iff in H as [Ha Ho]. apply N.leb_le in Ht. apply Nat.leb_le in Hl.
    repeat (split; [assumption|]). split; [intros p Hp; rewrite Hp in Hpt; now apply N.leb_le|]. destruct (q_parts q); [discriminate|]. split; [discriminate|]. auto.
  Qed.
  Lemma quiz_lines q k rest : quiz_ok q = true -> quiz_source k q ++ rest = directive_source k (lit "questionnaire") (quiz_argument q) (q_settings q) (parts_source 0 (q_parts q)) ++ rest /\ proper (parts_source 0 (q_parts q)).
  Proof.
    intros H. destruct (quiz_parts _ H) as (_ & _ & _ & _ & _ & _ & _ & Hne & Hps & _).
    assert (Hpr : proper (parts_source 0 (q_parts q))).
    { destruct (q_parts q) as [|[x gap] ps]; [congruence|]. cbn [parts_ok] in Hps. apply andb_true_iff in Hps as [Hps _]. apply andb_true_iff in Hps as [Hx _].
      destruct (part_first x 0 Hx) as (l & X & E & Hb & Hi & _). unfold parts_source. cbn [flat_map fst]. rewrite E. cbn [app]. eexists _, _. split; [reflexivity|]. auto. }
    split; [|exact Hpr]. f_equal. unfold quiz_source, directive_source. f_equal. rewrite map_app. f_equal; [rewrite !map_map; apply map_ext; reflexivity|].
    pose proof (proper_nonempty _ Hpr) as Q. replace (below (parts_source 0 (q_parts q))) with ([] :: parts_source 0 (q_parts q)) by (destruct (parts_source 0 (q_parts q)); [congruence|reflexivity]).
    cbn [map]. f_equal. rewrite <- parts_shift by exact Hps. now rewrite Nat.add_0_r.
  Qed.
  Lemma parser_questionnaire : parser_for (directive_label (lit "questionnaire")) = parse_aplus_questionnaire. Proof. the_parser. Qed.
  Lemma quiz_pre q m : pre_string ord full (quiz_node m q (all_points (q_parts q))) None = Ret (quiz_begin q).
  Proof. unfold quiz_node. cbn [pre_string]. unfold quiz_begin, braces, begin_env. rewrite <- !app_assoc. reflexivity. Qed.
  Lemma step_quiz q c S0 y k st r e s seen p n rest : quiz_ok q = true ->
    home S0 y k -> at_ src c (S0 :: st) ((y, r) :: e) s seen p n -> n <= 9 ->
    skipn p src = quiz_source k q ++ rest -> para_ends (k + 3) rest -> left_of (k + 3) (past_blanks rest) ->
    exists c' p', steps src 0 c c' /\
      at_ src c' (SAplusQuestionnaire :: S0 :: st) ((quiz_node (k + 3) q (all_points (q_parts q)), None) :: (y, r) :: e) (s ++ quiz_begin q ++ flat_map (fun x => part_latex (fst x)) (q_parts q)) seen p' 0 /\
      past_blanks (skipn p' src) = past_blanks rest.
  Proof.
    intros Hok Hh Hat Hn E Hr Hlo. pose proof (at_cur _ _ _ _ _ _ _ _ _ _ Hat) as Hc. pose proof (at_doc _ _ _ _ _ _ _ _ _ _ Hat) as Hun.
    destruct (quiz_parts _ Hok) as (Ha & Ho & Hkey & Hal & Hgl & Hgu & Hpts & Hne & Hps & Htot).
    destruct (quiz_lines q k rest Hok) as [El Hpr]. rewrite El in E. set (body := parts_source 0 (q_parts q)) in *. set (arg := quiz_argument q) in *. set (opts := q_settings q) in *.
    assert (Hl : nth_error src p = Some (pad k (marker_line (lit "questionnaire") arg))) by (unfold directive_source in E; cbn [app] in E; now apply skipn_cons in E).
    destruct (home_table _ _ _ Hh) as (tbl & Htb & Hb).
    destruct (directive_by_indent src 0 p k (lit "questionnaire") arg tbl Hl Hb eq_refl Ha) as (cs & Hf & Hx).
    match type of Hx with context [MkMarker ?a ?b ?c] => set (m := MkMarker a b c) in Hx end.
    assert (Hm : m_body m = k + 3).
    { unfold m. cbn [m_body]. rewrite (body_indent_below src p k _ _ _ _ _ E Ho); [reflexivity|right; exact Hpr|right; exact (proper_nonempty _ Hpr)]. }
    destruct (question_head src k p (lit "questionnaire") arg opts body 0 rest m E (proper_nonempty _ Hpr) Ha Ho Hm eq_refl eq_refl) as (w & Earg & Eopt & Ehere).
    specialize (Ehere (cf_cur c) Hc). cbn [repeat app] in Ehere. set (cur1 := cur_add (cf_cur c) (1 + w)) in *.
    destruct (fresh_open ord full (cf_doc c) _ s seen (quiz_node (k + 3) q 0) Hun eq_refl eq_refl) as (d1 & Ed1 & F1).
    { rewrite (under_data _ _ _ _ _ _ _ _ Hun). apply (home_allows _ _ _ _ Hh). a_kind. }
    assert (Hex : forall call, pexec call (directive src 0 cs) (cf_doc c) (cf_cur c) = Ret (TSuccess (Push [SAplusQuestionnaire]) None, d1, cur1)).
    { intros call. rewrite (Hx call (cf_doc c) (cf_cur c) y k Hc (under_data _ _ _ _ _ _ _ _ Hun) (home_indent _ _ _ Hh)). cbn [Nat.add]. rewrite match_same.
      rewrite parser_questionnaire. unfold parse_aplus_questionnaire. revert call. eapply does_bind; [apply Earg; exact Hc|].
      assert (Hargs : args_of arg = [arg]) by (unfold arg, quiz_argument, exercise_argument; destruct (q_key q); [discriminate|destruct (q_points q); reflexivity]). rewrite Hargs.
      change (space_join [arg]) with arg. unfold arg at 1, quiz_argument. rewrite exercise_argument_parts by assumption.
      eapply does_bind; [apply Eopt; exact Hc|]. fold cur1. rewrite !opt_setting, Hm.
      replace (parse_u32 (match q_points q with Some p0 => dec p0 | None => [] end)) with (q_points q).
      2:{ destruct (q_points q) as [p0|]; [|reflexivity]. symmetry. apply parse_dec. now apply Hpts. }
      fold opts. change (NAplusQuestionnaire _ _ _ _ _ _ _ _ _ _ _ _ _ _ _ _ _ _) with (quiz_node (k + 3) q 0).
      unfold open_node. eapply does_bind; [apply does_pushed; exact Ed1|]. apply does_ret. }
    destruct (placed_step src 0 c S0 st p n _ tbl directive cs (Push [SAplusQuestionnaire]) None d1 cur1 0 (SAplusQuestionnaire :: S0 :: st) (at_placed _ _ _ _ _ _ _ _ _ _ Hat) Hn Hl (home_live _ _ _ Hh) Htb Hf) as (c1 & Hs1 & P1 & D1); auto.
    { exists 0. intros f _. apply Hex. }
    { intros E0. exfalso. unfold cur1 in E0. clear -E0 Hc. destruct (cf_cur c); cbn in *; lia. }
    pose proof Hun as [Hop _ _ _]. rewrite <- D1 in F1.
    destruct (run_parts q (k + 3) (tree (cf_doc c)) seen (S0 :: st) rest (opened_sound ord full _ _ _ Hop) Hr Hlo (q_parts q) 0%N c1 _ [] [] Hps Htot F1 P1) as (c2 & p2 & ys & Hs2 & P2 & F2 & E2).
    { rewrite Nat.add_0_r. unfold QuizProofs.here in Ehere. rewrite Ehere, past_blanks_repeat. f_equal. f_equal. unfold body. rewrite <- parts_shift by exact Hps. now rewrite Nat.add_0_r. }
    exists c2, p2. split; [eapply steps_trans; eauto|]. split; [|exact E2]. apply placed_at; [exact P2|].
    rewrite N.add_0_l in F2. cbn [app] in F2. eapply fresh_done; [exact Hop|exact F2|reflexivity|apply quiz_pre].
  Qed.
End Run.
