(* QuestionProofs.v -- the questions of a questionnaire (used for C47). *)
From Verif Require Import Base Unicode Regex Patterns Common Converters NodeTypes Tree DocTree History Blocks Prog ParseLoop
  Inline Body Directives Parser Spec RegexProofs BlockProofs TreeProofs DocTreeProofs HyperrefProofs InlineSpec RegexGroups InlineProofs LoopProofs
  Utf8Latex Writer WriterProofs Transforms TextProofs RefnameProofs OpenProofs SimpleSpec LineProofs Properties7 RunProofs StepProofs ChunkProofs Properties13 ParaProofs NumberProofs LeaveProofs GroupProofs
  MarkerProofs OpenerProofs EntryProofs LeafProofs ShiftProofs ConverterProofs ExerciseProofs BoxProofs GreedyProofs ChoiceProofs QuizProofs.

Lemma does_of {A} (m : prog A) d cur a d' cur' : (forall call, pexec call (let* x := m in PRet x) d cur = pexec call (PRet a) d' cur') -> does m d cur a d' cur'.
Proof.
  intros H call. specialize (H call). rewrite pexec_bind in H. cbn [pexec] in H. destruct (pexec call m d cur) as [[[x d1] c1]| |]; [exact H|discriminate|discriminate].
Qed.
Definition quiz_node (m : nat) (q : quiz) (n : N) : TreeNodeType :=
  let o (k : string) := setting k (q_settings q) in
  NAplusQuestionnaire m n (q_key q) (q_points q) (match q_grade q with [] => None | _ => Some (q_grade q) end)
    (o "submissions"%string) (o "points-to-pass"%string) (o "feedback"%string) (o "title"%string) (o "no_override"%string) (o "pick_randomly"%string)
    (o "preserve-questions-between-attempts"%string) (o "category"%string) (o "status"%string) (o "reveal-model-at-max-submissions"%string) (o "show-model"%string)
    (o "allow-assistant-viewing"%string) (o "allow-assistant-grading"%string).
Definition pick_node (any : bool) (m : nat) (n : N) (opts : settings) : TreeNodeType :=
  let o (k : string) := setting k opts in let has (k : string) := some_flag (setting k opts) in
  if any then
    let randomized := has "randomized"%string && has "correct-count"%string in
    NAplusPickAny m n (o "class"%string) (has "required"%string) (o "key"%string) (has "partial-points"%string) randomized (if randomized then meant parse_u32 (o "correct-count"%string) else None)
      (has "preserve-questions-between-attempts"%string)
  else NAplusPickOne m n (o "class"%string) (has "required"%string) (o "key"%string) (has "dropdown"%string).
Definition free_node (m : nat) (n : N) (method answer : str) (opts : settings) : TreeNodeType :=
  let o (k : string) := setting k opts in NAplusFreeText m n method answer (o "class"%string) (o "required"%string) (o "key"%string) (o "length"%string) (o "height"%string).

Lemma commas_id opts : opt_part (lit "id=") (setting "class" opts) = commas (shown (fun v => lit "id=" ++ v) (setting "class" opts)).
Proof. unfold shown, opt_part, commas. destruct (setting "class" opts); [|reflexivity]. cbn [flat_map]. rewrite app_nil_r, <- !app_assoc. reflexivity. Qed.
Lemma pick_pre ord full (any : bool) m n opts :
  (negb (any && is_some (setting "randomized" opts)) || negb (is_some (setting "correct-count" opts)) || is_some (match setting "correct-count" opts with Some v => parse_u32 v | None => None end)) = true ->
  pre_string ord full (pick_node any m n opts) None = Ret (lit "\begin{pick}" ++ each_comma (pick_options any opts) ++ lit "{" ++ (if any then lit "any" else lit "one") ++ lit "}{" ++ dec n ++ lit "}" ++ nl1).
Proof.
  intros Hok. rewrite <- bracketed_commas. unfold pick_options. rewrite !commas_app, <- commas_id, <- !commas_flag, <- commas_given. unfold pick_node. destruct any; cbn [pre_string].
  - rewrite !commas_app, <- !commas_flag. cbn [andb] in Hok.
    match goal with |- Ret (_ ++ bracketed ?a ++ _) = Ret (_ ++ bracketed ?b ++ _) => assert (E : a = b) end.
    { do 4 f_equal.
      unfold some_flag, meant. destruct (setting "randomized" opts); [|destruct (match setting "correct-count" opts with Some _ => _ | None => None end); reflexivity].
      destruct (setting "correct-count" opts) as [v|]; [|reflexivity]. cbn [is_some negb orb] in Hok. destruct (parse_u32 v) as [x|]; [|discriminate Hok].
      cbn [andb flag_part opt_part Datatypes.option_map commas flat_map]. unfold commas. cbn [flat_map]. rewrite <- !app_assoc. reflexivity. }
    rewrite E. unfold braces, begin_env. rewrite <- !app_assoc. reflexivity.
  - rewrite app_nil_r. unfold braces, begin_env. rewrite <- !app_assoc. reflexivity.
Qed.

Lemma words_of n method : forallb (fun c => negb (is_whitespace c)) method = true ->
  split_whitespace (dec n ++ after_space method) = dec n :: match method with [] => [] | _ => [method] end.
Proof.
  intros Hm. assert (Hd : word (dec n)).
  { split; [apply dec_nonempty|]. eapply Forall_impl; [|apply dec_digits]. intros a Ha. unfold is_ascii_digit in Ha. destruct (is_whitespace a) eqn:E; [|reflexivity]. exfalso.
    apply andb_true_iff in Ha as [H1 H2]. apply N.leb_le in H1, H2.
    assert (Hc : In a [48;49;50;51;52;53;54;55;56;57]%N) by (cbn [In]; lia). cbn [In] in Hc. repeat (destruct Hc as [<-|Hc]; [discriminate E|]). exact Hc. }
  destruct method as [|c t].
  - cbn [after_space]. rewrite app_nil_r. apply (split_join [dec n]). constructor; [exact Hd|constructor].
  - change (dec n ++ after_space (c :: t)) with (join (lit " ") [dec n; c :: t]). apply split_join. constructor; [exact Hd|]. constructor; [|constructor].
    split; [discriminate|]. apply Forall_forall. intros x Hx. rewrite forallb_forall in Hm. apply Hm in Hx. now apply negb_true_iff in Hx.
Qed.

Section Question.
  Variables (ord : hash_order) (full : bool).
  Notation fresh := (fresh ord full).
  Variable (src : list str).
  Notation here := (here src).

  (* the marker and the options *)
  Lemma question_head j p name arg opts body g tail m : skipn p src = directive_source j name arg opts body ++ repeat [] g ++ tail -> body <> [] ->
    argument_ok arg = true -> forallb setting_ok opts = true -> m_body m = j + 3 -> m_first m = length (pad j (lit ".. " ++ name ++ lit "::" ++ lead arg)) ->
    m_empty m = match arg with [] => true | _ => false end ->
    exists n, (forall d cur, cur_offset cur = p -> does (arguments src m) d cur (args_of arg) d (cur_add cur 1)) /\
      (forall d cur, cur_offset cur = p -> does (options src m) d (cur_add cur 1) (insert_all opts) d (cur_add cur (1 + n))) /\
      (forall cur, cur_offset cur = p -> here (cur_add cur (1 + n)) (repeat [] (length (leading opts)) ++ map (shifted (j + 3)) body ++ repeat [] g ++ tail)).
  Proof.
    intros E Hne Ha Ho Hm Hf He. pose proof (contents src p j _ _ _ _ g tail E Hne) as Ec. pose proof E as E1. rewrite box_lines in E1 by exact Hne.
    set (rest1 := [] :: map (shifted (j + 3)) body ++ repeat [] g ++ tail) in *.
    assert (Hg : gap_head rest1) by (right; unfold rest1; eauto). assert (Hbd : opts <> [] \/ @nil str <> [] -> m_body m = j + 3) by auto.
    set (bt := blank_taken opts (map (shifted (j + 3)) (below body) ++ repeat [] g ++ tail)) in *.
    exists (length opts + bt). split; [|split].
    - intros d cur Hc. apply does_of. intros call. apply (exec_arguments src p j name arg opts [] rest1 m E1 Ha Ho Hg Hbd Hf He _ _ _ _ Hc).
    - intros d cur Hc. apply does_of. intros call. rewrite (exec_options src p j name arg opts [] rest1 m E1 Ho Hg Hbd) by (clear -Hc; destruct cur; cbn in *; lia). rewrite cur_add_add.
      replace (blank_taken opts (map (shifted (j + 3)) (below []) ++ rest1)) with bt by (unfold bt; destruct body; [congruence|reflexivity]). reflexivity.
    - intros cur Hc. unfold QuizProofs.here. replace (cur_offset (cur_add cur (1 + (length opts + bt)))) with (p + 1 + (length opts + bt)) by (clear -Hc; destruct cur; cbn in *; lia).
      rewrite Ec, !map_app, map_shifted_blank, <- !app_assoc. f_equal. destruct opts; reflexivity.
  Qed.

  (* the points of a question go to the questionnaire *)
  Lemma does_points d z m q n0 ys s seen cur n : fresh d z (quiz_node m q n0) ys s seen -> (n0 + n <= u32_max)%N ->
    exists d', (forall B (K : answer -> prog B) b d2 cur2, does (K AOk) d' cur b d2 cur2 -> does (let* x := doc_op (DAddPoints n) in K x) d cur b d2 cur2) /\
      fresh d' z (quiz_node m q (n0 + n)) ys s seen.
  Proof.
    intros F Hn. exists (set_focused_data d (quiz_node m q (n0 + n))). split; [|eapply fresh_update; exact F].
    intros B K b d2 cur2 H. unfold doc_op. cbn [pbind]. eapply does_op; [|exact H]. cbn [dop_exec]. unfold update_data. rewrite (fresh_data _ _ _ _ _ _ _ _ F).
    unfold quiz_node, add_points. unfold u32_add. replace (N.leb (n0 + n) u32_max) with true by (symmetry; now apply N.leb_le). reflexivity.
  Qed.
  (* the lines below *)
  Definition hint_lines (i : nat) (hs : list hint) : list str := match hs with [] => [] | _ => [] :: map (pad i) (map hint_line hs) end.
  Lemma shifted_hints i hs : forallb hint_ok hs = true -> map (shifted i) (match hs with [] => [] | h :: l => [] :: map hint_line (h :: l) end) = hint_lines i hs.
  Proof.
    intros H. unfold hint_lines. destruct hs as [|h hs]; [reflexivity|]. cbn [map]. change (shifted i []) with (@nil char). f_equal.
    change (map (shifted i) (map hint_line (h :: hs)) = map (pad i) (map hint_line (h :: hs))). rewrite !map_map. apply map_ext_in. intros a Ha. apply shifted_nonempty.
    rewrite forallb_forall in H. apply H in Ha. destruct (hint_parts _ Ha) as (Hl & _). destruct (hint_head _ Hl) as (c & t & -> & _). discriminate.
  Qed.
  Lemma shifted_choices any i cs : choices_ok any cs = true -> map (shifted i) (map choice_line cs) = map (pad i) (map choice_line cs).
  Proof.
    intros H. rewrite !map_map. apply map_ext_in. intros a Ha. apply shifted_nonempty. unfold choices_ok in H. rewrite forallb_forall in H. apply H in Ha. unfold choice_ok in Ha.
    apply andb_true_iff in Ha as [Ha _]. apply andb_true_iff in Ha as [Ha _]. destruct (choice_head _ Ha) as (c & t & -> & _). discriminate.
  Qed.
  Lemma shifted_text i t : para_ok t = true -> map (shifted i) (text_lines t) = map (pad i) (text_lines t).
  Proof. intros H. apply map_ext_in. intros a Ha. apply shifted_nonempty. pose proof (text_nonempty _ H) as Q. rewrite Forall_forall in Q. auto. Qed.
  Lemma proper_text t X : para_ok t = true -> proper (text_lines t ++ X).
  Proof.
    intros H. destruct (para_ok_first _ H) as (l & more & El & Hst & _). rewrite El. exists l, (more ++ X). split; [reflexivity|]. split; [exact (pad_not_blank 0 _ Hst)|exact (pad_indent 0 _ Hst)].
  Qed.
  Lemma question_proper q : question_ok q = true -> proper (question_body q).
  Proof.
    intros H. unfold question_ok in H. apply andb_true_iff in H as [H Hq]. destruct q as [any n opts a cs hs|n method opts t answer hs]; unfold question_body.
    - apply andb_true_iff in Hq as [Hq _]. apply andb_true_iff in Hq as [Ha Hc]. destruct a as [t|].
      + apply andb_true_iff in Ha as [Ha _]. rewrite <- !app_assoc. now apply proper_text.
      + destruct cs as [|c cs]; [discriminate|]. cbn [forallb] in Hc. apply andb_true_iff in Hc as [Hc _]. unfold choice_ok in Hc. apply andb_true_iff in Hc as [Hc _]. apply andb_true_iff in Hc as [Hc _].
        destruct (choice_head _ Hc) as (x & u & E & Hx). cbn [map app]. rewrite E. eexists _, _. split; [reflexivity|]. split; [exact (ink_not_blank [] x u Hx)|].
        cbn [indent_of]. now rewrite Hx.
    - do 3 (apply andb_true_iff in Hq as [Hq _]). apply andb_true_iff in Hq as [_ Hq]. rewrite <- app_assoc. now apply proper_text.
  Qed.

  Definition question_parser (q : question) : directive_parser :=
    match q with Pick true _ _ _ _ _ => parse_aplus_pick_any | Pick false _ _ _ _ _ => parse_aplus_pick_one | Free _ _ _ _ _ _ => parse_aplus_freetext end.
  (* an answer or hint is followed by an empty line or by one to the left *)
  Lemma off_side i hs g tail : left_of i tail -> 0 < i -> match hint_lines i hs ++ repeat [] g ++ tail with [] => True | l :: _ => indent_of l <> i end.
  Proof.
    intros H Hi. destruct hs; cbn [hint_lines app]; [|cbn; lia]. destruct g; cbn [repeat app]; [|cbn; lia]. destruct tail; [exact I|]. destruct H as [_ H]. lia.
  Qed.
  (* the answer or model answer has been read *)
  Lemma does_last type m d dq z y ys s seen x cs t pre post hs cur g tail : sound z -> fresh dq z y ys s seen -> fresh d (tree dq) x cs t seen -> untransformed x = true ->
    pre_string ord full x None = Ret pre -> post_string full x None = Ret post -> child_is_allowed (kind x) KAplusQuestionnaireHints = Ret true ->
    forallb hint_ok hs = true -> left_of (m_body m) tail -> 0 < m_body m ->
    here cur (hint_lines (m_body m) hs ++ repeat [] g ++ tail) ->
    exists d' n cur', does (finish_question src m type) d cur (TSuccess Neither None) d' cur' /\
      fresh d' z y (ys ++ [n]) (s ++ pre ++ t ++ flat_map (hint_latex (hint_reference type)) hs ++ nl1 ++ post) seen /\
      here cur' tail /\ cur_baseline cur' = cur_baseline cur.
  Proof.
    intros Hz Fq F Hx Hpre Hpost Hk Hok Ht Hm Hh. destruct hs as [|h hs].
    - destruct (does_finish ord full src type m d dq z y ys s seen x cs t pre post [] cur g 0 tail Hz Fq F Hx Hpre Hpost Hk Hok (fun _ => eq_refl) Ht Hm Hh) as (d' & n & E & F' & Hh').
      exists d', n, (cur_add cur (g + 0 + 0)). split; [exact E|]. split; [exact F'|]. split; [exact Hh'|]. reflexivity.
    - destruct (does_finish ord full src type m d dq z y ys s seen x cs t pre post (h :: hs) cur 1 g tail Hz Fq F Hx Hpre Hpost Hk Hok ltac:(discriminate) Ht Hm Hh) as (d' & n & E & F' & Hh').
      exists d', n, (cur_add cur (1 + length (h :: hs) + g)). split; [exact E|]. split; [exact F'|]. split; [exact Hh'|]. reflexivity.
  Qed.
  Lemma does_pick_question (any : bool) m n opts a cs hs dq z y ys s seen cur g0 g tail :
    sound z -> fresh dq z y ys s seen -> child_is_allowed (kind y) (kind (pick_node any (m_body m) n opts)) = Ret true ->
    match a with Some t => para_ok t && no_label t | None => true end = true -> cs <> [] -> choices_ok any cs = true -> forallb hint_ok hs = true ->
    (negb (any && is_some (setting "randomized" opts)) || negb (is_some (setting "correct-count" opts)) || is_some (match setting "correct-count" opts with Some v => parse_u32 v | None => None end)) = true ->
    left_of (m_body m) tail -> 0 < m_body m ->
    here cur (repeat [] g0 ++ assigned (m_body m) a ++ map (pad (m_body m)) (map choice_line cs) ++ hint_lines (m_body m) hs ++ repeat [] g ++ tail) ->
    exists d' n0 cur', does (pick_question src m (pick_node any (m_body m) n opts) (choice_re any) (choice_item any) (if any then PickAny else PickOne)) dq cur (TSuccess Neither None) d' cur' /\
      fresh d' z y (ys ++ [n0]) (s ++ question_latex (Pick any n opts a cs hs)) seen /\ here cur' tail /\ cur_baseline cur' = cur_baseline cur.
  Proof.
    intros Hz Fq Hk Ha Hne Hcs Hhs Hrand Ht Hm Hh. set (x := pick_node any (m_body m) n opts) in *.
    assert (Hx : unlabelled x = true /\ can_have_children (kind x) = true /\ untransformed x = true /\ child_is_allowed (kind x) KParagraph = Ret true /\
      child_is_allowed (kind x) KAplusPickChoices = Ret true /\ child_is_allowed (kind x) KAplusQuestionnaireHints = Ret true /\ post_string full x None = Ret (lit "\end{pick}" ++ nl2)).
    { unfold x, pick_node. destruct any; repeat split. }
    destruct Hx as (X1 & X2 & X3 & X4 & X5 & X6 & X7).
    destruct (fresh_into ord full dq z y ys s seen x Fq Hz X1 X2 Hk) as (d1 & E1 & F1). pose proof (fresh_sound ord full _ _ _ _ _ _ Hz Fq) as Hp.
    destruct (does_pick_assignment ord full src any m d1 (tree dq) x [] [] seen a cs cur g0 _ F1 Hp X4 Ha Hne Hcs Hh) as (d2 & ns & cur2 & g2 & E2 & F2 & Hh2 & B2).
    destruct (does_pick_choices ord full src any m d2 (tree dq) x _ _ seen cs cur2 g2 _ F2 Hp X5 Hne Hcs Hh2 (off_side _ hs g tail Ht Hm)) as (d3 & nc & E3 & F3).
    assert (Hh3 : here (cur_add cur2 (g2 + length cs)) (hint_lines (m_body m) hs ++ repeat [] g ++ tail)).
    { apply here_skip, here_on in Hh2. rewrite !map_length, cur_add_add in Hh2. exact Hh2. }
    destruct (does_last (if any then PickAny else PickOne) m d3 dq z y ys s seen x _ _ _ _ hs _ g tail Hz Fq F3 X3 (pick_pre ord full any (m_body m) n opts Hrand) X7 X6 Hhs Ht Hm Hh3)
      as (d4 & n4 & cur4 & E4 & F4 & Hh4 & B4).
    exists d4, n4, cur4. split; [|split; [|split; [exact Hh4|]]].
    - unfold pick_question. eapply does_bind; [apply does_pushed; exact E1|]. cbn [negb]. eapply does_bind; [exact E2|]. cbn [negb]. eapply does_bind; [exact E3|]. cbn [negb]. exact E4.
    - replace (question_latex (Pick any n opts a cs hs)) with ((lit "\begin{pick}" ++ each_comma (pick_options any opts) ++ lit "{" ++ (if any then lit "any" else lit "one") ++ lit "}{" ++ dec n ++ lit "}" ++ nl1) ++
        ((([] ++ assigned_latex a) ++ lit "\begin{answers}" ++ nl1 ++ flat_map choice_latex cs ++ lit "\end{answers}" ++ nl2) ++ flat_map (hint_latex (hint_reference (if any then PickAny else PickOne))) hs ++ nl1 ++ lit "\end{pick}" ++ nl2)); [exact F4|].
      replace (hint_reference (if any then PickAny else PickOne)) with (fun h => lit "\ref{" ++ h_label h ++ lit "}") by (destruct any; reflexivity).
      cbn [question_latex app]. unfold assigned_latex. rewrite <- !app_assoc. reflexivity.
    - rewrite B4. exact B2.
  Qed.
  Lemma quiz_allows mm q n0 k : k = KAplusPickOne \/ k = KAplusPickAny \/ k = KAplusFreeText \/ k = KParagraph -> child_is_allowed (kind (quiz_node mm q n0)) k = Ret true.
  Proof. intros [-> | [-> | [-> | ->]]]; reflexivity. Qed.
  Lemma does_question q mm n0 qn j p g tail m d z ys s seen cur : question_ok qn = true ->
    skipn p src = directive_source j (question_name qn) (question_argument qn) (question_settings qn) (question_body qn) ++ repeat [] g ++ tail -> left_of (j + 3) tail ->
    m_body m = j + 3 -> m_first m = length (pad j (lit ".. " ++ question_name qn ++ lit "::" ++ lead (question_argument qn))) ->
    m_empty m = match question_argument qn with [] => true | _ => false end ->
    sound z -> fresh d z (quiz_node mm q n0) ys s seen -> (n0 + question_points qn <= u32_max)%N -> cur_offset cur = p ->
    exists d' n cur', does (question_parser qn src m) d cur (TSuccess Neither None) d' cur' /\
      fresh d' z (quiz_node mm q (n0 + question_points qn)) (ys ++ [n]) (s ++ question_latex qn) seen /\ here cur' tail /\ cur_baseline cur' = cur_baseline cur.
  Proof.
    intros Hok E Ht Hm Hf He Hz F Hn Hc. pose proof (question_proper _ Hok) as Hpr. pose proof Hok as Hok'. unfold question_ok in Hok'.
    apply andb_true_iff in Hok' as [Hok' Hq]. apply andb_true_iff in Hok' as [Hok' Hhs]. apply andb_true_iff in Hok' as [Hok' Hle]. apply andb_true_iff in Hok' as [Ha Ho]. apply N.leb_le in Hle.
    destruct (question_head j p _ _ _ _ g tail m E (proper_nonempty _ Hpr) Ha Ho Hm Hf He) as (w & Earg & Eopt & Ehere).
    destruct (does_points d z mm q n0 ys s seen (cur_add cur 1) (question_points qn) F Hn) as (d1 & Epts & F1).
    specialize (Earg d cur Hc). specialize (Eopt d1 cur Hc). specialize (Ehere cur Hc). rewrite <- Hm in Ht, Ehere. assert (Hm0 : 0 < m_body m) by (rewrite Hm, Nat.add_comm; apply Nat.lt_0_succ).
    set (cur1 := cur_add cur (1 + w)) in *. assert (B1 : cur_baseline cur1 = cur_baseline cur) by reflexivity.
    destruct qn as [any n opts a cs hs|n method opts t answer hs]; cbn [question_points question_argument question_settings question_hints question_name] in *.
    - apply andb_true_iff in Hq as [Hq Hrand]. apply andb_true_iff in Hq as [Has Hcs].
      assert (Hne : cs <> []) by (destruct cs; [discriminate|discriminate]). assert (Hcs' : choices_ok any cs = true) by (destruct cs; [discriminate|exact Hcs]).
      assert (Hbody : map (shifted (m_body m)) (question_body (Pick any n opts a cs hs)) = assigned (m_body m) a ++ map (pad (m_body m)) (map choice_line cs) ++ hint_lines (m_body m) hs).
      { unfold question_body. cbn [question_hints]. rewrite map_app, map_app, (shifted_choices any) by exact Hcs'. rewrite shifted_hints by exact Hhs. rewrite <- app_assoc. f_equal.
        destruct a as [t|]; [|reflexivity]. apply andb_true_iff in Has as [Has _]. cbn [assigned]. now rewrite map_app, shifted_text. }
      rewrite Hbody, <- !app_assoc in Ehere.
      assert (Hargs : args_of (dec n) = [dec n]) by (pose proof (dec_nonempty n) as Q; destruct (dec n); [congruence|reflexivity]). rewrite Hargs in Earg.
      destruct any.
      + destruct (does_pick_question true m n opts a cs hs d1 z (quiz_node mm q (n0 + n)) ys s seen cur1 _ g tail Hz F1 eq_refl Has Hne Hcs' Hhs Hrand Ht Hm0 Ehere)
          as (d2 & nn & cur2 & E2 & F2 & Hh2 & B2).
        exists d2, nn, cur2. split; [|split; [exact F2|split; [exact Hh2|now rewrite B2]]].
        unfold question_parser, parse_aplus_pick_any. eapply does_bind; [exact Earg|]. change (space_join [dec n]) with (dec n). rewrite parse_dec by exact Hle.
        apply Epts. eapply does_bind; [exact Eopt|]. unfold has_opt. rewrite !opt_setting. cbv zeta.
        match goal with |- does (if ?b then _ else _) _ _ _ _ _ => replace b with false end.
        2:{ symmetry. cbn [andb] in Hrand. unfold and_then. destruct (setting "randomized" opts); [|reflexivity]. destruct (setting "correct-count" opts) as [v|]; [|reflexivity].
            cbn [is_some negb orb] in Hrand. destruct (parse_u32 v); [reflexivity|discriminate]. }
        exact E2.
      + destruct (choices_head false (m_body m) cs (hint_lines (m_body m) hs ++ repeat [] g ++ tail) Hne Hcs') as (Hb0 & _).
        assert (Hb : blank_prefix (assigned (m_body m) a ++ map (pad (m_body m)) (map choice_line cs) ++ hint_lines (m_body m) hs ++ repeat [] g ++ tail) = 0).
        { destruct a as [t|]; [|exact Hb0]. apply andb_true_iff in Has as [Has _]. cbn [assigned]. rewrite <- app_assoc. now apply first_not_blank. }
        pose proof (here_skip src _ _ _ Ehere) as Eh2.
        destruct (does_pick_question false m n opts a cs hs d1 z (quiz_node mm q (n0 + n)) ys s seen _ 0 g tail Hz F1 eq_refl Has Hne Hcs' Hhs Hrand Ht Hm0 Eh2)
          as (d2 & nn & cur2 & E2 & F2 & Hh2 & B2).
        exists d2, nn, cur2. split; [|split; [exact F2|split; [exact Hh2|now rewrite B2]]].
        unfold question_parser, parse_aplus_pick_one. eapply does_bind; [exact Earg|]. change (space_join [dec n]) with (dec n). rewrite parse_dec by exact Hle.
        apply Epts. eapply does_bind; [exact Eopt|]. unfold has_opt. rewrite !opt_setting. eapply does_bind; [eapply does_skip; [exact Ehere|exact Hb]|]. exact E2.
    - apply andb_true_iff in Hq as [Hq Hane]. apply andb_true_iff in Hq as [Hq Hsn]. apply andb_true_iff in Hq as [Hq Hol]. apply andb_true_iff in Hq as [Hme Hpa].
      destruct (snug_starts _ Hsn) as [-> | (c & u & Eu & Hcu)]; [discriminate Hane|].
      assert (Hbody : map (shifted (m_body m)) (question_body (Free n method opts t answer hs)) = map (pad (m_body m)) (text_lines t) ++ [[]; pad (m_body m) answer] ++ hint_lines (m_body m) hs).
      { unfold question_body. cbn [question_hints]. rewrite map_app, map_app, shifted_text by exact Hpa. rewrite shifted_hints by exact Hhs. rewrite <- app_assoc. f_equal. rewrite Eu. reflexivity. }
      rewrite Hbody, <- !app_assoc in Ehere. cbn [app] in Ehere.
      pose proof (here_skip src _ _ _ Ehere) as Eh2. set (cur2 := cur_add cur1 (length (leading opts))) in *.
      pose proof (here_on src _ _ _ Eh2) as Eh3. rewrite map_length in Eh3. set (cur3 := cur_add cur2 (length (text_lines t))) in *.
      change ([] :: pad (m_body m) answer :: hint_lines (m_body m) hs ++ repeat [] g ++ tail) with (repeat (@nil char) 1 ++ pad (m_body m) answer :: hint_lines (m_body m) hs ++ repeat [] g ++ tail) in Eh3.
      pose proof (here_skip src _ _ _ Eh3) as Eh4. apply here_line in Eh4 as [Hl Eh4].
      pose proof (fresh_sound ord full _ _ _ _ _ _ Hz F1) as Hp.
      destruct (fresh_into ord full d1 z _ ys s seen (free_node (m_body m) n method [] opts) F1 Hz eq_refl eq_refl eq_refl) as (d2 & E2 & F2).
      destruct (does_paragraph ord full d2 (tree d1) _ [] [] seen (m_body m) t cur3 F2 Hp eq_refl Hpa) as (d3 & np & E3 & F3).
      set (d4 := set_focused_data d3 (free_node (m_body m) n method answer opts)).
      assert (F4 : fresh d4 (tree d1) (free_node (m_body m) n method answer opts) ([] ++ [np]) ([] ++ para_latex t) seen) by (eapply fresh_update; exact F3).
      destruct (does_last FreeText m d4 d1 z _ ys s seen (free_node (m_body m) n method answer opts) _ _ (lit "\begin{freetext}{" ++ method ++ lit "}{" ++ dec n ++ lit "}{" ++ answer ++ lit "}" ++ nl1) (lit "\end{freetext}" ++ nl2)
        hs (cur_add (cur_add cur3 1) 1) g tail Hz F1 F4 eq_refl) as (d5 & n5 & cur5 & E5 & F5 & Hh5 & B5); auto.
      { cbn [free_node pre_string]. unfold free_node. cbn [pre_string]. unfold braces, begin_env. rewrite <- !app_assoc. reflexivity. }
      exists d5, n5, cur5. split; [|split; [|split; [exact Hh5|now rewrite B5]]].
      2:{ cbn [question_latex]. rewrite <- !app_assoc in F5. cbn [app] in F5. exact F5. }
      unfold question_parser, parse_aplus_freetext. eapply does_bind; [exact Earg|].
      assert (Hargs : args_of (dec n ++ after_space method) = [dec n ++ after_space method]) by (pose proof (dec_nonempty n) as Q; destruct (dec n); [congruence|reflexivity]).
      rewrite Hargs. change (space_join [dec n ++ after_space method]) with (dec n ++ after_space method). rewrite words_of by exact Hme. cbn [hd_error and_then]. rewrite parse_dec by exact Hle.
      apply Epts. eapply does_bind; [exact Eopt|]. rewrite !opt_setting.
      match goal with |- context [NAplusFreeText _ _ ?w0 _ _ _ _ _ _] => replace w0 with method by (destruct method; reflexivity) end.
      eapply does_bind; [apply does_pushed; exact E2|]. cbn [negb]. eapply does_bind; [eapply does_skip; [exact Ehere|now apply first_not_blank]|].
      eapply does_bind; [eapply does_assignment; [reflexivity|exact Hpa|exact Eh2|now left]|]. eapply does_bind; [exact E3|]. cbn [negb].
      assert (Hi : indent_of (pad (m_body m) answer) = m_body m) by (rewrite Eu; unfold pad; rewrite ink_indent; [apply repeat_length|apply ws_pad|exact Hcu]).
      eapply does_bind; [eapply does_skip; [exact Eh3|]|].
      { cbn [blank_prefix]. rewrite Eu. unfold pad. now rewrite ink_not_blank. }
      intros call. unfold get_cursor. cbn [pbind pexec]. rewrite Hl, Hi, Nat.eqb_refl. cbn [negb]. revert call.
      replace (trim (pad (m_body m) answer)) with answer.
      2:{ symmetry. rewrite <- (snug_trim _ Hsn) at 2. clear. induction (m_body m) as [|b IH]; [reflexivity|]. change (pad (S b) answer) with (32%N :: pad b answer). now rewrite trim_lead. }
      eapply does_bind; [apply does_pushed|].
      { cbn [dop_exec]. unfold update_data. rewrite (fresh_data _ _ _ _ _ _ _ _ F3). reflexivity. }
      cbn [negb]. eapply does_bind; [apply does_advance|]. exact E5.
  Qed.
End Question.
