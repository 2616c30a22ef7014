(* StepProofs.v -- single steps of the main loop and of the transition functions
   on a document under construction (used for C47). *)
From Verif Require Import Base Unicode Regex Patterns Common Converters NodeTypes Tree DocTree History Blocks Prog ParseLoop
  Inline Body Directives Parser Spec RegexProofs BlockProofs TreeProofs DocTreeProofs HyperrefProofs InlineSpec RegexGroups InlineProofs LoopProofs
  Utf8Latex Writer WriterProofs Transforms OpenProofs SimpleSpec LineProofs Properties7 RunProofs.

Section Steps.
  Variables (ord : hash_order) (full : bool).
  Notation under := (under ord full).

  (* ---------- the loop ---------- *)
  Definition steps (src : list str) (base : nat) (c c' : config) : Prop :=
    exists n f0, forall f, f0 <= f -> parse_loop table (n + f) src base c = parse_loop table f src base c'.
  Lemma steps_refl src base c : steps src base c c.
  Proof. exists 0, 0. reflexivity. Qed.
  Lemma steps_trans src base a b c : steps src base a b -> steps src base b c -> steps src base a c.
  Proof.
    intros (n & f & H) (m & g & G). exists (n + m), (Nat.max f g). intros h Hh.
    rewrite <- Nat.add_assoc, H by lia. apply G. lia.
  Qed.
  Lemma steps_one src base c c' : (exists f0, forall f, f0 <= f -> iterate table (parse table f) src base c = Ret (More c')) ->
    steps src base c c'.
  Proof. intros (f0 & H). exists 1, f0. intros f Hf. cbn [Nat.add parse_loop]. specialize (H f Hf). unfold parse in H. rewrite H. reflexivity. Qed.

  (* stack, open nodes, text, titles, line number and an upper bound on the number
     of steps spent on the line *)
  Record at_ (src : list str) (c : config) (st : list State) (e : list entry) (s : str)
      (seen : list SectionLineStyle) (p n : nat) : Prop := {
    at_stack : cf_stack c = (if length src <=? p then SEOF :: st else st);
    at_doc : under (cf_doc c) e s seen;
    at_cur : cur_offset (cf_cur c) = p;
    at_count : cf_count c <= n }.
  Lemma at_weaken src c st e s seen p n m : at_ src c st e s seen p n -> n <= m -> at_ src c st e s seen p m.
  Proof. intros [A B C D] H. split; auto. lia. Qed.

  (* the same without the document *)
  Record placed (src : list str) (c : config) (st : list State) (p n : nat) : Prop := {
    pl_stack : cf_stack c = (if length src <=? p then SEOF :: st else st);
    pl_cur : cur_offset (cf_cur c) = p;
    pl_count : cf_count c <= n }.
  Lemma at_placed src c st e s seen p n : at_ src c st e s seen p n -> placed src c st p n.
  Proof. intros [A B C D]. split; auto. Qed.
  Lemma placed_at src c st e s seen p n : placed src c st p n -> under (cf_doc c) e s seen -> at_ src c st e s seen p n.
  Proof. intros [A C D] B. split; auto. Qed.
  Lemma placed_step src base c S0 rest p n line tbl t cs pp adv d' cur' m st' :
    placed src c (S0 :: rest) p n -> n <= 9 -> nth_error src p = Some line ->
    live S0 -> table S0 = Some tbl -> find_transition line tbl = Some (t, cs) ->
    (exists f0, forall f, f0 <= f -> pexec (parse table f) (t src base cs) (cf_doc c) (cf_cur c) = Ret (TSuccess pp adv, d', cur')) ->
    cur_baseline cur' = cur_baseline (cf_cur c) ->
    st' = match pp with Push l => rev l ++ S0 :: rest | Pop => rest | Neither => S0 :: rest end ->
    (cur_offset cur' + match adv with Some k => k | None => 0 end = p -> n + 1 <= m) ->
    exists c', steps src base c c' /\
      placed src c' st' (cur_offset cur' + match adv with Some k => k | None => 0 end) m /\ cf_doc c' = d'.
  Proof.
    intros [A C D] Hn Hl Hlive Ht Hf (f0 & Hx) Hbl -> Hm.
    assert (Hp : p < length src) by (apply nth_error_Some; congruence).
    replace (length src <=? p) with false in A by (symmetry; apply Nat.leb_gt; exact Hp).
    set (p' := cur_offset cur' + match adv with Some k => k | None => 0 end) in *.
    set (cur'' := match adv with Some k => cur_add cur' k | None => cur' end).
    assert (Eoff : cur_offset cur'' = p') by (unfold cur'', p'; destruct adv; cbn; lia).
    set (st' := match pp with Push l => rev l ++ S0 :: rest | Pop => rest | Neither => S0 :: rest end).
    assert (Ebl : cur_baseline cur'' = cur_baseline (cf_cur c)) by (unfold cur''; destruct adv; cbn; exact Hbl).
    set (c1 := if cur_sum cur'' =? cur_sum (cf_cur c) then MkCfg st' d' cur'' false (S (cf_count c)) else MkCfg st' d' cur'' true 0).
    exists (if length src <=? p' then MkCfg (SEOF :: cf_stack c1) (cf_doc c1) (cf_cur c1) (cf_changed c1) (cf_count c1) else c1).
    split.
    - apply steps_one. exists f0. intros f Hle. specialize (Hx f Hle). unfold iterate.
      replace (10 <=? cf_count c) with false by (symmetry; apply Nat.leb_gt; lia). rewrite andb_false_r, A.
      rewrite <- C in Hl. destruct tbl as [|en tbl]; [discriminate|].
      assert (G : (let! (r, d, cur) := pexec (parse table f) (t src base cs) (cf_doc c) (cf_cur c) in
                   Ret (check_end src (after_transition c rest r d cur))) =
                  Ret (More (if length src <=? p' then MkCfg (SEOF :: cf_stack c1) (cf_doc c1) (cf_cur c1) (cf_changed c1) (cf_count c1) else c1))).
      { rewrite Hx. cbn [obind after_transition check_end]. fold cur''.
        replace (match pp with Push states => rev states ++ cf_stack c | Pop => rest | Neither => cf_stack c end) with st'
          by (unfold st'; rewrite A; reflexivity).
        fold c1. unfold end_check. replace (cur_offset (cf_cur c1)) with p' by (unfold c1; destruct (_ =? _); cbn; auto). reflexivity. }
      destruct S0; try contradiction Hlive; rewrite Ht, Hl, Hf; exact G.
    - assert (Est : cf_stack c1 = st') by (unfold c1; destruct (_ =? _); reflexivity).
      assert (Ed : cf_doc c1 = d') by (unfold c1; destruct (_ =? _); reflexivity).
      assert (Ec : cf_cur c1 = cur'') by (unfold c1; destruct (_ =? _); reflexivity).
      assert (En : cf_count c1 <= m).
      { unfold c1. destruct (cur_sum cur'' =? cur_sum (cf_cur c)) eqn:E; cbn [cf_count]; [|lia].
        apply Nat.eqb_eq in E. unfold cur_sum in E. rewrite Eoff, Ebl in E. specialize (Hm ltac:(lia)). lia. }
      split; [split|].
      + destruct (length src <=? p'); cbn [cf_stack]; now rewrite Est.
      + destruct (length src <=? p'); cbn [cf_cur]; now rewrite Ec.
      + destruct (length src <=? p'); cbn [cf_count]; exact En.
      + destruct (length src <=? p'); cbn [cf_doc]; exact Ed.
  Qed.
  Lemma step_transition src base c S0 rest e s seen p n line tbl t cs pp adv e' s' seen' d' cur' m st' :
    at_ src c (S0 :: rest) e s seen p n -> n <= 9 -> nth_error src p = Some line ->
    live S0 -> table S0 = Some tbl -> find_transition line tbl = Some (t, cs) ->
    (exists f0, forall f, f0 <= f -> pexec (parse table f) (t src base cs) (cf_doc c) (cf_cur c) = Ret (TSuccess pp adv, d', cur')) ->
    under d' e' s' seen' ->
    cur_baseline cur' = cur_baseline (cf_cur c) ->
    st' = match pp with Push l => rev l ++ S0 :: rest | Pop => rest | Neither => S0 :: rest end ->
    (cur_offset cur' + match adv with Some k => k | None => 0 end = p -> n + 1 <= m) ->
    exists c', steps src base c c' /\
      at_ src c' st' e' s' seen' (cur_offset cur' + match adv with Some k => k | None => 0 end) m.
  Proof.
    intros Hat Hn Hl Hlive Ht Hf Hx Hu Hbl Hst Hm.
    destruct (placed_step src base c S0 rest p n line tbl t cs pp adv d' cur' m st' (at_placed _ _ _ _ _ _ _ _ Hat) Hn Hl Hlive Ht Hf Hx Hbl Hst Hm) as (c' & Hs & Hp & <-).
    exists c'. split; [exact Hs|]. now apply placed_at.
  Qed.
  Lemma step_no_match src base c S0 rest x r e s seen p n line tbl post :
    at_ src c (S0 :: rest) ((x, r) :: e) s seen p n -> n <= 9 -> nth_error src p = Some line ->
    live S0 -> table S0 = Some tbl -> find_transition line tbl = None -> e <> [] -> post_string full x r = Ret post ->
    exists c', steps src base c c' /\ at_ src c' rest e (s ++ post) seen p n.
  Proof.
    intros [A B C D] Hn Hl Hlive Ht Hf He Hpost.
    assert (Hp : p < length src) by (apply nth_error_Some; congruence).
    replace (length src <=? p) with false in A by (symmetry; apply Nat.leb_gt; exact Hp).
    destruct (under_close _ _ _ _ _ _ _ _ _ B He Hpost) as (d' & Ed & Hu & _).
    exists (MkCfg rest d' (cf_cur c) false (cf_count c)). split.
    - apply steps_one. exists 0. intros f _. unfold iterate.
      replace (10 <=? cf_count c) with false by (symmetry; apply Nat.leb_gt; lia). rewrite andb_false_r, A.
      assert (G : (let! d := d_focus_on_parent (cf_doc c) in
                   Ret (end_check src (MkCfg rest d (cf_cur c) false (cf_count c)))) = Ret (More (MkCfg rest d' (cf_cur c) false (cf_count c)))).
      { rewrite Ed. cbn [obind]. unfold end_check. cbn [cf_cur]. rewrite C.
        replace (length src <=? p) with false by (symmetry; apply Nat.leb_gt; exact Hp). reflexivity. }
      rewrite <- C in Hl.
      destruct S0; try contradiction Hlive; rewrite Ht; (destruct tbl as [|en tbl]; [exact G|rewrite Hl, Hf; exact G]).
    - split; cbn; auto. replace (length src <=? p) with false by (symmetry; apply Nat.leb_gt; exact Hp). reflexivity.
  Qed.
  Lemma run_end src base c st e s seen p n : at_ src c st e s seen p n -> n <= 9 -> length src <= p ->
    exists f0, forall f, f0 <= f -> parse_loop table f src base c = Ret (REOF (rev st), cf_doc c).
  Proof.
    intros [A B C D] Hn Hp. exists 1. intros [|f] Hf; [lia|]. cbn [parse_loop]. unfold iterate.
    replace (10 <=? cf_count c) with false by (symmetry; apply Nat.leb_gt; lia). rewrite andb_false_r, A.
    replace (length src <=? p) with true by (symmetry; apply Nat.leb_le; exact Hp). reflexivity.
  Qed.
  Lemma run_steps src base c c' r : steps src base c c' ->
    (exists f0, forall f, f0 <= f -> parse_loop table f src base c' = Ret r) ->
    exists f0, forall f, f0 <= f -> parse_loop table f src base c = Ret r.
  Proof.
    intros (n & f0 & H) (g & G). exists (n + f0 + g). intros f Hf. replace f with (n + (f - n)) by lia.
    rewrite H by lia. apply G. lia.
  Qed.

  (* ---------- pieces of transition functions ---------- *)
  Lemma exec_leave call d x r e s seen cur post : under d ((x, r) :: e) s seen -> e <> [] -> post_string full x r = Ret post ->
    exists d', pexec call leave d cur = Ret (TSuccess Pop None, d', cur) /\ under d' e (s ++ post) seen.
  Proof.
    intros H He Hp. destruct (under_close _ _ _ _ _ _ _ _ _ H He Hp) as (d' & E & Hu & _). exists d'. split; [|exact Hu].
    unfold leave, focus_parent. cbn [pbind pexec dop_exec]. rewrite E. reflexivity.
  Qed.
  Lemma exec_by_indent call d cur x b i p : focused_data d = x -> NodeTypes.body_indent x = Some b ->
    pexec call (by_indent i p) d cur =
      pexec call (match indent_match b i with JustRight => p | TooMuch => open_block_quote i | TooLittle => leave end) d cur.
  Proof.
    intros Hx Hb. unfold by_indent, focus_matches, get_doc. cbn [pbind pexec]. rewrite Hx, Hb. cbn [pbind pexec].
    destruct (indent_match b i); reflexivity.
  Qed.
  Lemma match_less b i : i < b -> indent_match b i = TooLittle.
  Proof. intros H. unfold indent_match. apply Nat.ltb_lt in H. now rewrite H. Qed.
  Lemma match_same b : indent_match b b = JustRight.
  Proof. unfold indent_match. now rewrite Nat.ltb_irrefl, Nat.eqb_refl. Qed.
  Lemma match_more b i : b < i -> indent_match b i = TooMuch.
  Proof.
    intros H. unfold indent_match. replace (i <? b) with false by (symmetry; apply Nat.ltb_ge; lia).
    replace (b =? i) with false by (symmetry; apply Nat.eqb_neq; lia). reflexivity.
  Qed.
  Lemma under_data d x r e s seen : under d ((x, r) :: e) s seen -> focused_data d = x.
  Proof. intros H. apply under_focus in H as (r' & e' & H). now injection H as <- _. Qed.
  Lemma exec_push call d x e s seen pre post (cur : LineCursor) {A} (k : bool -> prog A) :
    under d e s seen -> unlabelled x = true -> untransformed x = true ->
    child_is_allowed (kind (focused_data d)) (kind x) = Ret true ->
    pre_string ord full x None = Ret pre -> post_string full x None = Ret post ->
    exists d', pexec call (let* ok := Prog.pushed (DPush x) in k ok) d cur = pexec call (k true) d' cur /\
      under d' e (s ++ pre ++ post) seen.
  Proof.
    intros H1 H2 H3 H4 H5 H6. destruct (under_leaf _ _ _ _ _ _ _ _ _ H1 H2 H3 H4 H5 H6) as (d' & E & Hu & _).
    exists d'. split; [|exact Hu]. unfold Prog.pushed. cbn [pbind pexec]. rewrite E. reflexivity.
  Qed.
  Lemma exec_open call d x e s seen pre (cur : LineCursor) {A} (k : bool -> prog A) :
    under d e s seen -> unlabelled x = true -> untransformed x = true -> can_have_children (kind x) = true ->
    child_is_allowed (kind (focused_data d)) (kind x) = Ret true -> pre_string ord full x None = Ret pre ->
    exists d', pexec call (let* ok := Prog.pushed (DPushFocus x) in k ok) d cur = pexec call (k true) d' cur /\
      under d' ((x, None) :: e) (s ++ pre) seen.
  Proof.
    intros H1 H2 H3 H4 H5 H6. destruct (under_open _ _ _ _ _ _ _ _ H1 H2 H3 H4 H5 H6) as (d' & E & Hu).
    exists d'. split; [|exact Hu]. unfold Prog.pushed. cbn [pbind pexec]. rewrite E. reflexivity.
  Qed.
  Lemma get_cap_ok call {A} n cs w d (cur : LineCursor) (k : str -> prog A) : cap n cs = Some w ->
    pexec call (let* s := get_cap n cs in k s) d cur = pexec call (k w) d cur.
  Proof. intros H. unfold get_cap. rewrite H. reflexivity. Qed.
  Lemma cap_len_ok call {A} n cs w d (cur : LineCursor) (k : nat -> prog A) : cap n cs = Some w ->
    pexec call (let* i := cap_len n cs in k i) d cur = pexec call (k (length w)) d cur.
  Proof. intros H. unfold cap_len, get_cap. rewrite H. reflexivity. Qed.
End Steps.
