(* Hoare.v -- invariants of the document over whole runs of the parser.  A program
   is related to what it leaves behind; of a nested run only the invariant itself
   is assumed.  Nothing here depends on a particular invariant. *)
From Verif Require Import Base Common NodeTypes Tree DocTree History Regex Prog ParseLoop LoopProofs BlockProofs.
Require Import Lia.

Section Hoare.
  (* what holds between transitions, and what holds when parsing fails *)
  Variables I W : DocTree -> Prop.
  Definition ends (r : presult) (d : DocTree) : Prop := match r with RFailure => W d | _ => I d end.
  Definition leaves (t : tresult) (d : DocTree) (c : LineCursor) : Prop := match t with TFailure => W d | _ => I d end.

  Fixpoint hsafe {A} (Q : A -> DocTree -> LineCursor -> Prop) (p : prog A) (d : DocTree) (c : LineCursor) : Prop :=
    match p with
    | PRet a => Q a d c
    | PPanic | PFuel => True
    | PGet k => hsafe Q (k d c) d c
    | PDoc o k => forall a d', dop_exec o d = Ret (a, d') -> hsafe Q (k a) d' c
    | PAdvance m k => hsafe Q k d (cur_add c m)
    | PParse src bi bl st k => I d /\ forall r d', ends r d' -> hsafe Q (k r) d' c
    end.
  Lemma hsafe_bind {A B} (P : A -> DocTree -> LineCursor -> Prop) (Q : B -> DocTree -> LineCursor -> Prop)
    (p : prog A) (f : A -> prog B) d c :
    hsafe P p d c -> (forall a d c, P a d c -> hsafe Q (f a) d c) -> hsafe Q (pbind p f) d c.
  Proof.
    intros H HF. revert d c H. induction p; cbn [hsafe pbind]; intros d c HS; auto.
    destruct HS as [H1 H2]. split; auto.
  Qed.
  Lemma h_bind {A B} (Q : B -> DocTree -> LineCursor -> Prop) (p : prog A) (f : A -> prog B) d c :
    hsafe (fun a d c => hsafe Q (f a) d c) p d c -> hsafe Q (pbind p f) d c.
  Proof. intros H. eapply hsafe_bind; eauto. Qed.

  Definition call_keeps (call : parse_call) : Prop := forall src bi bl st d r d', I d ->
    call src bi bl st d = Ret (r, d') -> ends r d'.
  Lemma pexec_keeps {A} call Q (p : prog A) : call_keeps call -> forall d c a d' c',
    hsafe Q p d c -> pexec call p d c = Ret (a, d', c') -> Q a d' c'.
  Proof.
    intros HC. induction p as [a| | |k IH|o k IH|m k IH|src bi bl st k IH]; cbn [pexec hsafe]; intros d c x d' c' HS H;
      try discriminate; eauto.
    - apply Ret_inj in H. injection H as <- <- <-. auto.
    - destruct (dop_exec o d) as [[y d1]| |] eqn:E; cbn [obind] in H; try discriminate. eapply IH; eauto.
    - destruct (call src bi bl st d) as [[y d1]| |] eqn:E; cbn [obind] in H; try discriminate.
      destruct HS as [H1 H2]. eapply IH; eauto.
  Qed.

  Variable table : State -> option transition_table.
  Hypothesis IW : forall d, I d -> W d.
  Hypothesis IP : forall d d', I d -> d_focus_on_parent d = Ret d' -> I d'.
  Hypothesis TK : forall s tbl r t src base line cs d c, table s = Some tbl -> In (r, t) tbl -> captures r line = Some cs ->
    I d -> hsafe leaves (t src base cs) d c.

  Lemma iterate_keeps call src bi cf n : call_keeps call -> I (cf_doc cf) -> iterate table call src bi cf = Ret n ->
    match n with Done r d => ends r d | More cf' => I (cf_doc cf') end.
  Proof.
    intros HC HI H. unfold iterate in H.
    destruct (negb (cf_changed cf) && (10 <=? cf_count cf)).
    { apply Ret_inj in H. subst n. cbn. auto. }
    destruct (cf_stack cf) as [|s rest] eqn:ES.
    { apply Ret_inj in H. subst n. cbn. auto. }
    assert (HNM : forall n, (let! d := d_focus_on_parent (cf_doc cf) in
         Ret (end_check src (MkCfg rest d (cf_cur cf) false (cf_count cf)))) = Ret n ->
         match n with Done r d => ends r d | More cf' => I (cf_doc cf') end).
    { clear H n. intros n H. destruct (d_focus_on_parent (cf_doc cf)) as [d1| |] eqn:E; cbn [obind] in H; try discriminate.
      apply Ret_inj in H. subst n. unfold end_check. cbn [cf_cur cf_stack cf_doc]. destruct (_ <=? _); cbn [cf_doc]; eauto. }
    assert (HB : forall tbl, table s = Some tbl ->
      (let no_match := let! d := d_focus_on_parent (cf_doc cf) in
         Ret (end_check src (MkCfg rest d (cf_cur cf) false (cf_count cf))) in
       match tbl with
       | [] => no_match
       | _ => match nth_error src (cur_offset (cf_cur cf)) with
              | None => Ret (Done RFailure (cf_doc cf))
              | Some line => match find_transition line tbl with
                 | None => no_match
                 | Some (t, cs) =>
                     let! (r, d, cur) := pexec call (t src bi cs) (cf_doc cf) (cf_cur cf) in
                     Ret (check_end src (after_transition cf rest r d cur))
                 end
              end
       end) = Ret n -> match n with Done r d => ends r d | More cf' => I (cf_doc cf') end).
    { clear H. intros tbl Ht H. cbv zeta in H. destruct tbl as [|e tbl]; [exact (HNM n H)|].
      destruct (nth_error src _) as [line|]; [|apply Ret_inj in H; subst n; cbn; auto].
      destruct (find_transition line (e :: tbl)) as [[t cs]|] eqn:Ef; [|exact (HNM n H)].
      apply find_in in Ef as (r & Hin & Hcap).
      destruct (pexec call (t src bi cs) (cf_doc cf) (cf_cur cf)) as [[[tr d'] cur]| |] eqn:Ep; cbn [obind] in H; try discriminate.
      apply Ret_inj in H. subst n.
      pose proof (pexec_keeps _ _ _ HC _ _ _ _ _ (TK _ _ _ _ src bi line cs (cf_doc cf) (cf_cur cf) Ht Hin Hcap HI) Ep) as HL.
      destruct tr as [pp adv|]; cbn [after_transition check_end leaves] in *; [|exact HL].
      destruct (cur_sum _ =? _); unfold end_check; cbn [cf_cur cf_stack cf_doc]; destruct (_ <=? _); exact HL. }
    destruct s; try (apply Ret_inj in H; subst n; cbn; auto; fail);
      (destruct (table _) as [tbl|] eqn:Et; [|discriminate]; apply (HB tbl eq_refl H)).
  Qed.
  Lemma loop_keeps fuel : forall src bi cf r d, I (cf_doc cf) -> parse_loop table fuel src bi cf = Ret (r, d) -> ends r d.
  Proof.
    induction fuel as [|f IH]; cbn [parse_loop]; intros src bi cf r d HI H; [discriminate|].
    destruct (iterate _ _ _ _ _) as [n| |] eqn:E; cbn [obind] in H; try discriminate.
    apply iterate_keeps in E; auto.
    - destruct n as [r' d'|cf']; [|eauto]. apply Ret_inj in H. injection H as -> ->. exact E.
    - intros src' bi' bl st d' r' d'' HI' Hp. eapply IH; [|exact Hp]. exact HI'.
  Qed.
  Theorem parse_keeps fuel src bi bl st d r d' : I d -> parse table fuel src bi bl st d = Ret (r, d') -> ends r d'.
  Proof. intros HI H. eapply loop_keeps; [|exact H]. exact HI. Qed.
End Hoare.
