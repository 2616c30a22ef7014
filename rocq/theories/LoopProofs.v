(* LoopProofs.v -- facts about every program and about the parse loop for every
   table of transitions. *)
From Verif Require Import Base Common NodeTypes Tree DocTree History Regex Prog ParseLoop
  DocTreeProofs HyperrefProofs TransformProofs BlockProofs.
Require Import Lia.

(* ---------- document operations never run out of fuel ---------- *)
Lemma obind_fuel {A B} (m : outcome A) (f : A -> outcome B) :
  m <> OutOfFuel -> (forall a, m = Ret a -> f a <> OutOfFuel) -> obind m f <> OutOfFuel.
Proof. destruct m; cbn; auto; congruence. Qed.
Lemma actions_fuel d x : hyperref_actions d x <> OutOfFuel.
Proof.
  unfold hyperref_actions. set (dl := match accumulated (hyperref d), x with [], _ => _ | _, _ => _ end).
  destruct dl as [d' ls]. destruct x; try discriminate.
  - destruct kind; try (destruct (autonumber_spec d') as (r & -> & _)); cbn [obind]; try discriminate.
    + destruct r; discriminate.
    + destruct r; discriminate.
    + destruct (new_symbolic_footnote_label d'); cbn [obind]; unfold increment_symbolic_footnotes, u32_add;
        destruct (_ <=? _)%N; cbn; discriminate.
  - destruct kind; try (destruct (autoref_spec d') as (r & -> & _)); cbn [obind]; try discriminate.
    + destruct r; discriminate.
    + destruct r; discriminate.
    + destruct (new_symbolic_footnote_label d'); discriminate.
Qed.
Lemma allowed_fuel p c : child_is_allowed p c <> OutOfFuel.
Proof. unfold child_is_allowed. destruct p; discriminate. Qed.
Lemma parent_fuel z : focus_on_parent z <> OutOfFuel.
Proof.
  destruct z as [n [[pn pp pi]|] [i|]]; cbn [focus_on_parent]; try discriminate;
    try (destruct (node_children pn); discriminate).
  destruct (node_children pn); try discriminate. destruct (swap _ _ _); discriminate.
Qed.
Lemma z_push_child_fuel z n : z_push_child z n <> OutOfFuel.
Proof.
  unfold z_push_child, node_push_child. apply obind_fuel; [|intros [?|?] _; discriminate].
  apply obind_fuel; [apply allowed_fuel|]. intros [|] _; [destruct (node_children _)|]; discriminate.
Qed.
Lemma push_data_fuel d x : push_data d x <> OutOfFuel.
Proof.
  unfold push_data. apply obind_fuel; [apply actions_fuel|]. intros [[d' x'] ls] _.
  destruct (take_classes d') as [d2 cs]. apply obind_fuel; [|intros [?|?] _; discriminate].
  unfold z_push_data. apply obind_fuel; [apply z_push_child_fuel|]. intros [?|?] _; discriminate.
Qed.
Lemma focus_last_fuel z : focus_on_last_child z <> OutOfFuel.
Proof.
  unfold focus_on_last_child, checked_sub. destruct (node_children _); try discriminate.
  destruct (_ <=? _); discriminate.
Qed.
Lemma push_focus_fuel d x : push_data_and_focus d x <> OutOfFuel.
Proof.
  unfold push_data_and_focus. apply obind_fuel; [apply actions_fuel|]. intros [[d' x'] ls] _.
  destruct (take_classes d') as [d2 cs]. apply obind_fuel; [|intros [?|?] _; discriminate].
  unfold z_push_data_and_focus. apply obind_fuel; [apply z_push_child_fuel|].
  intros [?|?] _; [apply focus_last_fuel|discriminate].
Qed.
Lemma d_parent_fuel d : d_focus_on_parent d <> OutOfFuel.
Proof. unfold d_focus_on_parent. apply obind_fuel; [apply parent_fuel|]. intros; discriminate. Qed.
Lemma u32_add_fuel a b : u32_add a b <> OutOfFuel.
Proof. unfold u32_add. destruct (_ <=? _)%N; discriminate. Qed.
Lemma update_fuel f d : (forall x, f x <> OutOfFuel) -> update_data f d <> OutOfFuel.
Proof. intros H. unfold update_data. apply obind_fuel; auto. intros; discriminate. Qed.
Lemma dop_exec_fuel o d : dop_exec o d <> OutOfFuel.
Proof.
  destruct o; cbn [dop_exec]; try (destruct (is_section x); [discriminate|]); try discriminate.
  - apply obind_fuel; [apply push_data_fuel|]. intros [?|?] _; discriminate.
  - apply obind_fuel; [apply push_focus_fuel|]. intros [?|?] _; discriminate.
  - apply obind_fuel; [apply push_focus_fuel|]. intros [?|?] _; discriminate.
  - apply obind_fuel; [|intros [? [?|?]] _; discriminate]. unfold push_child.
    apply obind_fuel; [apply actions_fuel|]. intros [[d' x'] ls] _.
    apply obind_fuel; [apply z_push_child_fuel|]. intros [?|?] _; discriminate.
  - destruct (pop_child d); discriminate.
  - apply obind_fuel; [apply d_parent_fuel|]. intros; discriminate.
  - apply update_fuel. intros x. destruct x; discriminate.
  - apply update_fuel. intros x. destruct x; discriminate.
  - apply update_fuel. intros x. destruct x; try discriminate. cbn [add_points].
    apply obind_fuel; [apply u32_add_fuel|]. intros; discriminate.
  - apply update_fuel. intros x. destruct x; discriminate.
  - unfold next_anon_target_label. apply obind_fuel; [|intros [? ?] _; discriminate].
    apply obind_fuel; [apply u32_add_fuel|]. intros; discriminate.
  - unfold next_anon_reference_label. apply obind_fuel; [|intros [? ?] _; discriminate].
    apply obind_fuel; [apply u32_add_fuel|]. intros; discriminate.
Qed.

(* ---------- what programs do to documents ---------- *)
(* what must hold when a section is made: the focus is the document or a section
   of a lower level *)
Definition section_fits (d : DocTree) (style : SectionLineStyle) : Prop :=
  focused_data d = NDocument \/
  exists t l s, focused_data d = NSection t l s /\ l < line_style_section_level (sections d) style.
Definition dpre (o : dop) (d : DocTree) : Prop :=
  match o with DSection _ style => section_fits d style | _ => True end.

(* a sequence of document operations *)
Inductive dsteps : DocTree -> DocTree -> Prop :=
| ds_refl d : dsteps d d
| ds_step d d1 o a d2 : dsteps d d1 -> dpre o d1 -> dop_exec o d1 = Ret (a, d2) -> dsteps d d2.
Lemma dsteps_trans a b c : dsteps a b -> dsteps b c -> dsteps a c.
Proof. intros H H2. revert a H. induction H2 as [|d d1 o x d2 H2 IH Hp E]; intros; auto. eapply ds_step; [apply IH; auto|exact Hp|exact E]. Qed.
Lemma dsteps_one o d a d' : dpre o d -> dop_exec o d = Ret (a, d') -> dsteps d d'.
Proof. intros. eapply ds_step; eauto. constructor. Qed.

Lemma section_ok_not d x : is_section x = false -> section_level_ok d x.
Proof. intros H t l s ->. discriminate. Qed.
Lemma section_ok_new d t s : section_level_ok d (new_section_data d t s).
Proof. intros t' l' s' H. injection H as <- <- <-. reflexivity. Qed.
Lemma update_step f d a d' : (forall x y, f x = Ret (Some y) -> kind y = kind x /\ is_section y = false) ->
  update_data f d = Ret (a, d') -> d' = d \/ step d EMove d'.
Proof.
  intros Hf H. unfold update_data in H. destruct (f (focused_data d)) as [[y|]| |] eqn:E; cbn [obind] in H; try discriminate.
  - apply Ret_inj in H. injection H as <- <-. apply Hf in E as [E1 E2]. right. apply s_data; auto.
    destruct y; discriminate.
  - apply Ret_inj in H. injection H as <- <-. auto.
Qed.
Lemma dop_run o d a d' : dop_exec o d = Ret (a, d') -> d' = d \/ exists e, step d e d'.
Proof.
  destruct o; cbn [dop_exec]; intros H.
  - destruct (is_section x) eqn:S; try discriminate. apply section_ok_not with (d := d) in S.
    destruct (push_data d x) as [[y|y]| |] eqn:E; cbn [obind] in H; try discriminate;
      apply Ret_inj in H; injection H as <- <-; right; eexists; [apply s_push|apply s_push_err]; eauto.
  - destruct (is_section x) eqn:S; try discriminate. apply section_ok_not with (d := d) in S.
    destruct (push_data_and_focus d x) as [[y|y]| |] eqn:E; cbn [obind] in H; try discriminate;
      apply Ret_inj in H; injection H as <- <-; right; eexists; [apply s_push_focus|apply s_push_focus_err]; eauto.
  - destruct (push_data_and_focus _ _) as [[y|y]| |] eqn:E; cbn [obind] in H; try discriminate;
      apply Ret_inj in H; injection H as <- <-; right; eexists; [eapply s_push_focus|eapply s_push_focus_err]; eauto;
      apply section_ok_new.
  - destruct (is_section x) eqn:S; try discriminate. apply section_ok_not with (d := d) in S.
    destruct (push_child _ _) as [[y [[]|z]]| |] eqn:E; cbn [obind] in H; try discriminate;
      apply Ret_inj in H; injection H as <- <-; right; eexists; [apply s_push_child|eapply s_push_child_err]; eauto.
  - destruct (pop_child d) as [c d1] eqn:E. apply Ret_inj in H. injection H as <- <-. right. eexists. eapply s_pop; eauto.
  - destruct (d_focus_on_parent d) eqn:E; cbn [obind] in H; try discriminate.
    apply Ret_inj in H. injection H as <- <-. right. eexists. eapply s_parent; eauto.
  - apply update_step in H; [destruct H; eauto|]. intros x y. destruct x; cbn; intros E; try discriminate.
    apply Ret_inj, some_inj in E. subst. auto.
  - apply update_step in H; [destruct H; eauto|]. intros x y. destruct x; cbn; intros E; try discriminate.
    apply Ret_inj, some_inj in E. subst. auto.
  - apply update_step in H; [destruct H; eauto|]. intros x y. destruct x; cbn [add_points]; intros E; try discriminate.
    destruct (u32_add _ _); cbn [obind] in E; try discriminate. apply Ret_inj, some_inj in E. subst. auto.
  - apply update_step in H; [destruct H; eauto|]. intros x y. destruct x; cbn; intros E; try discriminate.
    apply Ret_inj, some_inj in E. subst. auto.
  - apply Ret_inj in H. injection H as <- <-. right. eexists. apply s_label.
  - destruct (next_anon_target_label d) as [[y l]| |] eqn:E; cbn [obind] in H; try discriminate.
    apply Ret_inj in H. injection H as <- <-. right. eexists. eapply s_anon_target; eauto.
  - destruct (next_anon_reference_label d) as [[y l]| |] eqn:E; cbn [obind] in H; try discriminate.
    apply Ret_inj in H. injection H as <- <-. right. eexists. eapply s_anon_ref; eauto.
Qed.
Lemma dsteps_run d0 d d' es : run step d0 es d -> dsteps d d' -> exists es', run step d0 (es ++ es') d'.
Proof.
  intros R H. induction H as [|d d1 o a d2 H IH Hp E].
  - exists []. now rewrite app_nil_r.
  - destruct (IH R) as (es' & R'). apply dop_run in E as [->|(e & E)]; eauto.
    exists (es' ++ [e]). rewrite app_assoc. econstructor; eauto.
Qed.

(* ---------- programs ---------- *)
(* the size of a source: its characters and lines *)
Definition src_size (src : list str) : nat := fold_right (fun l n => S (length l) + n) 0 src.

(* states with a table of transitions (state_machine/mod.rs:158-262); all others
   but EOF and Failure make the parser panic *)
Definition live (s : State) : Prop :=
  match s with
  | SAplusPickOne | SAplusPickAny | SHyperlinkTarget | SInternalHyperlinkTarget | SFailure | SEOF => False
  | _ => True
  end.
Definition live_result (r : presult) : Prop :=
  match r with REOF l | REmptyStateStack l => Forall live l | RFailure => True end.

(* A program is safe for sources of size n when it finishes, makes sections only
   where they fit, runs nested parsers only on smaller sources, and its results
   satisfy Q.  Of a nested run only what is proved of all runs is assumed. *)
Fixpoint safe {A} (n : nat) (Q : A -> DocTree -> LineCursor -> Prop) (p : prog A)
    (d : DocTree) (c : LineCursor) : Prop :=
  match p with
  | PRet a => Q a d c
  | PPanic => True
  | PFuel => False
  | PGet k => safe n Q (k d c) d c
  | PDoc o k => dpre o d /\ forall a d', dop_exec o d = Ret (a, d') -> safe n Q (k a) d' c
  | PAdvance m k => safe n Q k d (cur_add c m)
  | PParse src bi bl st k =>
      src_size src < n /\ live st /\
      forall r d', live_result r -> dsteps d d' -> safe n Q (k r) d' c
  end.
Lemma safe_bind {A B} n (P : A -> DocTree -> LineCursor -> Prop) (Q : B -> DocTree -> LineCursor -> Prop)
  (p : prog A) (f : A -> prog B) d c :
  safe n P p d c -> (forall a d c, P a d c -> safe n Q (f a) d c) -> safe n Q (pbind p f) d c.
Proof.
  intros H HF. revert d c H. induction p; cbn [safe pbind]; intros d c HS; auto.
  - destruct HS as [HP HS]. split; auto.
  - destruct HS as (H1 & H2 & H3). repeat split; auto.
Qed.
Lemma safe_mono {A} n m (P Q : A -> DocTree -> LineCursor -> Prop) (p : prog A) d c :
  safe n P p d c -> n <= m -> (forall a d c, P a d c -> Q a d c) -> safe m Q p d c.
Proof.
  intros H Hn HF. revert d c H. induction p; cbn [safe]; intros d c HS; auto.
  - destruct HS as [HP HS]. split; auto.
  - destruct HS as (H1 & H2 & H3). repeat split; auto. lia.
Qed.

(* the cursor never goes back, and keeps its base line *)
Lemma pexec_cursor {A} call (p : prog A) : forall d c a d' c',
  pexec call p d c = Ret (a, d', c') ->
  cur_offset c <= cur_offset c' /\ cur_baseline c' = cur_baseline c.
Proof.
  induction p as [a| | |k IH|o k IH|n k IH|src bi bl st k IH]; cbn [pexec]; intros d c x d' c' H.
  - injection H as <- <- <-. auto.
  - discriminate.
  - discriminate.
  - eauto.
  - destruct (dop_exec o d) as [[y d1]| |]; cbn [obind] in H; try discriminate. eauto.
  - apply IH in H as [H1 H2]. destruct c. cbn in *. split; [lia|auto].
  - destruct (call src bi bl st d) as [[y d1]| |]; cbn [obind] in H; try discriminate. eauto.
Qed.

(* more fuel for nested runs does not change a result *)
Definition call_le (f g : parse_call) : Prop :=
  forall src bi bl st d, f src bi bl st d <> OutOfFuel -> g src bi bl st d = f src bi bl st d.
Lemma pexec_le {A} f g (p : prog A) : call_le f g -> forall d c,
  pexec f p d c <> OutOfFuel -> pexec g p d c = pexec f p d c.
Proof.
  intros H. induction p as [a| | |k IH|o k IH|n k IH|src bi bl st k IH]; cbn [pexec]; intros d c E; auto.
  - destruct (dop_exec o d) as [[y d1]| |]; cbn [obind] in *; auto.
  - destruct (f src bi bl st d) as [[y d1]| |] eqn:F; cbn [obind] in *.
    + rewrite H, F by congruence. cbn [obind]. auto.
    + rewrite H, F by congruence. auto.
    + congruence.
Qed.

(* what a nested run has to give *)
Definition call_good (n : nat) (call : parse_call) : Prop :=
  forall src bi bl st d r d', src_size src < n -> live st -> call src bi bl st d = Ret (r, d') ->
    live_result r /\ dsteps d d'.
Lemma pexec_safe {A} n call Q (p : prog A) : call_good n call -> forall d c a d' c',
  safe n Q p d c -> pexec call p d c = Ret (a, d', c') -> Q a d' c' /\ dsteps d d'.
Proof.
  intros HC. induction p as [a| | |k IH|o k IH|m k IH|src bi bl st k IH]; cbn [pexec safe]; intros d c x d' c' HS H.
  - injection H as <- <- <-. split; auto. constructor.
  - discriminate.
  - discriminate.
  - eauto.
  - destruct (dop_exec o d) as [[y d1]| |] eqn:E; cbn [obind] in H; try discriminate.
    destruct HS as [HP HS]. destruct (IH _ _ _ _ _ _ (HS _ _ eq_refl) H) as [H1 H2]. split; auto.
    eapply dsteps_trans; eauto. eapply dsteps_one; eauto.
  - eauto.
  - destruct (call src bi bl st d) as [[y d1]| |] eqn:E; cbn [obind] in H; try discriminate.
    destruct HS as (H1 & H2 & H3). destruct (HC _ _ _ _ _ _ _ H1 H2 E) as [H4 H5].
    destruct (IH _ _ _ _ _ _ (H3 _ _ H4 H5) H) as [H6 H7]. split; auto. eapply dsteps_trans; eauto.
Qed.
Lemma pexec_fuel {A} n call Q (p : prog A) : call_good n call ->
  (forall src bi bl st d, src_size src < n -> live st -> call src bi bl st d <> OutOfFuel) ->
  forall d c, safe n Q p d c -> pexec call p d c <> OutOfFuel.
Proof.
  intros HC HF. induction p as [a| | |k IH|o k IH|m k IH|src bi bl st k IH]; cbn [pexec safe]; intros d c HS; auto; try discriminate.
  - destruct HS as [HP HS]. pose proof (dop_exec_fuel o d). destruct (dop_exec o d) as [[y d1]| |] eqn:E; cbn [obind]; auto; discriminate.
  - destruct HS as (H1 & H2 & H3). pose proof (HF src bi bl st d H1 H2).
    destruct (call src bi bl st d) as [[y d1]| |] eqn:E; cbn [obind]; auto; try discriminate.
    destruct (HC _ _ _ _ _ _ _ H1 H2 E). auto.
Qed.

(* ---------- the loop ---------- *)
Definition leaf_ok (t : tresult) (d : DocTree) (c : LineCursor) : Prop :=
  match t with TSuccess (Push l) _ => Forall live l | _ => True end.

Section LoopFacts.
  Variable table : State -> option transition_table.

  (* every live state has a table, and its transitions are safe *)
  Definition table_total : Prop := forall s, live s -> exists tbl, table s = Some tbl.
  Definition table_safe : Prop := forall s tbl r t src base line cs d c,
    table s = Some tbl -> In (r, t) tbl -> nth_error src (cur_offset c) = Some line ->
    captures r line = Some cs -> safe (src_size src) leaf_ok (t src base cs) d c.
  Hypothesis TS : table_safe.

  Notation loop := (parse_loop table).
  Notation run_parser := (parse table).

  (* what holds of the parser's variables between iterations *)
  Definition config_ok (src : list str) (c : config) : Prop :=
    exists l, Forall live l /\
      (cf_stack c = l \/ (cf_stack c = SEOF :: l /\ length src <= cur_offset (cf_cur c))).
  Lemma initial_ok src bl st d : live st -> config_ok src (initial bl st d).
  Proof. exists [st]. split; auto. Qed.

  Definition count_ok (c : config) : Prop := cf_changed c = true -> cf_count c = 0.
  Definition at_end (src : list str) (c : config) : Prop := exists rest, cf_stack c = SEOF :: rest.
  Definition before (src : list str) (c' c : config) : Prop :=
    cur_offset (cf_cur c) < cur_offset (cf_cur c') < length src \/
    cur_offset (cf_cur c) = cur_offset (cf_cur c') /\
      (cf_count c' = S (cf_count c) \/ cf_count c' = cf_count c /\ length (cf_stack c') < length (cf_stack c)).

  Lemma find_in line tbl t cs : find_transition line tbl = Some (t, cs) ->
    exists r, In (r, t) tbl /\ captures r line = Some cs.
  Proof.
    induction tbl as [|[r u] tbl IH]; cbn; [discriminate|].
    destruct (captures r line) eqn:E.
    - intros H. injection H as <- <-. eauto.
    - intros H. destruct (IH H) as (r' & ? & ?). eauto.
  Qed.

  Lemma end_check_spec src c : Forall live (cf_stack c) -> exists c', end_check src c = More c' /\
    config_ok src c' /\ cf_doc c' = cf_doc c /\ cf_cur c' = cf_cur c /\ cf_changed c' = cf_changed c /\
    cf_count c' = cf_count c /\
    (length src <= cur_offset (cf_cur c) /\ cf_stack c' = SEOF :: cf_stack c \/
     cur_offset (cf_cur c) < length src /\ c' = c).
  Proof.
    intros HL. unfold end_check. destruct (length src <=? cur_offset (cf_cur c)) eqn:E.
    - apply Nat.leb_le in E. eexists. split; [reflexivity|]. cbn. repeat split; auto.
      exists (cf_stack c). split; [auto|right; auto].
    - apply Nat.leb_gt in E. eexists. split; [reflexivity|]. repeat split; auto. exists (cf_stack c). auto.
  Qed.

  (* one iteration *)
  Definition done_ok (src : list str) (c : config) (r : presult) (d' : DocTree) : Prop :=
    live_result r /\ dsteps (cf_doc c) d' /\
    (forall l, r = REOF l -> length src <= cur_offset (cf_cur c)).
  Definition more_ok (src : list str) (c c' : config) : Prop :=
    config_ok src c' /\ count_ok c' /\ dsteps (cf_doc c) (cf_doc c') /\
    cur_offset (cf_cur c) <= cur_offset (cf_cur c') /\ cur_baseline (cf_cur c') = cur_baseline (cf_cur c) /\
    (cf_changed c = true \/ cf_count c < 10) /\ (at_end src c' \/ before src c' c).
  Lemma iterate_ok call src bi c n : call_good (src_size src) call -> config_ok src c -> count_ok c ->
    iterate table call src bi c = Ret n ->
    match n with Done r d' => done_ok src c r d' | More c' => more_ok src c c' end.
  Proof.
    intros HC (l & HL & HS) HN H. unfold iterate in H.
    destruct (negb (cf_changed c) && (10 <=? cf_count c)) eqn:St.
    { apply Ret_inj in H. subst n. repeat split; try constructor. discriminate. }
    assert (Hst : cf_changed c = true \/ cf_count c < 10).
    { destruct (cf_changed c); auto. right. apply Nat.leb_gt. exact St. }
    destruct HS as [HS|[HS HE]].
    2:{ rewrite HS in H. apply Ret_inj in H. subst n. repeat split; try constructor; [|auto].
        cbn. apply Forall_forall. intros x Hx. apply in_rev in Hx. rewrite Forall_forall in HL. auto. }
    rewrite HS in H. destruct l as [|s rest].
    { apply Ret_inj in H. subst n. repeat split; try constructor. discriminate. }
    assert (Hlive : live s /\ Forall live rest) by (inversion HL; auto). destruct Hlive as [Hs Hrest].
    assert (HB : forall tbl, table s = Some tbl ->
      (let no_match := let! d := d_focus_on_parent (cf_doc c) in
         Ret (end_check src (MkCfg rest d (cf_cur c) false (cf_count c))) in
       match tbl with
       | [] => no_match
       | _ => match nth_error src (cur_offset (cf_cur c)) with
              | None => Ret (Done RFailure (cf_doc c))
              | Some line => match find_transition line tbl with
                 | None => no_match
                 | Some (t, cs) =>
                     let! (r, d, cur) := pexec call (t src bi cs) (cf_doc c) (cf_cur c) in
                     Ret (check_end src (after_transition c rest r d cur))
                 end
              end
       end) = Ret n -> match n with Done r d' => done_ok src c r d' | More c' => more_ok src c c' end).
    { clear H. intros tbl Ht H.
      assert (HNM : forall n, (let! d := d_focus_on_parent (cf_doc c) in
         Ret (end_check src (MkCfg rest d (cf_cur c) false (cf_count c)))) = Ret n ->
         match n with Done r d' => done_ok src c r d' | More c' => more_ok src c c' end).
      { clear H n. intros n H. destruct (d_focus_on_parent (cf_doc c)) as [d1| |] eqn:E; cbn [obind] in H; try discriminate.
        apply Ret_inj in H. subst n.
        destruct (end_check_spec src (MkCfg rest d1 (cf_cur c) false (cf_count c)) Hrest) as (c' & -> & Hok & Hd & Hc & Hch & Hct & Hcase).
        cbn in Hd, Hc, Hch, Hct, Hcase. repeat split; auto.
        - unfold count_ok. rewrite Hch. discriminate.
        - rewrite Hd. apply (dsteps_one DParent _ AOk); [exact I|]. cbn. rewrite E. auto.
        - now rewrite Hc.
        - now rewrite Hc.
        - destruct Hcase as [[_ Hcase]|[_ ->]]; [left; eexists; eauto|]. right. right. cbn. split; auto.
          right. split; auto. rewrite HS. cbn. lia. }
      cbv zeta in H. destruct tbl as [|e tbl]; [exact (HNM n H)|].
      destruct (nth_error src (cur_offset (cf_cur c))) as [line|] eqn:El.
      2:{ apply Ret_inj in H. subst n. repeat split; try constructor. discriminate. }
      destruct (find_transition line (e :: tbl)) as [[t cs]|] eqn:Ef; [|exact (HNM n H)].
      apply find_in in Ef as (r & Hin & Hcap).
      destruct (pexec call (t src bi cs) (cf_doc c) (cf_cur c)) as [[[tr d'] cur]| |] eqn:Ep; cbn [obind] in H; try discriminate.
      apply Ret_inj in H. subst n.
      pose proof (TS _ _ _ _ src bi _ _ (cf_doc c) (cf_cur c) Ht Hin El Hcap) as Hsafe.
      destruct (pexec_safe _ _ _ _ HC _ _ _ _ _ Hsafe Ep) as [Hleaf Hdst].
      destruct (pexec_cursor _ _ _ _ _ _ _ Ep) as [Hcur Hbase].
      destruct tr as [pp adv|]; cbn [after_transition check_end].
      2:{ split; [exact I|]. split; [auto|discriminate]. }
      set (stack := match pp with Push states => rev states ++ cf_stack c | Pop => rest | Neither => cf_stack c end).
      assert (Hstack : Forall live stack).
      { subst stack. destruct pp; auto; rewrite HS; auto. apply Forall_app. split; auto.
        cbn in Hleaf. apply Forall_forall. intros x Hx. apply in_rev in Hx. rewrite Forall_forall in Hleaf. auto. }
      set (cur' := match adv with Some n => cur_add cur n | None => cur end).
      assert (Hcur' : cur_offset (cf_cur c) <= cur_offset cur' /\ cur_baseline cur' = cur_baseline (cf_cur c)).
      { subst cur'. destruct adv; [destruct cur; cbn in *; split; [lia|auto]|auto]. }
      clearbody stack cur'. destruct Hcur' as [Ho Hb].
      destruct (cur_sum cur' =? cur_sum (cf_cur c)) eqn:Es.
      - assert (Hsame : cur_offset cur' = cur_offset (cf_cur c)).
        { apply Nat.eqb_eq in Es. unfold cur_sum in Es. lia. }
        destruct (end_check_spec src (MkCfg stack d' cur' false (S (cf_count c))) Hstack) as (c' & -> & Hok & Hd & Hc & Hch & Hct & Hcase).
        cbn in Hd, Hc, Hch, Hct, Hcase. split; [auto|]. split; [unfold count_ok; rewrite Hch; discriminate|].
        rewrite Hd, Hc. repeat split; auto.
        destruct Hcase as [[_ Hcase]|[_ ->]]; [left; eexists; eauto|]. right. right. cbn. auto.
      - assert (Hlt : cur_offset (cf_cur c) < cur_offset cur').
        { apply Nat.eqb_neq in Es. unfold cur_sum in Es. lia. }
        destruct (end_check_spec src (MkCfg stack d' cur' true 0) Hstack) as (c' & -> & Hok & Hd & Hc & Hch & Hct & Hcase).
        cbn in Hd, Hc, Hch, Hct, Hcase. split; [auto|]. split; [unfold count_ok; auto|].
        rewrite Hd, Hc. repeat split; auto.
        destruct Hcase as [[_ Hcase]|[Hl2 ->]]; [left; eexists; eauto|]. right. left. cbn. lia. }
    destruct s; cbn in Hs; try contradiction;
      (destruct (table _) as [tbl|] eqn:Et; [|discriminate]; apply (HB tbl eq_refl H)).
  Qed.

  Lemma parse_loop_good fuel : forall src bi c r d', config_ok src c -> count_ok c ->
    loop fuel src bi c = Ret (r, d') -> live_result r /\ dsteps (cf_doc c) d'.
  Proof.
    induction fuel as [|f IH]; cbn [parse_loop]; intros src bi c r d' Hc Hn H; [discriminate|].
    destruct (iterate _ _ _ _ _) as [n| |] eqn:E; cbn [obind] in H; try discriminate.
    apply iterate_ok in E; auto.
    - destruct n as [r' d1|c'].
      + apply Ret_inj in H. injection H as -> ->. destruct E as (H1 & H2 & _). auto.
      + destruct E as (H1 & H2 & H3 & _). destruct (IH _ _ _ _ _ H1 H2 H) as [H4 H5]. split; auto.
        eapply dsteps_trans; eauto.
    - intros src' bi' bl st d r' d'' _ Hl Hp.
      apply (IH src' bi' (initial bl st d)); auto; [now apply initial_ok|discriminate].
  Qed.
  Lemma parse_good n fuel : call_good n (run_parser fuel).
  Proof.
    intros src bi bl st d r d' _ Hl H. eapply parse_loop_good in H; eauto; [now apply initial_ok|discriminate].
  Qed.
End LoopFacts.

(* more fuel gives the same result; for every table *)
Lemma iterate_le table f g src bi c : call_le f g ->
  iterate table f src bi c <> OutOfFuel -> iterate table g src bi c = iterate table f src bi c.
Proof.
  intros H. unfold iterate. destruct (_ && _); auto. destruct (cf_stack c) as [|s rest]; auto.
  assert (HB : forall tbl : transition_table,
     let body call := (let no_match := let! d := d_focus_on_parent (cf_doc c) in
         Ret (end_check src (MkCfg rest d (cf_cur c) false (cf_count c))) in
       match tbl with
       | [] => no_match
       | _ => match nth_error src (cur_offset (cf_cur c)) with
              | None => Ret (Done RFailure (cf_doc c))
              | Some line => match find_transition line tbl with
                 | None => no_match
                 | Some (t, cs) =>
                     let! (r, d, cur) := pexec call (t src bi cs) (cf_doc c) (cf_cur c) in
                     Ret (check_end src (after_transition c rest r d cur))
                 end
              end
       end) in body f <> OutOfFuel -> body g = body f).
  { intros tbl body Hb. subst body. destruct tbl as [|e tbl]; auto. cbv zeta beta in *.
    destruct (nth_error _ _); auto. destruct (find_transition _ _) as [[t cs]|]; auto.
    rewrite (pexec_le f g); auto. intros E. rewrite E in Hb. apply Hb. reflexivity. }
  destruct s; auto; (destruct (table _) as [tbl|]; [apply (HB tbl)|auto]).
Qed.
Lemma parse_loop_le table f : forall g src bi c, f <= g ->
  parse_loop table f src bi c <> OutOfFuel -> parse_loop table g src bi c = parse_loop table f src bi c.
Proof.
  induction f as [|f IH]; intros g src bi c Hg H; [cbn in H; congruence|].
  destruct g as [|g]; [lia|]. cbn [parse_loop] in *.
  set (cf := fun src' bi bl st d => parse_loop table f src' bi (initial bl st d)) in *.
  set (cg := fun src' bi bl st d => parse_loop table g src' bi (initial bl st d)).
  assert (HC : call_le cf cg) by (intros src' bi' bl st d Hne; apply IH; [lia|exact Hne]).
  assert (Hi : iterate table cf src bi c <> OutOfFuel).
  { intros E. apply H. rewrite E. reflexivity. }
  rewrite (iterate_le _ _ _ _ _ _ HC Hi).
  destruct (iterate table cf src bi c) as [[r d|c']| |]; cbn [obind] in *; auto. apply IH; [lia|auto].
Qed.
Lemma parse_le table f g : f <= g -> call_le (parse table f) (parse table g).
Proof. intros H src bi bl st d E. apply parse_loop_le; auto. Qed.

(* ---------- termination ---------- *)
Definition finishes (table : State -> option transition_table) (src : list str) (bi : nat) (c : config) : Prop :=
  exists fuel, parse_loop table fuel src bi c <> OutOfFuel.

Lemma pexec_finishes {A} table n Q (p : prog A) : table_safe table ->
  (forall src bi bl st d, src_size src < n -> live st -> finishes table src bi (initial bl st d)) ->
  forall d c, safe n Q p d c -> exists fuel, pexec (parse table fuel) p d c <> OutOfFuel.
Proof.
  intros TS HF. induction p as [a| | |k IH|o k IH|m k IH|src bi bl st k IH]; cbn [pexec safe]; intros d c HS;
    try (exists 0; discriminate); auto.
  - destruct HS.
  - destruct HS as [HP HS]. pose proof (dop_exec_fuel o d). destruct (dop_exec o d) as [[y d1]| |] eqn:E; cbn [obind].
    + eapply IH. eauto.
    + exists 0. discriminate.
    + congruence.
  - destruct HS as (H1 & H2 & H3). destruct (HF src bi bl st d H1 H2) as [f1 Hf1].
    destruct (parse table f1 src bi bl st d) as [[y d1]| |] eqn:E.
    + destruct (parse_good table TS n f1 _ _ _ _ _ _ _ H1 H2 E) as [H4 H5].
      destruct (IH _ _ _ (H3 _ _ H4 H5)) as [f2 Hf2].
      exists (Nat.max f1 f2). rewrite (parse_le table f1 (Nat.max f1 f2)) by (lia || (rewrite E; discriminate)).
      rewrite E. cbn [obind]. rewrite (pexec_le (parse table f2)); auto. apply parse_le. lia.
    + exists f1. rewrite E. discriminate.
    + unfold parse in E. congruence.
Qed.

Section Termination.
  Variable table : State -> option transition_table.
  Hypothesis TS : table_safe table.
  Variable src : list str.
  Variable bi : nat.
  Hypothesis nested : forall src' bi' bl st d, src_size src' < src_size src -> live st ->
    finishes table src' bi' (initial bl st d).

  (* if the next configuration always finishes, so does this one *)
  Lemma finishes_step c : config_ok src c -> count_ok c ->
    (forall c', more_ok src c c' -> finishes table src bi c') -> finishes table src bi c.
  Proof.
    intros Hc Hn HF.
    assert (HI : exists fuel, iterate table (parse table fuel) src bi c <> OutOfFuel).
    { unfold iterate. destruct (_ && _); [exists 0; discriminate|].
      destruct (cf_stack c) as [|s rest] eqn:HS; [exists 0; discriminate|].
      assert (HB : forall tbl, table s = Some tbl ->
         exists fuel, (let no_match := let! d := d_focus_on_parent (cf_doc c) in
             Ret (end_check src (MkCfg rest d (cf_cur c) false (cf_count c))) in
           match tbl with
           | [] => no_match
           | _ => match nth_error src (cur_offset (cf_cur c)) with
                  | None => Ret (Done RFailure (cf_doc c))
                  | Some line => match find_transition line tbl with
                     | None => no_match
                     | Some (t, cs) =>
                         let! (r, d, cur) := pexec (parse table fuel) (t src bi cs) (cf_doc c) (cf_cur c) in
                         Ret (check_end src (after_transition c rest r d cur))
                     end
                  end
           end) <> OutOfFuel).
      { intros tbl Ht. cbv zeta.
        assert (HNM : (let! d := d_focus_on_parent (cf_doc c) in
             Ret (end_check src (MkCfg rest d (cf_cur c) false (cf_count c)))) <> OutOfFuel).
        { apply obind_fuel; [apply d_parent_fuel|discriminate]. }
        destruct tbl as [|e tbl]; [exists 0; auto|].
        destruct (nth_error src _) as [line|] eqn:El; [|exists 0; discriminate].
        destruct (find_transition line (e :: tbl)) as [[t cs]|] eqn:Ef; [|exists 0; auto].
        apply find_in in Ef as (r & Hin & Hcap).
        pose proof (TS _ _ _ _ src bi _ _ (cf_doc c) (cf_cur c) Ht Hin El Hcap) as Hsafe.
        destruct (pexec_finishes table _ _ _ TS nested _ _ Hsafe) as [f Hf].
        exists f. apply obind_fuel; auto. intros [[? ?] ?] _. discriminate. }
      destruct s; try (exists 0; discriminate);
        (destruct (table _) as [tbl|] eqn:Et; [apply (HB tbl eq_refl)|exists 0; discriminate]). }
    destruct HI as [f1 HI].
    destruct (iterate table (parse table f1) src bi c) as [n| |] eqn:E; [| |congruence].
    - pose proof (iterate_ok table TS _ _ _ _ _ (parse_good table TS _ f1) Hc Hn E) as Hok.
      destruct n as [r d|c'].
      + exists (S f1). cbn [parse_loop]. fold (parse table f1). rewrite E. discriminate.
      + destruct (HF _ Hok) as [f2 H2]. exists (S (Nat.max f1 f2)). cbn [parse_loop]. fold (parse table (Nat.max f1 f2)).
        rewrite (iterate_le table (parse table f1)) by (apply parse_le; lia) || (rewrite E; discriminate).
        rewrite E. cbn [obind]. rewrite (parse_loop_le table f2) by (lia || auto). auto.
    - exists (S f1). cbn [parse_loop]. fold (parse table f1). rewrite E. discriminate.
  Qed.

  Lemma finishes_at_end c : config_ok src c -> count_ok c -> at_end src c -> finishes table src bi c.
  Proof.
    intros Hc Hn [rest HE]. exists 1. cbn [parse_loop]. unfold iterate. rewrite HE.
    destruct (_ && _); discriminate.
  Qed.

  Lemma finishes_all m1 : forall m2 m3 c, config_ok src c -> count_ok c ->
    length src - cur_offset (cf_cur c) <= m1 -> 11 - cf_count c <= m2 -> length (cf_stack c) <= m3 ->
    finishes table src bi c.
  Proof.
    induction m1 as [m1 IH1] using lt_wf_ind. intros m2.
    induction m2 as [m2 IH2] using lt_wf_ind. intros m3.
    induction m3 as [m3 IH3] using lt_wf_ind. intros c Hc Hn H1 H2 H3.
    apply finishes_step; auto. intros c' (Hc' & Hn' & _ & Hle & _ & Hcnt & [He|Hb]); [apply finishes_at_end; auto|].
    destruct Hb as [[Ha Hb]|[Ha [Hb|[Hb Hs]]]].
    - apply (IH1 (length src - cur_offset (cf_cur c'))) with (m2 := 11) (m3 := length (cf_stack c')); auto; lia.
    - assert (Hlt : cf_count c < 10).
      { destruct Hcnt as [Hch|Hch]; auto. rewrite (Hn Hch). lia. }
      apply (IH2 (11 - cf_count c')) with (m3 := length (cf_stack c')); auto; lia.
    - apply (IH3 (length (cf_stack c'))); auto; lia.
  Qed.
End Termination.

Theorem loop_finishes table : table_safe table -> forall src bi c, config_ok src c -> count_ok c ->
  finishes table src bi c.
Proof.
  intros TS src. remember (src_size src) as n eqn:Hn. revert src Hn.
  induction n as [n IH] using lt_wf_ind. intros src -> bi c Hc Hk.
  apply (finishes_all table TS src bi) with (m1 := length src - cur_offset (cf_cur c))
    (m2 := 11 - cf_count c) (m3 := length (cf_stack c)); auto.
  intros src' bi' bl st d Hlt Hl. apply (IH (src_size src')); auto; [now apply initial_ok|discriminate].
Qed.
