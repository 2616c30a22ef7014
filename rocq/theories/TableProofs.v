(* TableProofs.v -- list tables (used for C47 and C59). *)
From Verif Require Import Base Unicode Regex Patterns Common Converters NodeTypes Tree DocTree History Blocks Prog ParseLoop
  Inline Body Directives Parser Spec RegexProofs BlockProofs TreeProofs DocTreeProofs HyperrefProofs InlineSpec RegexGroups InlineProofs LoopProofs
  Utf8Latex Writer WriterProofs Transforms TransformProofs TextProofs OpenProofs SimpleSpec LineProofs Properties7 RunProofs StepProofs ChunkProofs Properties13 ParaProofs NumberProofs LeaveProofs GroupProofs
  MarkerProofs OpenerProofs EntryProofs LeafProofs ShiftProofs BoxProofs QuizProofs QuestionProofs QuizRunProofs.

(* ---------- nodes below an open one, whatever they are written as ---------- *)
Definition link := (TreeNodeType * list TreeNode)%type.
Inductive chained (z0 : TreeZipper) : list link -> TreeZipper -> Prop :=
| ch_nil : chained z0 [] z0
| ch_cons i x cs ch p : chained z0 ch p -> chained z0 ((x, cs) :: ch) (Zip (Node i None None x (Some cs)) (Some p) (Some (length (kids (z_node p))))).
Lemma chained_sound z0 ch z : sound z0 -> chained z0 ch z -> sound z.
Proof.
  intros Hz H. induction H as [|i x cs ch p H [W K]]; [exact Hz|]. split; [|cbn; discriminate]. cbn [wf]. split; [exact W|].
  unfold kids. destruct (node_children (z_node p)); [lia|congruence].
Qed.
Definition ledger (d : DocTree) (z0 : TreeZipper) (ch : list link) (seen : list SectionLineStyle) : Prop := chained z0 ch (tree d) /\ calm d seen.
Lemma ledger_data d z0 x cs ch seen : ledger d z0 ((x, cs) :: ch) seen -> focused_data d = x.
Proof. intros [H _]. unfold focused_data. inversion H; subst. reflexivity. Qed.
Lemma ledger_push d z0 y ys ch seen x : ledger d z0 ((y, ys) :: ch) seen -> sound z0 -> unlabelled x = true -> can_have_children (kind x) = true ->
  child_is_allowed (kind y) (kind x) = Ret true ->
  exists d', dop_exec (DPushFocus x) d = Ret (AOk, d') /\ ledger d' z0 ((x, []) :: (y, ys) :: ch) seen.
Proof.
  intros L Hz Hu Hcc Hk. pose proof (ledger_data _ _ _ _ _ _ L) as Hx. destruct L as [H (Ha & Hc & Hs)]. pose proof (chained_sound _ _ _ Hz H) as [W _].
  cbn [dop_exec]. rewrite (unlabelled_section _ Hu). unfold push_data_and_focus. rewrite unlabelled_actions by auto. cbn [obind]. rewrite no_classes by auto.
  rewrite (push_focus_ok d ys); [|exact W|inversion H; reflexivity|now rewrite Hx]. cbn [obind]. eexists. split; [reflexivity|]. split; [|unfold calm; auto].
  cbn [tree d_set_count d_set_tree]. unfold new_node. rewrite Hcc. replace (length ys) with (length (kids (z_node (tree d)))) by (inversion H; reflexivity).
  now constructor.
Qed.
Lemma ledger_back d z0 x xs y ys ch seen : ledger d z0 ((x, xs) :: (y, ys) :: ch) seen -> sound z0 ->
  exists d' i, d_focus_on_parent d = Ret d' /\ ledger d' z0 ((y, ys ++ [Node i None None x (Some xs)]) :: ch) seen.
Proof.
  intros [H Hc] Hz. pose proof (chained_sound _ _ _ Hz H) as [W _]. unfold d_focus_on_parent. remember (tree d) as t eqn:Et.
  remember ((x, xs) :: (y, ys) :: ch) as l eqn:El. destruct H as [|i x' cs' ch' p H]; [discriminate|].
  assert (x' = x /\ cs' = xs /\ ch' = (y, ys) :: ch) as (-> & -> & ->) by (repeat split; congruence).
  rewrite focus_on_parent_wf by exact W. cbn [obind]. eexists. exists i. split; [reflexivity|]. split; [|exact Hc]. cbn [tree d_set_tree].
  remember ((y, ys) :: ch) as l eqn:El2. destruct H as [|i2 y' ys' ch' q H]; [discriminate|].
  assert (y' = y /\ ys' = ys /\ ch' = ch) as (-> & -> & ->) by (repeat split; congruence).
  unfold put_back, kids. cbn [z_node node_children z_with_node with_children]. rewrite unswap_last. now constructor.
Qed.

(* ---------- lines that begin with a bullet ---------- *)
Definition bullet_at (b : char) (l : str) : Prop := existsb (N.eqb b) bullet_chars = true /\ exists c t, l = c :: t /\ is_whitespace c = false.
Lemma bullet_reads b l : bullet_at b l -> captures BLANK_LINE (b :: 32%N :: l) = None /\
  exists cs, cap 1 cs = Some [] /\ cap 2 cs = Some [b] /\ whole cs = [b; 32%N] /\ captures BULLET (b :: 32%N :: l) = Some cs.
Proof.
  intros (Hb & c & t & -> & Hc). split; [apply (ink_blank [] b (32%N :: c :: t)); now apply bullet_ink|].
  destruct (bl_bullet [] b c t eq_refl Hb Hc) as (cs & E & C1 & C2 & C3). exists cs. repeat split; auto.
Qed.
Lemma bullet_finds b l tbl t : bullet_at b l ->
  (body_table tbl /\ t = body_bullet) \/ (tbl = LIST_TABLE_TRANSITIONS /\ t = body_bullet) \/ (tbl = BULLET_LIST_TRANSITIONS /\ t = list_bullet) ->
  exists cs, cap 1 cs = Some [] /\ cap 2 cs = Some [b] /\ whole cs = [b; 32%N] /\ find_transition (b :: 32%N :: l) tbl = Some (t, cs).
Proof.
  intros Hb H. destruct (bullet_reads _ _ Hb) as (Hbl & cs & C1 & C2 & C3 & E). exists cs. split; [exact C1|]. split; [exact C2|]. split; [exact C3|].
  destruct H as [[Ht ->]|[[-> ->]|[-> ->]]].
  - destruct Hb as (Hb & c & u & -> & Hc). apply find_in_body; [exact Ht|exact Hbl|now apply (bl_attribution [] b c u)|apply (ink_break []); [reflexivity|now apply bullet_ink|now intros ->]|].
    unfold body_rest. now apply find_some.
  - unfold LIST_TABLE_TRANSITIONS, empty_line_entry. rewrite find_none by exact Hbl. now apply find_some.
  - unfold BULLET_LIST_TRANSITIONS, empty_line_entry. rewrite find_none by exact Hbl. now apply find_some.
Qed.
Lemma bullet_bytes b : existsb (N.eqb b) bullet_chars = true -> byte_len [b; 32%N] = 2.
Proof.
  intros H. apply existsb_exists in H as (y & Hy & Ey). apply N.eqb_eq in Ey. subst y. vm_compute in Hy. repeat (destruct Hy as [<-|Hy]; [reflexivity|]). contradiction.
Qed.

Section Tables.
  Variables (ord : hash_order) (full : bool).
  Notation under := (under ord full).
  Notation at_ := (at_ ord full).
  Notation fresh := (fresh ord full).
  Variables (z0 : TreeZipper) (seen : list SectionLineStyle).
  Hypothesis (Hz : sound z0).
  Notation ledger d ch := (ledger d z0 ch seen).

  (* a line of a bullet, seen by something of a greater indentation *)
  Lemma leave_item src base c S0 st p n b l x xs y ys ch m : placed src c (S0 :: st) p n -> n <= 9 -> nth_error src p = Some (b :: 32%N :: l) -> bullet_at b l ->
    live S0 -> table S0 = Some BODY_TRANSITIONS -> ledger (cf_doc c) ((x, xs) :: (y, ys) :: ch) -> NodeTypes.body_indent x = Some m -> base < m ->
    exists c' i, steps src base c c' /\ placed src c' st p (n + 1) /\ ledger (cf_doc c') ((y, ys ++ [Node i None None x (Some xs)]) :: ch).
  Proof.
    intros Hp Hn Hl Hb Hlive Ht L Hm Hlt. destruct (bullet_finds _ _ BODY_TRANSITIONS body_bullet Hb ltac:(left; split; [now left|reflexivity])) as (cs & C1 & C2 & _ & Hf).
    destruct (ledger_back _ _ _ _ _ _ _ _ L Hz) as (d' & i & Ed & L').
    destruct (placed_step src base c S0 st p n _ BODY_TRANSITIONS body_bullet cs Pop None d' (cf_cur c) (n + 1) st Hp Hn Hl Hlive Ht Hf) as (c' & Hs & P' & D'); auto.
    { exists 0. intros f _. unfold body_bullet. rewrite (get_cap_ok _ _ _ _ _ _ _ C2). cbn [first_char pbind]. rewrite (cap_len_ok _ _ _ _ _ _ _ C1). cbn [length Nat.add]. cbv zeta.
      rewrite (exec_by_indent _ _ _ _ _ _ _ (ledger_data _ _ _ _ _ _ L) Hm), match_less by exact Hlt. unfold leave, focus_parent. cbn [pbind pexec dop_exec]. rewrite Ed. reflexivity. }
    exists c', i. split; [exact Hs|]. rewrite (pl_cur _ _ _ _ _ Hp), Nat.add_0_r in P'. split; [exact P'|]. now rewrite D'.
  Qed.
  Lemma leave_list src base c st p n b l b0 bi ti xs y ys ch : placed src c (SBulletList :: st) p n -> n <= 9 -> nth_error src p = Some (b :: 32%N :: l) -> bullet_at b l ->
    ledger (cf_doc c) ((NBulletList b0 bi ti, xs) :: (y, ys) :: ch) -> bi <> base ->
    exists c' i, steps src base c c' /\ placed src c' st p (n + 1) /\ ledger (cf_doc c') ((y, ys ++ [Node i None None (NBulletList b0 bi ti) (Some xs)]) :: ch).
  Proof.
    intros Hp Hn Hl Hb L Hi. destruct (bullet_finds _ _ BULLET_LIST_TRANSITIONS list_bullet Hb ltac:(right; right; split; reflexivity)) as (cs & C1 & C2 & _ & Hf).
    destruct (ledger_back _ _ _ _ _ _ _ _ L Hz) as (d' & i & Ed & L').
    destruct (placed_step src base c SBulletList st p n _ BULLET_LIST_TRANSITIONS list_bullet cs Pop None d' (cf_cur c) (n + 1) st Hp Hn Hl I eq_refl Hf) as (c' & Hs & P' & D'); auto.
    { exists 0. intros f _. unfold list_bullet. rewrite (get_cap_ok _ _ _ _ _ _ _ C2). cbn [first_char pbind]. rewrite (cap_len_ok _ _ _ _ _ _ _ C1). cbn [length Nat.add]. cbv zeta.
      unfold get_doc. cbn [pbind pexec]. rewrite (ledger_data _ _ _ _ _ _ L). replace (bi =? base) with false by (symmetry; now apply Nat.eqb_neq). rewrite andb_false_r. cbn [andb].
      unfold leave, focus_parent. cbn [pbind pexec dop_exec]. rewrite Ed. reflexivity. }
    exists c', i. split; [exact Hs|]. rewrite (pl_cur _ _ _ _ _ Hp), Nat.add_0_r in P'. split; [exact P'|]. now rewrite D'.
  Qed.
  (* it opens a list *)
  Lemma open_bullets src base c S0 tbl st p n b l y ys ch : placed src c (S0 :: st) p n -> n <= 9 -> nth_error src p = Some (b :: 32%N :: l) -> bullet_at b l ->
    live S0 -> table S0 = Some tbl -> body_table tbl \/ tbl = LIST_TABLE_TRANSITIONS -> ledger (cf_doc c) ((y, ys) :: ch) -> NodeTypes.body_indent y = Some base ->
    child_is_allowed (kind y) KBulletList = Ret true ->
    exists c', steps src base c c' /\ placed src c' (SBulletList :: S0 :: st) p (n + 1) /\ ledger (cf_doc c') ((NBulletList b base (base + 2), []) :: (y, ys) :: ch).
  Proof.
    intros Hp Hn Hl Hb Hlive Ht Htb L Hm Hk. destruct (bullet_finds _ _ tbl body_bullet Hb) as (cs & C1 & C2 & C3 & Hf).
    { destruct Htb as [Htb|Htb]; [left|right; left]; auto. }
    destruct (ledger_push _ _ _ _ _ _ (NBulletList b base (base + 2)) L Hz eq_refl eq_refl Hk) as (d' & Ed & L').
    destruct (placed_step src base c S0 st p n _ tbl body_bullet cs (Push [SBulletList]) None d' (cf_cur c) (n + 1) (SBulletList :: S0 :: st) Hp Hn Hl Hlive Ht Hf) as (c' & Hs & P' & D'); auto.
    { exists 0. intros f _. unfold body_bullet. rewrite (get_cap_ok _ _ _ _ _ _ _ C2). cbn [first_char pbind]. rewrite (cap_len_ok _ _ _ _ _ _ _ C1). unfold match_len. rewrite C3. cbn [length Nat.add]. cbv zeta.
      rewrite (exec_by_indent _ _ _ _ _ _ _ (ledger_data _ _ _ _ _ _ L) Hm), match_same. replace (S (S base)) with (base + 2) by lia.
      unfold open_list, Prog.pushed. cbn [pbind pexec]. rewrite Ed. reflexivity. }
    exists c'. split; [exact Hs|]. rewrite (pl_cur _ _ _ _ _ Hp), Nat.add_0_r in P'. split; [exact P'|]. now rewrite D'.
  Qed.

  (* ---------- items ---------- *)
  Definition stops (rest : list str) : Prop := match rest with [] => True | l :: _ => l = [] \/ (blank l = false /\ indent_of l < 2) end.
  Lemma lines_loop rest : stops rest -> forall more prev min, Forall (fun l => blank l = false) more ->
    exists bf, indented_loop (map (pad 2) more ++ rest) prev true (Some 2) false (Some min) = (map (pad 2) more, Some min, bf).
  Proof.
    intros Hr. induction more as [|l more IH]; intros prev min HF.
    - cbn [map app]. destruct rest as [|l rest]; [cbn; eauto|]. cbn in Hr. destruct Hr as [-> | [Hbl Hj]]; [cbn; eauto|].
      cbn [indented_loop]. rewrite Hbl. replace (indent_of l <? 2) with true by (symmetry; now apply Nat.ltb_lt). rewrite orb_true_r. cbn [negb andb]. eauto.
    - apply Forall_cons_iff in HF as [Hl HF]. cbn [map app indented_loop].
      assert (E : pad 2 l = shifted 2 l) by (symmetry; apply shifted_nonempty; now intros ->). rewrite E, shifted_blank, Hl, shifted_indent by exact Hl.
      replace (2 + indent_of l <? 1) with false by (symmetry; apply Nat.ltb_ge; lia). replace (2 + indent_of l <? 2) with false by (symmetry; apply Nat.ltb_ge; lia). cbn [orb negb andb].
      destruct (IH (Some (shifted 2 l)) min HF) as (bf & G). rewrite G. eauto.
  Qed.
  Lemma read_item (src : list str) p (b : char) (l0 : str) (more rest : list str) : skipn p src = (b :: 32%N :: l0) :: map (pad 2) more ++ rest -> stops rest -> Forall (fun l => blank l = false) more ->
    exists bf, read_indented_block src p true true (Some 2) (Some 2) false = Ret (Some (MkIndentedBlock (l0 :: more) 2 (S (length more)) bf)).
  Proof.
    intros E Hr HF. apply skipn_cons in E as [Hl Hrest]. destruct (lines_loop rest Hr more (Some (b :: 32%N :: l0)) 2 HF) as (bf & Eloop). exists bf.
    unfold read_indented_block. destruct src as [|s0 src0]; [destruct p; discriminate|]. set (src := s0 :: src0) in *. clearbody src.
    unfold checked_sub. replace (p <=? length src) with true by (symmetry; apply Nat.leb_le, Nat.lt_le_incl, nth_error_Some; congruence).
    cbn [obind]. rewrite Hl. cbn [unwrap obind]. rewrite Hrest. match type of Eloop with ?L = _ => match goal with |- context [indented_loop ?a ?b ?c ?d ?e ?f] => change (indented_loop a b c d e f) with L end end. rewrite Eloop. cbn [obind unwrap strip_block].
    assert (Em : map (skipn 2) (map (pad 2) more) = more) by (rewrite map_map; rewrite <- (map_id more) at 2; apply map_ext; intros; apply pad_skip). rewrite Em. reflexivity.
  Qed.
  Lemma step_bullet (src : list str) base c st p n (b : char) (l0 : str) (more rest : list str) ys ch (P : DocTree -> list State -> Prop) :
    placed src c (SBulletList :: st) p n -> n <= 9 -> bullet_at b l0 -> skipn p src = (b :: 32%N :: l0) :: map (pad 2) more ++ rest -> stops rest -> Forall (fun l => blank l = false) more ->
    ledger (cf_doc c) ((NBulletList b base (base + 2), ys) :: ch) ->
    (forall d1 line, ledger d1 ((NBulletListItem b base (base + 2), []) :: (NBulletList b base (base + 2), ys) :: ch) ->
      exists f0 stack d2, (forall f, f0 <= f -> parse table f (l0 :: more) (base + 2) line SListItem d1 = Ret (REOF stack, d2)) /\ P d2 stack) ->
    exists c' stack, steps src base c c' /\ placed src c' (rev stack ++ SBulletList :: st) (p + S (length more)) 0 /\ P (cf_doc c') stack.
  Proof.
    intros Hp Hn Hb E Hr HF L Hrun. pose proof (pl_cur _ _ _ _ _ Hp) as Hc.
    destruct (bullet_finds _ _ BULLET_LIST_TRANSITIONS list_bullet Hb ltac:(right; right; split; reflexivity)) as (cs & C1 & C2 & C3 & Hf).
    destruct (ledger_push _ _ _ _ _ _ (NBulletListItem b base (base + 2)) L Hz eq_refl eq_refl eq_refl) as (d1 & Ed & L1).
    destruct (Hrun d1 (cur_sum (cf_cur c)) L1) as (f0 & stack & d2 & Ep & HP). destruct (read_item src p b l0 more rest E Hr HF) as (bf & Hread).
    assert (Hl : nth_error src p = Some (b :: 32%N :: l0)) by now apply skipn_cons in E.
    destruct (placed_step src base c SBulletList st p n _ BULLET_LIST_TRANSITIONS list_bullet cs (Push stack) (Some (S (length more))) d2 (cf_cur c) 0 (rev stack ++ SBulletList :: st) Hp Hn Hl I eq_refl Hf) as (c' & Hs & P' & D'); auto.
    { exists f0. intros f Hf0. unfold list_bullet. rewrite (get_cap_ok _ _ _ _ _ _ _ C2). cbn [first_char pbind]. rewrite (cap_len_ok _ _ _ _ _ _ _ C1). cbn [length Nat.add]. cbv zeta.
      unfold get_doc. cbn [pbind pexec]. rewrite (ledger_data _ _ _ _ _ _ L), C3, bullet_bytes by apply Hb. rewrite (Nat.add_comm 2 base), N.eqb_refl, !Nat.eqb_refl. cbn [andb].
      unfold Prog.pushed. cbn [pbind pexec]. rewrite Ed. cbn [obind pexec negb]. unfold parse_first_node_block, get_cursor. cbn [pbind pexec]. unfold checked_sub.
      replace (base <=? base + 2) with true by (symmetry; apply Nat.leb_le; lia). cbn [lift pbind]. replace (base + 2 - base) with 2 by lia. rewrite Hc, Hread.
      cbn [lift pbind pexec ib_lines ib_offset]. rewrite Ep by exact Hf0. reflexivity. }
    { rewrite Hc. lia. }
    exists c', stack. split; [exact Hs|]. rewrite Hc in P'. split; [exact P'|]. now rewrite D'.
  Qed.

  Lemma placed_end (src : list str) base c st p n : placed src c st p n -> n <= 9 -> length src <= p ->
    exists f0, forall f, f0 <= f -> parse_loop table f src base c = Ret (REOF (rev st), cf_doc c).
  Proof.
    intros [A C D] Hn Hp. exists 1. intros [|f] Hf; [lia|]. cbn [parse_loop]. unfold iterate.
    replace (10 <=? cf_count c) with false by (symmetry; apply Nat.leb_gt; lia). rewrite andb_false_r, A.
    replace (length src <=? p) with true by (symmetry; apply Nat.leb_le; exact Hp). reflexivity.
  Qed.
  Lemma pad_none (ls : list str) : map (pad 0) ls = ls.
  Proof. rewrite <- (map_id ls) at 2. now apply map_ext. Qed.

  (* ---------- cells ---------- *)
  Definition wrote (cs : list TreeNode) (s : str) : Prop := (exists ks, write_children ord full cs = Ret ks /\ concat ks = s) /\ Forall2 becomes cs cs.
  Definition cell (t : text) (n : TreeNode) : Prop := exists i b bi ti cs, n = Node i None None (NBulletListItem b bi ti) (Some cs) /\ wrote cs (para_latex t).
  Lemma run_cell tx x B ch d1 line : para_ok tx = true -> NodeTypes.body_indent x = Some B -> child_is_allowed (kind x) KParagraph = Ret true -> ledger d1 ((x, []) :: ch) ->
    exists f0 d2 cs, (forall f, f0 <= f -> parse table f (text_lines tx) B line SListItem d1 = Ret (REOF [SListItem], d2)) /\ ledger d2 ((x, cs) :: ch) /\ wrote cs (para_latex tx).
  Proof.
    intros Hok Hm Hk [H Hcalm]. destruct (para_ok_lines _ Hok) as [Hne Hls]. pose proof (para_ok_inv _ Hok) as (Hch & Hwr & _). destruct (para_ok_first _ Hok) as (l & more & El & Hst & Hen).
    assert (Hall : Forall (fun l => starts_text l = true) (text_lines tx)) by (eapply Forall_impl; [|exact Hls]; now intros ? [? _]).
    assert (G : exists p, chained z0 ch p /\ fresh d1 p x [] [] seen).
    { remember (tree d1) as z eqn:Ez. remember ((x, []) :: ch) as l0 eqn:El0. destruct H as [|i x' cs' ch' p H]; [discriminate|].
      assert (x' = x /\ cs' = [] /\ ch' = ch) as (-> & -> & ->) by (repeat split; congruence). exists p. split; [exact H|].
      split; [exists i; auto|exists []; split; reflexivity|constructor|exact Hcalm]. }
    destruct G as (p & Hp & F). pose proof (chained_sound _ _ _ Hz Hp) as Hs. set (src := text_lines tx).
    destruct (fresh_into ord full d1 p x [] [] seen (NParagraph (B + 0)) F Hs eq_refl eq_refl Hk) as (d2 & E1 & F1).
    destruct (chunks_writes ord full tx Hwr) as (ss & FF & Ess).
    destruct (fresh_all_text ord full _ (NParagraph (B + 0)) seen (or_introl eq_refl) _ _ FF (chunks_in_text tx Hwr) _ _ _ F1) as (d3 & cs' & E2 & F2). cbn [app] in F2. rewrite Ess in F2.
    destruct (fresh_back ord full d3 d1 p _ [] [] seen (NParagraph (B + 0)) cs' _ seen [] nl2 Hs F F2 eq_refl eq_refl eq_refl) as (d4 & n & E3 & F3). cbn [app] in F3.
    set (c0 := initial line SListItem d1).
    assert (Esrc : skipn 0 src = map (pad 0) src ++ []) by (rewrite pad_none, app_nil_r; reflexivity).
    assert (P0 : placed src c0 [SListItem] 0 0).
    { split; try reflexivity. replace (length src <=? 0) with false; [reflexivity|]. symmetry. apply Nat.leb_gt. unfold src. rewrite El. cbn. lia. }
    assert (Ex : pexec (parse table 0) (parse_paragraph src B (B + 0)) (cf_doc c0) (cf_cur c0) = Ret (TSuccess Neither (Some 1), d4, cur_add (cf_cur c0) (length src - 1))).
    { apply (exec_paragraph_raw src B (parse table 0) d1 (cf_cur c0) x 0 tx src false [] 0 d2 d3 d4); auto.
      - exact (fresh_data _ _ _ _ _ _ _ _ F).
      - now rewrite Nat.add_0_r.
      - exact I.
      - now apply para_nonempty.
      - apply split_lines_length.
      - unfold src. rewrite (para_text _ Hok). unfold strip_indicator. now rewrite find_from_text by (eapply chunks_end; exact Hch). }
    destruct (placed_para src B c0 SListItem BODY_TRANSITIONS [] 0 0 0 src false l more [] d4 I eq_refl ltac:(now left) P0 ltac:(lia) Esrc I El Hen Hall Ex) as (c1 & Hs1 & P1 & D1).
    destruct (run_steps src B c0 c1 _ Hs1 (placed_end src B c1 _ _ _ P1 ltac:(lia) ltac:(lia))) as (f0 & Hrun).
    exists f0, d4, [n]. split; [|split].
    - intros f Hf. unfold parse. fold c0. rewrite (Hrun f Hf), D1. reflexivity.
    - destruct F3 as [[i Et] _ _ Hc4]. split; [|exact Hc4]. rewrite Et. now constructor.
    - destruct F3 as [_ (ks & K1 & K2) B1 _]. split; [exists ks; split; [exact K1|]|exact B1]. exact K2.
  Qed.

  Lemma cells_first bc cells : cells <> [] -> forallb para_ok cells = true -> exists l X, flat_map (cell_source bc) cells = (bc :: 32%N :: l) :: X /\ starts_text l = true.
  Proof.
    destruct cells as [|t cells]; [congruence|]. intros _ H. cbn [forallb] in H. apply andb_true_iff in H as [H _]. destruct (para_ok_first _ H) as (l & more & El & Hst & _).
    exists l, (map (pad 2) more ++ flat_map (cell_source bc) cells). split; [|exact Hst]. cbn [flat_map]. unfold cell_source at 1. rewrite El. reflexivity.
  Qed.
  Lemma text_at b l : existsb (N.eqb b) bullet_chars = true -> starts_text l = true -> bullet_at b l.
  Proof. intros Hb H. split; [exact Hb|]. destruct (starts_text_inv _ H) as (c & t & -> & _ & Hc). eauto. Qed.
  Lemma bullet_stops b l X : existsb (N.eqb b) bullet_chars = true -> stops ((b :: 32%N :: l) :: X).
  Proof.
    intros Hb. right. apply bullet_ink in Hb. split; [now apply (ink_not_blank [] b)|]. pose proof (ink_indent [] b (32%N :: l) eq_refl Hb) as Q. cbn [app length] in Q. eapply Nat.le_lt_trans; [apply Nat.eq_le_incl; exact Q|lia].
  Qed.
  Lemma run_cells (src : list str) B bc st ch : existsb (N.eqb bc) bullet_chars = true -> forall cells, cells <> [] -> forallb para_ok cells = true -> forall c p n ys done, n <= 9 ->
    placed src c (SBulletList :: st) p n -> skipn p src = flat_map (cell_source bc) cells -> ledger (cf_doc c) ((NBulletList bc B (B + 2), ys) :: ch) -> Forall2 cell done ys ->
    exists c' p' ys' ks, steps src B c c' /\ placed src c' (SListItem :: SBulletList :: st) p' 0 /\ length src <= p' /\
      ledger (cf_doc c') ((NBulletListItem bc B (B + 2), ks) :: (NBulletList bc B (B + 2), ys') :: ch) /\
      forall i, Forall2 cell (done ++ cells) (ys' ++ [Node i None None (NBulletListItem bc B (B + 2)) (Some ks)]).
  Proof.
    intros Hb. induction cells as [|t cells IH]; [congruence|]. intros _ Hok c p n ys done Hn Hp E L Hdone.
    cbn [forallb] in Hok. apply andb_true_iff in Hok as [Ht Hok]. destruct (para_ok_first _ Ht) as (l & more & El & Hst & _). destruct (para_ok_lines _ Ht) as [_ Hls].
    assert (Hmore : Forall (fun l => blank l = false) more).
    { rewrite El in Hls. apply Forall_cons_iff in Hls as [_ Hls]. eapply Forall_impl; [|exact Hls]. intros a [Ha _]. now apply (pad_not_blank 0) in Ha. }
    cbn [flat_map] in E. assert (Ec : cell_source bc t = (bc :: 32%N :: l) :: map (pad 2) more) by (unfold cell_source; rewrite El; reflexivity). rewrite Ec in E. cbn [app] in E.
    set (rest := flat_map (cell_source bc) cells) in *.
    assert (Hr : stops rest).
    { unfold rest. destruct cells as [|t2 cells]; [exact I|]. destruct (cells_first bc (t2 :: cells) ltac:(discriminate) Hok) as (l2 & X & -> & _). now apply bullet_stops. }
    destruct (step_bullet src B c st p n bc l more rest ys ch
      (fun d2 stack => stack = [SListItem] /\ exists cs, ledger d2 ((NBulletListItem bc B (B + 2), cs) :: (NBulletList bc B (B + 2), ys) :: ch) /\ wrote cs (para_latex t)) Hp Hn (text_at _ _ Hb Hst) E Hr Hmore L) as (c1 & stack & Hs1 & P1 & -> & cs & L1 & W1).
    { intros d1 line L1. destruct (run_cell t (NBulletListItem bc B (B + 2)) (B + 2) _ d1 line Ht eq_refl eq_refl L1) as (f0 & d2 & cs & Hrun & L2 & W). exists f0, [SListItem], d2. rewrite <- El. split; [exact Hrun|]. eauto. }
    cbn [rev app] in P1.
    assert (E1 : skipn (p + S (length more)) src = rest).
    { change ((bc :: 32%N :: l) :: map (pad 2) more ++ rest) with (((bc :: 32%N :: l) :: map (pad 2) more) ++ rest) in E. apply skipn_past in E. cbn [length] in E. rewrite map_length in E. exact E. }
    assert (Hcell : forall i, cell t (Node i None None (NBulletListItem bc B (B + 2)) (Some cs))) by (intros i; exists i, bc, B, (B + 2), cs; split; [reflexivity|exact W1]).
    destruct cells as [|t2 cells].
    - exists c1, (p + S (length more)), ys, cs. split; [exact Hs1|]. split; [exact P1|]. split; [now apply skipn_end in E1|]. split; [exact L1|].
      intros i. apply Forall2_app; [exact Hdone|]. constructor; [apply Hcell|constructor].
    - destruct (cells_first bc (t2 :: cells) ltac:(discriminate) Hok) as (l2 & X & E2 & Hst2). pose proof E1 as E1'. unfold rest in E1'. rewrite E2 in E1'. apply skipn_cons in E1' as [Hl2 _].
      destruct (leave_item src B c1 SListItem _ _ 0 bc l2 (NBulletListItem bc B (B + 2)) _ _ _ _ (B + 2) P1 ltac:(lia) Hl2 (text_at _ _ Hb Hst2) I eq_refl L1 eq_refl ltac:(lia)) as (c2 & i & Hs2 & P2 & L2).
      destruct (IH ltac:(discriminate) Hok c2 _ (0 + 1) _ (done ++ [t]) ltac:(lia) P2 E1 L2) as (c3 & p3 & ys3 & ks & Hs3 & P3 & Hend & L3 & W3).
      { apply Forall2_app; [exact Hdone|]. constructor; [apply Hcell|constructor]. }
      exists c3, p3, ys3, ks. split; [eapply steps_trans; [exact Hs1|]; eapply steps_trans; eauto|]. split; [exact P3|]. split; [exact Hend|]. split; [exact L3|].
      intros j. specialize (W3 j). rewrite <- app_assoc in W3. exact W3.
  Qed.

  (* ---------- rows ---------- *)
  Definition tabled (ts : list text) (n : TreeNode) : Prop := exists i b bi ti j b' bi' ti' cs,
    n = Node i None None (NBulletListItem b bi ti) (Some [Node j None None (NBulletList b' bi' ti') (Some cs)]) /\ Forall2 cell ts cs.
  Lemma run_row bc x B ch d1 line cells : existsb (N.eqb bc) bullet_chars = true -> cells <> [] -> forallb para_ok cells = true ->
    NodeTypes.body_indent x = Some B -> child_is_allowed (kind x) KBulletList = Ret true -> ledger d1 ((x, []) :: ch) ->
    exists f0 d2 ys ks, (forall f, f0 <= f -> parse table f (flat_map (cell_source bc) cells) B line SListItem d1 = Ret (REOF [SListItem; SBulletList; SListItem], d2)) /\
      ledger d2 ((NBulletListItem bc B (B + 2), ks) :: (NBulletList bc B (B + 2), ys) :: (x, []) :: ch) /\
      forall i, Forall2 cell cells (ys ++ [Node i None None (NBulletListItem bc B (B + 2)) (Some ks)]).
  Proof.
    intros Hb Hne Hok Hm Hk L. destruct (cells_first bc cells Hne Hok) as (l & X & E & Hst). set (src := flat_map (cell_source bc) cells) in *. set (c0 := initial line SListItem d1).
    assert (P0 : placed src c0 [SListItem] 0 0).
    { split; try reflexivity. replace (length src <=? 0) with false; [reflexivity|]. symmetry. apply Nat.leb_gt. rewrite E. cbn. lia. }
    assert (Hl : nth_error src 0 = Some (bc :: 32%N :: l)) by now rewrite E.
    destruct (open_bullets src B c0 SListItem BODY_TRANSITIONS [] 0 0 bc l x [] ch P0 ltac:(lia) Hl (text_at _ _ Hb Hst) I eq_refl ltac:(left; now left) L Hm Hk) as (c1 & Hs1 & P1 & L1).
    destruct (run_cells src B bc [SListItem] ((x, []) :: ch) Hb cells Hne Hok c1 0 (0 + 1) [] [] ltac:(lia) P1 eq_refl L1 ltac:(constructor)) as (c2 & p2 & ys & ks & Hs2 & P2 & Hend & L2 & W2).
    destruct (run_steps src B c0 c2 _ (steps_trans _ _ _ _ _ Hs1 Hs2) (placed_end src B c2 _ _ _ P2 ltac:(lia) Hend)) as (f0 & Hrun).
    exists f0, (cf_doc c2), ys, ks. split; [exact Hrun|]. split; [exact L2|exact W2].
  Qed.
  Lemma cell_lines_ink bc cells : existsb (N.eqb bc) bullet_chars = true -> forallb para_ok cells = true -> Forall (fun l => blank l = false) (flat_map (cell_source bc) cells).
  Proof.
    intros Hb Hok. apply bullet_ink in Hb. rewrite forallb_forall in Hok. apply Forall_flat_map, Forall_forall. intros t Ht. apply Hok in Ht. destruct (para_ok_first _ Ht) as (l & more & El & Hst & _). destruct (para_ok_lines _ Ht) as [_ Hls].
    unfold cell_source. rewrite El in *. cbn [item_lines]. constructor; [now apply (ink_not_blank [] bc)|]. apply Forall_map. apply Forall_cons_iff in Hls as [_ Hls].
    eapply Forall_impl; [|exact Hls]. intros a [Ha _]. now apply pad_not_blank.
  Qed.
  Lemma row_first t cells : existsb (N.eqb (t_cell t)) bullet_chars = true -> cells <> [] -> forallb para_ok cells = true ->
    exists l0 more, flat_map (cell_source (t_cell t)) cells = l0 :: more /\ row_source t cells = (t_row t :: 32%N :: l0) :: map (pad 2) more /\
      (exists c u, l0 = c :: u /\ is_whitespace c = false) /\ Forall (fun l => blank l = false) more.
  Proof.
    intros Hb Hne Hok. destruct (cells_first (t_cell t) cells Hne Hok) as (l & X & E & Hst). exists (t_cell t :: 32%N :: l), X. split; [exact E|].
    split; [unfold row_source; rewrite E; reflexivity|]. split; [eexists _, _; split; [reflexivity|]; now apply bullet_ink|].
    pose proof (cell_lines_ink _ _ Hb Hok) as G. rewrite E in G. now apply Forall_cons_iff in G.
  Qed.
  Lemma rows_first t rows : existsb (N.eqb (t_cell t)) bullet_chars = true -> rows_ok rows = true -> exists l X, rows_source t rows = (t_row t :: 32%N :: l) :: X /\ exists c u, l = c :: u /\ is_whitespace c = false.
  Proof.
    intros Hb H. destruct rows as [|[cells gap] rows]; [discriminate|]. cbn [rows_ok] in H. apply andb_true_iff in H as [H _].
    assert (Hne : cells <> []) by (destruct cells; discriminate). assert (Hok : forallb para_ok cells = true) by (destruct cells; [discriminate|exact H]).
    destruct (row_first t cells Hb Hne Hok) as (l0 & more & E & Er & Hl & _).
    eexists l0, _. split; [unfold rows_source; cbn [flat_map fst snd]; rewrite Er; cbn [app]; reflexivity|exact Hl].
  Qed.
  Lemma run_rows (src : list str) m t st ch g : existsb (N.eqb (t_row t)) bullet_chars = true -> existsb (N.eqb (t_cell t)) bullet_chars = true ->
    forall rows, rows_ok rows = true -> forall c p n ys done, n <= 9 ->
    placed src c (SBulletList :: st) p n -> skipn p src = rows_source t rows ++ repeat [] g -> ledger (cf_doc c) ((NBulletList (t_row t) m (m + 2), ys) :: ch) -> Forall2 tabled done ys ->
    exists c' p' ys' cs ks, steps src m c c' /\ placed src c' (SListItem :: SBulletList :: SListItem :: SBulletList :: st) p' 0 /\ length src <= p' /\
      ledger (cf_doc c') ((NBulletListItem (t_cell t) (m + 2) (m + 2 + 2), ks) :: (NBulletList (t_cell t) (m + 2) (m + 2 + 2), cs) ::
        (NBulletListItem (t_row t) m (m + 2), []) :: (NBulletList (t_row t) m (m + 2), ys') :: ch) /\
      forall i j k, Forall2 tabled (done ++ map fst rows) (ys' ++ [Node i None None (NBulletListItem (t_row t) m (m + 2))
        (Some [Node j None None (NBulletList (t_cell t) (m + 2) (m + 2 + 2)) (Some (cs ++ [Node k None None (NBulletListItem (t_cell t) (m + 2) (m + 2 + 2)) (Some ks)]))])]).
  Proof.
    intros Hbr Hbc. induction rows as [|[cells gap] rows IH]; [discriminate|]. intros Hok c p n ys done Hn Hp E L Hdone.
    cbn [rows_ok] in Hok. apply andb_true_iff in Hok as [Hcells Hok].
    assert (Hne : cells <> []) by (destruct cells; discriminate). assert (Hpk : forallb para_ok cells = true) by (destruct cells; [discriminate|exact Hcells]). clear Hcells.
    destruct (row_first t cells Hbc Hne Hpk) as (l0 & more & El0 & Er & Hink & Hmore).
    set (blanks := match rows with [] => g | _ => gap end). set (after := match rows with [] => [] | _ => rows_source t rows ++ repeat [] g end).
    assert (E0 : skipn p src = (t_row t :: 32%N :: l0) :: map (pad 2) more ++ repeat [] blanks ++ after).
    { rewrite E. unfold rows_source. cbn [flat_map fst snd]. fold (rows_source t rows). rewrite Er, <- !app_assoc. cbn [app]. f_equal. f_equal. unfold blanks, after. destruct rows; [|reflexivity].
      apply Nat.eqb_eq in Hok. subst gap. cbn [repeat app rows_source flat_map]. now rewrite app_nil_r. }
    assert (Hr : stops (repeat [] blanks ++ after)).
    { destruct blanks; [|now left]. cbn [repeat app]. unfold after. destruct rows as [|r rows]; [exact I|]. destruct (rows_first t (r :: rows) Hbc Hok) as (l & X & -> & _). now apply bullet_stops. }
    set (P := fun d2 stack => stack = [SListItem; SBulletList; SListItem] /\ exists cs ks,
      ledger d2 ((NBulletListItem (t_cell t) (m + 2) (m + 2 + 2), ks) :: (NBulletList (t_cell t) (m + 2) (m + 2 + 2), cs) ::
        (NBulletListItem (t_row t) m (m + 2), []) :: (NBulletList (t_row t) m (m + 2), ys) :: ch) /\
      forall k, Forall2 cell cells (cs ++ [Node k None None (NBulletListItem (t_cell t) (m + 2) (m + 2 + 2)) (Some ks)])).
    destruct (step_bullet src m c st p n (t_row t) l0 more (repeat [] blanks ++ after) ys ch P Hp Hn (conj Hbr Hink) E0 Hr Hmore L) as (c1 & stack & Hs1 & P1 & -> & cs & ks & L1 & W1).
    { intros d1 line Ld. destruct (run_row (t_cell t) (NBulletListItem (t_row t) m (m + 2)) (m + 2) _ d1 line cells Hbc Hne Hpk eq_refl eq_refl Ld) as (f0 & d2 & cs & ks & Hrun & L2 & W2).
      exists f0, [SListItem; SBulletList; SListItem], d2. rewrite <- El0. split; [exact Hrun|]. split; [reflexivity|]. exists cs, ks. auto. }
    cbn [rev app] in P1.
    assert (E1 : skipn (p + S (length more)) src = repeat [] blanks ++ after).
    { change ((t_row t :: 32%N :: l0) :: map (pad 2) more ++ repeat [] blanks ++ after) with (((t_row t :: 32%N :: l0) :: map (pad 2) more) ++ repeat [] blanks ++ after) in E0.
      apply skipn_past in E0. cbn [length] in E0. rewrite map_length in E0. exact E0. }
    destruct (placed_blanks src m SListItem _ after ltac:(split; [exact I|eexists; reflexivity]) blanks c1 _ 0 P1 ltac:(lia) E1) as (c2 & Hs2 & P2 & D2).
    assert (P3 : placed src c2 (SListItem :: SBulletList :: SListItem :: SBulletList :: st) (p + S (length more) + blanks) 0) by (destruct blanks; exact P2). clear P2.
    rewrite <- D2 in L1. apply skipn_past in E1. rewrite repeat_length in E1.
    assert (Hrow : forall i j k, tabled cells (Node i None None (NBulletListItem (t_row t) m (m + 2))
        (Some [Node j None None (NBulletList (t_cell t) (m + 2) (m + 2 + 2)) (Some (cs ++ [Node k None None (NBulletListItem (t_cell t) (m + 2) (m + 2 + 2)) (Some ks)]))]))).
    { intros i j k. do 9 eexists. split; [reflexivity|apply W1]. }
    destruct rows as [|r rows].
    - exists c2, (p + S (length more) + blanks), ys, cs, ks. split; [eapply steps_trans; eauto|]. split; [exact P3|]. split; [now apply skipn_end in E1|]. split; [exact L1|].
      intros i j k. apply Forall2_app; [exact Hdone|]. constructor; [apply Hrow|constructor].
    - destruct (rows_first t (r :: rows) Hbc Hok) as (l & X & E2 & Hl). unfold after in E1. pose proof E1 as E1'. rewrite E2 in E1'. cbn [app] in E1'. apply skipn_cons in E1' as [Hl2 _].
      destruct (leave_item src m c2 SListItem _ _ 0 (t_row t) l (NBulletListItem (t_cell t) (m + 2) (m + 2 + 2)) _ _ _ _ (m + 2 + 2) P3 ltac:(lia) Hl2 (conj Hbr Hl) I eq_refl L1 eq_refl ltac:(lia)) as (c3 & k & Hs3 & P4 & L3).
      destruct (leave_list src m c3 _ _ (0 + 1) (t_row t) l _ _ _ _ _ _ _ P4 ltac:(lia) Hl2 (conj Hbr Hl) L3 ltac:(lia)) as (c4 & j & Hs4 & P5 & L4).
      destruct (leave_item src m c4 SListItem _ _ (0 + 1 + 1) (t_row t) l (NBulletListItem (t_row t) m (m + 2)) _ _ _ _ (m + 2) P5 ltac:(lia) Hl2 (conj Hbr Hl) I eq_refl L4 eq_refl ltac:(lia)) as (c5 & i & Hs5 & P6 & L5).
      destruct (IH Hok c5 _ (0 + 1 + 1 + 1) _ (done ++ [cells]) ltac:(lia) P6 E1 L5) as (c6 & p6 & ys6 & cs6 & ks6 & Hs6 & P7 & Hend & L6 & W6).
      { apply Forall2_app; [exact Hdone|]. constructor; [apply Hrow|constructor]. }
      exists c6, p6, ys6, cs6, ks6. split.
      { eapply steps_trans; [exact Hs1|]. eapply steps_trans; [exact Hs2|]. eapply steps_trans; [exact Hs3|]. eapply steps_trans; [exact Hs4|]. eapply steps_trans; [exact Hs5|exact Hs6]. }
      split; [exact P7|]. split; [exact Hend|]. split; [exact L6|]. intros i' j' k'. specialize (W6 i' j' k'). rewrite <- app_assoc in W6. exact W6.
  Qed.
End Tables.

(* ---------- the columns ---------- *)
Definition longest (tss : list (list text)) : nat := fold_right (fun r m => Nat.max (length r) m) 0 tss.
Lemma longest_columns t : columns t = longest (map fst (t_rows t)).
Proof. unfold columns, longest. induction (t_rows t) as [|r rows IH]; [reflexivity|]. cbn [map fold_right]. now rewrite IH. Qed.
Lemma longest_some rows : rows_ok rows = true -> 0 < longest (map fst rows).
Proof.
  destruct rows as [|[cells gap] rows]; [discriminate|]. cbn [rows_ok map fst longest fold_right]. intros H. apply andb_true_iff in H as [H _]. destruct cells; [discriminate|]. cbn [length]. lia.
Qed.
Section Writing.
  Variables (ord : hash_order) (full : bool).
  Notation cell := (cell ord full). Notation tabled := (tabled ord full). Notation wrote := (wrote ord full).
  Lemma cells_all ts cs : Forall2 cell ts cs -> length (filter is_bullet_item cs) = length ts.
  Proof. induction 1 as [|t n ts cs (i & b & bi & ti & ks & -> & _) _ IH]; [reflexivity|]. cbn [filter is_bullet_item node_data length]. now rewrite IH. Qed.
  Lemma tabled_columns tss rows acc : Forall2 tabled tss rows -> max_columns rows acc = Some (Nat.max acc (longest tss)).
  Proof.
    intros H. revert acc. induction H as [|ts n tss rows (i & b & bi & ti & j & b' & bi' & ti' & cs & -> & Hc) _ IH]; intros acc; [cbn; f_equal; lia|].
    cbn [max_columns first_list node_children is_bullet_list node_data]. rewrite (cells_all _ _ Hc), IH. f_equal. cbn [longest fold_right]. fold (longest tss). lia.
  Qed.
  (* ---------- what is written ---------- *)
  Lemma wrote_cons i x r cs s pre post ns u : wrote cs s -> untransformed x = true -> pre_string ord full x r = Ret pre -> post_string full x r = Ret post -> wrote ns u ->
    wrote (Node i r None x (Some cs) :: ns) ((pre ++ s ++ post) ++ u).
  Proof.
    intros [(ks & K & <-) B] Hx Hp Hq [(ls & L & <-) B']. split.
    - exists ((pre :: ks ++ [post]) ++ ls). split.
      + cbn [write_children]. change (write_node ord full (Node i r None x (Some cs))) with (write_node ord full (Node i r None x (Some cs))).
        rewrite write_node_eq. cbn [node_data node_refnames kids node_children]. rewrite Hp. cbn [obind]. rewrite K. cbn [obind]. rewrite Hq. cbn [obind].
        change (obind (write_children ord full ns) (fun b => Ret ((pre :: ks ++ [post]) ++ b)) = Ret ((pre :: ks ++ [post]) ++ ls)). rewrite L. reflexivity.
      + rewrite concat_app. f_equal. cbn [concat]. rewrite concat_app. cbn [concat]. now rewrite app_nil_r.
    - constructor; [|exact B']. apply becomes_node; [now apply untransformed_no_table|]. now rewrite untransformed_relabel.
  Qed.
  Lemma wrote_nil : wrote [] []. Proof. split; [exists []; split; reflexivity|constructor]. Qed.
  Lemma entries_wrote ts cs : Forall2 cell ts cs -> ts <> [] -> wrote (mark_entries cs) (join (lit "&" ++ nl1) (map para_latex ts)).
  Proof.
    induction 1 as [|t n ts cs (i & b & bi & ti & ks & -> & W) H IH]; [congruence|]. intros _. destruct H as [|t2 n2 ts cs H2 H].
    - cbn [mark_entries with_data map join]. rewrite <- (app_nil_r (para_latex t)). change (para_latex t ++ []) with ([] ++ para_latex t ++ []). rewrite <- (app_nil_r ([] ++ para_latex t ++ [])).
      apply wrote_cons; [exact W|reflexivity..|apply wrote_nil].
    - specialize (IH ltac:(discriminate)).
      change (mark_entries (Node i None None (NBulletListItem b bi ti) (Some ks) :: n2 :: cs)) with (Node i None None (NEntry false) (Some ks) :: mark_entries (n2 :: cs)).
      change (join (lit "&" ++ nl1) (map para_latex (t :: t2 :: ts))) with (para_latex t ++ (lit "&" ++ nl1) ++ join (lit "&" ++ nl1) (map para_latex (t2 :: ts))).
      rewrite app_assoc. change (para_latex t ++ lit "&" ++ nl1) with ([] ++ para_latex t ++ (lit "&" ++ nl1)).
      apply wrote_cons; [exact W|reflexivity..|exact IH].
  Qed.
  Lemma rows_wrote tss rows : Forall2 tabled tss rows -> Forall (fun ts => ts <> []) tss ->
    exists rows', omap transform_item rows = Ret rows' /\ wrote rows' (flat_map row_latex tss).
  Proof.
    induction 1 as [|ts n tss rows (i & b & bi & ti & j & b' & bi' & ti' & cs & -> & Hc) _ IH]; intros Hne; [exists []; split; [reflexivity|apply wrote_nil]|].
    apply Forall_cons_iff in Hne as [Hts Hne]. destruct (IH Hne) as (rows' & E & W). clear IH.
    exists (Node i None None NTRow (Some (mark_entries cs)) :: rows'). split.
    - cbn [omap]. replace (transform_item _) with (Ret (Node i None None NTRow (Some (mark_entries cs)))); [cbn [obind]; rewrite E; reflexivity|].
      symmetry. unfold transform_item. cbn [node_data with_data node_children]. destruct cs as [|c0 cs]; [inversion Hc; congruence|]. cbn [length checked_sub Nat.leb obind].
      unfold node_append_children. change (node_kind (with_children (Node i None None NTRow (Some [Node j None None (NBulletList b' bi' ti') (Some (c0 :: cs))])) (Some []))) with KTRow.
      rewrite mark_allowed. reflexivity.
    - cbn [flat_map]. unfold row_latex at 1. change (join (lit "&" ++ nl1) (map para_latex ts) ++ lit "\\" ++ nl1) with ([] ++ join (lit "&" ++ nl1) (map para_latex ts) ++ (lit "\\" ++ nl1)).
      apply wrote_cons; [now apply entries_wrote|reflexivity..|exact W].
  Qed.
  Lemma table_pre m t w hr sc al : 0 < columns t ->
    pre_string ord full (NListTable m (match t_title t with [] => None | _ => Some (t_title t) end) (Some (even_widths (columns t))) w hr sc al) None = Ret (table_begin t).
  Proof.
    intros Hc. cbn [pre_string]. unfold table_begin, even_widths. f_equal. replace (begin_env (lit "tabular")) with (lit "\begin{tabular}") by reflexivity. f_equal.
    f_equal; [destruct (t_title t); [reflexivity|]; unfold opt_item, option_list, brackets, comma; cbn [join]; rewrite <- app_assoc; reflexivity|].
    unfold braces at 1. rewrite <- !app_assoc. f_equal. f_equal.
    assert (G : forall k, concat (map (fun v => lit "p" ++ braces (fmt2 (fr_num v) (fr_den v) ++ lit "\textwidth")) (repeat (Frac 1 (N.of_nat (columns t))) k)) =
      flat_map (fun _ => lit "p{" ++ as_hundredths (nearest 100 (N.of_nat (columns t))) ++ lit "\textwidth}") (repeat tt k)).
    { induction k as [|k IH]; [reflexivity|]. cbn [repeat map concat flat_map]. rewrite IH. f_equal. cbn [fr_num fr_den]. rewrite fmt2_nearest by (clear -Hc; lia).
      change (100 * 1)%N with 100%N. unfold braces. rewrite <- !app_assoc. reflexivity. }
    apply G.
  Qed.
End Writing.

Section Table.
  Variables (ord : hash_order) (full : bool).
  Notation under := (under ord full).
  Notation at_ := (at_ ord full).
  Variables (src : list str).
  Definition table_node (t : list_table) (m : nat) (w : option TableColWidths) : TreeNodeType :=
    NListTable m (match t_title t with [] => None | _ => Some (t_title t) end) w (and_then (setting "width" (t_settings t)) table_width)
      (and_then (setting "header-rows" (t_settings t)) parse_u32) (and_then (setting "stub-columns" (t_settings t)) parse_u32) (and_then (setting "align" (t_settings t)) table_align).
  Lemma table_parts t : table_ok t = true -> argument_ok (t_title t) = true /\ forallb setting_ok (t_settings t) = true /\ setting "widths" (t_settings t) = None /\
    existsb (N.eqb (t_row t)) bullet_chars = true /\ existsb (N.eqb (t_cell t)) bullet_chars = true /\ rows_ok (t_rows t) = true.
  Proof.
    unfold table_ok. intros H. apply andb_true_iff in H as [H H6]. apply andb_true_iff in H as [H H5]. apply andb_true_iff in H as [H H4]. apply andb_true_iff in H as [H H3]. apply andb_true_iff in H as [H1 H2].
    destruct (setting "widths" (t_settings t)); [discriminate|]. auto 8.
  Qed.
  Lemma rows_some rows : rows_ok rows = true -> Forall (fun ts : list text => ts <> []) (map fst rows).
  Proof.
    induction rows as [|[cells gap] rows IH]; [constructor|]. cbn [rows_ok map fst]. intros H. apply andb_true_iff in H as [H1 H2]. constructor; [destruct cells; discriminate|].
    destruct rows; [constructor|]. now apply IH.
  Qed.
  Lemma rows_proper t : table_ok t = true -> proper (rows_source t (t_rows t)).
  Proof.
    intros H. destruct (table_parts _ H) as (_ & _ & _ & Hbr & Hbc & Hrows). destruct (rows_first t _ Hbc Hrows) as (l & X & E & _). rewrite E. exists (t_row t :: 32%N :: l), X. split; [reflexivity|].
    apply bullet_ink in Hbr. split; [now apply (ink_not_blank [] (t_row t))|]. exact (ink_indent [] (t_row t) (32%N :: l) eq_refl Hbr).
  Qed.
  Lemma parser_list_table : parser_for (directive_label (lit "list-table")) = parse_list_table. Proof. the_parser. Qed.
  (* the rows *)
  Lemma run_table t m z0 seen d1 line g : sound z0 -> table_ok t = true -> ledger d1 z0 [(table_node t m None, [])] seen ->
    exists f0 d2 ys cs ks, (forall f, f0 <= f -> parse table f (rows_source t (t_rows t) ++ repeat [] g) m line SListTable d1 = Ret (REOF [SListTable; SBulletList; SListItem; SBulletList; SListItem], d2)) /\
      ledger d2 z0 [(NBulletListItem (t_cell t) (m + 2) (m + 2 + 2), ks); (NBulletList (t_cell t) (m + 2) (m + 2 + 2), cs);
        (NBulletListItem (t_row t) m (m + 2), []); (NBulletList (t_row t) m (m + 2), ys); (table_node t m None, [])] seen /\
      forall i j k, Forall2 (tabled ord full) (map fst (t_rows t)) (ys ++ [Node i None None (NBulletListItem (t_row t) m (m + 2))
        (Some [Node j None None (NBulletList (t_cell t) (m + 2) (m + 2 + 2)) (Some (cs ++ [Node k None None (NBulletListItem (t_cell t) (m + 2) (m + 2 + 2)) (Some ks)]))])]).
  Proof.
    intros Hz Hok L. destruct (table_parts _ Hok) as (_ & _ & _ & Hbr & Hbc & Hrows). destruct (rows_first t _ Hbc Hrows) as (l & X & E & Hl).
    set (s := rows_source t (t_rows t) ++ repeat [] g). set (c0 := initial line SListTable d1).
    assert (P0 : placed s c0 [SListTable] 0 0).
    { split; try reflexivity. replace (length s <=? 0) with false; [reflexivity|]. symmetry. apply Nat.leb_gt. unfold s. rewrite E. cbn. lia. }
    assert (Hl0 : nth_error s 0 = Some (t_row t :: 32%N :: l)) by (unfold s; now rewrite E).
    destruct (open_bullets z0 seen Hz s m c0 SListTable LIST_TABLE_TRANSITIONS [] 0 0 (t_row t) l (table_node t m None) [] [] P0 ltac:(lia) Hl0 (conj Hbr Hl) I eq_refl ltac:(now right) L eq_refl eq_refl) as (c1 & Hs1 & P1 & L1).
    destruct (run_rows ord full z0 seen Hz s m t [SListTable] [(table_node t m None, [])] g Hbr Hbc (t_rows t) Hrows c1 0 (0 + 1) [] [] ltac:(lia) P1 eq_refl L1 ltac:(constructor)) as (c2 & p2 & ys & cs & ks & Hs2 & P2 & Hend & L2 & W2).
    destruct (run_steps s m c0 c2 _ (steps_trans _ _ _ _ _ Hs1 Hs2) (placed_end s m c2 _ _ _ P2 ltac:(lia) Hend)) as (f0 & Hrun).
    exists f0, (cf_doc c2), ys, cs, ks. split; [exact Hrun|]. split; [exact L2|exact W2].
  Qed.
  Lemma step_table t c S0 y k st r e s seen p n rest : table_ok t = true ->
    home S0 y k -> at_ src c (S0 :: st) ((y, r) :: e) s seen p n -> n <= 9 ->
    skipn p src = table_source k t ++ rest -> low k rest ->
    exists c' p', steps src 0 c c' /\
      at_ src c' (SListTable :: S0 :: st) ((table_node t (k + 3) (Some (even_widths (columns t))), None) :: (y, r) :: e) (s ++ table_begin t ++ table_rows t) seen p' 0 /\
      skipn p' src = past_blanks rest.
  Proof.
    intros Hok Hh Hat Hn E Hlow. pose proof (at_cur _ _ _ _ _ _ _ _ _ _ Hat) as Hc. pose proof (at_doc _ _ _ _ _ _ _ _ _ _ Hat) as Hun.
    destruct (table_parts _ Hok) as (Ha & Ho & Hw & Hbr & Hbc & Hrows). pose proof (rows_proper _ Hok) as Hpr. unfold table_source in E.
    set (body := rows_source t (t_rows t)) in *. set (opts := t_settings t) in *. set (arg := t_title t) in *.
    assert (Hl : nth_error src p = Some (pad k (marker_line (lit "list-table") arg))) by (unfold directive_source in E; cbn [app] in E; now apply skipn_cons in E).
    destruct (home_table _ _ _ Hh) as (tbl & Htb & Hb).
    destruct (directive_by_indent src 0 p k (lit "list-table") arg tbl Hl Hb eq_refl Ha) as (cs & Hf & Hx).
    match type of Hx with context [MkMarker ?a ?b ?c] => set (m := MkMarker a b c) in Hx end.
    assert (Hm : m_body m = k + 3).
    { unfold m. cbn [m_body]. rewrite (body_indent_below src p k _ _ _ _ _ E Ho); [reflexivity|right; exact Hpr|right; exact (proper_nonempty _ Hpr)]. }
    destruct (question_head src k p (lit "list-table") arg opts body 0 rest m E (proper_nonempty _ Hpr) Ha Ho Hm eq_refl eq_refl) as (w & Earg & Eopt & Ehere).
    specialize (Ehere (cf_cur c) Hc). cbn [repeat app] in Ehere. set (cur1 := cur_add (cf_cur c) (1 + w)) in *.
    set (g0 := length (leading opts)) in *. set (cur2 := cur_add cur1 g0).
    assert (Hpb : blank_prefix (map (shifted (k + 3)) body ++ rest) = 0).
    { destruct Hpr as (l0 & X & -> & Hl0 & _). cbn [map app blank_prefix]. now rewrite shifted_blank, Hl0. }
    pose proof (here_skip src _ _ _ Ehere) as Eh2. fold cur2 in Eh2.
    destruct (past_blanks_split rest) as (g & Eg). set (X := body ++ repeat [] g).
    assert (EX : skipn (cur_offset cur2) src = map (shifted (k + 3)) X ++ past_blanks rest).
    { unfold QuizProofs.here in Eh2. rewrite Eh2. unfold X. rewrite map_app, map_shifted_blank, <- app_assoc. f_equal. exact Eg. }
    assert (HX : X <> []) by (unfold X; pose proof (proper_nonempty _ Hpr) as Q; destruct body; [congruence|discriminate]).
    destruct (read_block src (cur_offset cur2) k (k + 3) X (past_blanks rest) None EX HX Hlow ltac:(lia) (or_introl eq_refl)) as (bf & Hread).
    destruct (fresh_open ord full (cf_doc c) _ s seen (table_node t (k + 3) None) Hun eq_refl eq_refl) as (d1 & Ed1 & F1).
    { rewrite (under_data _ _ _ _ _ _ _ _ Hun). apply (home_allows _ _ _ _ Hh). a_kind. }
    pose proof Hun as [Hop _ _ _]. set (z0 := tree (cf_doc c)) in *. pose proof (opened_sound ord full _ _ _ Hop) as Hz.
    assert (L1 : ledger d1 z0 [(table_node t (k + 3) None, [])] seen).
    { destruct F1 as [[i Et] _ _ Hc1]. split; [|exact Hc1]. rewrite Et. constructor. constructor. }
    destruct (run_table t (k + 3) z0 seen d1 (cur_sum cur2) g Hz Hok L1) as (f0 & d2 & ys & cs2 & ks & Hrun & L2 & W2).
    destruct (ledger_back _ _ _ _ _ _ _ _ L2 Hz) as (d3 & i3 & Ed3 & L3). destruct (ledger_back _ _ _ _ _ _ _ _ L3 Hz) as (d4 & i4 & Ed4 & L4).
    destruct (ledger_back _ _ _ _ _ _ _ _ L4 Hz) as (d5 & i5 & Ed5 & L5). destruct (ledger_back _ _ _ _ _ _ _ _ L5 Hz) as (d6 & i6 & Ed6 & L6).
    specialize (W2 i5 i4 i3). cbn [app] in L4, L5, L6, W2.
    match type of W2 with Forall2 _ _ ?x => set (rows := x) in * end.
    pose proof (ledger_data _ _ _ _ _ _ L6) as Hd6.
    assert (Hcol : columns_of (z_node (tree d6)) = Some (columns t)).
    { destruct L6 as [L6 _]. remember (tree d6) as z eqn:Ez. match type of L6 with chained _ ?l _ => remember l as ll eqn:Ell end.
      destruct L6 as [|i x0 cs0 ch p0 L6]; [discriminate|]. assert (cs0 = [Node i6 None None (NBulletList (t_row t) (k + 3) (k + 3 + 2)) (Some rows)]) as -> by congruence.
      cbn [z_node]. unfold columns_of. cbn [first_list node_children is_bullet_list node_data]. rewrite (tabled_columns ord full _ _ 0 W2), longest_columns. reflexivity. }
    set (tn := table_node t (k + 3) (Some (even_widths (columns t)))). set (d7 := set_focused_data d6 tn).
    assert (Hex : exists f0, forall f, f0 <= f -> pexec (parse table f) (directive src 0 cs) (cf_doc c) (cf_cur c) = Ret (TSuccess (Push [SListTable]) (Some (length X)), d7, cur2)).
    { exists f0. intros f Hf0. rewrite (Hx (parse table f) (cf_doc c) (cf_cur c) y k Hc (under_data _ _ _ _ _ _ _ _ Hun) (home_indent _ _ _ Hh)). cbn [Nat.add]. rewrite match_same.
      rewrite parser_list_table. unfold parse_list_table. rewrite pexec_bind, (Earg _ _ Hc (parse table f)). cbn [obind].
      rewrite pexec_bind, (Eopt _ _ Hc (parse table f)). cbn [obind]. fold cur1. rewrite !opt_setting. fold opts. rewrite Hw. cbn [table_widths lift pbind].
      rewrite pexec_bind, (does_skip src (cf_doc c) cur1 g0 _ Ehere Hpb (parse table f)). cbn [obind]. fold cur2.
      assert (Ht : space_join (args_of arg) = arg) by (unfold args_of; destruct arg; reflexivity). rewrite Ht, Hm.
      change (NListTable (k + 3) _ None _ _ _ _) with (table_node t (k + 3) None).
      unfold Prog.pushed. cbn [pbind pexec]. rewrite Ed1. cbn [obind pexec negb]. unfold body_block, get_cursor. cbn [pbind pexec]. rewrite Hm, Hread. cbn [lift pbind pexec ib_lines ib_offset].
      unfold X, body. rewrite (Hrun f Hf0). cbn [obind pexec length Nat.sub Directives.unwind]. unfold focus_parent. cbn [pbind pexec dop_exec]. rewrite Ed3. cbn [obind pexec]. rewrite Ed4. cbn [obind pexec].
      rewrite Ed5. cbn [obind pexec]. rewrite Ed6. cbn [obind pexec]. unfold get_doc. cbn [pbind pexec]. rewrite Hd6. unfold table_node at 1. rewrite Hcol.
      unfold doc_op. cbn [pbind pexec dop_exec]. unfold update_data. rewrite Hd6. unfold table_node at 1. cbn [set_widths obind pexec]. reflexivity. }
    destruct (placed_step src 0 c S0 st p n _ tbl directive cs (Push [SListTable]) (Some (length X)) d7 cur2 0 (SListTable :: S0 :: st) (at_placed _ _ _ _ _ _ _ _ _ _ Hat) Hn Hl (home_live _ _ _ Hh) Htb Hf Hex) as (c1 & Hs1 & P1 & D1); auto.
    { intros E0. exfalso. unfold cur2, cur1 in E0. clear -E0 Hc. destruct (cf_cur c); cbn in *; lia. }
    exists c1, (cur_offset cur2 + length X). split; [exact Hs1|]. split.
    - apply placed_at; [exact P1|]. rewrite D1. unfold d7. clear Hcol. destruct L6 as [L6 (Ha6 & Hc6 & Hs6)].
      destruct (rows_wrote ord full _ _ W2 (rows_some _ Hrows)) as (rows' & Er & (ks' & K1 & K2) & B').
      split; auto. unfold set_focused_data. cbn [tree d_set_tree].
      remember (tree d6) as z eqn:Ez. match type of L6 with chained _ ?l _ => remember l as ll eqn:Ell end.
      destruct L6 as [|i x0 cs0 ch p0 L6]; [discriminate|]. assert (cs0 = [Node i6 None None (NBulletList (t_row t) (k + 3) (k + 3 + 2)) (Some rows)] /\ ch = []) as [-> ->].
      { split; [exact (f_equal (fun l : list link => match l with (_, c0) :: _ => c0 | [] => [] end) Ell)|exact (f_equal (@tl _) Ell)]. }
      assert (p0 = z0) as -> by (inversion L6; reflexivity). cbn [z_node z_with_node with_data].
      replace (table_begin t ++ table_rows t) with (table_begin t ++ concat ([] :: ks' ++ [nl1])).
      2:{ f_equal. cbn [concat app]. rewrite concat_app, K2. cbn [concat]. rewrite app_nil_r. unfold table_rows. f_equal. rewrite !flat_map_concat_map, map_map. reflexivity. }
      apply (op_child ord full z0 _ s i None tn _ [Node i6 None None NTBody (Some rows')] (table_begin t) ([] :: ks' ++ [nl1])).
      + exact Hop.
      + apply table_pre. rewrite longest_columns. now apply longest_some.
      + cbn [write_children]. change (write_node ord full (Node i6 None None NTBody (Some rows'))) with (write_node ord full (Node i6 None None NTBody (Some rows'))). rewrite write_node_eq.
        cbn [node_data node_refnames kids node_children pre_string obind]. rewrite K1. cbn [obind post_string]. rewrite app_nil_r. reflexivity.
      + cbn [relabel tn table_node]. rewrite Er. constructor; [|constructor]. apply becomes_node; [reflexivity|]. exact B'.
      + cbn [grown tn table_node]. exists i6, None, None, (t_row t), (k + 3), (k + 3 + 2), rows, rows', []. auto.
    - apply skipn_past in EX. now rewrite map_length in EX.
  Qed.
End Table.
