(* OpenerProofs.v -- opening lists, items and quotes (used for C47). *)
From Verif Require Import Base Unicode Regex Patterns Common Converters NodeTypes Tree DocTree History Blocks Prog ParseLoop
  Inline Body Directives Parser Spec RegexProofs BlockProofs TreeProofs DocTreeProofs HyperrefProofs InlineSpec RegexGroups InlineProofs LoopProofs
  Utf8Latex Writer WriterProofs Transforms TextProofs OpenProofs SimpleSpec LineProofs Properties7 RunProofs StepProofs ParaProofs NumberProofs LeaveProofs GroupProofs.

Section Openers.
  Variables (ord : hash_order) (full : bool).
  Notation under := (under ord full).
  Notation at_ := (at_ ord full).
  Variables (src : list str) (base : nat).

  (* ---------- quotes ---------- *)
  (* a line of indentation j is first seen by its indentation *)
  Definition by_its_indent (p j : nat) : Prop := exists line, nth_error src p = Some line /\
    forall tbl, body_table tbl -> exists t cs, find_transition line tbl = Some (t, cs) /\
    forall call d x m cur, focused_data d = x -> cur_offset cur = p -> NodeTypes.body_indent x = Some m -> m < base + j ->
      pexec call (t src base cs) d cur = pexec call (open_block_quote (base + j)) d cur.
  (* what follows a line of text that is no title *)
  Definition next_no_line (p : nat) : Prop := forall l, nth_error src (S p) = Some l -> captures LINE l = None.
  Lemma quote_text p j l : nth_error src p = Some (pad j l) -> starts_text l = true -> like_enumerator l = false -> next_no_line p ->
    by_its_indent p j.
  Proof.
    intros Hl Hst He Hn. exists (pad j l). split; [exact Hl|]. intros tbl Hb.
    destruct (find_text tbl _ _ Hb (ws_pad j) Hst He) as (cs & Hf & C1). exists body_text, cs. split; [exact Hf|].
    intros call d x m cur Hx Hc Hm Hj. unfold body_text. rewrite (cap_len_ok _ _ _ _ _ _ _ C1), pad_length.
    unfold get_cursor. cbn [pbind pexec]. rewrite Hc, (Nat.add_comm j).
    assert (Q : pexec call (parse_paragraph src base (base + j)) d cur = pexec call (open_block_quote (base + j)) d cur).
    { unfold parse_paragraph. rewrite (exec_by_indent _ _ _ _ _ _ _ Hx Hm), match_more by exact Hj. reflexivity. }
    unfold next_no_line in Hn. destruct (nth_error src (S p)) as [nx|]; [|exact Q]. rewrite (Hn nx eq_refl).
    destruct (captures TEXT nx) as [tcs|] eqn:Et; [|exact Q].
    unfold cap_len at 1. destruct (captures_ws _ _ _ Et) as (w & t & u & new & _ & _ & _ & Ecs).
    assert (exists w', cap 1 tcs = Some w') as (w' & Cw).
    { subst tcs. cbn [app cap Nat.eqb]. destruct (cap 1 (new ++ [(1, (0, w))])) eqn:E; [eauto|].
      exfalso. clear - E. induction new as [|[k [o v]] new IH]; cbn in E; [discriminate|]. destruct (k =? 1); [discriminate|auto]. }
    unfold get_cap. rewrite Cw. cbn [unwrap lift pbind]. destruct (base + j <? length w' + base); [|exact Q].
    rewrite (exec_by_indent _ _ _ _ _ _ _ Hx Hm), match_more by exact Hj. reflexivity.
  Qed.
  Lemma quote_bullet p j b l : nth_error src p = Some (pad j (b :: 32%N :: l)) -> existsb (N.eqb b) bullet_chars = true ->
    starts_text l = true -> by_its_indent p j.
  Proof.
    intros Hl Hbu Hst. eexists. split; [exact Hl|]. intros tbl Hb.
    destruct (find_bullet tbl _ b l Hb (ws_pad j) Hbu Hst) as (cs & Hf & C1 & C2 & Cw). exists body_bullet, cs. split; [exact Hf|].
    intros call d x m cur Hx Hc Hm Hj. unfold body_bullet. rewrite (get_cap_ok _ _ _ _ _ _ _ C2). cbn [first_char pbind].
    rewrite (cap_len_ok _ _ _ _ _ _ _ C1), pad_length, (Nat.add_comm j).
    cbv zeta. rewrite (exec_by_indent _ _ _ _ _ _ _ Hx Hm), match_more by exact Hj. reflexivity.
  Qed.
  Lemma quote_comment p j l : nth_error src p = Some (pad j (lit ".. " ++ l)) -> starts_word l = true -> no_markup_chars l = true ->
    by_its_indent p j.
  Proof.
    intros Hl Hst Hm. eexists. split; [exact Hl|]. intros tbl Hb.
    destruct (find_comment tbl _ l Hb (ws_pad j) Hst Hm) as (cs & Hf & C1 & Cw). exists body_comment, cs. split; [exact Hf|].
    intros call d x m cur Hx Hc Hbi Hj. unfold body_comment.
    rewrite (cap_len_ok _ _ _ _ _ _ _ C1), pad_length, (Nat.add_comm j). unfold get_cursor. cbn [pbind pexec].
    cbv zeta. rewrite (exec_by_indent _ _ _ _ _ _ _ Hx Hbi), match_more by exact Hj. reflexivity.
  Qed.
  Lemma quote_number p j d auto n l : nth_error src p = Some (pad j (enumerator d auto n ++ 32%N :: l)) -> starts_text l = true ->
    number_ok auto n = true -> free_next src p j -> by_its_indent p j.
  Proof.
    intros Hl Hst Hn Hfree. eexists. split; [exact Hl|]. intros tbl Hb.
    destruct (find_number d auto n j l Hst Hn tbl Hb) as (cs & Hf & C1 & Cw & Ce). exists body_enumerator, cs. split; [exact Hf|].
    intros call dd x m cur Hx Hc Hm Hj. unfold body_enumerator.
    rewrite (cap_len_ok _ _ _ _ _ _ _ C1), pad_length, (Nat.add_comm j). cbv zeta. unfold get_cursor. cbn [pbind pexec].
    rewrite Ce by (auto; vm_compute; discriminate). cbn [lift pbind]. rewrite free_is_item by (now rewrite Hc). cbn [lift pbind negb].
    rewrite (exec_by_indent _ _ _ _ _ _ _ Hx Hm), match_more by exact Hj. reflexivity.
  Qed.
  Lemma step_quote c S0 x k st r e s seen p n j :
    home S0 x k -> at_ src c (S0 :: st) ((x, r) :: e) s seen p n -> n <= 9 -> by_its_indent p j -> k < base + j ->
    exists c', steps src base c c' /\
      at_ src c' (SBlockQuote :: S0 :: st) ((NBlockQuote (base + j), None) :: (x, r) :: e) (s ++ lit "\begin{quotation}" ++ nl1) seen p (n + 1).
  Proof.
    intros Hh Hat Hn (line & Hl & Hq) Hj. pose proof (at_cur _ _ _ _ _ _ _ _ _ _ Hat) as Hc. pose proof (at_doc _ _ _ _ _ _ _ _ _ _ Hat) as Hu.
    destruct (home_table _ _ _ Hh) as (tbl & Htb & Hb). destruct (Hq tbl Hb) as (t & cs & Hf & Hx).
    destruct (exec_open ord full (parse table 0) (cf_doc c) (NBlockQuote (base + j)) _ s seen (lit "\begin{quotation}" ++ nl1) (cf_cur c)
      (fun ok => PRet (if ok then TSuccess (Push [SBlockQuote]) None else TFailure)) Hu) as (d' & Ed & Hu').
    { reflexivity. } { reflexivity. } { reflexivity. }
    { rewrite (under_data _ _ _ _ _ _ _ _ Hu). apply (home_allows _ _ _ _ Hh). a_kind. }
    { reflexivity. }
    destruct (step_transition ord full src base c S0 st ((x, r) :: e) s seen p n line tbl t cs (Push [SBlockQuote]) None
      ((NBlockQuote (base + j), None) :: (x, r) :: e) (s ++ lit "\begin{quotation}" ++ nl1) seen d' (cf_cur c) (n + 1) (SBlockQuote :: S0 :: st)
      Hat Hn Hl (home_live _ _ _ Hh) Htb Hf) as (c1 & Hs & Ha); auto.
    { exists 0. intros f Hf0. rewrite (Hx _ _ _ _ _ (under_data _ _ _ _ _ _ _ _ Hu) Hc (home_indent _ _ _ Hh) Hj).
      eapply exec_up; [|exact Hf0]. exact Ed. }
    exists c1. split; [exact Hs|]. rewrite Hc, Nat.add_0_r in Ha. exact Ha.
  Qed.

  (* ---------- lists ---------- *)
  Lemma step_list c S0 x k st r e s seen p n b l :
    home S0 x (base + k) -> at_ src c (S0 :: st) ((x, r) :: e) s seen p n -> n <= 9 ->
    nth_error src p = Some l -> bullet_line k b l ->
    exists c', steps src base c c' /\
      at_ src c' (SBulletList :: S0 :: st) ((NBulletList b (base + k) (base + (k + 2)), None) :: (x, r) :: e) (s ++ lit "\begin{itemize}" ++ nl1) seen p (n + 1).
  Proof.
    intros Hh Hat Hn Hl (Hbu & t & -> & Hst). pose proof (at_cur _ _ _ _ _ _ _ _ _ _ Hat) as Hc. pose proof (at_doc _ _ _ _ _ _ _ _ _ _ Hat) as Hu.
    destruct (home_table _ _ _ Hh) as (tbl & Htb & Hb).
    destruct (find_bullet tbl (repeat 32%N k) b t Hb (ws_pad k) Hbu Hst) as (cs & Hf & C1 & C2 & Cw).
    destruct (exec_open ord full (parse table 0) (cf_doc c) (NBulletList b (base + k) (base + (k + 2))) _ s seen (lit "\begin{itemize}" ++ nl1) (cf_cur c)
      (fun ok => PRet (if ok then TSuccess (Push [SBulletList]) None else TFailure)) Hu) as (d' & Ed & Hu').
    { reflexivity. } { reflexivity. } { reflexivity. }
    { rewrite (under_data _ _ _ _ _ _ _ _ Hu). apply (home_allows _ _ _ _ Hh). a_kind. }
    { reflexivity. }
    assert (Hex : pexec (parse table 0) (body_bullet src base cs) (cf_doc c) (cf_cur c) = Ret (TSuccess (Push [SBulletList]) None, d', cf_cur c)).
    { unfold body_bullet. rewrite (get_cap_ok _ _ _ _ _ _ _ C2). cbn [first_char pbind].
      rewrite (cap_len_ok _ _ _ _ _ _ _ C1), pad_length. unfold match_len. rewrite Cw, app_length, pad_length. cbv zeta. cbn [length].
      replace (k + base) with (base + k) by lia. replace (k + 2 + base) with (base + (k + 2)) by lia.
      rewrite (exec_by_indent _ _ _ _ _ _ _ (under_data _ _ _ _ _ _ _ _ Hu) (home_indent _ _ _ Hh)), match_same. exact Ed. }
    destruct (step_transition ord full src base c S0 st ((x, r) :: e) s seen p n _ tbl body_bullet cs (Push [SBulletList]) None
      ((NBulletList b (base + k) (base + (k + 2)), None) :: (x, r) :: e) (s ++ lit "\begin{itemize}" ++ nl1) seen d' (cf_cur c) (n + 1) (SBulletList :: S0 :: st)
      Hat Hn Hl (home_live _ _ _ Hh) Htb Hf) as (c1 & Hs & Ha); auto.
    { exists 0. intros f Hf0. eapply exec_up; [exact Hex|exact Hf0]. }
    exists c1. split; [exact Hs|]. rewrite Hc, Nat.add_0_r in Ha. exact Ha.
  Qed.

  Lemma step_numbers c S0 x k st r e s seen p n d auto nb l :
    home S0 x (base + k) -> at_ src c (S0 :: st) ((x, r) :: e) s seen p n -> n <= 9 ->
    nth_error src p = Some (pad k (enumerator d auto nb ++ 32%N :: l)) -> starts_text l = true -> number_ok auto nb = true -> free_next src p k ->
    (auto = Auto -> nb = 1%N) ->
    exists c', steps src base c c' /\
      at_ src c' (SEnumeratedList :: S0 :: st) ((NEnumeratedList d (kind_of auto) nb 0 (base + k), None) :: (x, r) :: e) (s ++ lit "\begin{enumerate}" ++ nl1) seen p (n + 1).
  Proof.
    intros Hh Hat Hn Hl Hst Hnb Hfree Hauto. pose proof (at_cur _ _ _ _ _ _ _ _ _ _ Hat) as Hc. pose proof (at_doc _ _ _ _ _ _ _ _ _ _ Hat) as Hu.
    destruct (home_table _ _ _ Hh) as (tbl & Htb & Hb).
    destruct (find_number d auto nb k l Hst Hnb tbl Hb) as (cs & Hf & C1 & Cw & Ce).
    destruct (exec_open ord full (parse table 0) (cf_doc c) (NEnumeratedList d (kind_of auto) nb 0 (base + k)) _ s seen (lit "\begin{enumerate}" ++ nl1) (cf_cur c)
      (fun ok => PRet (if ok then TSuccess (Push [SEnumeratedList]) None else TFailure)) Hu) as (d' & Ed & Hu').
    { reflexivity. } { reflexivity. } { reflexivity. }
    { rewrite (under_data _ _ _ _ _ _ _ _ Hu). apply (home_allows _ _ _ _ Hh). a_kind. }
    { reflexivity. }
    assert (Hex : pexec (parse table 0) (body_enumerator src base cs) (cf_doc c) (cf_cur c) = Ret (TSuccess (Push [SEnumeratedList]) None, d', cf_cur c)).
    { unfold body_enumerator.
      rewrite (cap_len_ok _ _ _ _ _ _ _ C1), pad_length, (Nat.add_comm k). cbv zeta. unfold get_cursor. cbn [pbind pexec].
      rewrite Ce by (auto; vm_compute; discriminate). cbn [lift pbind].
      replace (number_value auto (0 + 1) nb) with nb by (destruct auto; [now rewrite Hauto|reflexivity..]).
      replace (number_kind auto (list_kind_of None)) with (kind_of auto) by (destruct auto; reflexivity).
      rewrite free_is_item by (now rewrite Hc). cbn [lift pbind negb].
      rewrite (exec_by_indent _ _ _ _ _ _ _ (under_data _ _ _ _ _ _ _ _ Hu) (home_indent _ _ _ Hh)), match_same. exact Ed. }
    destruct (step_transition ord full src base c S0 st ((x, r) :: e) s seen p n _ tbl body_enumerator cs (Push [SEnumeratedList]) None
      ((NEnumeratedList d (kind_of auto) nb 0 (base + k), None) :: (x, r) :: e) (s ++ lit "\begin{enumerate}" ++ nl1) seen d' (cf_cur c) (n + 1) (SEnumeratedList :: S0 :: st)
      Hat Hn Hl (home_live _ _ _ Hh) Htb Hf) as (c1 & Hs & Ha); auto.
    { exists 0. intros f Hf0. eapply exec_up; [exact Hex|exact Hf0]. }
    exists c1. split; [exact Hs|]. rewrite Hc, Nat.add_0_r in Ha. exact Ha.
  Qed.

  (* ---------- items ---------- *)
  Lemma byte_len_ascii l : forallb (fun c => N.ltb c 128) l = true -> byte_len l = length l.
  Proof.
    induction l as [|c l IH]; [reflexivity|]. cbn [forallb]. intros H. apply andb_true_iff in H as [H1 H2].
    change (byte_len (c :: l)) with (utf8_len c + byte_len l). rewrite IH by exact H2. unfold utf8_len. now rewrite H1.
  Qed.
  Lemma item_loop k rest : head_ok (k + 2) rest -> forall more prev min, Forall (fun l => starts_text l = true) more ->
    exists bf, indented_loop (map (pad (k + 2)) more ++ rest) prev true (Some (k + 2)) false (Some min) = (map (pad (k + 2)) more, Some min, bf).
  Proof.
    intros Hr. induction more as [|l more IH]; intros prev min HF.
    - cbn [map app]. destruct rest as [|l rest]; [cbn; eauto|]. cbn in Hr. destruct Hr as [-> | (j & (Hbl & Hil & _) & Hj)]; [cbn; eauto|].
      cbn [indented_loop]. rewrite Hbl, Hil.
      replace (j <? k + 2) with true by (symmetry; apply Nat.ltb_lt; lia). rewrite orb_true_r. cbn [negb andb]. eauto.
    - apply Forall_cons_iff in HF as [Hl HF]. cbn [map app indented_loop]. rewrite (pad_not_blank _ _ Hl), (pad_indent _ _ Hl).
      replace (k + 2 <? 1) with false by (symmetry; apply Nat.ltb_ge; lia). rewrite Nat.ltb_irrefl. cbn [orb negb andb].
      destruct (IH (Some (pad (k + 2) l)) min HF) as (bf & E). rewrite E. eauto.
  Qed.
  Lemma step_item c st e s seen p n b k tx rest :
    at_ src c (SBulletList :: st) ((NBulletList b (base + k) (base + (k + 2)), None) :: e) s seen p n -> n <= 9 ->
    existsb (N.eqb b) bullet_chars = true -> para_ok tx = true -> head_ok (k + 2) rest ->
    skipn p src = item_lines k b (text_lines tx) ++ rest ->
    exists c', steps src base c c' /\
      at_ src c' (SListItem :: SBulletList :: st) ((NBulletListItem b (base + k) (base + (k + 2)), None) :: (NBulletList b (base + k) (base + (k + 2)), None) :: e)
        (s ++ lit "\item " ++ para_latex tx) seen (p + length (item_lines k b (text_lines tx))) 0.
  Proof.
    intros Hat Hn Hbu Hok Hr E. pose proof (at_cur _ _ _ _ _ _ _ _ _ _ Hat) as Hc. pose proof (at_doc _ _ _ _ _ _ _ _ _ _ Hat) as Hu.
    destruct (para_ok_lines _ Hok) as [_ Hls]. destruct (para_ok_first _ Hok) as (l & more & El & Hst & Hen).
    assert (Hmore : Forall (fun l => starts_text l = true) more).
    { rewrite El in Hls. apply Forall_cons_iff in Hls as [_ Hls]. eapply Forall_impl; [|exact Hls]. now intros ? (? & _). }
    assert (Elen : length (item_lines k b (text_lines tx)) = length (text_lines tx)) by (rewrite El; cbn [item_lines length]; now rewrite map_length).
    assert (Hl : nth_error src p = Some (pad k (b :: 32%N :: l)) /\ skipn (S p) src = map (pad (k + 2)) more ++ rest).
    { rewrite El in E. cbn [item_lines app] in E. now apply skipn_cons in E. }
    destruct Hl as [Hl Hrest].
    destruct (find_list_bullet (repeat 32%N k) b l (ws_pad k) Hbu Hst) as (cs & Hf & C1 & C2 & Cw).
    (* the item *)
    destruct (under_open ord full (cf_doc c) _ s seen (NBulletListItem b (base + k) (base + (k + 2))) (lit "\item ") Hu) as (d1 & Ed & Hu1).
    { reflexivity. } { reflexivity. } { reflexivity. }
    { rewrite (under_data _ _ _ _ _ _ _ _ Hu). reflexivity. }
    { reflexivity. }
    (* its first lines *)
    assert (Hread : exists bf, read_indented_block src p true true (Some (k + 2)) (Some (k + 2)) false =
                    Ret (Some (MkIndentedBlock (map (pad 0) (text_lines tx)) (k + 2) (length (text_lines tx)) bf))).
    { destruct (item_loop k rest Hr more (Some (pad k (b :: 32%N :: l))) (k + 2) Hmore) as (bf & Eloop). exists bf.
      unfold read_indented_block. destruct src as [|s0 src0] eqn:Es; [destruct p; discriminate|]. rewrite <- Es in *.
      unfold checked_sub. replace (p <=? length src) with true by (symmetry; apply Nat.leb_le, Nat.lt_le_incl, nth_error_Some; congruence).
      cbn [obind]. rewrite Hl. cbn [unwrap obind]. rewrite Hrest, Eloop. cbn [obind unwrap strip_block].
      replace (skipn (k + 2) (pad k (b :: 32%N :: l))) with (pad 0 l).
      2:{ clear. induction k; [reflexivity|exact IHk]. }
      replace (map (skipn (k + 2)) (map (pad (k + 2)) more)) with (map (pad 0) more).
      2:{ rewrite map_map. apply map_ext. intros a. now rewrite pad_skip. }
      rewrite El. cbn [map length]. rewrite map_length. reflexivity. }
    destruct Hread as (bf & Hread).
    (* the parser for them *)
    set (inner_src := map (pad 0) (text_lines tx)).
    set (c0 := initial (cur_sum (cf_cur c)) SListItem d1).
    assert (Ha0 : at_ inner_src c0 [SListItem] ((NBulletListItem b (base + k) (base + (k + 2)), None) :: (NBulletList b (base + k) (base + (k + 2)), None) :: e) (s ++ lit "\item ") seen 0 0).
    { split; try reflexivity; [|exact Hu1]. replace (length inner_src <=? 0) with false; [reflexivity|].
      symmetry. apply Nat.leb_gt. unfold inner_src. rewrite map_length, El. cbn. lia. }
    destruct (step_para ord full inner_src (base + (k + 2)) c0 SListItem BODY_TRANSITIONS [] (NBulletListItem b (base + k) (base + (k + 2))) None
      ((NBulletList b (base + k) (base + (k + 2)), None) :: e) (s ++ lit "\item ") seen 0 0 0 tx [] I eq_refl (or_introl eq_refl)) with (3 := Ha0) as (c1 & Hs1 & Ha1); try reflexivity; try lia.
    { cbn. now rewrite Nat.add_0_r. }
    { cbn [skipn]. now rewrite app_nil_r. }
    cbn [Nat.add] in Ha1.
    assert (Hrun : exists f0, forall f, f0 <= f -> parse table f inner_src (base + (k + 2)) (cur_sum (cf_cur c)) SListItem d1 = Ret (REOF [SListItem], cf_doc c1)).
    { unfold parse. fold c0. eapply run_steps; [exact Hs1|]. eapply run_end in Ha1 as Hend; [exact Hend|lia|]. unfold inner_src. now rewrite map_length. }
    destruct Hrun as (f0 & Hrun). pose proof (at_doc _ _ _ _ _ _ _ _ _ _ Ha1) as Hu2. rewrite <- app_assoc in Hu2.
    assert (Hex : pexec (parse table f0) (list_bullet src base cs) (cf_doc c) (cf_cur c) = Ret (TSuccess (Push [SListItem]) (Some (length (text_lines tx))), cf_doc c1, cf_cur c)).
    { unfold list_bullet. rewrite (get_cap_ok _ _ _ _ _ _ _ C2). cbn [first_char pbind].
      rewrite (cap_len_ok _ _ _ _ _ _ _ C1), pad_length. unfold get_doc. cbn [pbind pexec].
      rewrite (under_data _ _ _ _ _ _ _ _ Hu).
      replace (byte_len (whole cs)) with (k + 2).
      2:{ rewrite Cw, byte_len_ascii; [rewrite app_length, pad_length; reflexivity|]. rewrite forallb_app. apply andb_true_iff. split.
          - clear. induction k; [reflexivity|]. cbn [repeat forallb]. now rewrite IHk.
          - apply existsb_exists in Hbu as (y & Hy & Ey). apply N.eqb_eq in Ey. subst y. vm_compute in Hy.
            repeat (destruct Hy as [<-|Hy]; [reflexivity|]). contradiction. }
      replace (k + base) with (base + k) by lia. replace (k + 2 + base) with (base + (k + 2)) by lia. rewrite N.eqb_refl, !Nat.eqb_refl. cbn [andb]. unfold Prog.pushed. cbn [pbind pexec]. rewrite Ed. cbn [obind pexec negb].
      unfold parse_first_node_block, get_cursor. cbn [pbind pexec]. unfold checked_sub. replace (base <=? base + (k + 2)) with true by (symmetry; apply Nat.leb_le; lia). cbn [lift pbind].
      replace (base + (k + 2) - base) with (k + 2) by lia. rewrite Hc, Hread.
      cbn [lift pbind pexec ib_lines ib_offset]. fold inner_src. rewrite Hrun by lia. cbn [obind pexec finish_first_block]. reflexivity. }
    destruct (step_transition ord full src base c SBulletList st _ s seen p n _ BULLET_LIST_TRANSITIONS list_bullet cs (Push [SListItem]) (Some (length (text_lines tx)))
      ((NBulletListItem b (base + k) (base + (k + 2)), None) :: (NBulletList b (base + k) (base + (k + 2)), None) :: e) (s ++ lit "\item " ++ para_latex tx) seen (cf_doc c1) (cf_cur c) 0 (SListItem :: SBulletList :: st)
      Hat Hn Hl I eq_refl Hf) with (2 := Hu2) as (c2 & Hs2 & Ha2); auto.
    { exists f0. intros f Hf0. eapply exec_up; [exact Hex|exact Hf0]. }
    { rewrite El. cbn [length]. lia. }
    exists c2. split; [exact Hs2|]. rewrite Elen. rewrite Hc in Ha2. exact Ha2.
  Qed.
End Openers.
