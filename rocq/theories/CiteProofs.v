(* CiteProofs.v -- the line that says who said what a block quote quotes (used
   for C47 and C62). *)
From Coq Require Import Permutation.
From Verif Require Import Base Unicode Regex Patterns Common Converters NodeTypes Tree DocTree History Blocks Prog ParseLoop
  Inline Body Directives Parser Spec RegexProofs BlockProofs TreeProofs DocTreeProofs HyperrefProofs InlineSpec RegexGroups InlineProofs LoopProofs
  Utf8Latex Writer WriterProofs Transforms TextProofs OpenProofs SimpleSpec LineProofs Properties7 RunProofs StepProofs ParaProofs NumberProofs GreedyProofs LeaveProofs GroupProofs
  MarkerProofs OpenerProofs LeafProofs.

Section CiteLine.
  Variables (w : str) (c : char) (t : str).
  Hypotheses (Hw : ws w) (Hs : starter c = true).
  Let L : str := w ++ 45%N :: 45%N :: 32%N :: c :: t.
  Lemma ci_ink : is_whitespace c = false. Proof. now apply starter_spec in Hs. Qed.
  Lemma ci_bullet : captures BULLET L = None.
  Proof.
    apply captures_none. intros (u & R). unfold BULLET in R. cbn [Seq] in R. apply rel_cat_inv in R as (s & R1 & R2).
    apply rel_ws0 in R1 as (w' & E & Hw'). apply rel_cat_inv in R2 as (s2 & R2 & R3). apply rel_grp_inv, rel_cls_inv in R2 as (b & -> & Hb).
    assert (Hbi : is_whitespace b = false).
    { unfold bullet_char, cls_of in Hb. apply existsb_exists in Hb as (x & Hx & Hb). apply N.eqb_eq in Hb. subst x.
      vm_compute in Hx. repeat (destruct Hx as [<-|Hx]; [reflexivity|]). contradiction. }
    unfold L in E. apply ws_head in E as (_ & _ & <-); auto.
    unfold after in R3. apply rel_alt_inv in R3 as [R3|R3].
    - unfold spaces1, Plus in R3. apply rel_cat_inv in R3 as (v & R3 & _). apply rel_chr in R3. discriminate.
    - apply rel_eot_inv in R3 as [R3 _]. discriminate.
  Qed.
  Lemma ci_enum : captures ENUMERATOR L = None.
  Proof. apply enum_none; auto; discriminate. Qed.
  Lemma ci_blank : captures BLANK_LINE L = None.
  Proof. now apply ink_blank. Qed.
  Lemma ci_field : captures FIELD_MARKER L = None.
  Proof. apply ink_field; [exact Hw|reflexivity|discriminate]. Qed.
  Lemma ci_dot X : captures (Cat (Grp 1 ws0) (Cat (Lit (q "..")) X)) L = None.
  Proof.
    apply captures_none. intros (u & R). apply rel_cat_inv in R as (s & R1 & R2). apply rel_ws0 in R1 as (w' & E & Hw').
    apply rel_cat_inv in R2 as (s2 & R2 & _). apply rel_lit in R2. subst s. unfold L in E. apply ws_head in E as (_ & E & _); auto. discriminate.
  Qed.
  Lemma ci_line : captures LINE L = None.
  Proof. unfold L. change (w ++ 45%N :: 45%N :: 32%N :: c :: t) with (w ++ [45; 45; 32]%N ++ c :: t). rewrite app_assoc. now apply starter_no_line. Qed.
  Lemma ci_text : exists cs, captures TEXT L = Some cs /\ cap 1 cs = Some w.
  Proof. now apply ink_text. Qed.
  Lemma ci_attribution : exists cs, captures ATTRIBUTION L = Some cs /\ cap 1 cs = Some w /\ whole cs = w ++ lit "-- ".
  Proof.
    apply captures_yields. unfold rexec, ATTRIBUTION. cbn [Seq Alts]. unfold L.
    apply cat_yields, grp_yields. unfold ws0.
    apply m_star; [exact Hw|no_more; reflexivity|]. rewrite took. apply cat_yields. apply m_alt.
    change (Lit (q "--")) with (Cat (Chr 45%N) (Chr 45%N)). apply cat_yields, m_chr, m_chr.
    unfold spaces0, space. change (32%N :: c :: t) with ([32%N] ++ c :: t). apply m_star; [reflexivity|no_more|].
    { cbn [not_at]. apply N.eqb_neq. intros E. pose proof ci_ink as H. rewrite <- E in H. discriminate. }
    eexists. split; [reflexivity|]. cbn [snd length]. split; [reflexivity|].
    unfold whole. cbn [cap Nat.eqb]. change (45%N :: 45%N :: [32%N] ++ c :: t) with (lit "-- " ++ c :: t).
    rewrite app_assoc. replace (S (S (0 + length w)) + 1) with (length (w ++ lit "-- ")) by (rewrite app_length; cbn [length lit]; lia).
    rewrite firstn_app, Nat.sub_diag, firstn_O, app_nil_r. apply firstn_all.
  Qed.
  Lemma ci_find_attribution : exists cs, find_transition L BLOCK_QUOTE_TRANSITIONS = Some (attribution, cs) /\ cap 1 cs = Some w /\ whole cs = w ++ lit "-- ".
  Proof.
    destruct ci_attribution as (cs & E & C). exists cs. split; [|exact C]. unfold BLOCK_QUOTE_TRANSITIONS, empty_line_entry.
    rewrite find_none by exact ci_blank. now apply find_some.
  Qed.
  Lemma ci_find_rest : exists cs, find_transition L body_rest = Some (body_text, cs) /\ cap 1 cs = Some w.
  Proof.
    destruct ci_text as (cs & E & C). exists cs. split; [|exact C]. unfold body_rest. cbn [find_transition].
    rewrite ci_bullet, ci_enum, ci_field, ci_line, E. unfold FOOTNOTE, CITATION, HYPERLINK_TARGET, DIRECTIVE, COMMENT. cbn [Seq]. rewrite !ci_dot. reflexivity.
  Qed.
End CiteLine.

Section Cite.
  Variables (ord : hash_order) (full : bool).
  Notation under := (under ord full).
  Notation at_ := (at_ ord full).
  Variables (src : list str).

  Lemma leaver_cite base p j who : nth_error src p = Some (pad j (lit "-- " ++ who)) -> starts_word who = true ->
    (forall nx, nth_error src (S p) = Some nx -> captures LINE nx = None) -> leaver ord full src base p j.
  Proof.
    intros Hl Hst Hg. destruct who as [|a t]; [discriminate|]. cbn [starts_word] in Hst. eexists. split; [exact Hl|]. unfold pad. change (lit "-- " ++ a :: t) with (45%N :: 45%N :: 32%N :: a :: t) in *.
    assert (T : forall cs, cap 1 cs = Some (repeat 32%N j) -> forall call d x r e s seen cur m, under d ((x, r) :: e) s seen -> e <> [] -> cur_offset cur = p ->
      inner x -> NodeTypes.body_indent x = Some m -> base + j < m -> pexec call (body_text src base cs) d cur = pexec call leave d cur).
    { intros cs C1 call d x r e s seen cur m Hu Hne Hc Hi Hm Hj. unfold body_text. rewrite (cap_len_ok _ _ _ _ _ _ _ C1), pad_length.
      unfold get_cursor. cbn [pbind pexec]. rewrite Hc, (Nat.add_comm j). pose proof (under_data _ _ _ _ _ _ _ _ Hu) as Hx.
      assert (Q : pexec call (parse_paragraph src base (base + j)) d cur = pexec call leave d cur).
      { unfold parse_paragraph. rewrite (exec_by_indent _ _ _ _ _ _ _ Hx Hm), match_less by exact Hj. reflexivity. }
      destruct (nth_error src (S p)) as [nx|] eqn:En; [|exact Q]. rewrite (Hg _ eq_refl).
      destruct (captures TEXT nx) as [tcs|] eqn:Et; [|exact Q].
      unfold cap_len at 1. destruct (captures_ws _ _ _ Et) as (w & t' & u & new & _ & _ & _ & Ecs).
      assert (exists w', cap 1 tcs = Some w') as (w' & Cw).
      { subst tcs. cbn [app cap Nat.eqb]. destruct (cap 1 (new ++ [(1, (0, w))])) eqn:E; [eauto|].
        exfalso. clear - E. induction new as [|[k [o v]] new IH]; cbn in E; [discriminate|]. destruct (k =? 1); [discriminate|auto]. }
      unfold get_cap. rewrite Cw. cbn [unwrap lift pbind]. destruct (base + j <? length w' + base); [|exact Q].
      rewrite (exec_by_indent _ _ _ _ _ _ _ Hx Hm), match_less by exact Hj. reflexivity. }
    intros tbl [-> | [-> | ->]].
    - destruct (ci_find_rest (repeat 32%N j) a t (ws_pad j) Hst) as (cs & E & C1). exists body_text, cs. split; [|exact (T cs C1)].
      unfold BODY_TRANSITIONS, empty_line_entry. now rewrite find_none by now apply ci_blank.
    - destruct (ci_find_attribution (repeat 32%N j) a t (ws_pad j) Hst) as (cs & E & C1 & _). exists attribution, cs. split; [exact E|].
      intros call d x r e s seen cur m Hu Hne Hc Hi Hm Hj. unfold attribution. cbv zeta. rewrite (cap_len_ok _ _ _ _ _ _ _ C1), pad_length, (Nat.add_comm j).
      rewrite (exec_by_indent _ _ _ _ _ _ _ (under_data _ _ _ _ _ _ _ _ Hu) Hm), match_less by exact Hj. reflexivity.
    - destruct (ci_find_rest (repeat 32%N j) a t (ws_pad j) Hst) as (cs & E & C1). exists body_text, cs. split; [|exact (T cs C1)].
      unfold APLUS_MULTICOL_TRANSITIONS, empty_line_entry. rewrite find_none by now apply ci_blank. rewrite find_none; [exact E|]. now apply ink_break; [apply ws_pad| |].
  Qed.
  Lemma list_line_cite p j who : nth_error src p = Some (pad j (lit "-- " ++ who)) -> starts_word who = true -> list_line src p j MPlain.
  Proof.
    intros Hl Hst. destruct who as [|a t]; [discriminate|]. cbn [starts_word] in Hst. eexists. split; [exact Hl|]. unfold pad. change (lit "-- " ++ a :: t) with (45%N :: 45%N :: 32%N :: a :: t).
    split; [now apply ci_blank|]. split; [apply ci_bullet; auto using ws_pad|]. split; [apply ci_enum; auto using ws_pad|].
    split; [apply ci_field; auto using ws_pad|]. eexists _, _. split; reflexivity.
  Qed.

  (* the further lines of what is said about the source *)
  Lemma cited_lines h more rest prev : 1 <= h -> forallb starts_word more = true -> gap_head rest ->
    exists bf, indented_loop (map (pad h) more ++ rest) prev true (Some h) true (Some h) = (map (pad h) more, Some h, bf).
  Proof.
    intros Hh. revert prev. induction more as [|x more IH]; intros prev Hm Hg.
    - destruct Hg as [-> | (r0 & ->)]; eexists; reflexivity.
    - cbn [forallb] in Hm. apply andb_true_iff in Hm as [Hx Hm]. destruct (IH (Some (pad h x)) Hm Hg) as (bf & E). exists bf.
      assert (Hx' : starts_text x = true) by (unfold starts_text; now rewrite Hx).
      cbn [map app indented_loop]. rewrite (pad_indent _ _ Hx'), (pad_not_blank _ _ Hx'). cbn [negb andb].
      replace (h <? 1) with false by (symmetry; apply Nat.ltb_ge; exact Hh). rewrite Nat.eqb_refl. cbn [negb orb]. rewrite E. reflexivity.
  Qed.
  Lemma cited_next p h more rest : skipn (S p) src = map (pad h) more ++ rest -> forallb starts_word more = true -> gap_head rest ->
    forall nx, nth_error src (S p) = Some nx -> captures LINE nx = None.
  Proof.
    intros E Hm Hg nx Hx. destruct more as [|x more].
    - destruct Hg as [-> | (r0 & ->)]; [apply skipn_end in E; apply nth_error_None in E; congruence|].
      apply skipn_cons in E as [E _]. rewrite E in Hx. apply some_inj in Hx. subst nx. exact nil_line.
    - cbn [map app] in E. apply skipn_cons in E as [E _]. rewrite E in Hx. apply some_inj in Hx. subst nx.
      cbn [forallb] in Hm. apply andb_true_iff in Hm as [Hw _]. destruct x as [|a t]; [discriminate|]. unfold pad.
      apply st_line. unfold starts_text. now rewrite Hw.
  Qed.

  Lemma step_cite c x r e st s seen p n k hang who more rest :
    at_ src c (SBlockQuote :: st) ((NBlockQuote k, None) :: (x, r) :: e) s seen p n -> n <= 9 -> 1 <= k ->
    nth_error src p = Some (pad k (lit "-- " ++ who)) -> skipn (S p) src = map (pad (k + hang)) more ++ rest -> forallb starts_word (who :: more) = true ->
    snug (join (lit " ") (who :: more)) = true -> gap_head rest ->
    exists c', steps src 0 c c' /\ at_ src c' st ((x, r) :: e) (s ++ (lit "-- " ++ join (lit " ") (who :: more) ++ nl1) ++ lit "\end{quotation}" ++ nl2) seen (p + S (length more)) 0.
  Proof.
    intros Hat Hn Hk Hl Erest Hall Hs Hg. pose proof Hall as Hst. cbn [forallb] in Hst. apply andb_true_iff in Hst as [Hst Hmore]. pose proof (at_cur _ _ _ _ _ _ _ _ _ _ Hat) as Hc. pose proof (at_doc _ _ _ _ _ _ _ _ _ _ Hat) as Hu.
    destruct who as [|a t]; [discriminate|]. cbn [starts_word] in Hst. set (who := a :: t) in *.
    destruct (ci_find_attribution (repeat 32%N k) a t (ws_pad k) Hst) as (cs & Hf & C1 & Cw).
    change (find_transition (pad k (lit "-- " ++ who)) BLOCK_QUOTE_TRANSITIONS = Some (attribution, cs)) in Hf.
    assert (Hlen : length (whole cs) = k + 3) by (rewrite Cw, app_length, pad_length; reflexivity).
    assert (Hskip : skipn (k + 3) (pad k (lit "-- " ++ who)) = who).
    { unfold pad. rewrite skipn_app, skipn_all2 by (rewrite repeat_length; lia). rewrite repeat_length. replace (k + 3 - k) with 3 by lia. reflexivity. }
    set (said := join (lit " ") (who :: more)) in *.
    assert (Hread : exists nx bf, (match indent_on_subsequent_lines src p with
                       | Some (i, o) => if (o =? 0) && (k <=? i) then i else k + 3
                       | None => k + 3
                       end) = nx /\ read_indented_block src p true true (Some nx) (Some (k + 3)) true = Ret (Some (MkIndentedBlock (who :: more) nx (S (length more)) bf))).
    { destruct more as [|m0 more'].
      - eexists _, true. split; [reflexivity|]. match goal with |- context [Some ?z] => set (nx := z) end. unfold read_indented_block. destruct src as [|s0 src0] eqn:Es; [destruct p; discriminate|]. rewrite <- Es in *.
        unfold checked_sub. replace (p <=? length src) with true by (symmetry; apply Nat.leb_le, Nat.lt_le_incl, nth_error_Some; congruence).
        cbn [obind]. rewrite Hl. cbn [unwrap obind]. rewrite Erest. cbn [map app].
        assert (El : indented_loop rest (Some (pad k (lit "-- " ++ who))) true (Some nx) true (Some nx) = ([], Some nx, true)).
        { destruct Hg as [-> | (r0 & ->)]; reflexivity. }
        rewrite El. cbn [obind unwrap strip_block map length]. now rewrite Hskip.
      - exists (k + hang). destruct (cited_lines (k + hang) (m0 :: more') rest (Some (pad k (lit "-- " ++ who))) ltac:(lia) Hmore Hg) as (bf & El). exists bf. split.
        + unfold indent_on_subsequent_lines. rewrite Erest. cbn [map app first_indent_of]. cbn [forallb] in Hmore. apply andb_true_iff in Hmore as [Hw _].
          assert (Hw' : starts_text m0 = true) by (unfold starts_text; now rewrite Hw).
          rewrite (pad_not_blank _ _ Hw'), (pad_indent _ _ Hw'). cbn [Nat.eqb andb]. replace (k <=? k + hang) with true by (symmetry; apply Nat.leb_le; lia). reflexivity.
        + unfold read_indented_block. destruct src as [|s0 src0] eqn:Es; [destruct p; discriminate|]. rewrite <- Es in *.
          unfold checked_sub. replace (p <=? length src) with true by (symmetry; apply Nat.leb_le, Nat.lt_le_incl, nth_error_Some; congruence).
          cbn [obind]. rewrite Hl. cbn [unwrap obind]. rewrite Erest, El. cbn [obind unwrap strip_block length]. rewrite Hskip.
          rewrite map_map, (map_ext _ (fun x => x)), map_id by (intros y; apply pad_skip). reflexivity. }
    destruct (exec_push ord full (parse table 0) (cf_doc c) (NAttribution said) _ s seen (lit "-- " ++ said) nl1 (cf_cur c)
      (fun ok => if negb ok then PRet TFailure else (let* _ := focus_parent in PRet (TSuccess Pop (Some (S (length more)))))) Hu) as (d1 & Ed1 & Hu1); try reflexivity.
    { rewrite (under_data _ _ _ _ _ _ _ _ Hu). reflexivity. }
    destruct (under_close _ _ _ _ _ _ _ _ (lit "\end{quotation}" ++ nl2) Hu1) as (d2 & Ed2 & Hu2 & _); [discriminate|reflexivity|].
    assert (Hex : pexec (parse table 0) (attribution src 0 cs) (cf_doc c) (cf_cur c) = Ret (TSuccess Pop (Some (S (length more))), d2, cf_cur c)).
    { unfold attribution, match_len. cbv zeta. rewrite Hlen, (cap_len_ok _ _ _ _ _ _ _ C1), pad_length, !Nat.add_0_r.
      rewrite (exec_by_indent _ _ _ _ _ k _ (under_data _ _ _ _ _ _ _ _ Hu) eq_refl), match_same.
      unfold get_cursor. cbn [pbind pexec]. rewrite Hc, Hl. unfold checked_sub, line_suffix. cbn [unwrap lift pbind Nat.leb]. rewrite Nat.sub_0_r. cbn [pbind lift].
      unfold checked_sub. replace (1 <=? k + 3) with true by (symmetry; apply Nat.leb_le; lia). cbn [obind lift pbind]. rewrite Hskip.
      replace (blank who) with false.
      2:{ symmetry. unfold who. cbn [blank forallb]. now rewrite (ci_ink _ Hst). }
      destruct Hread as (nx & bf & -> & ->).
      cbn [lift pbind ib_lines ib_offset]. fold said. unfold snug in Hs. apply str_eqb_eq in Hs. rewrite Hs.
      rewrite Ed1. cbn [negb]. unfold focus_parent. cbn [pbind pexec dop_exec]. rewrite Ed2. reflexivity. }
    destruct (step_transition ord full src 0 c SBlockQuote st _ s seen p n _ BLOCK_QUOTE_TRANSITIONS attribution cs Pop (Some (S (length more))) ((x, r) :: e)
      ((s ++ (lit "-- " ++ said) ++ nl1) ++ lit "\end{quotation}" ++ nl2) seen d2 (cf_cur c) 0 st Hat Hn Hl I eq_refl Hf) as (c1 & Hst1 & Ha); eauto.
    { exists 0. intros f Hf0. eapply exec_up; [exact Hex|exact Hf0]. }
    { lia. }
    exists c1. split; [exact Hst1|]. rewrite Hc in Ha. rewrite <- !app_assoc in *. exact Ha.
  Qed.
End Cite.
