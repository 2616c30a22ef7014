(* FieldProofs.v -- field lists (used for C47). *)
From Verif Require Import Base Unicode Regex Patterns Common Converters NodeTypes Tree DocTree History Blocks Prog ParseLoop
  Inline Body Directives Parser Spec RegexProofs BlockProofs TreeProofs DocTreeProofs HyperrefProofs InlineSpec RegexGroups InlineProofs LoopProofs
  Utf8Latex Writer WriterProofs Transforms TextProofs OpenProofs DirectiveSpec DirectiveProofs MarkupSpec ChunkProofs SimpleSpec LineProofs Properties7 RunProofs StepProofs ParaProofs NumberProofs LeaveProofs GroupProofs
  MarkerProofs OpenerProofs LeafProofs.

(* ---------- the marker ---------- *)
Lemma field_name_spec name : field_name name = true ->
  chunks_ok true [Txt name] = true /\ one_line name = true /\ option_name name /\ ~ In 58%N name /\ exists c t, name = c :: t /\ is_whitespace c = false.
Proof.
  assert (E0 : chunks_source [Txt name] = name) by apply app_nil_r.
  unfold field_name, phrase_ok. rewrite E0. intros H. apply andb_true_iff in H as [H Hch]. apply andb_true_iff in H as [H Hne]. apply andb_true_iff in H as [H Hs].
  apply andb_true_iff in H as [H Ho]. apply andb_true_iff in H as [Hc _]. rewrite forallb_forall in Hch.
  assert (H58 : ~ In 58%N name) by (intros Q; apply Hch in Q; discriminate). assert (H92 : ~ In 92%N name) by (intros Q; apply Hch in Q; discriminate).
  assert (H10 : ~ In 10%N name).
  { intros Q. unfold one_line in Ho. apply negb_true_iff in Ho. rewrite <- not_true_iff_false in Ho. apply Ho, existsb_exists. exists 10%N. split; [exact Q|reflexivity]. }
  destruct (snug_starts _ Hs) as [E | (c & t & E & Hci)]; [rewrite E in Hne; discriminate|].
  split; [exact Hc|]. split; [exact Ho|]. split; [|split; [exact H58|eauto]].
  split; [exists c, t; auto|]. destruct (exists_last (l := name) ltac:(rewrite E; discriminate)) as (l' & y & Ey).
  split.
  - exists y, l'. split; [exact Ey|]. destruct (is_whitespace y) eqn:Hy; [|reflexivity]. exfalso.
    unfold snug in Hs. apply str_eqb_eq in Hs. unfold trim, trim_end in Hs. rewrite E in Hs at 1. cbn [trim_start] in Hs. rewrite Hci in Hs. rewrite <- E in Hs.
    rewrite Ey in Hs at 1. rewrite rev_app_distr in Hs. cbn [rev app trim_start] in Hs. rewrite Hy in Hs.
    assert (G : forall l, length (trim_start l) <= length l) by (clear; induction l as [|a l IH]; [reflexivity|]; cbn; destruct (is_whitespace a); cbn; lia).
    apply (f_equal (@length char)) in Hs. rewrite rev_length in Hs. pose proof (G (rev l')) as G1. rewrite rev_length in G1. rewrite Ey, app_length in Hs. cbn [length] in Hs. unfold str, char in *. lia.
  - split.
    + intros u Eu. apply H92. rewrite Eu. apply in_or_app. right. now left.
    + intros a u b Eu Q. apply H10. rewrite Eu. right. apply in_or_app. now left.
Qed.
Section FieldLine.
  Variables (j : nat) (name l : str).
  Hypotheses (Hn : field_name name = true) (Hst : starts_text l = true).
  Let line := pad j (field_marker name ++ 32%N :: l).
  Lemma fl_line : line = repeat 32%N j ++ 58%N :: name ++ 58%N :: 32%N :: l.
  Proof. unfold line, pad, field_marker. change (lit ":") with [58%N]. cbn [app]. rewrite <- app_assoc. reflexivity. Qed.
  Lemma fl_marker : exists cs, captures FIELD_MARKER line = Some cs /\ cap 1 cs = Some (repeat 32%N j) /\ cap 2 cs = Some name /\ match_len cs = j + S (length (field_marker name)).
  Proof.
    destruct (field_name_spec _ Hn) as (_ & _ & Ho & H58 & _).
    assert (S : option_syntax (repeat 32%N j) name (32%N :: l) line).
    { split; [rewrite fl_line; reflexivity|]. split; [apply all_ws_pad|]. split; [exact Ho|]. right. eauto. }
    destruct (marker_captures _ _ _ _ S H58) as (cs & a & b & E & C1 & C2 & Er & Ha & Hlen & Hne).
    exists cs. split; [exact E|]. split; [exact C1|]. split; [exact C2|]. unfold match_len. rewrite Hlen, pad_length.
    replace (length a) with 1; [unfold field_marker; rewrite !app_length; cbn [length lit]; change (length (lit ":")) with 1; lia|].
    specialize (Hne ltac:(discriminate)). destruct a as [|x a]; [congruence|]. cbn [app] in Er. apply (f_equal (@tl char)) in Er as Er2. cbn [tl] in Er2.
    destruct a as [|y a]; [reflexivity|]. exfalso. apply Forall_cons_iff in Ha as [_ Ha]. apply Forall_cons_iff in Ha as [Hy _].
    rewrite Er2 in Hst. cbn [app] in Hst. apply starts_text_ink in Hst. congruence.
  Qed.
  Lemma fl_bullet : captures BULLET line = None.
  Proof.
    rewrite fl_line. apply (marker_none _ bullet_char); auto using ws_pad.
    - apply sw_cat, sw_grp, sw_cls.
    - intros a Ha. unfold bullet_char, cls_of in Ha. apply existsb_exists in Ha as (x & Hx & Ha). apply N.eqb_eq in Ha. subst x.
      vm_compute in Hx. repeat (destruct Hx as [<-|Hx]; [reflexivity|]). contradiction.
  Qed.
  Lemma fl_enum : captures ENUMERATOR line = None.
  Proof. rewrite fl_line. apply enum_none; auto using ws_pad; discriminate. Qed.
  Lemma fl_attribution : captures ATTRIBUTION line = None.
  Proof.
    rewrite fl_line. apply (marker_none _ (fun a => N.eqb 45 a || N.eqb 0x2014 a)); auto using ws_pad.
    - apply sw_cat. cbn [Alts]. apply sw_alt; [apply sw_lit; reflexivity|apply sw_alt; [apply sw_lit; reflexivity|apply sw_chr; reflexivity]].
    - intros a Ha. apply orb_true_iff in Ha as [Ha|Ha]; apply chr_class in Ha; now subst.
  Qed.
  Lemma fl_break : captures APLUS_COL_BREAK line = None.
  Proof.
    rewrite fl_line. apply captures_none. intros (u & R). unfold APLUS_COL_BREAK in R. cbn [Seq] in R. apply rel_cat_inv in R as (s & R1 & R2).
    apply rel_grp_inv in R1. apply rel_plus_cls in R1 as (w' & E & _ & H). apply rel_lit in R2.
    change (q "::newcol" ++ u) with (58%N :: 58%N :: q "newcol" ++ u) in R2. subst s. apply ws_head in E as (_ & _ & E); auto using ws_pad.
    destruct (field_name_spec _ Hn) as (_ & _ & _ & H58 & c & t & En & _). apply H58. rewrite En in *. cbn [app] in E. apply (f_equal (hd 0%N)) in E. cbn [hd] in E. left. exact E.
  Qed.
  Lemma find_field tbl : body_table tbl -> exists cs, find_transition line tbl = Some (body_field_marker, cs) /\ cap 1 cs = Some (repeat 32%N j).
  Proof.
    intros Hb. destruct fl_marker as (cs & E & C1 & _). exists cs. split; [|exact C1].
    apply find_in_body; [exact Hb|rewrite fl_line; now apply ink_blank|apply fl_attribution|apply fl_break|].
    unfold body_rest. cbn [find_transition]. rewrite fl_bullet, fl_enum, E. reflexivity.
  Qed.
  Lemma find_list_field : exists cs, find_transition line FIELD_LIST_TRANSITIONS = Some (list_field_marker, cs) /\ cap 1 cs = Some (repeat 32%N j) /\ cap 2 cs = Some name /\
    match_len cs = j + S (length (field_marker name)).
  Proof.
    destruct fl_marker as (cs & E & C). exists cs. split; [|exact C]. unfold FIELD_LIST_TRANSITIONS, empty_line_entry. cbn [find_transition].
    rewrite fl_line, ink_blank by reflexivity. rewrite <- fl_line, E. reflexivity.
  Qed.
  Lemma fl_not_blank : blank line = false. Proof. rewrite fl_line. now apply ink_not_blank. Qed.
  Lemma fl_indent : indent_of line = j.
  Proof. rewrite fl_line. exact (eq_trans (ink_indent _ 58%N _ (ws_pad j) eq_refl) (pad_length j)). Qed.
  Lemma field_item : item_line j line.
  Proof.
    split; [exact fl_not_blank|]. split; [exact fl_indent|]. split.
    - destruct (starts_text_inside _ Hst) as (a & c & t & El & Hc). rewrite fl_line, El.
      replace (repeat 32%N j ++ 58%N :: name ++ 58%N :: 32%N :: a ++ c :: t) with ((repeat 32%N j ++ 58%N :: name ++ 58%N :: 32%N :: a) ++ c :: t).
      + now apply starter_no_line.
      + rewrite <- app_assoc. cbn [app]. rewrite <- app_assoc. reflexivity.
    - rewrite fl_line. now apply ink_text; [apply ws_pad|].
  Qed.
End FieldLine.

Section Fields.
  Variables (ord : hash_order) (full : bool).
  Notation under := (under ord full).
  Notation at_ := (at_ ord full).
  Variables (src : list str) (base : nat).

  Lemma leaver_field p j name l : nth_error src p = Some (pad j (field_marker name ++ 32%N :: l)) -> field_name name = true -> starts_text l = true -> leaver ord full src base p j.
  Proof.
    intros Hl Hn Hst. eexists. split; [exact Hl|]. intros tbl Hb. destruct (find_field j name l Hn Hst tbl Hb) as (cs & Hf & C1). exists body_field_marker, cs. split; [exact Hf|].
    intros call d x r e s seen cur m Hu Hne Hc Hi Hm Hj. unfold body_field_marker. rewrite (cap_len_ok _ _ _ _ _ _ _ C1), pad_length, (Nat.add_comm j).
    rewrite (exec_by_indent _ _ _ _ _ _ _ (under_data _ _ _ _ _ _ _ _ Hu) Hm), match_less by exact Hj. reflexivity.
  Qed.
  Lemma quote_field p j name l : nth_error src p = Some (pad j (field_marker name ++ 32%N :: l)) -> field_name name = true -> starts_text l = true -> by_its_indent src base p j.
  Proof.
    intros Hl Hn Hst. eexists. split; [exact Hl|]. intros tbl Hb. destruct (find_field j name l Hn Hst tbl Hb) as (cs & Hf & C1). exists body_field_marker, cs. split; [exact Hf|].
    intros call d x m cur Hx Hc Hm Hj. unfold body_field_marker. rewrite (cap_len_ok _ _ _ _ _ _ _ C1), pad_length, (Nat.add_comm j).
    rewrite (exec_by_indent _ _ _ _ _ _ _ Hx Hm), match_more by exact Hj. reflexivity.
  Qed.
  Lemma list_line_field p j name l : nth_error src p = Some (pad j (field_marker name ++ 32%N :: l)) -> field_name name = true -> starts_text l = true -> list_line src p j MField.
  Proof.
    intros Hl Hn Hst. eexists. split; [exact Hl|]. split; [now apply fl_bullet|]. split; [now apply fl_enum|].
    destruct (fl_marker j name l Hn Hst) as (cs & E & C1 & C2 & _). exists (name ++ 58%N :: 32%N :: l), cs, name. split; [apply fl_line|auto].
  Qed.
  Lemma step_fields c S0 x k st r e s seen p n name l :
    home S0 x (base + k) -> at_ src c (S0 :: st) ((x, r) :: e) s seen p n -> n <= 9 ->
    nth_error src p = Some (pad k (field_marker name ++ 32%N :: l)) -> field_name name = true -> starts_text l = true ->
    exists c', steps src base c c' /\
      at_ src c' (SFieldList :: S0 :: st) ((NFieldList (base + k), None) :: (x, r) :: e) (s ++ lit "\begin{itemize}" ++ nl1) seen p (n + 1).
  Proof.
    intros Hh Hat Hn Hl Hname Hst. pose proof (at_cur _ _ _ _ _ _ _ _ _ _ Hat) as Hc. pose proof (at_doc _ _ _ _ _ _ _ _ _ _ Hat) as Hu.
    destruct (home_table _ _ _ Hh) as (tbl & Htb & Hb). destruct (find_field k name l Hname Hst tbl Hb) as (cs & Hf & C1).
    destruct (exec_open ord full (parse table 0) (cf_doc c) (NFieldList (base + k)) _ s seen (lit "\begin{itemize}" ++ nl1) (cf_cur c)
      (fun ok => PRet (if ok then TSuccess (Push [SFieldList]) None else TFailure)) Hu) as (d' & Ed & Hu').
    { reflexivity. } { reflexivity. } { reflexivity. }
    { rewrite (under_data _ _ _ _ _ _ _ _ Hu). apply (home_allows _ _ _ _ Hh). a_kind. }
    { reflexivity. }
    assert (Hex : pexec (parse table 0) (body_field_marker src base cs) (cf_doc c) (cf_cur c) = Ret (TSuccess (Push [SFieldList]) None, d', cf_cur c)).
    { unfold body_field_marker. rewrite (cap_len_ok _ _ _ _ _ _ _ C1), pad_length, (Nat.add_comm k).
      rewrite (exec_by_indent _ _ _ _ _ _ _ (under_data _ _ _ _ _ _ _ _ Hu) (home_indent _ _ _ Hh)), match_same. exact Ed. }
    destruct (step_transition ord full src base c S0 st ((x, r) :: e) s seen p n _ tbl body_field_marker cs (Push [SFieldList]) None
      ((NFieldList (base + k), None) :: (x, r) :: e) (s ++ lit "\begin{itemize}" ++ nl1) seen d' (cf_cur c) (n + 1) (SFieldList :: S0 :: st)
      Hat Hn Hl (home_live _ _ _ Hh) Htb Hf) as (c1 & Hs & Ha); auto.
    { exists 0. intros f Hf0. eapply exec_up; [exact Hex|exact Hf0]. }
    exists c1. split; [exact Hs|]. rewrite Hc, Nat.add_0_r in Ha. exact Ha.
  Qed.
  Definition field_node (name : str) (k w : nat) : TreeNodeType := NFieldListItem name (flat_map chunk_nodes [Txt name]) k w.
  Lemma step_field c st e s seen p n k name tx rest :
    at_ src c (SFieldList :: st) ((NFieldList (base + k), None) :: e) s seen p n -> n <= 9 ->
    field_name name = true -> para_ok tx = true -> head_ok (S k) rest ->
    skipn p src = numbered_lines k (field_marker name) (text_lines tx) ++ rest ->
    exists c', steps src base c c' /\
      at_ src c' (SListItem :: SFieldList :: st) ((field_node name (base + k) (base + (k + S (length (field_marker name)))), None) :: (NFieldList (base + k), None) :: e)
        (s ++ (lit "\item \textbf{" ++ name ++ lit "}" ++ nl2) ++ para_latex tx) seen (p + length (numbered_lines k (field_marker name) (text_lines tx))) 0.
  Proof.
    intros Hat Hn Hname Hok Hr E. pose proof (at_cur _ _ _ _ _ _ _ _ _ _ Hat) as Hc. pose proof (at_doc _ _ _ _ _ _ _ _ _ _ Hat) as Hu.
    set (m := field_marker name) in *. set (w := k + S (length m)) in *. set (item := field_node name (base + k) (base + w)).
    destruct (para_ok_lines _ Hok) as [_ Hls]. destruct (para_ok_first _ Hok) as (l & more & El & Hst & Hen).
    assert (Hmore : Forall (fun l => starts_text l = true) more).
    { rewrite El in Hls. apply Forall_cons_iff in Hls as [_ Hls]. eapply Forall_impl; [|exact Hls]. now intros ? (? & _). }
    assert (Elen : length (numbered_lines k m (text_lines tx)) = length (text_lines tx)) by (rewrite El; cbn [numbered_lines length]; now rewrite map_length).
    assert (Hl : nth_error src p = Some (pad k (m ++ 32%N :: l)) /\ skipn (S p) src = map (pad w) more ++ rest).
    { rewrite El in E. cbn [numbered_lines app] in E. now apply skipn_cons in E. }
    destruct Hl as [Hl Hrest].
    destruct (find_list_field k name l Hname Hst) as (cs & Hf & C1 & C2 & Cw). fold m in Hf, Cw. fold w in Cw.
    destruct (field_name_spec _ Hname) as (Hch & Hone & _ & _ & nc & nt & En & _).
    assert (Hwm : exists w', w = w' + 2 /\ k <= w').
    { exists (k + (length m - 1)). unfold w. unfold m, field_marker. rewrite !app_length. cbn [length]. change (length (lit ":")) with 1. lia. }
    destruct Hwm as (w' & Ew & Hkw).
    (* the item *)
    destruct (under_open ord full (cf_doc c) _ s seen item (lit "\item \textbf{" ++ name ++ lit "}" ++ nl2) Hu) as (d1 & Ed & Hu1).
    { reflexivity. } { reflexivity. } { reflexivity. }
    { rewrite (under_data _ _ _ _ _ _ _ _ Hu). reflexivity. }
    { cbn [pre_string item field_node]. unfold braces, nl2, nl. rewrite <- !app_assoc. reflexivity. }
    (* where its body is *)
    assert (Hbody : indent_from_next_line src base (k + base) (w + base) (cf_cur c) = base + w).
    { unfold indent_from_next_line. rewrite Hc. destruct more as [|l2 more].
      - cbn [map app] in Hrest. destruct rest as [|l2 rest].
        + replace (nth_error src (S p)) with (@None str) by (symmetry; apply nth_error_None; now apply skipn_end). lia.
        + apply skipn_cons in Hrest as [-> _]. cbn in Hr. destruct Hr as [-> | (j & (Hbl & Hil & _) & Hj)]; [replace (blank []) with true by reflexivity; lia|].
          rewrite Hbl, Hil. replace (j + base <? k + base + 1) with true by (symmetry; apply Nat.ltb_lt; lia). lia.
      - cbn [map app] in Hrest. apply skipn_cons in Hrest as [-> _]. apply Forall_cons_iff in Hmore as [Hl2 _]. rewrite (pad_not_blank _ _ Hl2), (pad_indent _ _ Hl2).
        replace (w + base <? k + base + 1) with false by (symmetry; apply Nat.ltb_ge; lia). lia. }
    (* its first lines *)
    assert (Hrw : head_ok w rest).
    { destruct rest as [|l2 rest]; [exact I|]. cbn in Hr |- *. destruct Hr as [Hr | (j & Hj & Hlt)]; [now left|right]. exists j. split; [exact Hj|lia]. }
    assert (Hread : exists bf, read_indented_block src p true true (Some w) (Some w) false =
                    Ret (Some (MkIndentedBlock (map (pad 0) (text_lines tx)) w (length (text_lines tx)) bf))).
    { rewrite Ew in Hrw, Hrest |- *. destruct (item_loop w' rest Hrw more (Some (pad k (m ++ 32%N :: l))) (w' + 2) Hmore) as (bf & Eloop). exists bf.
      unfold read_indented_block. destruct src as [|s0 src0] eqn:Es; [destruct p; discriminate|]. rewrite <- Es in *.
      unfold checked_sub. replace (p <=? length src) with true by (symmetry; apply Nat.leb_le, Nat.lt_le_incl, nth_error_Some; congruence).
      cbn [obind]. rewrite Hl. cbn [unwrap obind]. rewrite Hrest, Eloop. cbn [obind unwrap strip_block].
      replace (skipn (w' + 2) (pad k (m ++ 32%N :: l))) with (pad 0 l).
      2:{ rewrite <- Ew. unfold w, pad. cbn [repeat app]. replace (repeat 32%N k ++ m ++ 32%N :: l) with ((repeat 32%N k ++ m ++ [32%N]) ++ l) by (rewrite <- !app_assoc; reflexivity).
          rewrite skipn_app. rewrite skipn_all2 by (rewrite !app_length, repeat_length; cbn [length]; lia). rewrite !app_length, repeat_length. cbn [length app].
          replace (k + S (length m) - (k + (length m + 1))) with 0 by lia. reflexivity. }
      replace (map (skipn (w' + 2)) (map (pad (w' + 2)) more)) with (map (pad 0) more).
      2:{ rewrite map_map. apply map_ext. intros a. now rewrite pad_skip. }
      rewrite El. cbn [map length]. rewrite map_length. reflexivity. }
    destruct Hread as (bf & Hread).
    (* the parser for them *)
    set (inner_src := map (pad 0) (text_lines tx)).
    set (c0 := initial (cur_sum (cf_cur c)) SListItem d1). set (s1 := s ++ lit "\item \textbf{" ++ name ++ lit "}" ++ nl2) in *.
    assert (Ha0 : at_ inner_src c0 [SListItem] ((item, None) :: (NFieldList (base + k), None) :: e) s1 seen 0 0).
    { split; try reflexivity; [|exact Hu1]. replace (length inner_src <=? 0) with false; [reflexivity|].
      symmetry. apply Nat.leb_gt. unfold inner_src. rewrite map_length, El. cbn. lia. }
    destruct (step_para ord full inner_src (base + w) c0 SListItem BODY_TRANSITIONS [] item None
      ((NFieldList (base + k), None) :: e) s1 seen 0 0 0 tx [] I eq_refl (or_introl eq_refl)) with (3 := Ha0) as (c1 & Hs1 & Ha1); try reflexivity; try lia.
    { cbn. now rewrite Nat.add_0_r. }
    { cbn [skipn]. now rewrite app_nil_r. }
    cbn [Nat.add] in Ha1.
    assert (Hrun : exists f0, forall f, f0 <= f -> parse table f inner_src (base + w) (cur_sum (cf_cur c)) SListItem d1 = Ret (REOF [SListItem], cf_doc c1)).
    { unfold parse. fold c0. eapply run_steps; [exact Hs1|]. eapply run_end in Ha1 as Hend; [exact Hend|lia|]. unfold inner_src. now rewrite map_length. }
    destruct Hrun as (f0 & Hrun). pose proof (at_doc _ _ _ _ _ _ _ _ _ _ Ha1) as Hu2. unfold s1 in Hu2. rewrite <- app_assoc in Hu2.
    assert (Hinl : forall call d cur, pexec call (inline_parse false name) d cur = Ret (flat_map chunk_nodes [Txt name], d, cur)).
    { intros call d cur. pose proof (inline_parse_chunks [Txt name] true false call d cur Hch) as Hi. replace (chunks_source [Txt name]) with name in Hi by (symmetry; apply app_nil_r).
      rewrite (one_line_newlines _ Hone), cur_add_0 in Hi. exact Hi. }
    assert (Hex : pexec (parse table f0) (list_field_marker src base cs) (cf_doc c) (cf_cur c) = Ret (TSuccess (Push [SListItem]) (Some (length (text_lines tx))), cf_doc c1, cf_cur c)).
    { unfold list_field_marker. cbv zeta. rewrite (cap_len_ok _ _ _ _ _ _ _ C1), pad_length, (get_cap_ok _ _ _ _ _ _ _ C2), Cw. unfold get_cursor, get_doc. cbn [pbind pexec].
      rewrite (under_data _ _ _ _ _ _ _ _ Hu), Hbody. replace (base + k =? k + base) with true by (symmetry; apply Nat.eqb_eq; lia).
      rewrite pexec_bind, Hinl. cbn [obind]. replace (k + base) with (base + k) by lia.
      change (NFieldListItem name (flat_map chunk_nodes [Txt name]) (base + k) (base + w)) with item.
      assert (Hnn : exists y ys, flat_map chunk_nodes [Txt name] = y :: ys) by (rewrite En; cbn [flat_map chunk_nodes runs_of]; destruct (runs_of nt) as [|[b v] rs]; [|destruct (Bool.eqb b (is_whitespace nc))]; cbn [map app]; eauto). destruct Hnn as (y & ys & ->).
      unfold Prog.pushed. cbn [pbind pexec]. rewrite Ed. cbn [obind pexec negb].
      unfold parse_first_node_block, get_cursor. cbn [pbind pexec]. unfold checked_sub. replace (base <=? base + w) with true by (symmetry; apply Nat.leb_le; lia).
      replace (base <=? w + base) with true by (symmetry; apply Nat.leb_le; lia). cbn [lift pbind].
      replace (base + w - base) with w by lia. replace (w + base - base) with w by lia. rewrite Hc, Hread.
      cbn [lift pbind pexec ib_lines ib_offset]. fold inner_src. rewrite Hrun by lia. cbn [obind pexec finish_first_block]. reflexivity. }
    destruct (step_transition ord full src base c SFieldList st _ s seen p n _ FIELD_LIST_TRANSITIONS list_field_marker cs (Push [SListItem]) (Some (length (text_lines tx)))
      ((item, None) :: (NFieldList (base + k), None) :: e) (s ++ (lit "\item \textbf{" ++ name ++ lit "}" ++ nl2) ++ para_latex tx) seen (cf_doc c1) (cf_cur c) 0 (SListItem :: SFieldList :: st)
      Hat Hn Hl I eq_refl Hf) with (2 := Hu2) as (c2 & Hs2 & Ha2); auto.
    { exists f0. intros f Hf0. eapply exec_up; [exact Hex|exact Hf0]. }
    { rewrite El. cbn [length]. lia. }
    exists c2. split; [exact Hs2|]. rewrite Elen. rewrite Hc in Ha2. exact Ha2.
  Qed.
End Fields.
