(* LeaveProofs.v -- lines that end the lists, items and quotes around them (used
   for C47). *)
From Verif Require Import Base Unicode Regex Patterns Common Converters NodeTypes Tree DocTree History Blocks Prog ParseLoop
  Inline Body Directives Parser Spec RegexProofs BlockProofs TreeProofs DocTreeProofs HyperrefProofs InlineSpec RegexGroups InlineProofs LoopProofs
  Utf8Latex Writer WriterProofs Transforms OpenProofs SimpleSpec LineProofs Properties7 RunProofs StepProofs ParaProofs NumberProofs GreedyProofs.

(* ---------- places blocks are read in ---------- *)
Inductive home : State -> TreeNodeType -> nat -> Prop :=
| home_document : home SBody NDocument 0
| home_section t l st : home SSection (NSection t l st) 0
| home_item c i m : home SListItem (NBulletListItem c i m) m
| home_number d kd n i m : home SListItem (NEnumeratedListItem d kd n i m) m
| home_field a b i m : home SListItem (NFieldListItem a b i m) m
| home_definition a b m : home SListItem (NDefinitionListItem a b m) m
| home_quote m : home SBlockQuote (NBlockQuote m) m
| home_citation m l : home SCitation (NCitation m l) m
| home_footnote m k l t : home SFootnote (NFootnote m k l t) m
| home_admonition m c n v : home SAdmonition (NAdmonition m c n v) m
| home_figure m a b c d : home SFigure (NFigure m a b c d) m
| home_only x m : home SBody (NSphinxOnly x m) m
| home_custom n a o m : home SBody (NUnknownDirective n a o m) m
| home_exercise m a b c d e f g h i j k l n o p q r s t u v : home SBody (NAplusSubmit m a b c d e f g h i j k l n o p q r s t u v) m
| home_interest m a b c d e f g h i j k l : home SAplusMultiCol (NAplusPOI a m b c d e f g h i j k l) m.
Lemma home_live S x k : home S x k -> live S. Proof. destruct 1; exact I. Qed.
Lemma home_table S x k : home S x k -> exists tbl, table S = Some tbl /\ body_table tbl.
Proof. destruct 1; (eexists; split; [reflexivity|]; unfold body_table; auto). Qed.
Lemma home_indent S x k : home S x k -> NodeTypes.body_indent x = Some k. Proof. destruct 1; reflexivity. Qed.
Definition block_kinds : list NodeKind := [KParagraph; KBulletList; KEnumeratedList; KBlockQuote; KComment; KSphinxCodeBlock; KCode; KImage; KMathBlock; KAdmonition; KSphinxOnly; KUnknownDirective;
  KAplusSubmit; KAplusPOI; KAplusActiveElementInput; KAplusActiveElementOutput; KCitation; KFootnote; KFigure; KAplusQuestionnaire; KFieldList; KListTable].
Ltac a_kind := unfold block_kinds; cbn [In]; repeat first [left; reflexivity | right].
Lemma home_allows S x k b : home S x k -> In b block_kinds -> child_is_allowed (kind x) b = Ret true.
Proof. intros H Hb. unfold block_kinds in Hb. cbn [In] in Hb. destruct H; intuition (subst; vm_compute; reflexivity). Qed.

(* ---------- what is left open after a block ---------- *)
Definition frame := (State * TreeNodeType)%type.
Definition fstack (L : list frame) : list State := map fst L.
Definition fentries (L : list frame) : list entry := map (fun f => (snd f, refs_of (snd f))) L.
Definition end_of (f : frame) : str :=
  match snd f with
  | NBlockQuote _ => lit "\end{quotation}" ++ nl2
  | NBulletList _ _ _ | NFieldList _ | NDefinitionList _ => lit "\end{itemize}" ++ nl2
  | NFieldListItem _ _ _ _ | NDefinitionListItem _ _ _ => nl1
  | NEnumeratedList _ _ _ _ _ => lit "\end{enumerate}" ++ nl2
  | NAdmonition _ _ _ v => lit "\end{" ++ match v with AdmAdmonition _ => lit "admonition" | _ => admonition_display v end ++ lit "}" ++ nl2
  | NCitation _ _ => nl1
  | NFootnote _ _ _ _ => lit "}" ++ nl2
  | NFigure _ _ _ _ name => match name with Some n => lit "\label{" ++ n ++ lit "}" ++ nl1 | None => [] end ++ lit "\end{center}" ++ nl2
  | NSphinxOnly _ _ => lit "\end{only}" ++ nl2
  | NUnknownDirective n _ _ _ => lit "\end{" ++ to_lowercase n ++ lit "}" ++ nl2
  | NAplusSubmit _ _ _ _ _ _ _ _ _ _ _ _ _ _ _ _ _ _ _ _ _ _ => lit "\end{submit}" ++ nl2
  | NAplusPOI _ _ _ _ _ _ _ _ _ _ _ _ _ => lit "\end{poi}" ++ nl2
  | NAplusQuestionnaire _ _ _ _ _ _ _ _ _ _ _ _ _ _ _ _ _ _ => lit "\end{quiz}" ++ nl2
  | NListTable _ _ _ _ _ _ _ => lit "\end{tabular}" ++ nl2
  | _ => []
  end.
Definition ends_of (L : list frame) : str := concat (map end_of L).
(* what a line starts with *)
Inductive mark := MPlain | MText | MBullet (b : char) | MNumber (d : EnumDelims) (s : numbering) (n : N) | MField.
(* a line of indentation j with such a mark ends the node *)
Definition ended_by (j : nat) (b : mark) (f : frame) : Prop :=
  match f with
  | (SListItem, NBulletListItem _ _ m) => j < m
  | (SListItem, NEnumeratedListItem _ _ _ _ m) => j < m
  | (SListItem, NFieldListItem _ _ _ m) => j < m
  | (SListItem, NDefinitionListItem _ _ m) => j < m
  | (SBlockQuote, NBlockQuote m) => j < m
  | (SAdmonition, NAdmonition m _ _ _) => j < m
  | (SCitation, NCitation m _) => j < m
  | (SFootnote, NFootnote m _ _ _) => j < m
  | (SFigure, NFigure m _ _ _ _) => j < m
  | (SBody, NSphinxOnly _ m) => j < m
  | (SBody, NUnknownDirective _ _ _ m) => j < m
  | (SBody, NAplusSubmit m _ _ _ _ _ _ _ _ _ _ _ _ _ _ _ _ _ _ _ _ _) => j < m
  | (SAplusMultiCol, NAplusPOI _ m _ _ _ _ _ _ _ _ _ _ _) => j < m
  | (SAplusQuestionnaire, NAplusQuestionnaire m _ _ _ _ _ _ _ _ _ _ _ _ _ _ _ _ _) => j < m
  | (SListTable, NListTable m _ _ _ _ _ _) => j < m
  | (SBulletList, NBulletList c i _) => match b with MBullet b => b <> c \/ j <> i | _ => True end
  | (SEnumeratedList, NEnumeratedList ld lk start n i) => (n + start <= usize_max)%N /\ match b with MNumber d s nb => j <> i \/ goes_on ld lk (n + start) d s nb = false | _ => True end
  | (SFieldList, NFieldList i) => match b with MField => j <> i | _ => True end
  | (SDefinitionList, NDefinitionList i) => b = MText
  | _ => False
  end.
Definition inner (x : TreeNodeType) : Prop :=
  match x with
  | NBulletListItem _ _ _ | NBlockQuote _ | NAdmonition _ _ _ _ | NEnumeratedListItem _ _ _ _ _ | NFieldListItem _ _ _ _
  | NDefinitionListItem _ _ _ | NFigure _ _ _ _ _ | NFootnote _ _ _ _ | NCitation _ _ | NSphinxOnly _ _
  | NAplusPOI _ _ _ _ _ _ _ _ _ _ _ _ _ | NUnknownDirective _ _ _ _
  | NAplusSubmit _ _ _ _ _ _ _ _ _ _ _ _ _ _ _ _ _ _ _ _ _ _ => True
  | _ => False
  end.

Section Leave.
  Variables (ord : hash_order) (full : bool).
  Notation under := (under ord full).
  Notation at_ := (at_ ord full).
  Variables (src : list str) (base : nat).

  Lemma end_of_post f j b : ended_by j b f -> post_string full (snd f) (refs_of (snd f)) = Ret (end_of f).
  Proof. destruct f as [S x]. destruct S; try contradiction; destruct x; try contradiction; try reflexivity.
    all: intros _; cbn [snd post_string end_of refs_of].
    all: first [ destruct variant; reflexivity
      | unfold end_env; now rewrite <- !app_assoc
      | unfold anchor_string, anchor_kind, anchor1, end_env, braces; cbn [lit];
        match goal with |- context [match ?n with Some _ => _ | None => _ end] => destruct n end; unfold nl, nl1, nl2; rewrite ?app_nil_r, <- ?app_assoc; reflexivity ].
  Qed.

  Lemma ink_field w c t : ws w -> is_whitespace c = false -> c <> 58%N -> captures FIELD_MARKER (w ++ c :: t) = None.
  Proof.
    intros Hw Hc Hn. apply (marker_none _ (N.eqb 58)); auto.
    - apply sw_cat, sw_chr. reflexivity.
    - intros a Ha. apply chr_class in Ha. now subst.
    - apply N.eqb_neq. congruence.
  Qed.
  Lemma nb_field d auto n j l : number_ok auto n = true -> captures FIELD_MARKER (pad j (enumerator d auto n ++ 32%N :: l)) = None.
  Proof.
    intros Hn. destruct (enumerator_chars d auto n Hn) as (c & t & E & Hc & Hin). rewrite E. apply ink_field; [apply ws_pad|exact Hc|].
    intros ->. discriminate Hin.
  Qed.
  Lemma find_definition w l : ws w -> starts_text l = true -> like_enumerator l = false ->
    exists cs, find_transition (w ++ l) DEFINITION_LIST_TRANSITIONS = Some (definition_text, cs) /\ cap 1 cs = Some w.
  Proof.
    intros Hw Hl He. destruct l as [|c t]; [discriminate|]. destruct (st_text w c t Hw Hl) as (cs & E & C1 & _). exists cs. split; [|exact C1].
    unfold DEFINITION_LIST_TRANSITIONS, empty_line_entry. cbn [find_transition].
    rewrite st_blank, st_bullet, st_enum, st_field, st_footnote, st_citation, st_target, st_directive, st_comment, st_line, E by auto. reflexivity.
  Qed.
  (* the line makes every transition function leave a deeper item or quote *)
  Definition leaver (p j : nat) : Prop := exists line, nth_error src p = Some line /\
    forall tbl, body_table tbl -> exists t cs, find_transition line tbl = Some (t, cs) /\
    forall call d x r e s seen cur m, under d ((x, r) :: e) s seen -> e <> [] -> cur_offset cur = p ->
      inner x -> NodeTypes.body_indent x = Some m -> base + j < m -> pexec call (t src base cs) d cur = pexec call leave d cur.
  (* the next line is not indented more *)
  Definition not_more (p j : nat) : Prop := forall l, nth_error src (S p) = Some l -> indent_of l <= j.
  Definition list_line (p j : nat) (b : mark) : Prop := exists line, nth_error src p = Some line /\
    match b with
    | MBullet b => existsb (N.eqb b) bullet_chars = true /\ exists l, line = pad j (b :: 32%N :: l) /\ starts_text l = true
    | MNumber d s n => number_line d s n j line /\ free_next src p j
    | MPlain => captures BLANK_LINE line = None /\ captures BULLET line = None /\ captures ENUMERATOR line = None /\
        captures FIELD_MARKER line = None /\ exists c l, line = pad j (c :: l) /\ is_whitespace c = false
    | MText => exists l, line = pad j l /\ starts_text l = true /\ like_enumerator l = false /\ not_more p j
    | MField => captures BULLET line = None /\ captures ENUMERATOR line = None /\
        exists l cs name, line = pad j (58%N :: l) /\ captures FIELD_MARKER line = Some cs /\ cap 1 cs = Some (repeat 32%N j) /\ cap 2 cs = Some name
    end.
  Definition ender (p j : nat) (b : mark) : Prop := leaver p j /\ list_line p j b.

  Lemma pad_length j : length (repeat 32%N j) = j. Proof. apply repeat_length. Qed.
  Lemma bullet_indent j b l : existsb (N.eqb b) bullet_chars = true -> indent_of (pad j (b :: l)) = j.
  Proof. intros H. unfold pad. rewrite ink_indent; [apply pad_length|apply ws_pad|now apply bullet_ink]. Qed.

  Lemma exec_list_leave call d cur cs j b c i t r e s seen : under d ((NBulletList c i t, r) :: e) s seen -> b <> c \/ base + j <> i ->
    cap 1 cs = Some (repeat 32%N j) -> cap 2 cs = Some [b] ->
    pexec call (list_bullet src base cs) d cur = pexec call leave d cur.
  Proof.
    intros Hu Hne C1 C2. unfold list_bullet. rewrite (get_cap_ok _ _ _ _ _ _ _ C2). cbn [first_char pbind].
    rewrite (cap_len_ok _ _ _ _ _ _ _ C1). rewrite pad_length. unfold get_doc. cbn [pbind pexec].
    rewrite (under_data _ _ _ _ _ _ _ _ Hu).
    replace ((c =? b)%N && (i =? j + base) && (t =? byte_len (whole cs) + base)) with false; [reflexivity|].
    symmetry. rewrite (Nat.add_comm j). destruct Hne as [Hne|Hne].
    - replace (c =? b)%N with false by (symmetry; apply N.eqb_neq; congruence). reflexivity.
    - replace (i =? base + j) with false by (symmetry; apply Nat.eqb_neq; congruence). now rewrite andb_false_r.
  Qed.

  Lemma delims_same a b : delims_eqb a b = same_delims a b. Proof. destruct a, b; reflexivity. Qed.
  Lemma kind_same a b : kind_eqb a b = same_kind b a. Proof. destruct a, b; reflexivity. Qed.
  Lemma exec_numbers_leave call d cur cs j dl auto nb l dl' lk start n i r e s seen : under d ((NEnumeratedList dl' lk start n i, r) :: e) s seen ->
    base + j <> i \/ goes_on dl' lk (n + start) dl auto nb = false -> (n + start <= usize_max)%N -> number_caps dl auto nb j cs -> free_next src (cur_offset cur) j -> starts_text l = true ->
    pexec call (list_enumerator src base cs) d cur = pexec call leave d cur.
  Proof.
    intros Hu Hne Hb (C1 & Cw & Ce) Hfree Hst. unfold list_enumerator, get_doc. cbn [pbind pexec]. rewrite (under_data _ _ _ _ _ _ _ _ Hu).
    rewrite (cap_len_ok _ _ _ _ _ _ _ C1), pad_length. unfold get_cursor. cbn [pbind pexec].
    rewrite Ce by auto. cbn [lift pbind]. rewrite (Nat.add_comm j), free_is_item by exact Hfree. cbn [lift pbind negb].
    rewrite delims_same, kind_same. destruct Hne as [Hne|Hne].
    - replace (i =? base + j) with false by (symmetry; apply Nat.eqb_neq; congruence). rewrite andb_false_r. reflexivity.
    - assert (G : same_delims dl' dl && same_kind lk (number_kind auto (list_kind_of (Some lk))) && (number_value auto (n + start) nb =? n + start)%N = false).
      { unfold goes_on in Hne. rewrite <- andb_assoc. destruct (same_delims dl' dl); [|reflexivity]. cbn [andb] in Hne |- *.
        destruct auto; cbn [number_kind number_value] in *; [discriminate Hne|exact Hne|exact Hne|exact Hne]. }
      replace (same_delims dl' dl && same_kind lk (number_kind auto (list_kind_of (Some lk))) && (i =? base + j) && (number_value auto (n + start) nb =? n + start)%N) with false; [reflexivity|].
      symmetry. rewrite <- (andb_assoc _ (i =? base + j)), (andb_comm (i =? base + j)), andb_assoc, G. reflexivity.
  Qed.
  Lemma exec_fields_leave call d cur cs j name i r e s seen : under d ((NFieldList i, r) :: e) s seen -> base + j <> i ->
    cap 1 cs = Some (repeat 32%N j) -> cap 2 cs = Some name ->
    pexec call (list_field_marker src base cs) d cur = pexec call leave d cur.
  Proof.
    intros Hu Hne C1 C2. unfold list_field_marker. cbv zeta. rewrite (cap_len_ok _ _ _ _ _ _ _ C1), pad_length, (get_cap_ok _ _ _ _ _ _ _ C2).
    unfold get_cursor, get_doc. cbn [pbind pexec]. rewrite (under_data _ _ _ _ _ _ _ _ Hu).
    replace (i =? j + base) with false by (symmetry; apply Nat.eqb_neq; lia). reflexivity.
  Qed.
  Lemma exec_definition_leave call d cur cs j : cap 1 cs = Some (repeat 32%N j) -> not_more (cur_offset cur) j ->
    pexec call (definition_text src base cs) d cur = pexec call leave d cur.
  Proof.
    intros C1 Hn. unfold definition_text. rewrite (cap_len_ok _ _ _ _ _ _ _ C1), pad_length. unfold get_cursor. cbn [pbind pexec].
    destruct (nth_error src (S (cur_offset cur))) as [l|] eqn:E; [|reflexivity]. apply Hn in E.
    replace (indent_of l + base <=? j + base) with true by (symmetry; apply Nat.leb_le; lia). reflexivity.
  Qed.
  Lemma mark_not_blank p j b line : list_line p j b -> nth_error src p = Some line -> captures BLANK_LINE line = None.
  Proof.
    intros (line' & Hl' & H) Hl. assert (line' = line) by congruence. subst line'. destruct b.
    - apply H.
    - destruct H as (l & -> & Hst & _). destruct l as [|c t]; [discriminate|]. apply st_blank; auto using ws_pad.
    - destruct H as (Hb & l & -> & _). apply ink_blank. now apply bullet_ink.
    - destruct H as ((l & -> & Hst & Hn) & _). now apply nb_blank.
    - destruct H as (_ & _ & l & cs & name & -> & _). now apply ink_blank.
  Qed.
  Lemma bullet_no_number p j b l : existsb (N.eqb b) bullet_chars = true -> nth_error src p = Some (pad j (b :: l)) ->
    captures ENUMERATOR (pad j (b :: l)) = None.
  Proof.
    intros Hb Hl. apply existsb_exists in Hb as (x & Hx & E). apply N.eqb_eq in E. subst x.
    apply enum_none; [apply ws_pad|..]; vm_compute in Hx; repeat (destruct Hx as [<-|Hx]; [first [reflexivity|discriminate]|]); contradiction.
  Qed.

  (* a questionnaire ends at a line that is indented less *)
  Lemma mark_line p j b line : list_line p j b -> nth_error src p = Some line -> exists c l, line = pad j (c :: l) /\ is_whitespace c = false.
  Proof.
    intros (line' & Hl' & H) Hl. assert (line' = line) by congruence. subst line'. destruct b.
    - destruct H as (_ & _ & _ & _ & c & l & E & Hc). eauto.
    - destruct H as (l & -> & Hst & _). destruct l as [|c t]; [discriminate|]. exists c, t. split; [reflexivity|]. now apply (st_ink (repeat 32%N j) c t).
    - destruct H as (Hb & l & -> & _). exists b, (32%N :: l). split; [reflexivity|now apply bullet_ink].
    - destruct H as ((l & -> & Hst & Hn) & _). match goal with H : number_ok ?s ?n = true |- _ => destruct (enumerator_chars d s n H) as (c & t & E & Hc & _) end. rewrite E. exists c, (t ++ 32%N :: l). auto.
    - destruct H as (_ & _ & l & cs & name & -> & _). exists 58%N, l. auto.
  Qed.
  Lemma leading_ws w r c t u n : is_whitespace c = false -> ws w -> (forall x s v m i, is_whitespace x = true -> ~ relc r i (x :: s) v m) ->
    relc (Cat (Grp 1 ws0) r) 0 (w ++ c :: t) u n -> exists n2 i, n = n2 ++ [(1, (0, w))] /\ relc r i (c :: t) u n2.
  Proof.
    intros Hc Hw Hr R. apply relc_cat_inv in R as (s & n1 & n2 & R1 & R2 & ->). apply relc_grp_simple in R1 as (w' & E & R1 & ->); [|reflexivity].
    apply rel_star_cls in R1 as (w2 & E2 & Hs). apply app_inv_tail in E2. subst w2.
    assert (w' = w) as ->.
    { remember (0 + (length (w ++ c :: t) - length s)) as o eqn:Eo. clear Eo. revert w E Hw. induction w' as [|x w' IH]; intros w E Hw.
      - destruct w as [|y w]; [reflexivity|]. cbn [app] in E. exfalso. unfold ws in Hw. cbn [forallb] in Hw. apply andb_true_iff in Hw as [Hy _].
        rewrite <- E in R2. exact (Hr _ _ _ _ _ Hy R2).
      - cbn [forallb] in Hs. apply andb_true_iff in Hs as [Hx Hs]. destruct w as [|y w]; cbn [app] in E.
        + apply (f_equal (hd 0%N)) in E. cbn in E. subst x. unfold sp in Hx. congruence.
        + pose proof (f_equal (hd 0%N) E) as E1. apply (f_equal (@tl char)) in E. cbn [hd tl] in E, E1. subst y. f_equal. apply IH; auto.
          unfold ws in *. cbn [forallb] in Hw. now apply andb_true_iff in Hw as [_ Hw]. }
    apply app_inv_head in E. subst s. eauto.
  Qed.
  Lemma question_caps w c t cs : is_whitespace c = false -> ws w -> captures APLUS_QUESTIONNAIRE_DIRECTIVE (w ++ c :: t) = Some cs ->
    cap 1 cs = Some w /\ exists name, cap 2 cs = Some name.
  Proof.
    intros Hc Hw E. unfold APLUS_QUESTIONNAIRE_DIRECTIVE in E. cbn [Seq] in E. unfold captures in E.
    destruct (rexec _ _) as [[n cs']|] eqn:Ex; [|discriminate]. injection E as <-. apply rexec_sound in Ex as (p & u & new & _ & _ & R & ->).
    apply leading_ws in R as (n2 & i & -> & R); [|exact Hc|exact Hw|].
    2:{ clear. intros x s v m i Hx R. apply relc_cat_inv in R as (s1 & n1 & n2 & R1 & _ & _). apply relc_lit_inv in R1 as [E _].
        apply (f_equal (hd 0%N)) in E. change (x = 46%N) in E. subst x. discriminate. }
    apply relc_cat_inv in R as (s1 & n1 & n3 & R1 & R & ->). apply relc_lit_inv in R1 as [_ ->].
    apply relc_cat_inv in R as (s2 & n1 & n4 & R2 & R & ->). assert (n1 = []) as -> by (eapply relc_nogrp; [|exact R2]; reflexivity).
    apply relc_cat_inv in R as (s3 & n1 & n5 & R3 & R & ->). apply relc_grp_simple in R3 as (name & _ & _ & ->); [|reflexivity].
    assert (n5 = []) as -> by (eapply relc_nogrp; [|exact R]; reflexivity).
    cbn [app cap Nat.eqb]. eauto.
  Qed.
  Lemma exec_quiz_leave call d cur x r e s seen m j : under d ((x, r) :: e) s seen -> NodeTypes.body_indent x = Some m -> base + j < m ->
    forall c l line t cs, line = pad j (c :: l) -> is_whitespace c = false -> nth_error src (cur_offset cur) = Some line ->
    find_transition line APLUS_QUESTIONNAIRE_TRANSITIONS = Some (t, cs) -> captures BLANK_LINE line = None ->
    pexec call (t src base cs) d cur = pexec call leave d cur.
  Proof.
    intros Hu Hm Hj c l line t cs -> Hc Hl Hf Hb. unfold APLUS_QUESTIONNAIRE_TRANSITIONS, empty_line_entry in Hf. cbn [find_transition] in Hf. rewrite Hb in Hf.
    pose proof (under_data _ _ _ _ _ _ _ _ Hu) as Hx.
    destruct (captures APLUS_QUESTIONNAIRE_DIRECTIVE _) as [cs'|] eqn:E.
    - injection Hf as <- <-. apply question_caps in E as (C1 & name & C2); [|exact Hc|apply ws_pad].
      unfold questionnaire_directive. rewrite (cap_len_ok _ _ _ _ _ _ _ C1), pad_length, (get_cap_ok _ _ _ _ _ _ _ C2). unfold get_cursor. cbn [pbind pexec].
      rewrite Hl. cbn [unwrap lift pbind]. unfold focus_matches, get_doc. cbn [pbind pexec]. rewrite Hx, Hm. cbn [pbind pexec].
      rewrite match_less by lia. reflexivity.
    - destruct (ink_text (repeat 32%N j) c l (ws_pad j) Hc) as (cs' & E' & C1). change (captures TEXT (pad j (c :: l)) = Some cs') in E'. rewrite E' in Hf. injection Hf as <- <-.
      unfold questionnaire_text. rewrite (cap_len_ok _ _ _ _ _ _ _ C1), pad_length. unfold focus_matches, get_doc. cbn [pbind pexec]. rewrite Hx, Hm. cbn [pbind pexec].
      rewrite match_less by lia. reflexivity.
  Qed.
  (* so does a table *)
  Lemma exec_table_leave call d cur line t cs j x m r e s seen : under d ((x, r) :: e) s seen -> NodeTypes.body_indent x = Some m -> base + j < m ->
    (exists c l, line = pad j (c :: l) /\ is_whitespace c = false) -> captures BLANK_LINE line = None ->
    find_transition line LIST_TABLE_TRANSITIONS = Some (t, cs) -> pexec call (t src base cs) d cur = pexec call leave d cur.
  Proof.
    intros Hu Hm Hj (c & l & El & Hc) Hb Hf. unfold LIST_TABLE_TRANSITIONS, empty_line_entry in Hf. cbn [find_transition] in Hf. rewrite Hb in Hf.
    destruct (captures BULLET line) as [bc|] eqn:E; [|discriminate]. injection Hf as <- <-.
    assert (exists b, cap 1 bc = Some (repeat 32%N j) /\ cap 2 bc = Some [b]) as (b & C1 & C2).
    { unfold BULLET in E. cbn [Seq] in E. apply captures_ws in E as (w & t' & u & new & E & H & R & ->).
      apply relc_cat_inv in R as (t1 & n1 & n2 & R1 & R2 & ->). apply relc_grp_simple in R1 as (p & E1 & R1 & ->); [|reflexivity].
      apply rel_cls_inv in R1 as (b & E2 & Hb2). change (b :: t1) with ([b] ++ t1) in E2. apply app_inv_tail in E2. subst p t'. cbn [app] in E.
      assert (Hb' : is_whitespace b = false).
      { unfold bullet_char, cls_of in Hb2. apply existsb_exists in Hb2 as (y & Hy & Hb2). apply N.eqb_eq in Hb2. subst y.
        vm_compute in Hy. repeat (destruct Hy as [<-|Hy]; [reflexivity|]). contradiction. }
      rewrite El in E. unfold pad in E. apply ws_head in E as (Ew & <- & _); [|apply ws_pad|exact H|exact Hc|exact Hb'].
      assert (n2 = []) by (eapply relc_nogrp; [|exact R2]; reflexivity). subst n2. exists c. cbn [app cap Nat.eqb]. rewrite <- Ew. auto. }
    unfold body_bullet. rewrite (get_cap_ok _ _ _ _ _ _ _ C2). cbn [first_char pbind]. rewrite (cap_len_ok _ _ _ _ _ _ _ C1), pad_length, (Nat.add_comm j). cbv zeta.
    rewrite (exec_by_indent _ _ _ _ _ _ _ (under_data _ _ _ _ _ _ _ _ Hu) Hm), match_less by exact Hj. reflexivity.
  Qed.
  (* the line ends all of them *)
  Lemma unwind p j b : ender p j b -> forall L c st e s seen n, Forall (ended_by (base + j) b) L -> e <> [] ->
    at_ src c (fstack L ++ st) (fentries L ++ e) s seen p n -> n + length L <= 10 ->
    exists c', steps src base c c' /\ at_ src c' st e (s ++ ends_of L) seen p (n + length L).
  Proof.
    intros [(line & Hl & Hleave) Hlist]. pose proof (mark_not_blank _ _ _ _ Hlist Hl) as Hnb.
    pose proof (mark_line _ _ _ _ Hlist Hl) as Hink.
    destruct Hlist as (line' & Hl' & Hlist). assert (line' = line) by congruence. subst line'. clear Hl'.
    induction L as [|f L IH]; intros c st e s seen n HF He Hat Hn.
    - exists c. split; [apply steps_refl|]. cbn. rewrite app_nil_r. eapply at_weaken; [exact Hat|lia].
    - apply Forall_cons_iff in HF as [Hf HF]. cbn [length] in Hn.
      pose proof (end_of_post _ _ _ Hf) as Hpost.
      assert (Hne : fentries L ++ e <> []) by (destruct (fentries L); [exact He|discriminate]).
      assert (G : exists c1, steps src base c c1 /\ at_ src c1 (fstack L ++ st) (fentries L ++ e) (s ++ end_of f) seen p (n + 1)).
      { cbn [fstack fentries map app] in Hat. pose proof (at_doc _ _ _ _ _ _ _ _ _ _ Hat) as Hu. pose proof (at_cur _ _ _ _ _ _ _ _ _ _ Hat) as Hc.
        (* a transition that does nothing but leave *)
        assert (Leaves : forall tbl t cs, table (fst f) = Some tbl -> live (fst f) -> find_transition line tbl = Some (t, cs) ->
                  (forall call, pexec call (t src base cs) (cf_doc c) (cf_cur c) = pexec call leave (cf_doc c) (cf_cur c)) ->
                  exists c1, steps src base c c1 /\ at_ src c1 (fstack L ++ st) (fentries L ++ e) (s ++ end_of f) seen p (n + 1)).
        { intros tbl t cs Ht Hlive Hfind Hx.
          destruct (exec_leave ord full (parse table 0) _ _ _ _ _ _ (cf_cur c) _ Hu Hne Hpost) as (d' & Ed & Hu').
          assert (Z : exists c1, steps src base c c1 /\ at_ src c1 (fstack L ++ st) (fentries L ++ e) (s ++ end_of f) seen (cur_offset (cf_cur c) + 0) (n + 1));
            [|rewrite Hc, Nat.add_0_r in Z; exact Z].
          eapply (step_transition ord full src base c (fst f) (fstack L ++ st) _ s seen p n line tbl t cs Pop None
            (fentries L ++ e) (s ++ end_of f) seen d' (cf_cur c) (n + 1) (fstack L ++ st)); eauto; [lia|].
          exists 0. intros fu _. rewrite Hx.
          destruct (exec_leave ord full (parse table fu) _ _ _ _ _ _ (cf_cur c) _ Hu Hne Hpost) as (d'' & Ed' & _).
          rewrite Ed'. unfold leave, focus_parent in Ed, Ed'. cbn [pbind pexec] in Ed, Ed'.
          destruct (dop_exec DParent (cf_doc c)) as [[a dd]| |]; cbn [obind pexec] in Ed, Ed'; congruence. }
        assert (Body : forall tbl m, table (fst f) = Some tbl -> body_table tbl -> live (fst f) -> inner (snd f) ->
                  NodeTypes.body_indent (snd f) = Some m -> base + j < m ->
                  exists c1, steps src base c c1 /\ at_ src c1 (fstack L ++ st) (fentries L ++ e) (s ++ end_of f) seen p (n + 1)).
        { intros tbl m Ht Hb Hlive Hi Hm Hj. destruct (Hleave tbl Hb) as (t & cs & Hfind & Hx).
          eapply Leaves; eauto. }
        assert (NoMatch : forall tbl, table (fst f) = Some tbl -> live (fst f) -> find_transition line tbl = None ->
                  exists c1, steps src base c c1 /\ at_ src c1 (fstack L ++ st) (fentries L ++ e) (s ++ end_of f) seen p (n + 1)).
        { intros tbl Ht Hlive Hfind.
          destruct (step_no_match ord full src base c (fst f) _ _ _ _ _ _ _ _ line tbl (end_of f) Hat) as (c1 & Hs & Ha);
            [lia|exact Hl|exact Hlive|exact Ht|exact Hfind|exact Hne|exact Hpost|].
          exists c1. split; [exact Hs|]. eapply at_weaken; [exact Ha|lia]. }
        destruct f as [S x]. cbn [fst snd] in *. destruct S; try contradiction Hf;
          try (destruct x; try contradiction Hf; solve [eapply (Body _ _ eq_refl); [unfold body_table; tauto|exact I|exact I|reflexivity|exact Hf]]).
        - destruct x; try contradiction Hf. cbn [ended_by] in Hf.
          destruct (find_transition line APLUS_QUESTIONNAIRE_TRANSITIONS) as [[t cs]|] eqn:Hfind.
          + destruct Hink as (ic & il & Eline & Hic). apply (Leaves _ _ _ eq_refl I Hfind). intros call. eapply (exec_quiz_leave call); [exact Hu|reflexivity|exact Hf|exact Eline|exact Hic|now rewrite Hc|exact Hfind|exact Hnb].
          + now apply (NoMatch _ eq_refl I).
        - destruct x; try contradiction Hf. cbn [ended_by] in Hf. destruct b as [| |b|nd ns nb|].
          + apply (NoMatch _ eq_refl I). now apply find_list_none.
          + apply (NoMatch _ eq_refl I). destruct Hlist as (l & -> & Hst & Hen & _). destruct l as [|lc lt]; [discriminate|]. apply find_list_none; [exact Hnb|]. apply st_bullet; auto using ws_pad.
          + destruct Hlist as (Hbu & l & -> & Hst).
            destruct (find_list_bullet (repeat 32%N j) b l (ws_pad j) Hbu Hst) as (cs & Hfind & C1 & C2 & _).
            apply (Leaves _ _ _ eq_refl I Hfind). intros call. eapply exec_list_leave; eauto.
          + destruct Hlist as ((l & -> & Hst & Hb) & _). apply (NoMatch _ eq_refl I). apply find_list_none; [now apply nb_blank|now apply nb_bullet].
          + apply (NoMatch _ eq_refl I). now apply find_list_none.
        - (* definition lists *)
          destruct x; try contradiction Hf. cbn [ended_by] in Hf. subst b. destruct Hlist as (l & -> & Hst & Hen & Hless). destruct l as [|lc lt]; [discriminate|].
          destruct (find_definition (repeat 32%N j) (lc :: lt) (ws_pad j) Hst Hen) as (cs & Hfind & C1).
          apply (Leaves _ _ _ eq_refl I Hfind). intros call. eapply exec_definition_leave; eauto. now rewrite Hc.
        - destruct x; try contradiction Hf. cbn [ended_by] in Hf.
          destruct Hf as [Hf1 Hf2]. destruct b as [| |b|nd ns nb|].
          + apply (NoMatch _ eq_refl I). now apply find_numbers_none.
          + apply (NoMatch _ eq_refl I). destruct Hlist as (l & -> & Hst & Hen & _). destruct l as [|lc lt]; [discriminate|]. apply find_numbers_none; [exact Hnb|]. apply st_enum; auto using ws_pad.
          + destruct Hlist as (Hbu & l & -> & Hst). apply (NoMatch _ eq_refl I). apply find_numbers_none; [exact Hnb|].
            eapply bullet_no_number; eauto.
          + destruct Hlist as ((l & -> & Hst & Hb) & Hfree).
            destruct (find_list_number nd ns nb j l Hst Hb) as (cs & Hfind & C).
            apply (Leaves _ _ _ eq_refl I Hfind). intros call. eapply exec_numbers_leave; eauto. rewrite Hc. exact Hfree.
          + apply (NoMatch _ eq_refl I). now apply find_numbers_none.
        - (* field lists *)
          destruct x; try contradiction Hf. cbn [ended_by] in Hf.
          assert (Other : b <> MField -> captures FIELD_MARKER line = None).
          { intros Hnm. destruct b as [| |b|nd ns nb|].
            - apply Hlist.
            - destruct Hlist as (l & -> & Hst & _). destruct l as [|lc lt]; [discriminate|]. apply st_field; auto using ws_pad.
            - destruct Hlist as (Hbu & l & -> & Hst). apply ink_field; [apply ws_pad|now apply bullet_ink|now intros ->].
            - destruct Hlist as ((l & -> & Hst & Hb) & _). now apply nb_field.
            - congruence. }
          assert (Free : b <> MField -> find_transition line FIELD_LIST_TRANSITIONS = None).
          { intros Hnm. unfold FIELD_LIST_TRANSITIONS, empty_line_entry. cbn [find_transition]. now rewrite Hnb, Other. }
          destruct b as [| |b|nd ns nb|]; try (apply (NoMatch _ eq_refl I); apply Free; discriminate).
          destruct Hlist as (_ & _ & l & cs & name & _ & Ecs & C1 & C2).
          assert (Hfind : find_transition line FIELD_LIST_TRANSITIONS = Some (list_field_marker, cs)) by (unfold FIELD_LIST_TRANSITIONS, empty_line_entry; cbn [find_transition]; now rewrite Hnb, Ecs).
          apply (Leaves _ _ _ eq_refl I Hfind). intros call. eapply exec_fields_leave; eauto.
        - (* tables *)
          destruct x; try contradiction Hf. cbn [ended_by] in Hf.
          destruct (find_transition line LIST_TABLE_TRANSITIONS) as [[t cs]|] eqn:Hfind.
          + apply (Leaves _ _ _ eq_refl I Hfind). intros call. eapply exec_table_leave; [exact Hu|reflexivity|exact Hf|exact Hink|exact Hnb|exact Hfind].
          + now apply (NoMatch _ eq_refl I). }
      destruct G as (c1 & Hs & Ha). destruct (IH c1 st e (s ++ end_of f) seen (n + 1) HF He Ha ltac:(lia)) as (c' & Hs' & Ha').
      exists c'. split; [eapply steps_trans; eauto|]. cbn [ends_of map concat]. rewrite app_assoc. fold (ends_of L).
      eapply at_weaken; [exact Ha'|cbn [length]; lia].
  Qed.

  (* ---------- the lines that do so ---------- *)
  (* what may follow a line of text *)
  Definition next_line_ok (p j : nat) : Prop :=
    match nth_error src (S p) with
    | None => True
    | Some l => match captures LINE l with Some _ => base + j = 0 | None => True end
    end.
  Lemma leaver_text p j l : nth_error src p = Some (pad j l) -> starts_text l = true -> like_enumerator l = false -> next_line_ok p j ->
    leaver p j.
  Proof.
    intros Hl Hst He Hn. exists (pad j l). split; [exact Hl|]. intros tbl Hb.
    destruct (find_text tbl _ _ Hb (ws_pad j) Hst He) as (cs & Hf & C1). exists body_text, cs. split; [exact Hf|].
    intros call d x r e s seen cur m Hu Hne Hc Hi Hm Hj. unfold body_text. rewrite (cap_len_ok _ _ _ _ _ _ _ C1), pad_length.
    unfold get_cursor. cbn [pbind pexec]. rewrite Hc, (Nat.add_comm j). pose proof (under_data _ _ _ _ _ _ _ _ Hu) as Hx.
    assert (Q : pexec call (parse_paragraph src base (base + j)) d cur = pexec call leave d cur).
    { unfold parse_paragraph. rewrite (exec_by_indent _ _ _ _ _ _ _ Hx Hm), match_less by exact Hj. reflexivity. }
    unfold next_line_ok in Hn. destruct (nth_error src (S p)) as [nx|]; [|exact Q].
    destruct (captures LINE nx) as [lcs|] eqn:El.
    - rewrite Hn. cbn [Nat.ltb Nat.leb]. apply line_nonempty in El. destruct nx as [|ch nx]; [congruence|]. cbn [first_char pbind].
      rewrite Hl. cbn [unwrap lift pbind]. unfold open_section, get_doc. cbn [pbind pexec]. rewrite Hx.
      destruct x; try contradiction Hi; reflexivity.
    - destruct (captures TEXT nx) as [tcs|] eqn:Et; [|exact Q].
      unfold cap_len at 1. destruct (captures_ws _ _ _ Et) as (w & t & u & new & _ & _ & _ & Ecs).
      assert (exists w', cap 1 tcs = Some w') as (w' & Cw).
      { subst tcs. cbn [app cap Nat.eqb]. destruct (cap 1 (new ++ [(1, (0, w))])) eqn:E; [eauto|].
        exfalso. clear - E. induction new as [|[k [o v]] new IH]; cbn in E; [discriminate|]. destruct (k =? 1); [discriminate|auto]. }
      unfold get_cap. rewrite Cw. cbn [unwrap lift pbind]. destruct (base + j <? length w' + base); [|exact Q].
      rewrite (exec_by_indent _ _ _ _ _ _ _ Hx Hm), match_less by exact Hj. reflexivity.
  Qed.
  Lemma leaver_bullet p j b l : nth_error src p = Some (pad j (b :: 32%N :: l)) -> existsb (N.eqb b) bullet_chars = true ->
    starts_text l = true -> leaver p j.
  Proof.
    intros Hl Hbu Hst. eexists. split; [exact Hl|]. intros tbl Hb.
    destruct (find_bullet tbl _ b l Hb (ws_pad j) Hbu Hst) as (cs & Hf & C1 & C2 & Cw). exists body_bullet, cs. split; [exact Hf|].
    intros call d x r e s seen cur m Hu Hne Hc Hi Hm Hj. unfold body_bullet. rewrite (get_cap_ok _ _ _ _ _ _ _ C2). cbn [first_char pbind].
    rewrite (cap_len_ok _ _ _ _ _ _ _ C1), pad_length, (Nat.add_comm j). pose proof (under_data _ _ _ _ _ _ _ _ Hu) as Hx.
    cbv zeta. rewrite (exec_by_indent _ _ _ _ _ _ _ Hx Hm), match_less by exact Hj. reflexivity.
  Qed.
  Lemma leaver_comment p j l : nth_error src p = Some (pad j (lit ".. " ++ l)) -> starts_word l = true -> no_markup_chars l = true ->
    leaver p j.
  Proof.
    intros Hl Hst Hm. eexists. split; [exact Hl|]. intros tbl Hb.
    destruct (find_comment tbl _ l Hb (ws_pad j) Hst Hm) as (cs & Hf & C1 & Cw). exists body_comment, cs. split; [exact Hf|].
    intros call d x r e s seen cur m Hu Hne Hc Hi Hbi Hj. unfold body_comment.
    rewrite (cap_len_ok _ _ _ _ _ _ _ C1), pad_length, (Nat.add_comm j). unfold get_cursor. cbn [pbind pexec]. pose proof (under_data _ _ _ _ _ _ _ _ Hu) as Hx.
    cbv zeta. rewrite (exec_by_indent _ _ _ _ _ _ _ Hx Hbi), match_less by exact Hj. reflexivity.
  Qed.
  Lemma leaver_number p j d auto n l : nth_error src p = Some (pad j (enumerator d auto n ++ 32%N :: l)) -> starts_text l = true ->
    number_ok auto n = true -> free_next src p j -> leaver p j.
  Proof.
    intros Hl Hst Hn Hfree. eexists. split; [exact Hl|]. intros tbl Hb.
    destruct (find_number d auto n j l Hst Hn tbl Hb) as (cs & Hf & C1 & Cw & Ce). exists body_enumerator, cs. split; [exact Hf|].
    intros call dd x r e s seen cur m Hu Hne Hc Hi Hm Hj. unfold body_enumerator.
    rewrite (cap_len_ok _ _ _ _ _ _ _ C1), pad_length, (Nat.add_comm j). cbv zeta. unfold get_cursor. cbn [pbind pexec].
    rewrite Ce by (auto; vm_compute; discriminate). cbn [lift pbind]. rewrite free_is_item by (now rewrite Hc). cbn [lift pbind negb].
    rewrite (exec_by_indent _ _ _ _ _ _ _ (under_data _ _ _ _ _ _ _ _ Hu) Hm), match_less by exact Hj. reflexivity.
  Qed.
  Lemma list_line_number p j d auto n l : nth_error src p = Some (pad j (enumerator d auto n ++ 32%N :: l)) -> starts_text l = true ->
    number_ok auto n = true -> free_next src p j -> list_line p j (MNumber d auto n).
  Proof. intros Hl Hst Hn Hfree. eexists. split; [exact Hl|]. split; [|exact Hfree]. exists l. auto. Qed.
  Lemma list_line_term p j l : nth_error src p = Some (pad j l) -> starts_text l = true -> like_enumerator l = false -> list_line p j MPlain.
  Proof.
    intros Hl Hst He. eexists. split; [exact Hl|]. destruct l as [|c t]; [discriminate|]. unfold pad.
    split; [apply st_blank; auto using ws_pad|]. split; [apply st_bullet; auto using ws_pad|]. split; [apply st_enum; auto using ws_pad|].
    split; [apply st_field; auto using ws_pad|]. exists c, t. split; [reflexivity|]. now apply (st_ink (repeat 32%N j) c t).
  Qed.
  Lemma list_line_text p j l : nth_error src p = Some (pad j l) -> starts_text l = true -> like_enumerator l = false -> not_more p j -> list_line p j MText.
  Proof. intros Hl Hst He Hn. eexists. split; [exact Hl|]. exists l. auto. Qed.
  Lemma list_line_comment p j l : nth_error src p = Some (pad j (lit ".. " ++ l)) -> starts_word l = true -> list_line p j MPlain.
  Proof.
    intros Hl Hst. eexists. split; [exact Hl|]. destruct l as [|c t]; [discriminate|]. cbn in Hst. unfold pad.
    change (lit ".. " ++ c :: t) with (46%N :: 46%N :: 32%N :: c :: t).
    split; [now apply ink_blank|]. split; [apply cm_bullet; auto using ws_pad|]. split; [apply cm_enum; auto using ws_pad|]. split; [apply ink_field; [apply ws_pad|reflexivity|discriminate]|]. eexists _, _. split; reflexivity.
  Qed.
  Lemma list_line_bullet p j b l : nth_error src p = Some (pad j (b :: 32%N :: l)) -> existsb (N.eqb b) bullet_chars = true ->
    starts_text l = true -> list_line p j (MBullet b).
  Proof. intros Hl Hb Hst. eexists. split; [exact Hl|]. split; [exact Hb|]. eauto. Qed.
End Leave.
