(* ParaProofs.v -- reading a paragraph (used for C47). *)
From Verif Require Import Base Unicode Regex Patterns Common Converters NodeTypes Tree DocTree History Blocks Prog ParseLoop
  Inline Body Directives Parser Spec RegexProofs BlockProofs TreeProofs DocTreeProofs HyperrefProofs InlineSpec RegexGroups InlineProofs LoopProofs
  Utf8Latex Writer WriterProofs Transforms OpenProofs SimpleSpec LineProofs Properties7 RunProofs StepProofs
  MarkupProofs SpanProofs ChunkProofs Properties13.

(* ---------- trimming ---------- *)
Lemma trim_start_app a b : blank a = false -> trim_start (a ++ b) = trim_start a ++ b.
Proof. induction a as [|c a IH]; cbn; [discriminate|]. destruct (is_whitespace c); cbn; auto. Qed.
Lemma blank_app a b : blank (a ++ b) = blank a && blank b.
Proof. unfold blank. apply forallb_app. Qed.
Lemma blank_rev a : blank (rev a) = blank a.
Proof. induction a as [|c a IH]; [reflexivity|]. cbn [rev]. rewrite blank_app, IH. cbn. rewrite andb_true_r. apply andb_comm. Qed.
Lemma trim_end_app a b : blank b = false -> trim_end (a ++ b) = a ++ trim_end b.
Proof.
  intros H. unfold trim_end. rewrite rev_app_distr, trim_start_app by now rewrite blank_rev.
  now rewrite rev_app_distr, rev_involutive.
Qed.
Lemma trim_end_split l : exists w, l = trim_end l ++ w /\ ws w.
Proof.
  unfold trim_end. destruct (trim_start_split (rev l)) as (w & Hw & E & _). exists (rev w). split.
  - rewrite <- rev_app_distr, <- E. now rewrite rev_involutive.
  - unfold ws. apply forallb_forall. intros x Hx. apply in_rev in Hx. rewrite Forall_forall in Hw. auto.
Qed.
Lemma trim_end_in l x : In x (trim_end l) -> In x l.
Proof. intros H. destruct (trim_end_split l) as (w & E & _). rewrite E. apply in_or_app. now left. Qed.
Lemma trim_end_snug l : blank l = false -> exists c t, l = c :: t /\ (is_whitespace c = false -> exists t', trim_end l = c :: t').
Proof.
  destruct l as [|c t]; [discriminate|]. intros _. exists c, t. split; [reflexivity|]. intros Hc.
  destruct (trim_end_split (c :: t)) as (w & E & Hw). destruct (trim_end (c :: t)) as [|d u] eqn:Et.
  - cbn in E. rewrite <- E in Hw. unfold ws in Hw. cbn in Hw. rewrite Hc in Hw. discriminate.
  - cbn in E. injection E as <- _. eauto.
Qed.

(* ---------- lines ---------- *)
Lemma starts_text_inv l : starts_text l = true -> exists c t, l = c :: t /\ starts_text (c :: t) = true /\ is_whitespace c = false.
Proof. destruct l as [|c t]; [discriminate|]. intros H. exists c, t. repeat split; auto. now apply starts_text_ink in H. Qed.
Lemma pad_indent j l : starts_text l = true -> indent_of (pad j l) = j.
Proof.
  intros H. apply starts_text_inv in H as (c & t & -> & _ & Hc). unfold pad.
  induction j; cbn [repeat app indent_of]; [now rewrite Hc|]. change (is_whitespace 32%N) with true. cbn iota. now rewrite IHj.
Qed.
Lemma ink_indent w c t : ws w -> is_whitespace c = false -> indent_of (w ++ c :: t) = length w.
Proof.
  intros Hw Hc. unfold ws in Hw. induction w as [|x w IH]; cbn [app indent_of length]; [now rewrite Hc|].
  cbn [forallb] in Hw. apply andb_true_iff in Hw as [H1 H2]. rewrite H1. auto.
Qed.
Lemma ink_not_blank w c t : is_whitespace c = false -> blank (w ++ c :: t) = false.
Proof. intros H. rewrite blank_app. cbn. rewrite H. apply andb_false_r. Qed.
Lemma pad_not_blank j l : starts_text l = true -> blank (pad j l) = false.
Proof. intros H. apply starts_text_inv in H as (c & t & -> & _ & Hc). now apply ink_not_blank. Qed.
Lemma pad_trim j l : starts_text l = true -> trim_start (pad j l) = l.
Proof.
  intros H. apply starts_text_inv in H as (c & t & -> & _ & Hc). unfold pad.
  induction j; cbn [repeat app trim_start]; [now rewrite Hc|]. exact IHj.
Qed.
Lemma pad_skip j l : skipn j (pad j l) = l.
Proof. unfold pad. induction j; [reflexivity|]. exact IHj. Qed.
Lemma split_lines_shape s : exists l ls, split_lines s = l :: ls.
Proof.
  induction s as [|c s (l & ls & IH)]; [do 2 eexists; reflexivity|]. cbn [split_lines]. rewrite IH. destruct (N.eqb c newline); do 2 eexists; reflexivity.
Qed.
Lemma split_lines_join s : join [newline] (split_lines s) = s.
Proof.
  induction s as [|c s IH]; [reflexivity|]. cbn [split_lines]. destruct (split_lines_shape s) as (l & ls & E). rewrite E in *.
  destruct (N.eqb c newline) eqn:Ec.
  - apply N.eqb_eq in Ec. subst c. change (join [newline] ([] :: l :: ls)) with (newline :: join [newline] (l :: ls)). now rewrite IH.
  - destruct ls as [|l2 ls].
    + cbn [join] in *. now rewrite IH.
    + change (join [newline] ((c :: l) :: l2 :: ls)) with (c :: join [newline] (l :: l2 :: ls)). now rewrite IH.
Qed.
Lemma split_lines_length s : length (split_lines s) = S (newlines s).
Proof.
  unfold newlines. induction s as [|c s IH]; [reflexivity|]. cbn [split_lines filter]. destruct (split_lines_shape s) as (l & ls & E). rewrite E in *.
  rewrite (N.eqb_sym c newline). destruct (N.eqb newline c); cbn [length] in *; lia.
Qed.
Lemma split_lines_one s : Forall (fun l => one_line l = true) (split_lines s).
Proof.
  induction s as [|c s IH]; [now repeat constructor|]. cbn [split_lines]. destruct (split_lines_shape s) as (l & ls & E). rewrite E in *.
  destruct (N.eqb c newline) eqn:Ec; [now constructor|]. apply Forall_cons_iff in IH as [H IH]. constructor; [|exact IH].
  unfold one_line in *. cbn [existsb]. rewrite (N.eqb_sym newline c), Ec. exact H.
Qed.
Lemma para_ok_inv t : para_ok t = true -> chunks_ok true t = true /\ forallb written_chunk t = true /\ ends_white (chunks_source t) = false /\
  exists l more, text_lines t = l :: more /\ text_line l = true /\ forallb starts_text more = true.
Proof.
  unfold para_ok. intros H. apply andb_prop in H as [H H4]. apply andb_prop in H as [H H3]. apply andb_prop in H as [H1 H2].
  apply negb_true_iff in H3. repeat split; auto. destruct (text_lines t) as [|l more]; [discriminate|]. apply andb_prop in H4 as [? ?]. eauto.
Qed.
Lemma para_ok_lines t : para_ok t = true -> text_lines t <> [] /\ Forall (fun l => starts_text l = true /\ one_line l = true) (text_lines t).
Proof.
  intros H. apply para_ok_inv in H as (_ & _ & _ & l & more & E & Hl & Hm). pose proof (split_lines_one (chunks_source t)) as Ho. fold (text_lines t) in Ho.
  rewrite E in *. split; [discriminate|]. apply Forall_cons_iff in Ho as [Ho Hos].
  unfold text_line in Hl. apply andb_true_iff in Hl as [Hl _]. apply andb_true_iff in Hl as [Hl _]. constructor; [auto|].
  rewrite forallb_forall in Hm. rewrite Forall_forall in *. auto.
Qed.
Lemma para_ok_first t : para_ok t = true -> exists l more, text_lines t = l :: more /\ starts_text l = true /\ like_enumerator l = false.
Proof.
  intros H. apply para_ok_inv in H as (_ & _ & _ & l & more & E & Hl & Hm). exists l, more. split; [exact E|].
  unfold text_line in Hl. apply andb_true_iff in Hl as [Hl _]. apply andb_true_iff in Hl as [Hl1 Hl2]. now apply negb_true_iff in Hl2.
Qed.
(* lines a paragraph of indentation j does not go on with *)
Definition para_ends (j : nat) (rest : list str) : Prop :=
  match rest with [] => True | l :: _ => blank l = true \/ indent_of l <> j end.
Lemma read_para j rest ls : Forall (fun l => starts_text l = true) ls -> para_ends j rest ->
  text_block_loop (map (pad j) ls ++ rest) true true (Some j) true = ls.
Proof.
  intros H Hr. induction H as [|l ls Hl H IH]; cbn [map app].
  - destruct rest as [|l rest]; [reflexivity|]. cbn [text_block_loop]. cbn in Hr. destruct (blank l) eqn:B; [reflexivity|].
    destruct Hr as [Hr|Hr]; [discriminate|]. cbn [negb andb].
    replace (j =? indent_of l) with false by (symmetry; apply Nat.eqb_neq; congruence). reflexivity.
  - cbn [text_block_loop]. rewrite pad_not_blank, pad_indent, pad_trim by exact Hl. cbn [negb andb]. rewrite Nat.eqb_refl. cbn [negb].
    now rewrite IH.
Qed.
Lemma read_para_block src p j rest ls : skipn p src = map (pad j) ls ++ rest -> ls <> [] ->
  Forall (fun l => starts_text l = true) ls -> para_ends j rest ->
  read_text_block src p true true (Some j) true = Ret (MkTextBlock ls (length ls)).
Proof.
  intros E Hne H Hr. unfold read_text_block, checked_sub.
  assert (p <= length src).
  { destruct (le_lt_dec p (length src)) as [G|G]; [exact G|]. rewrite skipn_all2 in E by lia. destruct ls; [congruence|discriminate]. }
  apply Nat.leb_le in H0. rewrite H0. cbn [obind]. rewrite E, read_para by auto. reflexivity.
Qed.

(* ---------- the text of a paragraph ---------- *)
Lemma join_not_blank ls : ls <> [] -> Forall (fun l => starts_text l = true) ls -> blank (join [newline] ls) = false.
Proof.
  destruct ls as [|l ls]; [congruence|]. intros _ H. apply Forall_cons_iff in H as [H _].
  apply starts_text_inv in H as (c & t & -> & _ & Hc). destruct ls; cbn [join app blank forallb]; now rewrite Hc.
Qed.
Lemma newlines_app a b : newlines (a ++ b) = newlines a + newlines b.
Proof. unfold newlines. now rewrite filter_app, app_length. Qed.
Lemma one_line_newlines l : one_line l = true -> newlines l = 0.
Proof.
  unfold one_line, newlines. rewrite negb_true_iff. induction l as [|c l IH]; cbn [existsb filter]; [reflexivity|].
  destruct (N.eqb newline c); cbn [orb]; [intros H; discriminate H|exact IH].
Qed.
Lemma ends_snug s : ends_white s = false -> trim_end s = s.
Proof.
  destruct s as [|c s _] using rev_ind; [reflexivity|]. unfold ends_white. rewrite last_last. intros H. unfold trim_end. rewrite rev_app_distr. cbn [rev app trim_start].
  rewrite H. cbn [rev]. now rewrite rev_involutive.
Qed.
Lemma para_text t : para_ok t = true -> trim_end (join [newline] (text_lines t)) = chunks_source t.
Proof. intros H. apply para_ok_inv in H as (_ & _ & H & _). unfold text_lines. rewrite split_lines_join. now apply ends_snug. Qed.
(* the indicator of a literal block is two colons at the end *)
Lemma indicator_end s : (exists u, rel LITERAL_BLOCK_INDICATOR s u) -> exists a, s = a ++ [58%N; 58%N].
Proof.
  intros (u & R). unfold LITERAL_BLOCK_INDICATOR in R. cbn [Seq] in R. apply rel_cat_inv in R as (s1 & R1 & R2). apply rel_cat_inv in R2 as (s2 & R2 & R3).
  apply rel_lit in R2. apply rel_eot_inv in R3 as [-> _]. rewrite app_nil_r in R2. subst s1. apply rel_suffix in R1 as (p & ->). exists p. reflexivity.
Qed.
Definition no_indicator (s : str) : Prop := forall a, s <> a ++ [58%N; 58%N].
Lemma find_from_text s : no_indicator s -> forall off, find_from LITERAL_BLOCK_INDICATOR s off = None.
Proof.
  induction s as [|c s IH]; intros H off.
  - reflexivity.
  - cbn [find_from].
    assert (E : captures LITERAL_BLOCK_INDICATOR (c :: s) = None).
    { apply captures_none. intros G. apply indicator_end in G as (a & G). exact (H a G). }
    unfold captures in E. destruct (rexec LITERAL_BLOCK_INDICATOR (c :: s)) as [[? ?]|]; [discriminate|].
    destruct s as [|d s]; [reflexivity|]. apply IH. intros a Ea. apply (H (c :: a)). now rewrite Ea.
Qed.
Lemma last_app_ne {A} (a b : list A) d : b <> [] -> last (a ++ b) d = last b d.
Proof.
  intros H. destruct b as [|x b _] using rev_ind; [congruence|]. now rewrite app_assoc, !last_last.
Qed.
Lemma last_no_indicator s : last s 32%N <> 58%N -> no_indicator s.
Proof. intros H a ->. apply H. change [58%N; 58%N] with ([58%N] ++ [58%N]). rewrite app_assoc. apply last_last. Qed.
Lemma span_end c : is_span c = true -> chunk_ok c = true -> 2 <= length (chunk_source c) /\ no_indicator (chunk_source c).
Proof.
  intros Hs H. assert (L : forall s, last s 32%N <> 58%N -> no_indicator s) by exact last_no_indicator.
  destruct c; cbn [chunk_source chunk_ok] in *; [discriminate Hs|..].
  all: split; [rewrite !app_length; cbn [lit length]; cbn; try lia; (destruct name; [discriminate|cbn [length]; lia])|].
  6:{ apply andb_prop in H as [H _]. apply role_chars in H as [Hne Hch]. intros a E.
      destruct (exists_last Hne) as (r' & z & ->).
      assert (E' : (lit "`" ++ t ++ lit "`:" ++ r') ++ [z; 58%N] = a ++ [58%N; 58%N]).
      { rewrite <- E, <- !app_assoc. reflexivity. }
      apply (f_equal (fun l => nth 1 (rev l) 0%N)) in E'. rewrite !rev_app_distr in E'. cbn in E'. subst z.
      assert (Hz : In 58%N (r' ++ [58%N])) by (apply in_or_app; right; now left). apply Hch, role_char_fine in Hz. intuition. }
  all: apply L; rewrite ?app_assoc; cbn [lit]; try (rewrite last_last; discriminate); rewrite last_app_ne by discriminate; discriminate.
Qed.
Lemma chunk_no_indicator c : chunk_ok c = true -> no_indicator (chunk_source c).
Proof.
  destruct (is_span c) eqn:Hs; intros H.
  - now apply span_end.
  - destruct c; try discriminate. cbn [chunk_ok chunk_source] in *. apply andb_prop in H as [_ H]. intros a ->. apply colon_next in H. discriminate H.
Qed.
Lemma no_indicator_app a b : 2 <= length b -> no_indicator b -> no_indicator (a ++ b).
Proof.
  intros Hl H x E. apply app_cut in E as (z & [[Ea Eb]|[Ea Eb]]).
  - apply (f_equal (@length char)) in Eb as El. cbn [length app] in El. rewrite app_length in El. destruct z as [|y z]; [|cbn [length] in El; lia].
    cbn [app] in Eb. apply (H []). symmetry. exact Eb.
  - exact (H z Eb).
Qed.
Lemma chunks_end l : forall fresh, chunks_ok fresh l = true -> no_indicator (chunks_source l).
Proof.
  induction l as [|c l IH]; intros fresh H; [apply last_no_indicator; discriminate|]. unfold chunks_source. cbn [flat_map]. fold (chunks_source l).
  assert (Hc : chunk_ok c = true /\ exists b, chunks_ok b l = true).
  { destruct (is_span c) eqn:Hs; [destruct (ok_span fresh c l Hs H) as (_ & ? & _ & ? & _); eauto|]. destruct c; try discriminate. cbn [chunks_ok] in H.
    apply andb_prop in H as [H H3]. apply andb_prop in H as [H1 H2]. eauto. }
  destruct Hc as [Hc (b & Hl)]. destruct l as [|c' l]; [unfold chunks_source; cbn [flat_map]; rewrite app_nil_r; now apply chunk_no_indicator|].
  destruct (le_lt_dec 2 (length (chunks_source (c' :: l)))) as [H2|H2]; [apply no_indicator_app; eauto|].
  (* one character after markup: it closes it *)
  assert (Hx : exists x, chunks_source (c' :: l) = [x] /\ x <> 58%N).
  { unfold chunks_source in *. cbn [flat_map] in *. rewrite app_length in H2. destruct (is_span c') eqn:Hs'.
    - destruct (ok_span _ _ _ Hs' Hl) as (_ & Hc' & _). apply span_end in Hc'; auto. lia.
    - destruct c'; try discriminate. cbn [chunk_source] in *. destruct (is_span c) eqn:Hs; [|destruct c; try discriminate Hs; cbn [chunks_ok] in H; rewrite andb_false_r in H; discriminate H].
      destruct (ok_span _ _ _ Hs H) as (_ & _ & Hf & _). destruct s as [|x s]; [discriminate Hf|]. cbn [followed] in Hf.
      destruct s as [|y s]; [|cbn [length] in H2; lia]. destruct (flat_map chunk_source l); [|cbn [length] in H2; lia]. exists x. split; [reflexivity|]. intros ->. discriminate Hf. }
  destruct Hx as (x & -> & Hx). apply last_no_indicator. now rewrite last_last.
Qed.

Section Para.
  Variables (ord : hash_order) (full : bool).
  Notation under := (under ord full).
  (* nodes that may stand in a text *)
  Definition in_text (x : TreeNodeType) : bool :=
    match x with
    | NText _ | NWhiteSpace _ | NEmphasis _ | NStrongEmphasis _ | NLiteral _ | NTitleReference _ _ | NSubscript _ | NSuperscript _
    | NMath _ _ _ | NReference _ _ | NInterpretedText _ _ | NCitationReference _ _ | NFootnoteReference _ _ FManual => true
    | _ => false
    end.
  Lemma role_in_text r t : in_text (role_means r t) = true.
  Proof.
    unfold role_means. repeat match goal with |- in_text (if ?b then _ else _) = true => destruct b; [reflexivity|] end. reflexivity.
  Qed.
  Lemma chunk_in_text c : written_chunk c = true -> Forall (fun x => in_text x = true) (chunk_nodes c).
  Proof.
    intros H. destruct c; try discriminate H; cbn [chunk_nodes]; try (constructor; [try reflexivity; apply role_in_text|constructor]).
    apply Forall_forall. intros x Hx. apply in_map_iff in Hx as ([[] w] & <- & _); reflexivity.
  Qed.
  Lemma chunks_in_text l : forallb written_chunk l = true -> Forall (fun x => in_text x = true) (flat_map chunk_nodes l).
  Proof.
    intros H. apply Forall_flat_map. apply Forall_forall. intros c Hc. rewrite forallb_forall in H. apply chunk_in_text. auto.
  Qed.
  Lemma push_all_text call : forall xs ss, Forall2 (writes ord full) xs ss -> Forall (fun x => in_text x = true) xs ->
    forall d i e s seen, under d ((NParagraph i, None) :: e) s seen ->
    exists d', (forall cur, pexec call (push_all xs) d cur = Ret (true, d', cur)) /\
      under d' ((NParagraph i, None) :: e) (s ++ concat ss) seen.
  Proof.
    intros xs ss F. induction F as [|x y xs ss Hx F IH]; intros Hin d i e s seen H.
    - exists d. cbn. rewrite app_nil_r. auto.
    - apply Forall_cons_iff in Hin as [Hi Hin]. cbn [push_all concat].
      destruct (under_mention ord full d _ s seen x y H) as (d1 & E & H1).
      + destruct x; try discriminate Hi; try reflexivity. match goal with k : FootnoteKind |- _ => destruct k end; try discriminate Hi; reflexivity.
      + destruct x; try discriminate Hi; reflexivity.
      + rewrite (under_data _ _ _ _ _ _ _ _ H). destruct x; try discriminate Hi; reflexivity.
      + exact Hx.
      + destruct (IH Hin _ _ _ _ _ H1) as (d' & E' & H'). exists d'. split.
        * intros cur. unfold Prog.pushed. cbn [pbind pexec]. rewrite E. cbn [obind]. apply E'.
        * rewrite app_assoc. exact H'.
  Qed.
  (* lines read as the text t; `next`: a literal block is announced *)
  Lemma exec_paragraph_raw src base call d cur x j t ls next rest p d1 d2 d3 :
    focused_data d = x -> NodeTypes.body_indent x = Some (base + j) ->
    cur_offset cur = p -> skipn p src = map (pad j) ls ++ rest -> para_ends j rest ->
    chunks_ok true t = true -> chunks_source t <> [] ->
    ls <> [] -> Forall (fun l => starts_text l = true) ls -> length ls = S (newlines (chunks_source t)) ->
    strip_indicator (trim_end (join [newline] ls)) = (chunks_source t, next) ->
    dop_exec (DPushFocus (NParagraph (base + j))) d = Ret (AOk, d1) ->
    (forall cur, pexec call (push_all (flat_map chunk_nodes t)) d1 cur = Ret (true, d2, cur)) ->
    d_focus_on_parent d2 = Ret d3 ->
    pexec call (parse_paragraph src base (base + j)) d cur =
        Ret (TSuccess (if next then Push [SLiteralBlock] else Neither) (Some 1), d3, cur_add cur (length ls - 1)).
  Proof.
    intros Hx Hb Hp Esrc Hr Hch Hsne Hne Hst Hlen Hstrip E E2 E3.
    unfold parse_paragraph. rewrite (exec_by_indent _ _ _ x (base + j)); [|exact Hx|exact Hb]. rewrite match_same.
    unfold get_cursor. cbn [pbind pexec]. replace (checked_sub (base + j) base) with (Ret j).
    2:{ unfold checked_sub. replace (base <=? base + j) with true by (symmetry; apply Nat.leb_le; lia). f_equal. lia. }
    cbn [lift pbind]. rewrite Hp, (read_para_block src p j rest ls) by auto. cbn [lift pbind tb_lines].
    unfold join_lines. rewrite Hstrip.
    pose proof (inline_parse_chunks t true true call d1 cur Hch) as Ei.
    unfold Prog.pushed. cbn [pbind pexec]. rewrite E. cbn [obind pexec negb].
    rewrite pexec_bind, Ei. cbn [obind]. destruct (flat_map chunk_nodes t) as [|nd nds] eqn:En.
    { exfalso. apply Hsne.
      destruct t as [|c t]; [reflexivity|]. cbn [flat_map] in En. destruct c; cbn [chunk_nodes app] in En; try discriminate.
      destruct (runs_of s) eqn:Er; [|discriminate]. destruct s as [|x0 s0]; [discriminate Hch|]. destruct (runs_head x0 s0) as (? & ? & ?). congruence. }
    rewrite pexec_bind, E2. cbn [obind]. unfold focus_parent. cbn [pbind pexec dop_exec]. rewrite E3. cbn [obind pexec].
    rewrite Hlen. now rewrite Nat.sub_succ, Nat.sub_0_r.
  Qed.
  Lemma exec_paragraph_as src base call d cur x r e s seen j t ls next rest p :
    under d ((x, r) :: e) s seen -> NodeTypes.body_indent x = Some (base + j) -> child_is_allowed (kind x) KParagraph = Ret true ->
    cur_offset cur = p -> skipn p src = map (pad j) ls ++ rest -> para_ends j rest ->
    chunks_ok true t = true -> forallb written_chunk t = true -> chunks_source t <> [] ->
    ls <> [] -> Forall (fun l => starts_text l = true) ls -> length ls = S (newlines (chunks_source t)) ->
    strip_indicator (trim_end (join [newline] ls)) = (chunks_source t, next) ->
    exists d', pexec call (parse_paragraph src base (base + j)) d cur =
        Ret (TSuccess (if next then Push [SLiteralBlock] else Neither) (Some 1), d', cur_add cur (length ls - 1)) /\
      under d' ((x, r) :: e) (s ++ para_latex t) seen.
  Proof.
    intros Hu Hb Hk Hp Esrc Hr Hch Hwr Hsne Hne Hst Hlen Hstrip.
    destruct (under_open ord full d _ s seen (NParagraph (base + j)) [] Hu) as (d1 & E & H1);
      [reflexivity|reflexivity|reflexivity|rewrite (under_data _ _ _ _ _ _ _ _ Hu); exact Hk|reflexivity|].
    rewrite app_nil_r in H1.
    destruct (chunks_writes ord full t Hwr) as (ss & F & Ess).
    destruct (push_all_text call _ _ F (chunks_in_text t Hwr) _ _ _ _ _ H1) as (d2 & E2 & H2).
    destruct (under_close _ _ _ _ _ _ _ _ [newline; newline] H2 ltac:(discriminate) eq_refl) as (d3 & E3 & H3 & _).
    exists d3. split.
    - exact (exec_paragraph_raw src base call d cur x j t ls next rest p d1 d2 d3 (under_data _ _ _ _ _ _ _ _ Hu) Hb Hp Esrc Hr Hch Hsne Hne Hst Hlen Hstrip E E2 E3).
    - rewrite <- app_assoc in H3. unfold para_latex. rewrite <- Ess. exact H3.
  Qed.
  (* the caption of a figure *)
  Lemma fresh_all_text p z seen : kind z = KParagraph \/ kind z = KAplusPickChoice \/ kind z = KAplusQuestionnaireHint ->
    forall xs ss, Forall2 (writes ord full) xs ss -> Forall (fun x => in_text x = true) xs ->
    forall d cs s, fresh ord full d p z cs s seen ->
    exists d' cs', (forall call cur, pexec call (push_all xs) d cur = Ret (true, d', cur)) /\ fresh ord full d' p z cs' (s ++ concat ss) seen.
  Proof.
    intros Hz xs ss F. induction F as [|x y xs ss Hx F IH]; intros Hin d cs s H.
    - exists d, cs. cbn. rewrite app_nil_r. auto.
    - apply Forall_cons_iff in Hin as [Hi Hin]. cbn [push_all concat].
      destruct (fresh_mention ord full d p _ cs s seen x y H) as (d1 & n & E & H1).
      + destruct x; try discriminate Hi; try reflexivity. match goal with k : FootnoteKind |- _ => destruct k end; try discriminate Hi; reflexivity.
      + destruct x; try discriminate Hi; reflexivity.
      + destruct Hz as [-> | [-> | ->]]; destruct x; try discriminate Hi; reflexivity.
      + intros refs. destruct (Hx refs) as [P Q]. exists y, []. rewrite app_nil_r. auto.
      + destruct (IH Hin _ _ _ H1) as (d' & cs' & E' & H'). exists d', cs'. split.
        * intros call cur. unfold Prog.pushed. cbn [pbind pexec]. rewrite E. cbn [obind]. apply E'.
        * rewrite app_assoc. exact H'.
  Qed.
  Lemma exec_caption src base call d cur z e s0 m al fw fc nm a s seen j t ls rest p pre :
    opened ord full z e s0 -> fresh ord full d z (NFigure m al fw fc nm) [a] s seen -> m = base + j ->
    pre_string ord full (NFigure m al fw fc nm) None = Ret pre ->
    cur_offset cur = p -> skipn p src = map (pad j) ls ++ rest -> para_ends j rest ->
    chunks_ok true t = true -> forallb written_chunk t = true -> chunks_source t <> [] ->
    ls <> [] -> Forall (fun l => starts_text l = true) ls -> length ls = S (newlines (chunks_source t)) ->
    strip_indicator (trim_end (join [newline] ls)) = (chunks_source t, false) ->
    exists d', pexec call (parse_paragraph src base (base + j)) d cur =
        Ret (TSuccess Neither (Some 1), d', cur_add cur (length ls - 1)) /\
      under d' ((NFigure m al fw fc nm, None) :: e) (s0 ++ pre ++ s ++ lit "\captionof{figure}{" ++ chunks_latex t ++ lit "}" ++ [newline]) seen.
  Proof.
    intros Ho Hf -> Hpre Hp Esrc Hr Hch Hwr Hsne Hne Hst Hlen Hstrip.
    destruct (opened_kids _ _ _ _ _ Ho) as [zk Ezk].
    destruct (fresh_deeper ord full d z _ _ s seen (NParagraph (base + j)) Hf) as (d1 & E & H1);
      [exact (opened_wf _ _ _ _ _ Ho)|congruence|reflexivity|reflexivity|reflexivity|].
    destruct (chunks_writes ord full t Hwr) as (ss & F & Ess).
    destruct (fresh_all_text _ (NParagraph (base + j)) _ (or_introl eq_refl) _ _ F (chunks_in_text t Hwr) _ _ _ H1) as (d2 & cs' & E2 & H2). cbn [app] in H2. rewrite Ess in H2.
    destruct (fresh_caption ord full _ _ _ _ _ _ _ _ _ _ _ _ _ _ _ _ _ _ Ho Hf H2 Hpre) as (d3 & E3 & H3).
    exists d3. split; [|exact H3].
    exact (exec_paragraph_raw src base call d cur _ j t ls false rest p d1 d2 d3 (fresh_data _ _ _ _ _ _ _ _ Hf) eq_refl Hp Esrc Hr Hch Hsne Hne Hst Hlen Hstrip E (E2 call) E3).
  Qed.
  Lemma para_nonempty t : para_ok t = true -> chunks_source t <> [].
  Proof.
    intros Hok E. apply para_ok_lines in Hok as [_ H]. unfold text_lines in H. rewrite E in H. apply Forall_cons_iff in H as [[H _] _]. discriminate H.
  Qed.
  Lemma exec_paragraph src base call d cur x r e s seen j t rest p :
    under d ((x, r) :: e) s seen -> NodeTypes.body_indent x = Some (base + j) -> child_is_allowed (kind x) KParagraph = Ret true ->
    cur_offset cur = p -> skipn p src = map (pad j) (text_lines t) ++ rest -> para_ok t = true -> para_ends j rest ->
    exists d', pexec call (parse_paragraph src base (base + j)) d cur = Ret (TSuccess Neither (Some 1), d', cur_add cur (length (text_lines t) - 1)) /\
      under d' ((x, r) :: e) (s ++ para_latex t) seen.
  Proof.
    intros Hu Hb Hk Hp Esrc Hok Hr. pose proof (para_ok_lines _ Hok) as [Hne Hl]. pose proof (para_ok_inv _ Hok) as (Hch & Hwr & _).
    apply (exec_paragraph_as src base call d cur x r e s seen j t (text_lines t) false rest p); auto.
    - now apply para_nonempty.
    - eapply Forall_impl; [|exact Hl]. now intros ? [? _].
    - apply split_lines_length.
    - rewrite (para_text _ Hok). unfold strip_indicator. now rewrite find_from_text by (eapply chunks_end; exact Hch).
  Qed.
End Para.
