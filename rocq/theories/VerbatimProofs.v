(* VerbatimProofs.v -- paragraphs that announce a literal block, and the block (used for C47). *)
From Verif Require Import Base Unicode Regex Patterns Common Converters NodeTypes Tree DocTree History Blocks Prog ParseLoop
  Inline Body Directives Parser Spec RegexProofs BlockProofs TreeProofs DocTreeProofs HyperrefProofs InlineSpec RegexGroups InlineProofs LoopProofs
  Utf8Latex Writer WriterProofs Transforms TextProofs OpenProofs SimpleSpec LineProofs Properties7 RunProofs StepProofs ParaProofs LeaveProofs GroupProofs
  OpenerProofs LeafProofs NestedProofs.

(* ---------- the indicator ---------- *)
Lemma indicator_here d : is_whitespace d = false -> exists t cs, rexec LITERAL_BLOCK_INDICATOR [d; 58%N; 58%N] = Some (t, cs) /\ opt_cap 1 cs = [d].
Proof.
  intros H. destruct (N.eqb_spec d 58) as [->|Hd].
  - vm_compute. eauto.
  - apply N.eqb_neq in Hd. rewrite N.eqb_sym in Hd. cbv -[is_whitespace N.eqb].
    rewrite H, Hd, N.eqb_refl. eauto.
Qed.
Lemma indicator_short s : (exists u, rel LITERAL_BLOCK_INDICATOR s u) -> length s <= 3.
Proof.
  intros (u & R). unfold LITERAL_BLOCK_INDICATOR in R. cbn [Seq] in R. apply rel_cat_inv in R as (s1 & R1 & R2). apply rel_cat_inv in R2 as (s2 & R2 & R3).
  apply rel_lit in R2. apply rel_eot_inv in R3 as [-> _]. rewrite app_nil_r in R2. subst s1. apply rel_grp_inv in R1.
  apply rel_alt_inv in R1 as [R|R].
  - apply rel_alt_inv in R as [R|R].
    + apply rel_cls_inv in R as (c & -> & _). cbn. lia.
    + apply rel_eps_inv in R. subst. cbn. lia.
  - apply rel_cls_inv in R as (c & -> & _). cbn. lia.
Qed.
Lemma find_indicator d a : is_whitespace d = false -> forall off,
  exists n cs, find_from LITERAL_BLOCK_INDICATOR (a ++ [d; 58%N; 58%N]) off = Some (n, cs) /\ opt_cap 1 cs = [d].
Proof.
  intros Hd. induction a as [|c a IH]; intros off.
  - cbn [app find_from]. destruct (indicator_here d Hd) as (t & cs & -> & E). eauto.
  - cbn [app find_from].
    assert (E : captures LITERAL_BLOCK_INDICATOR (c :: a ++ [d; 58%N; 58%N]) = None).
    { apply captures_none. intros G. apply indicator_short in G. cbn [length] in G. rewrite app_length in G. cbn [length] in G. lia. }
    unfold captures in E. destruct (rexec LITERAL_BLOCK_INDICATOR (c :: a ++ [d; 58%N; 58%N])) as [[? ?]|]; [discriminate|]. apply IH.
Qed.
Lemma strip_found a d : is_whitespace d = false -> strip_indicator (a ++ [d; 58%N; 58%N]) = (a ++ [d; 58%N], true).
Proof.
  intros Hd. unfold strip_indicator. destruct (find_indicator d a Hd 0) as (n & cs & -> & ->). cbn [blank forallb]. rewrite Hd. cbn [andb].
  f_equal. replace (a ++ [d; 58%N; 58%N]) with ((a ++ [d; 58%N]) ++ [58%N]) by (rewrite <- app_assoc; reflexivity).
  rewrite app_length. cbn [length]. replace (length (a ++ [d; 58%N]) + 1 - 1) with (length (a ++ [d; 58%N]) + 0) by lia.
  rewrite firstn_app_2. cbn [firstn]. apply app_nil_r.
Qed.

(* ---------- the lines ---------- *)
Lemma split_lines_snoc c s : c <> newline -> exists a l, split_lines s = a ++ [l] /\ split_lines (s ++ [c]) = a ++ [l ++ [c]].
Proof.
  intros Hc. apply N.eqb_neq in Hc. induction s as [|x s (a & l & E1 & E2)].
  - exists [], []. cbn [split_lines app]. rewrite Hc. auto.
  - cbn [app split_lines]. rewrite E1, E2. destruct (N.eqb x newline) eqn:Ex.
    + exists ([] :: a), l. destruct a; auto.
    + destruct a as [|y a]; [exists [], (x :: l)|exists ((x :: y) :: a), l]; auto.
Qed.
Lemma starts_text_app l x : starts_text l = true -> starts_text (l ++ x) = true.
Proof.
  unfold starts_text. destruct l as [|c t]; [discriminate|]. cbn [app starts_word]. destruct (starter c); [reflexivity|]. cbn [orb].
  destruct (opener c); [|discriminate]. cbn [andb]. destruct t as [|d u]; [discriminate|]. cbn [app starts_word]. destruct (starter d); [reflexivity|]. cbn [orb].
  destruct (N.eqb c d); [|discriminate]. cbn [andb]. destruct u; [discriminate|]. auto.
Qed.
Lemma past_word_end l x (c : str) : past_word l = x :: c -> forall y : str, past_word (l ++ y) = (x :: c) ++ y /\ word_of (l ++ y) = word_of l.
Proof.
  induction l as [|a l IH]; cbn [past_word word_of app]; [discriminate|]. destruct (is_ascii_alnum a); intros E y; [destruct (IH E y) as [-> ->]; auto|].
  split; [exact (f_equal (fun z => z ++ y) E)|reflexivity].
Qed.
Lemma past_word_last l : last l 32%N = 58%N -> past_word l <> [].
Proof.
  destruct l as [|a l]; [discriminate|]. revert a. induction l as [|b l IH]; intros a E.
  - cbn in E. subst a. discriminate.
  - cbn [past_word]. destruct (is_ascii_alnum a); [|discriminate]. apply IH. exact E.
Qed.
Lemma like_enumerator_colon (l : str) : last l 32%N = 58%N -> like_enumerator l = false -> like_enumerator (l ++ [58%N]) = false.
Proof.
  intros Hl H. destruct (past_word l) as [|x t] eqn:E; [now apply past_word_last in Hl|]. unfold like_enumerator in *. destruct (past_word_end l x t E [58%N]) as [P W].
  unfold str, char in *. rewrite P, W. rewrite E in H. destruct (counter (word_of l)); [|reflexivity]. cbn [andb app] in *. destruct t as [|d t]; [|exact H].
  rewrite andb_true_r in H. now rewrite H.
Qed.
Lemma announces_inv t : announces t = true -> exists a d, chunks_source t = a ++ [d; 58%N] /\ is_whitespace d = false.
Proof.
  unfold announces. destruct (rev (chunks_source t)) as [|c [|d r]] eqn:E; try discriminate. intros H. apply andb_prop in H as [H1 H2].
  apply N.eqb_eq in H1. subst c. apply negb_true_iff in H2. exists (rev r), d. split; [|exact H2].
  rewrite <- (rev_involutive (chunks_source t)), E. cbn [rev]. now rewrite <- app_assoc.
Qed.
Lemma announcing t : para_ok t = true -> announces t = true -> exists l more, let ls := split_lines (chunks_source t ++ lit ":") in
  ls = l :: more /\ like_enumerator l = false /\ Forall (fun l => starts_text l = true) ls /\ length ls = S (newlines (chunks_source t)) /\
  strip_indicator (trim_end (join [newline] ls)) = (chunks_source t, true).
Proof.
  intros Hok Ha. destruct (announces_inv _ Ha) as (a & d & Es & Hd). destruct (split_lines_snoc 58%N (chunks_source t)) as (b & l & E1 & E2); [discriminate|].
  assert (E3 : split_lines (chunks_source t ++ lit ":") = b ++ [l ++ [58%N]]) by exact E2. cbv zeta. rewrite E3. pose proof (para_ok_first _ Hok) as (f & more & Ef & Hst & Hen). pose proof (para_ok_lines _ Hok) as [_ Hls].
  unfold text_lines in *. rewrite E1 in *.
  assert (Hlast : last l 32%N = 58%N).
  { rewrite <- (split_lines_join (chunks_source t)), E1 in Es. destruct l as [|x l _] using rev_ind.
    - exfalso. apply Forall_app in Hls as [_ Hls]. apply Forall_cons_iff in Hls as [[Hls _] _]. discriminate Hls.
    - rewrite last_last. assert (L : exists z, join [newline] (b ++ [l ++ [x]]) = z ++ [x]).
      { clear. induction b as [|y b (z & IH)]; [exists l; reflexivity|]. exists (y ++ newline :: z).
        destruct b as [|y2 b]; cbn [app join] in *; rewrite IH; now rewrite <- app_assoc. }
      destruct L as (z & L). apply (eq_trans (eq_sym L)) in Es. change (a ++ [d; 58%N]) with (a ++ [d] ++ [58%N]) in Es. rewrite app_assoc in Es. apply app_inj_tail in Es. tauto. }
  assert (Hst' : Forall (fun l => starts_text l = true) (b ++ [l ++ [58%N]])).
  { apply Forall_app in Hls as [H1 H2]. apply Forall_app. split; [eapply Forall_impl; [|exact H1]; now intros ? [? _]|].
    apply Forall_cons_iff in H2 as [[H2 _] _]. constructor; [now apply starts_text_app|constructor]. }
  assert (Hhead : exists l0 more0, b ++ [l ++ [58%N]] = l0 :: more0 /\ like_enumerator l0 = false).
  { destruct b as [|y b]; cbn [app] in *.
    - apply (f_equal (hd [])) in Ef. cbn [hd] in Ef. subst f. do 2 eexists. split; [reflexivity|]. now apply like_enumerator_colon.
    - apply (f_equal (hd [])) in Ef. cbn [hd] in Ef. subst f. do 2 eexists. split; [reflexivity|]. exact Hen. }
  destruct Hhead as (l0 & more0 & El & Hen0). exists l0, more0. split; [exact El|]. split; [exact Hen0|]. split; [exact Hst'|]. split.
  - rewrite app_length. cbn [length]. pose proof (split_lines_length (chunks_source t)) as H. rewrite E1, app_length in H. exact H.
  - rewrite <- E3, split_lines_join. rewrite ends_snug.
    + rewrite Es, <- app_assoc. exact (strip_found a d Hd).
    + change (lit ":") with ([58%N] : str). unfold ends_white. now rewrite last_last.
Qed.

(* ---------- the block ---------- *)
Lemma find_literal w c t : ws w -> 1 <= length w -> is_whitespace c = false ->
  exists b cs, find_transition (w ++ c :: t) LITERAL_BLOCK_TRANSITIONS = Some (literal_block b, cs) /\ cap 1 cs = Some w.
Proof.
  intros Hw Hl Hc. unfold LITERAL_BLOCK_TRANSITIONS, empty_line_entry. rewrite find_none by now apply ink_blank.
  destruct (captures QUOTED_LITERAL_BLOCK (w ++ c :: t)) as [cs|] eqn:E.
  - exists true, cs. split; [now apply find_some|]. apply captures_ws in E as (w' & t' & u & new & E & H & R & ->).
    assert (w' = w).
    { apply relc_rel, rel_grp_inv, rel_cls_inv in R as (d & -> & Hd). enough (Hdw : is_whitespace d = false) by (apply ws_head in E as (<- & _ & _); auto).
      unfold is_quote_char, cls_of in Hd. apply existsb_exists in Hd as (y & Hy & Ey). apply N.eqb_eq in Ey. subst y.
      assert (G : forallb (fun c => negb (is_whitespace c)) quote_chars = true) by (vm_compute; reflexivity).
      rewrite forallb_forall in G. apply G in Hy. now apply negb_true_iff in Hy. }
    subst w'. apply relc_grp_simple in R as (z & _ & _ & ->); reflexivity.
  - rewrite find_none by exact E.
    destruct (captures_some INDENTED_LITERAL_BLOCK (w ++ c :: t) t) as [cs Ec].
    { unfold INDENTED_LITERAL_BLOCK. cbn [Seq]. apply rel_cat with (c :: t).
      - apply rel_grp, rel_plus_cls. exists w. repeat split; auto. destruct w; [cbn in Hl; lia|discriminate].
      - apply rel_cls. unfold nsp. now rewrite Hc. }
    exists false, cs. split; [now apply find_some|].
    destruct (captures_sound _ _ _ Ec) as (p & u & new & E0 & R & ->). unfold INDENTED_LITERAL_BLOCK in R. cbn [Seq] in R.
    apply relc_cat_inv in R as (t' & n1 & n2 & R1 & R2 & ->). apply relc_grp_simple in R1 as (w' & E1 & R1 & ->); [|reflexivity].
    apply relc_cls_inv in R2 as (d & -> & Hd & ->). unfold nsp in Hd. apply negb_true_iff in Hd.
    apply rel_plus_cls in R1 as (w'' & E2 & _ & Hw''). apply app_inv_tail in E2. subst w''.
    apply ws_head in E1 as (<- & _ & _); auto.
Qed.
Lemma find_quoted q t : is_ascii_punct q = true ->
  exists cs, find_transition (q :: t) LITERAL_BLOCK_TRANSITIONS = Some (literal_block true, cs) /\ cap 1 cs = Some [] /\ cap 2 cs = Some [q].
Proof.
  intros Hq. assert (Hi : is_whitespace q = false) by now apply punct_ink. rewrite <- punct_quote in Hq.
  unfold LITERAL_BLOCK_TRANSITIONS, empty_line_entry. rewrite find_none by (apply (ink_blank [] q t); auto).
  assert (E : exists cs, captures QUOTED_LITERAL_BLOCK (q :: t) = Some cs /\ cap 1 cs = Some [] /\ cap 2 cs = Some [q]).
  { cbv -[is_whitespace is_quote_char]. rewrite Hi, Hq. eexists. split; [reflexivity|]. split; reflexivity. }
  destruct E as (cs & E & E1 & E2). exists cs. split; [now apply find_some|auto].
Qed.
Lemma trim_pad k l : match l with c :: _ => negb (is_whitespace c) | [] => true end = true -> trim_start (pad k l) = l.
Proof.
  intros H. induction k as [|k IH]; cbn [pad repeat app].
  - destruct l as [|c l]; [reflexivity|]. apply negb_true_iff in H. cbn [trim_start]. now rewrite H.
  - cbn [trim_start]. exact IH.
Qed.
Lemma unquote_lines q ls : forallb (fun x => one_line (snd x) && match snd x with c :: _ => negb (is_whitespace c) | [] => true end) ls = true ->
  unquote q (map (quoted_line q) ls) = Some (map snd ls).
Proof.
  induction ls as [|[k l] ls IH]; [reflexivity|]. cbn [forallb map unquote quoted_line fst snd]. intros H. apply andb_true_iff in H as [H1 H2]. apply andb_true_iff in H1 as [_ H1].
  rewrite N.eqb_refl, (IH H2), (trim_pad k l H1). reflexivity.
Qed.
Lemma read_quoted src p q ls rest : is_ascii_punct q = true -> skipn p src = map (quoted_line q) ls ++ rest -> ls <> [] ->
  match rest with [] => True | l :: _ => blank l = true end ->
  read_text_block src p true true (Some 0) true = Ret (MkTextBlock (map (quoted_line q) ls) (length ls)).
Proof.
  intros Hq E Hne Hr. unfold read_text_block, checked_sub.
  assert (p <= length src).
  { destruct (le_lt_dec p (length src)) as [G|G]; [exact G|]. rewrite skipn_all2 in E by lia. destruct ls; [congruence|discriminate]. }
  apply Nat.leb_le in H. rewrite H. cbn [obind]. rewrite E.
  assert (G : text_block_loop (map (quoted_line q) ls ++ rest) true true (Some 0) true = map (quoted_line q) ls).
  { clear -Hr Hq. assert (Hi : is_whitespace q = false) by now apply punct_ink. induction ls as [|x ls IH]; cbn [map app].
    - destruct rest as [|l rest]; [reflexivity|]. cbn [text_block_loop]. now rewrite Hr.
    - assert (B : blank (quoted_line q x) = false) by (unfold quoted_line; cbn [blank forallb]; now rewrite Hi).
      assert (I : indent_of (quoted_line q x) = 0) by exact (ink_indent [] q _ eq_refl Hi).
      assert (T : trim_start (quoted_line q x) = quoted_line q x) by (unfold quoted_line; cbn [trim_start]; now rewrite Hi).
      cbn [text_block_loop]. rewrite B, I, T. cbn [Nat.eqb negb andb]. f_equal. exact IH. }
  rewrite G, map_length. reflexivity.
Qed.
Section Verbatim.
  Variables (ord : hash_order) (full : bool).
  Notation under := (under ord full).
  Notation at_ := (at_ ord full).
  Variable src : list str.

  Lemma step_blank c S0 rest0 st e s seen p n : live S0 -> table S0 = Some (empty_line_entry :: rest0) ->
    at_ src c (S0 :: st) e s seen p n -> n <= 9 -> nth_error src p = Some [] ->
    exists c', steps src 0 c c' /\ at_ src c' (S0 :: st) e s seen (p + 1) 0.
  Proof.
    intros Hlive Ht Hat Hn Hl. pose proof (at_cur _ _ _ _ _ _ _ _ _ _ Hat) as Hc. pose proof (at_doc _ _ _ _ _ _ _ _ _ _ Hat) as Hu.
    destruct (find_empty rest0) as (cs & Hf).
    destruct (step_transition ord full src 0 c S0 st e s seen p n [] _ empty_line cs Neither (Some 1) e s seen (cf_doc c) (cf_cur c) 0 (S0 :: st) Hat Hn Hl Hlive Ht Hf)
      as (c1 & Hs & Ha); auto.
    { exists 0. reflexivity. }
    { rewrite Hc. lia. }
    rewrite Hc in Ha. eauto.
  Qed.
  Definition literal_latex (ls : list str) : str :=
    lit "\begin{codeblock}" ++ nl1 ++ unicode_text_to_latex (join nl1 ls) ++ nl1 ++ lit "\end{codeblock}" ++ nl2.
  Lemma step_literal c st x r e s seen p n l more ch t0 rest :
    NodeTypes.body_indent x = Some 0 -> child_is_allowed (kind x) KLiteralBlock = Ret true ->
    at_ src c (SLiteralBlock :: st) ((x, r) :: e) s seen p n -> n <= 9 ->
    skipn p src = map (shifted 3) (l :: more) ++ rest -> l = ch :: t0 -> is_whitespace ch = false -> low_head 0 rest ->
    exists c', steps src 0 c c' /\ at_ src c' st ((x, r) :: e) (s ++ literal_latex (l :: more)) seen (p + length (l :: more)) 0.
  Proof.
    intros Hb Hk Hat Hn E El Hch Hlow. pose proof (at_cur _ _ _ _ _ _ _ _ _ _ Hat) as Hc. pose proof (at_doc _ _ _ _ _ _ _ _ _ _ Hat) as Hu.
    assert (Hl : nth_error src p = Some (repeat 32%N 3 ++ l)).
    { cbn [map app] in E. apply skipn_cons in E as [E _]. rewrite E, El. reflexivity. }
    destruct (find_literal (repeat 32%N 3) ch t0 eq_refl ltac:(cbn; lia) Hch) as (b & cs & Hf & C1). rewrite <- El in Hf.
    destruct (read_block src p 0 3 (l :: more) rest None E ltac:(discriminate) Hlow ltac:(lia) (or_introl eq_refl)) as (bf & Er).
    destruct (exec_push ord full (parse table 0) (cf_doc c) (NLiteralBlock (join nl1 (l :: more))) _ s seen
      (lit "\begin{codeblock}" ++ nl1 ++ unicode_text_to_latex (join nl1 (l :: more))) (nl1 ++ lit "\end{codeblock}" ++ nl2) (cf_cur c)
      (fun ok => PRet (if ok then TSuccess Pop (Some (length (l :: more))) else TFailure)) Hu) as (d' & Ed & Hu'); try reflexivity.
    { rewrite (under_data _ _ _ _ _ _ _ _ Hu). exact Hk. }
    rewrite <- !app_assoc in Hu'.
    destruct (step_transition ord full src 0 c SLiteralBlock st ((x, r) :: e) s seen p n _ LITERAL_BLOCK_TRANSITIONS (literal_block b) cs Pop (Some (length (l :: more)))
      ((x, r) :: e) (s ++ literal_latex (l :: more)) seen d' (cf_cur c) 0 st Hat Hn Hl I eq_refl Hf) as (c1 & Hs & Ha); auto.
    { exists 0. intros f Hf0. unfold literal_block. rewrite (cap_len_ok _ _ _ _ _ _ _ C1). unfold get_doc. cbn [pbind pexec]. rewrite (under_data _ _ _ _ _ _ _ _ Hu), Hb.
      change (0 <? length (repeat 32%N 3) + 0) with true. cbn iota. change (length (repeat 32%N 3) + 0) with 3.
      unfold parse_indented_literal, get_cursor. cbn [pbind pexec]. rewrite Hc, Er. cbn [lift pbind]. eapply exec_up; [exact Ed|exact Hf0]. }
    { rewrite Hc. cbn [length]. lia. }
    rewrite Hc in Ha. eauto.
  Qed.
  Lemma step_quoted c st x r e s seen p n q ls rest :
    NodeTypes.body_indent x = Some 0 -> child_is_allowed (kind x) KLiteralBlock = Ret true ->
    at_ src c (SLiteralBlock :: st) ((x, r) :: e) s seen p n -> n <= 9 ->
    skipn p src = map (quoted_line q) ls ++ rest -> quoted_ok q ls = true -> match rest with [] => True | l :: _ => blank l = true end ->
    exists c', steps src 0 c c' /\ at_ src c' st ((x, r) :: e) (s ++ literal_latex (map snd ls)) seen (p + length ls) 0.
  Proof.
    intros Hb Hk Hat Hn E Hok Hlow. pose proof (at_cur _ _ _ _ _ _ _ _ _ _ Hat) as Hc. pose proof (at_doc _ _ _ _ _ _ _ _ _ _ Hat) as Hu.
    unfold quoted_ok in Hok. apply andb_true_iff in Hok as [Hok Hls]. apply andb_true_iff in Hok as [Hq Hne0].
    assert (Hne : ls <> []) by (destruct ls; [discriminate Hne0|discriminate]).
    assert (Hl : exists l0, nth_error src p = Some (q :: l0)).
    { destruct ls as [|x0 ls]; [congruence|]. cbn [map app] in E. apply skipn_cons in E as [E _]. unfold quoted_line in E. eauto. }
    destruct Hl as (l0 & Hl). destruct (find_quoted q l0 Hq) as (cs & Hf & C1 & C2).
    pose proof (read_quoted src p q ls rest Hq E Hne Hlow) as Er.
    destruct (exec_push ord full (parse table 0) (cf_doc c) (NLiteralBlock (join nl1 (map snd ls))) _ s seen
      (lit "\begin{codeblock}" ++ nl1 ++ unicode_text_to_latex (join nl1 (map snd ls))) (nl1 ++ lit "\end{codeblock}" ++ nl2) (cf_cur c)
      (fun ok => PRet (if ok then TSuccess Pop (Some (length ls)) else TFailure)) Hu) as (d' & Ed & Hu'); try reflexivity.
    { rewrite (under_data _ _ _ _ _ _ _ _ Hu). exact Hk. }
    rewrite <- !app_assoc in Hu'.
    destruct (step_transition ord full src 0 c SLiteralBlock st ((x, r) :: e) s seen p n _ LITERAL_BLOCK_TRANSITIONS (literal_block true) cs Pop (Some (length ls))
      ((x, r) :: e) (s ++ literal_latex (map snd ls)) seen d' (cf_cur c) 0 st Hat Hn Hl I eq_refl Hf) as (c1 & Hs & Ha); auto.
    { exists 0. intros f Hf0. unfold literal_block. rewrite (cap_len_ok _ _ _ _ _ _ _ C1). unfold get_doc. cbn [pbind pexec]. rewrite (under_data _ _ _ _ _ _ _ _ Hu), Hb.
      cbn [length Nat.add Nat.ltb Nat.leb Nat.eqb andb]. unfold parse_quoted_literal. rewrite C2. cbn [first_char pbind pexec].
      rewrite punct_quote, Hq. cbn [negb]. unfold get_cursor. cbn [pbind pexec]. rewrite Hc, Er. cbn [lift pbind tb_lines tb_offset]. rewrite (unquote_lines q ls Hls). eapply exec_up; [exact Ed|exact Hf0]. }
    { rewrite Hc. destruct ls; [congruence|]. cbn [length]. lia. }
    rewrite Hc in Ha. eauto.
  Qed.
  (* the paragraph, the empty line and the quoted block *)
  Lemma run_quoted c S0 st x r e s seen p n t q ls gap rest :
    home S0 x 0 -> table S0 = Some BODY_TRANSITIONS -> child_is_allowed (kind x) KParagraph = Ret true -> child_is_allowed (kind x) KLiteralBlock = Ret true ->
    element_ok (Quoted t q ls) = true -> at_ src c (S0 :: st) ((x, r) :: e) s seen p n -> n <= 9 ->
    skipn p src = element_source (Quoted t q ls) ++ rest -> match rest with [] => True | l :: _ => blank l = true end ->
    exists c', steps src 0 c c' /\
      at_ src c' (S0 :: st) ((x, r) :: e) (s ++ element_latex seen (Quoted t q ls) gap) seen (p + length (element_source (Quoted t q ls))) 0.
  Proof.
    intros Hh Ht Hk1 Hk2 Hok Hat Hn E Hlow. cbn [element_ok] in Hok. apply andb_prop in Hok as [Hok Hv]. apply andb_prop in Hok as [Hok Ha].
    destruct (announcing t Hok Ha) as (l & more & El & Hen & Hst & Hlen & Hstrip). set (tl := split_lines (chunks_source t ++ lit ":")) in *.
    pose proof (para_ok_inv _ Hok) as (Hchk & Hwr & _). cbn [element_source] in *. fold tl in E. fold tl.
    assert (E' : skipn p src = map (pad 0) tl ++ ([] :: map (quoted_line q) ls ++ rest)).
    { rewrite E, <- app_assoc. cbn [app]. f_equal. symmetry. apply map_id. }
    assert (Hi : NodeTypes.body_indent x = Some (0 + 0)) by exact (home_indent _ _ _ Hh).
    destruct (step_para_as ord full src 0 c S0 BODY_TRANSITIONS st x r e s seen p n 0 t tl true l more ([] :: map (quoted_line q) ls ++ rest)
      (home_live _ _ _ Hh) Ht (or_introl eq_refl) Hi Hk1 Hat Hn E' (or_introl eq_refl) Hchk Hwr (para_nonempty _ Hok) El Hen Hst Hlen Hstrip) as (c1 & Hs1 & Ha1).
    apply skipn_past in E'. rewrite map_length in E'. pose proof E' as E2. apply skipn_cons in E2 as [Hbl E2].
    destruct (step_blank c1 SLiteralBlock _ (S0 :: st) _ _ seen _ 0 I eq_refl Ha1 ltac:(lia) Hbl) as (c2 & Hs2 & Ha2).
    rewrite <- Nat.add_1_r in E2.
    destruct (step_quoted c2 (S0 :: st) x r e _ seen _ 0 q ls rest Hi Hk2 Ha2 ltac:(lia) E2 Hv Hlow) as (c3 & Hs3 & Ha3).
    exists c3. split; [eapply steps_trans; [exact Hs1|eapply steps_trans; eauto]|].
    cbn [element_latex]. rewrite app_assoc. unfold literal_latex in Ha3.
    match goal with |- at_ _ _ _ _ _ _ ?z _ => replace z with (p + length tl + 1 + length ls) end; [exact Ha3|].
    rewrite app_length. cbn [length]. rewrite map_length. lia.
  Qed.
  (* the paragraph, the empty line and the block *)
  Lemma run_verbatim c S0 st x r e s seen p n t ls gap rest :
    home S0 x 0 -> table S0 = Some BODY_TRANSITIONS -> child_is_allowed (kind x) KParagraph = Ret true -> child_is_allowed (kind x) KLiteralBlock = Ret true ->
    element_ok (Verbatim t ls) = true -> at_ src c (S0 :: st) ((x, r) :: e) s seen p n -> n <= 9 ->
    skipn p src = element_source (Verbatim t ls) ++ repeat [] gap ++ rest -> low_head 0 rest ->
    exists c', steps src 0 c c' /\
      at_ src c' (S0 :: st) ((x, r) :: e) (s ++ element_latex seen (Verbatim t ls) gap) seen (p + length (element_source (Verbatim t ls)) + gap) 0.
  Proof.
    intros Hh Ht Hk1 Hk2 Hok Hat Hn E Hlow. cbn [element_ok] in Hok. apply andb_prop in Hok as [Hok Hv]. apply andb_prop in Hok as [Hok Ha].
    destruct (announcing t Hok Ha) as (l & more & El & Hen & Hst & Hlen & Hstrip). set (tl := split_lines (chunks_source t ++ lit ":")) in *.
    pose proof (para_ok_inv _ Hok) as (Hchk & Hwr & _).
    unfold verbatim_ok in Hv. apply andb_prop in Hv as [Hv _]. apply andb_prop in Hv as [Hv _].
    destruct ls as [|[|ch l0] ls]; try discriminate Hv. apply negb_true_iff in Hv. cbn [element_source] in *. fold tl in E. fold tl.
    set (X := (ch :: l0) :: ls ++ repeat [] gap).
    assert (EX : map (shifted 3) ((ch :: l0) :: ls) ++ repeat [] gap ++ rest = map (shifted 3) X ++ rest).
    { unfold X. cbn [map app]. f_equal. rewrite map_app, <- app_assoc. do 2 f_equal. clear. induction gap as [|g IH]; [reflexivity|]. cbn [repeat map]. now rewrite <- IH. }
    assert (E' : skipn p src = map (pad 0) tl ++ [] :: map (shifted 3) X ++ rest).
    { rewrite E, <- app_assoc. cbn [app]. rewrite <- EX. f_equal. symmetry. apply map_id. }
    assert (Hi : NodeTypes.body_indent x = Some (0 + 0)) by exact (home_indent _ _ _ Hh).
    destruct (step_para_as ord full src 0 c S0 BODY_TRANSITIONS st x r e s seen p n 0 t tl true l more ([] :: map (shifted 3) X ++ rest)
      (home_live _ _ _ Hh) Ht (or_introl eq_refl) Hi Hk1 Hat Hn E' (or_introl eq_refl) Hchk Hwr (para_nonempty _ Hok) El Hen Hst Hlen Hstrip) as (c1 & Hs1 & Ha1).
    apply skipn_past in E'. rewrite map_length in E'. pose proof E' as E2. apply skipn_cons in E2 as [Hbl E2].
    destruct (step_blank c1 SLiteralBlock _ (S0 :: st) _ _ seen _ 0 I eq_refl Ha1 ltac:(lia) Hbl) as (c2 & Hs2 & Ha2).
    rewrite <- Nat.add_1_r in E2.
    destruct (step_literal c2 (S0 :: st) x r e _ seen _ 0 (ch :: l0) (ls ++ repeat [] gap) ch l0 rest Hi Hk2 Ha2 ltac:(lia) E2 eq_refl Hv Hlow) as (c3 & Hs3 & Ha3).
    exists c3. split; [eapply steps_trans; [exact Hs1|eapply steps_trans; eauto]|].
    cbn [element_latex]. rewrite app_assoc. unfold literal_latex in Ha3.
    match goal with |- at_ _ _ _ _ _ _ ?q _ => replace q with (p + length tl + 1 + length ((ch :: l0) :: ls ++ repeat [] gap)) end; [exact Ha3|].
    rewrite app_length. cbn [length map]. rewrite map_length, app_length, repeat_length. lia.
  Qed.
  (* it ends what is before it *)
  Lemma verbatim_ender p t ls rest : element_ok (Verbatim t ls) = true -> skipn p src = element_source (Verbatim t ls) ++ rest -> ender ord full src 0 p 0 MText.
  Proof.
    intros Hok E. cbn [element_ok] in Hok. apply andb_prop in Hok as [Hok _]. apply andb_prop in Hok as [Hok Ha].
    destruct (announcing t Hok Ha) as (l & more & El & Hen & Hst & _). cbn [element_source] in E. rewrite El in *. apply Forall_cons_iff in Hst as [Hst Hm].
    cbn [app] in E. apply skipn_cons in E as [Hl E]. split.
    - apply (leaver_text ord full src 0 p 0 l Hl Hst Hen). unfold next_line_ok. destruct more as [|l2 more]; cbn [app] in E; apply skipn_cons in E as [E _]; rewrite E.
      + rewrite nil_line. exact I.
      + apply Forall_cons_iff in Hm as [H2 _]. change l2 with (pad 0 l2). rewrite (pad_no_line 0 _ H2). exact I.
    - apply (list_line_text src p 0 l Hl Hst Hen). intros l' El'. destruct more as [|l2 more]; cbn [app] in E; apply skipn_cons in E as [E _]; rewrite E in El'; apply some_inj in El'; subst l'.
      + apply Nat.le_refl.
      + apply Forall_cons_iff in Hm as [H2 _]. change l2 with (pad 0 l2). rewrite (pad_indent 0 _ H2). apply Nat.le_refl.
  Qed.
  (* the same with a quoted block *)
  Lemma quoted_ender p t q ls rest : element_ok (Quoted t q ls) = true -> skipn p src = element_source (Quoted t q ls) ++ rest -> ender ord full src 0 p 0 MText.
  Proof.
    intros Hok E. cbn [element_ok] in Hok. apply andb_prop in Hok as [Hok _]. apply andb_prop in Hok as [Hok Ha].
    destruct (announcing t Hok Ha) as (l & more & El & Hen & Hst & _). cbn [element_source] in E. rewrite El in *. apply Forall_cons_iff in Hst as [Hst Hm].
    cbn [app] in E. apply skipn_cons in E as [Hl E]. split.
    - apply (leaver_text ord full src 0 p 0 l Hl Hst Hen). unfold next_line_ok. destruct more as [|l2 more]; cbn [app] in E; apply skipn_cons in E as [E _]; rewrite E.
      + rewrite nil_line. exact I.
      + apply Forall_cons_iff in Hm as [H2 _]. change l2 with (pad 0 l2). rewrite (pad_no_line 0 _ H2). exact I.
    - apply (list_line_text src p 0 l Hl Hst Hen). intros l' El'. destruct more as [|l2 more]; cbn [app] in E; apply skipn_cons in E as [E _]; rewrite E in El'; apply some_inj in El'; subst l'.
      + apply Nat.le_refl.
      + apply Forall_cons_iff in Hm as [H2 _]. change l2 with (pad 0 l2). rewrite (pad_indent 0 _ H2). apply Nat.le_refl.
  Qed.
End Verbatim.
