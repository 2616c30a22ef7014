(* DocumentProofs.v -- titles, transitions and whole documents (used for C47). *)
From Coq Require Import Permutation.
From Verif Require Import Base Unicode Regex Patterns Common Converters NodeTypes Tree DocTree History Blocks Prog ParseLoop
  Inline Body Directives Parser Spec RegexProofs BlockProofs TreeProofs DocTreeProofs HyperrefProofs InlineSpec RegexGroups InlineProofs LoopProofs
  Utf8Latex Writer WriterProofs Transforms TextProofs OpenProofs SimpleSpec LineProofs Properties7 RunProofs StepProofs ParaProofs LeaveProofs GroupProofs
  OpenerProofs LeafProofs QuizRunProofs NestedProofs TermProofs NewcolProofs VerbatimProofs TargetProofs.

(* ---------- open sections ---------- *)
(* title, level, style, labels of targets in front *)
Definition section_of := (str * nat * SectionLineStyle * list str)%type.
Definition sec_entries (secs : list section_of) : list entry :=
  map (fun '(t, l, sty, acc) => (NSection t l sty, Some (acc ++ [normalize_refname t]))) secs ++ [(NDocument, None)].
Definition sec_stack (secs : list section_of) : list State := repeat SSection (length secs) ++ [SBody].
Fixpoint levels_ok (secs : list section_of) (bound : nat) : Prop :=
  match secs with [] => True | (_, l, _, _) :: rest => 1 <= l <= bound /\ levels_ok rest (l - 1) end.
Lemma levels_length secs : forall bound, levels_ok secs bound -> length secs <= bound.
Proof. induction secs as [|[[[t l] sty] acc0] secs IH]; intros bound; cbn; [lia|]. intros [H G]. apply IH in G. lia. Qed.
Lemma levels_mono secs b b' : b <= b' -> levels_ok secs b -> levels_ok secs b'.
Proof. destruct secs as [|[[[t l] sty] acc0] secs]; [trivial|]. cbn. intros H [A B]. split; [lia|exact B]. Qed.
Lemma sec_top secs : exists S0 x r st e, sec_stack secs = S0 :: st /\ sec_entries secs = (x, r) :: e /\ home S0 x 0 /\
  child_is_allowed (kind x) KTransition = Ret true /\ child_is_allowed (kind x) KSection = Ret true /\ table S0 = Some BODY_TRANSITIONS.
Proof.
  destruct secs as [|[[[t l] sty] acc0] secs]; do 5 eexists; (split; [reflexivity|]); (split; [reflexivity|]);
    (split; [constructor|]); repeat (split; [reflexivity|]); reflexivity.
Qed.
Definition labels_latex (acc : list str) : str := flat_map (fun n => lit "\rstlabel{" ++ n ++ lit "}" ++ nl1) acc.
Lemma pre_section full ord t l sty acc : 1 <= l -> pre_string ord full (NSection t l sty) (Some (acc ++ [normalize_refname t])) = Ret (labels_latex acc ++ title_latex l t).
Proof.
  intros Hl. cbn [pre_string]. unfold anchor_string. cbn [anchor_kind]. rewrite map_app, concat_app.
  replace (concat (map (anchor1 (lit "rstlabel")) acc)) with (labels_latex acc).
  2:{ unfold labels_latex. rewrite flat_map_concat_map. f_equal. apply map_ext. intros n. unfold anchor1, braces, nl, nl1. rewrite <- !app_assoc. reflexivity. }
  cbn [map concat]. rewrite app_nil_r. rewrite <- app_assoc. f_equal. cbn [app]. rewrite <- app_assoc. f_equal. unfold title_latex, heading, anchor1, braces, nl1, nl2.
  cbn [app lit]. destruct l as [|[|[|[|l]]]]; [lia| | | |]; rewrite <- ?app_assoc; reflexivity.
Qed.

Lemma level_bound seen style : level_after seen style <= length (uniq (seen ++ [style])).
Proof.
  unfold level_after. rewrite uniq_snoc. destruct (smem style seen) eqn:E.
  - apply (proj1 (smem_spec _ _)) in E. apply (proj2 (uniq_in _ _)) in E. apply index_of_in in E as [E _]. lia.
  - rewrite app_length. cbn [length]. rewrite index_of_notin; [lia|]. intros H. apply (proj1 (uniq_in _ _)) in H. apply (proj2 (smem_spec _ _)) in H. congruence.
Qed.
Lemma uniq_grows seen more : length (uniq seen) <= length (uniq (seen ++ more)).
Proof.
  revert seen. induction more as [|m more IH]; intros seen; [now rewrite app_nil_r|].
  replace (seen ++ m :: more) with ((seen ++ [m]) ++ more) by now rewrite <- app_assoc.
  eapply Nat.le_trans; [|apply IH]. rewrite uniq_snoc. destruct (smem m seen); [lia|]. rewrite app_length. lia.
Qed.

Lemma trim_end_repeat c n : is_whitespace c = false -> trim_end (repeat c n) = repeat c n.
Proof.
  intros H. destruct n as [|n]; [reflexivity|]. change (repeat c (S n)) with (c :: repeat c n). rewrite repeat_cons.
  rewrite trim_end_app by (cbn; now rewrite H). f_equal. unfold trim_end. cbn. now rewrite H.
Qed.
Lemma snug_trim t : snug t = true -> trim t = t.
Proof. intros H. now apply str_eqb_eq. Qed.
Lemma snug_trim_end t : starts_text t = true -> snug t = true -> trim_end t = t.
Proof.
  intros Hst H. apply snug_trim in H. apply starts_text_inv in Hst as (c & u & -> & _ & Hc). unfold trim in H. cbn [trim_start] in H. now rewrite Hc in H.
Qed.

Section Document.
  Variables (ord : hash_order) (full : bool).
  Notation under := (under ord full).
  Notation at_ := (at_ ord full).
  Hypothesis (Hord : forall l, Permutation (ord l) l).
  Variable src : list str.

  (* ---------- titles ---------- *)
  Definition titled (p : nat) (title : str) (style : SectionLineStyle) (used : nat) : Prop := exists line T cs,
    nth_error src p = Some line /\ find_transition line BODY_TRANSITIONS = Some (T, cs) /\
    forall call d cur, cur_offset cur = p -> pexec call (T src 0 cs) d cur = pexec call (open_section title style used) d cur.

  Lemma run_title p title style used : titled p title style used -> 1 <= used ->
    forall secs c s seen n bound acc, levels_ok secs bound -> bound <= length (uniq seen) ->
    waiting ord full src c (sec_stack secs) (sec_entries secs) s seen p n acc -> n + length secs <= 9 ->
    exists c' secs', steps src 0 c c' /\
      at_ src c' (sec_stack secs') (sec_entries secs') (s ++ labels_latex acc ++ title_latex (level_after seen style) title) (seen ++ [style]) (p + used) 0 /\
      levels_ok secs' (length (uniq (seen ++ [style]))).
  Proof.
    intros (line & T & cs & Hl & Hf & HT) Hused. induction secs as [|[[[t l] sty] acc0] secs IH]; intros c s seen n bound acc Hlev Hbd [Hat Hu Hacc] Hn;
      pose proof (pl_cur _ _ _ _ _ Hat) as Hc; cbn [length] in Hn; pose proof (under_data _ _ _ _ _ _ _ _ Hu) as Hfd;
      change (focused_data (clean (cf_doc c))) with (focused_data (cf_doc c)) in Hfd.
    - (* in the document *)
      destruct (clean_section ord full (cf_doc c) _ s seen title style acc Hu Hacc) with (pre := labels_latex acc ++ title_latex (level_after seen style) title) as (d' & Ed & Hu').
      { rewrite Hfd. reflexivity. }
      { apply pre_section. unfold level_after. lia. }
      set (sec := (title, level_after seen style, style, acc)).
      destruct (placed_step src 0 c SBody [] p n line BODY_TRANSITIONS T cs (Push [SSection]) (Some used) d' (cf_cur c) 0 (sec_stack [sec]) Hat ltac:(lia) Hl I eq_refl Hf)
        as (c1 & Hs & Ha & <-); auto.
      { exists 0. intros f _. rewrite HT by exact Hc. unfold open_section, get_doc. cbn [pbind pexec]. rewrite Hfd.
        unfold Prog.pushed. cbn [pbind pexec]. rewrite Ed. reflexivity. }
      { lia. }
      rewrite Hc in Ha. exists c1, [sec]. split; [exact Hs|]. split; [apply placed_at; [exact Ha|exact Hu']|]. cbn [levels_ok sec].
      pose proof (level_bound seen style). unfold level_after in *. repeat split; lia.
    - cbn [levels_ok] in Hlev. destruct Hlev as [Hl1 Hlev].
      change (sec_stack ((t, l, sty, acc0) :: secs)) with (SSection :: sec_stack secs) in Hat.
      change (sec_entries ((t, l, sty, acc0) :: secs)) with (((NSection t l sty, Some (acc0 ++ [normalize_refname t])) : entry) :: sec_entries secs) in *.
      assert (Hlevel : line_style_section_level (sections (cf_doc c)) style = level_after seen style) by (apply sec_inv_level; apply Hu).
      destruct (Nat.leb (level_after seen style) l) eqn:Ele.
      + (* leave it *)
        destruct (clean_close ord full _ _ _ _ _ _ [] Hu) as (d' & Ed & Hu' & Hacc'); [destruct secs; discriminate|reflexivity|].
        rewrite app_nil_r in Hu'.
        destruct (placed_step src 0 c SSection (sec_stack secs) p n line BODY_TRANSITIONS T cs Pop None d' (cf_cur c) (n + 1) (sec_stack secs) Hat ltac:(lia) Hl I eq_refl Hf) as (c1 & Hs & Ha & <-); auto.
        { exists 0. intros f _. rewrite HT by exact Hc. unfold open_section, get_doc. cbn [pbind pexec]. rewrite Hfd, Hlevel, Ele.
          unfold leave, focus_parent. cbn [pbind pexec dop_exec]. rewrite Ed. reflexivity. }
        rewrite Hc, Nat.add_0_r in Ha.
        destruct (IH c1 s seen (n + 1) (l - 1) acc Hlev ltac:(lia)) as (c2 & secs' & Hs2 & Ha2 & Hl2); [split; [exact Ha|exact Hu'|congruence]|lia|].
        exists c2, secs'. split; [eapply steps_trans; eauto|]. auto.
      + (* stay in it *)
        apply Nat.leb_gt in Ele.
        destruct (clean_section ord full (cf_doc c) _ s seen title style acc Hu Hacc) with (pre := labels_latex acc ++ title_latex (level_after seen style) title) as (d' & Ed & Hu').
        { rewrite Hfd. reflexivity. }
        { apply pre_section. unfold level_after. lia. }
        set (sec := (title, level_after seen style, style, acc)).
        destruct (placed_step src 0 c SSection (sec_stack secs) p n line BODY_TRANSITIONS T cs (Push [SSection]) (Some used) d' (cf_cur c) 0 (sec_stack (sec :: (t, l, sty, acc0) :: secs)) Hat ltac:(lia) Hl I eq_refl Hf)
          as (c1 & Hs & Ha & <-); auto.
        { exists 0. intros f _. rewrite HT by exact Hc. unfold open_section, get_doc. cbn [pbind pexec]. rewrite Hfd, Hlevel.
          replace (level_after seen style <=? l) with false by (symmetry; now apply Nat.leb_gt).
          unfold Prog.pushed. cbn [pbind pexec]. rewrite Ed. reflexivity. }
        { lia. }
        rewrite Hc in Ha. exists c1, (sec :: (t, l, sty, acc0) :: secs). split; [exact Hs|]. split; [apply placed_at; [exact Ha|exact Hu']|]. cbn [levels_ok sec].
        pose proof (level_bound seen style). repeat split; try lia. exact Hlev.
  Qed.

  (* ---------- the three kinds of lines ---------- *)
  Lemma under_titled p t c n rest : skipn p src = t :: repeat c n :: rest -> text_line t = true -> snug t = true ->
    is_ascii_punct c = true -> 1 <= n -> titled p t (Under c) 2 /\ ender ord full src 0 p 0 MText.
  Proof.
    intros E Ht Hs Hc Hn. apply skipn_cons in E as [Hl E]. apply skipn_cons in E as [Hl2 _].
    unfold text_line in Ht. apply andb_true_iff in Ht as [Ht _]. apply andb_true_iff in Ht as [Hst Hen]. apply negb_true_iff in Hen.
    destruct (br_line c n Hc Hn) as (lcs & El & _).
    destruct (find_text BODY_TRANSITIONS [] t (or_introl eq_refl) eq_refl Hst Hen) as (cs & Hf & C1).
    split; [|split].
    - exists t, body_text, cs. split; [exact Hl|]. split; [exact Hf|]. intros call d cur Hcur. unfold body_text. rewrite (cap_len_ok _ _ _ _ _ _ _ C1).
      unfold get_cursor. cbn [pbind pexec length Nat.add]. rewrite Hcur, Hl2, El. cbn [Nat.ltb Nat.leb].
      destruct n as [|n]; [lia|]. cbn [repeat first_char pbind]. rewrite Hl. cbn [unwrap lift pbind]. now rewrite (snug_trim _ Hs).
    - apply (leaver_text ord full src 0 p 0 t Hl Hst Hen). unfold next_line_ok. rewrite Hl2, El. reflexivity.
    - apply (list_line_text src p 0 t Hl Hst Hen). intros l El'. rewrite Hl2 in El'. apply some_inj in El'. subst l. destruct n as [|n]; [lia|].
      change (repeat c (S n)) with ([] ++ c :: repeat c n). rewrite (ink_indent [] c _ eq_refl (punct_ink _ Hc)). apply Nat.le_refl.
  Qed.
  Lemma bare_enum c n : bare_line c n = true -> captures ENUMERATOR (repeat c n) = None.
  Proof.
    unfold bare_line. intros H. apply andb_true_iff in H as [H Hn]. apply andb_true_iff in H as [Hp Hc].
    apply negb_true_iff, N.eqb_neq in Hc. apply Nat.leb_le in Hn. now apply br_enum.
  Qed.
  (* a bare line that leaves items and quotes when read as a line *)
  Lemma ender_bare p c n : nth_error src p = Some (repeat c n) -> bare_line c n = true ->
    (forall cs call d x r e s seen cur, cap 1 cs = Some (repeat c n) -> under d ((x, r) :: e) s seen -> e <> [] -> cur_offset cur = p -> inner x ->
       pexec call (body_line src 0 cs) d cur = pexec call leave d cur) ->
    ender ord full src 0 p 0 MPlain.
  Proof.
    intros Hl Hb H. destruct (find_bare_rest c n Hb) as (cs & Hf & C1 & _). split.
    - exists (repeat c n). split; [exact Hl|]. intros tbl [-> | [-> | ->]].
      + exists body_line, cs. split.
        * unfold BODY_TRANSITIONS, empty_line_entry. rewrite find_none by now apply bare_blank. exact Hf.
        * intros call d x r e s seen cur m Hu Hne Hc Hi _ _. eapply H; eauto.
      + unfold bare_line in Hb. pose proof Hb as Hb'. apply andb_true_iff in Hb' as [Hb' Hn]. apply andb_true_iff in Hb' as [Hp Hc]. apply Nat.leb_le in Hn.
        apply negb_true_iff, N.eqb_neq in Hc.
        destruct (br_attribution c n Hp) as [A|(acs & A & C)]; auto.
        * exists body_line, cs. split.
          -- unfold BLOCK_QUOTE_TRANSITIONS, empty_line_entry. rewrite find_none by now apply bare_blank. rewrite find_none by exact A. exact Hf.
          -- intros call d x r e s seen cur m Hu Hne Hcu Hi _ _. eapply H; eauto.
        * exists attribution, acs. split.
          -- unfold BLOCK_QUOTE_TRANSITIONS, empty_line_entry. rewrite find_none by now apply bare_blank. now apply find_some.
          -- intros call d x r e s seen cur m Hu Hne Hcu Hi Hm Hj. unfold attribution. cbv zeta. rewrite (cap_len_ok _ _ _ _ _ _ _ C). cbn [length Nat.add].
             rewrite (exec_by_indent _ _ _ _ _ _ _ (under_data _ _ _ _ _ _ _ _ Hu) Hm), match_less by exact Hj. reflexivity.
      + exists body_line, cs. split.
        * unfold APLUS_MULTICOL_TRANSITIONS, empty_line_entry. rewrite find_none by now apply bare_blank. rewrite find_none; [exact Hf|].
          unfold bare_line in Hb. apply andb_true_iff in Hb as [Hb Hn]. apply andb_true_iff in Hb as [Hp Hc]. apply Nat.leb_le in Hn. apply negb_true_iff, N.eqb_neq in Hc.
          destruct n as [|n]; [lia|]. apply (ink_break [] c (repeat c n)); [reflexivity|now apply punct_ink|exact Hc].
        * intros call d x r e s seen cur m Hu Hne Hc Hi _ _. eapply H; eauto.
    - exists (repeat c n). split; [exact Hl|]. split; [now apply bare_blank|]. split; [now apply bare_bullet|]. split; [now apply bare_enum|].
      unfold bare_line in Hb. apply andb_true_iff in Hb as [Hb Hn]. apply andb_true_iff in Hb as [Hp Hc58]. apply Nat.leb_le in Hn.
      apply negb_true_iff, N.eqb_neq in Hc58. destruct n as [|n]; [lia|]. split; [apply (ink_field [] c (repeat c n)); [reflexivity|now apply punct_ink|exact Hc58]|]. exists c, (repeat c n). split; [reflexivity|now apply punct_ink].
  Qed.
  Lemma inner_section call title style used d x r e s seen cur : under d ((x, r) :: e) s seen -> inner x ->
    pexec call (open_section title style used) d cur = pexec call leave d cur.
  Proof.
    intros Hu Hi. unfold open_section, get_doc. cbn [pbind pexec]. rewrite (under_data _ _ _ _ _ _ _ _ Hu). destruct x; try contradiction Hi; reflexivity.
  Qed.
  Lemma bare_ink c n : bare_line c n = true -> is_ascii_punct c = true /\ is_whitespace c = false /\ 3 <= n.
  Proof.
    unfold bare_line. intros H. apply andb_true_iff in H as [H Hn]. apply andb_true_iff in H as [Hp _]. apply Nat.leb_le in Hn.
    split; [exact Hp|]. split; [now apply punct_ink|exact Hn].
  Qed.
  Lemma over_titled p t c n rest : skipn p src = repeat c n :: t :: repeat c n :: rest -> text_line t = true -> snug t = true ->
    bare_line c n = true -> length t <= n -> titled p t (OverAndUnder c) 3 /\ ender ord full src 0 p 0 MPlain.
  Proof.
    intros E Ht Hs Hb Hlen. apply skipn_cons in E as [Hl E]. apply skipn_cons in E as [Hl2 E]. apply skipn_cons in E as [Hl3 _].
    unfold text_line in Ht. apply andb_true_iff in Ht as [Ht _]. apply andb_true_iff in Ht as [Hst Hen].
    destruct (bare_ink _ _ Hb) as (Hp & Hink & Hn). destruct (br_line c n Hp ltac:(lia)) as (lcs & El & _).
    pose proof Hst as Hst'. apply starts_text_inv in Hst' as (a & u & Et & Ha & Haw).
    assert (Hbody : forall cs call d cur, cap 1 cs = Some (repeat c n) -> cur_offset cur = p ->
      pexec call (body_line src 0 cs) d cur = pexec call (open_section t (OverAndUnder c) 3) d cur).
    { intros cs call d cur C1 Hcur. unfold body_line. rewrite (get_cap_ok _ _ _ _ _ _ _ C1). unfold get_cursor. cbn [pbind pexec].
      rewrite trim_end_repeat, repeat_length by exact Hink. destruct n as [|n]; [lia|]. cbn [repeat first_char pbind pexec]. rewrite Hcur, Hl2.
      replace (blank t) with false by (rewrite Et; cbn; now rewrite Haw). rewrite andb_false_r. cbn [andb].
      replace (is_match TEXT t) with true.
      2:{ rewrite is_match_captures. destruct (pad_text 0 t Hst) as (tcs & Etc & _). change (pad 0 t) with t in Etc. now rewrite Etc. }
      rewrite Hl3. rewrite is_match_captures, El. cbn [negb]. rewrite trim_end_repeat by exact Hink. cbn [repeat first_char pbind].
      rewrite N.eqb_refl. cbn [length]. rewrite repeat_length, Nat.eqb_refl, (snug_trim_end _ Hst Hs).
      replace (length t <=? S n) with true by (symmetry; now apply Nat.leb_le). cbn [andb]. now rewrite (snug_trim _ Hs). }
    split.
    - destruct (find_bare_rest c n Hb) as (cs & Hf & C1 & _). exists (repeat c n), body_line, cs. split; [exact Hl|]. split.
      + unfold BODY_TRANSITIONS, empty_line_entry. rewrite find_none by now apply bare_blank. exact Hf.
      + intros call d cur Hcur. now apply Hbody.
    - apply (ender_bare p c n Hl Hb). intros cs call d x r e s seen cur C1 Hu Hne Hcur Hi. rewrite Hbody by auto. eapply inner_section; eauto.
  Qed.
  Lemma rule_line p c n rest : skipn p src = repeat c n :: [] :: rest -> bare_line c n = true -> 4 <= n ->
    (exists q, p = S q /\ nth_error src q = Some []) ->
    (forall cs call d cur, cap 1 cs = Some (repeat c n) -> cur_offset cur = p ->
       pexec call (body_line src 0 cs) d cur =
       pexec call (let* ok := Prog.pushed (DPush NTransition) in if ok then PRet (TSuccess Neither (Some 2)) else leave) d cur) /\
    ender ord full src 0 p 0 MPlain.
  Proof.
    intros E Hb Hn (q & -> & Hq). apply skipn_cons in E as [Hl E]. apply skipn_cons in E as [Hl2 _].
    destruct (bare_ink _ _ Hb) as (Hp & Hink & _).
    assert (Hbody : forall cs call d cur, cap 1 cs = Some (repeat c n) -> cur_offset cur = S q ->
       pexec call (body_line src 0 cs) d cur =
       pexec call (let* ok := Prog.pushed (DPush NTransition) in if ok then PRet (TSuccess Neither (Some 2)) else leave) d cur).
    { intros cs call d cur C1 Hcur. unfold body_line. rewrite (get_cap_ok _ _ _ _ _ _ _ C1). unfold get_cursor. cbn [pbind pexec].
      rewrite trim_end_repeat, repeat_length by exact Hink. destruct n as [|n]; [lia|]. cbn [repeat first_char pbind pexec]. rewrite Hcur, Hl2, Hq.
      cbn [blank forallb andb]. replace (4 <=? S n) with true by (symmetry; now apply Nat.leb_le). reflexivity. }
    split; [exact Hbody|]. apply (ender_bare (S q) c n Hl Hb). intros cs call d x r e s seen cur C1 Hu Hne Hcur Hi. rewrite Hbody by auto.
    unfold Prog.pushed. cbn [pbind pexec]. rewrite (under_refused _ _ _ _ _ _ NTransition Hu eq_refl); [reflexivity|].
    rewrite (under_data _ _ _ _ _ _ _ _ Hu). destruct x; try contradiction Hi; reflexivity.
  Qed.

  (* ---------- whole documents ---------- *)
  Lemma element_first e : element_ok e = true -> (match e with Block b => is_quote b | _ => false end) = false ->
    exists l ls, element_source e = l :: ls /\ l <> [] /\ blank l = false /\ indent_of l = 0.
  Proof.
    assert (G : forall l : str, starts_text l = true -> l <> [] /\ blank l = false /\ indent_of l = 0).
    { intros l H. pose proof (pad_not_blank 0 l H) as B. pose proof (pad_indent 0 l H) as I. change (pad 0 l) with l in *.
      split; [|auto]. intros ->. discriminate B. }
    assert (R : forall c n, bare_line c n = true -> repeat c n <> [] /\ blank (repeat c n) = false /\ indent_of (repeat c n) = 0).
    { intros c n H. destruct (bare_ink _ _ H) as (_ & Hi & Hn). destruct n as [|n]; [lia|]. cbn [repeat]. split; [discriminate|].
      split; [cbn; now rewrite Hi|]. change (c :: repeat c n) with ([] ++ c :: repeat c n). rewrite ink_indent; auto. reflexivity. }
    intros Hok Hq. destruct e as [t c n|t c n|names over t c n|c n|t ls|t q ls|ds|ti op fi mo|b]; cbn [element_ok element_source] in *.
    - do 3 apply andb_true_iff in Hok as [Hok ?]. unfold text_line in Hok. do 2 apply andb_true_iff in Hok as [Hok ?]. do 2 eexists. split; [reflexivity|]. now apply G.
    - do 2 apply andb_true_iff in Hok as [Hok ?]. do 2 eexists. split; [reflexivity|]. now apply R.
    - destruct names as [|[name g] names]; [discriminate|]. cbn [targets_source flat_map fst app]. do 2 eexists. split; [reflexivity|].
      destruct (target_ink name) as [B I]. split; [discriminate|]. now split.
    - apply andb_true_iff in Hok as [Hok _]. do 2 eexists. split; [reflexivity|]. now apply R.
    - apply andb_true_iff in Hok as [Hok _]. apply andb_true_iff in Hok as [Hok Ha]. destruct (announcing t Hok Ha) as (l & more & El & _ & Hst & _).
      rewrite El in *. do 2 eexists. split; [reflexivity|]. apply Forall_cons_iff in Hst as [Hst _]. now apply G.
    - apply andb_true_iff in Hok as [Hok _]. apply andb_true_iff in Hok as [Hok Ha]. destruct (announcing t Hok Ha) as (l & more & El & _ & Hst & _).
      rewrite El in *. do 2 eexists. split; [reflexivity|]. apply Forall_cons_iff in Hst as [Hst _]. now apply G.
    - destruct ds as [|x ds]; [discriminate|]. cbn [forallb] in Hok. apply andb_true_iff in Hok as [Hx _]. destruct (definition_shape _ Hx) as (Hst & _).
      unfold terms_source. cbn [flat_map app]. do 2 eexists. split; [reflexivity|]. now apply G.
    - apply andb_true_iff in Hok as [Hok _]. destruct (first_line _ 0 Hok eq_refl) as (l & ls & El & H). exists l, (ls ++ columns_source mo). rewrite El. split; [reflexivity|exact H].
    - now apply first_line.
  Qed.
  Lemma element_nonempty e : element_ok e = true -> exists l ls, element_source e = l :: ls /\ l <> [].
  Proof.
    intros H. destruct (match e with Block b => is_quote b | _ => false end) eqn:Q.
    - destruct e as [| | | | | | | |b]; try discriminate. cbn [element_ok element_source] in *. now apply first_line_any.
    - destruct (element_first e H Q) as (l & ls & E & Hne & _). eauto.
  Qed.
  Lemma position {A} (l y x : list A) q : skipn q l = x -> l = y ++ x -> x <> [] -> q = length y.
  Proof.
    intros E El Hx. assert (length (skipn q l) = length x) by congruence. rewrite skipn_length in H. rewrite El, app_length in H.
    destruct x; [congruence|]. cbn [length] in H. lia.
  Qed.
  Lemma title_first (over : bool) (t : str) (c : char) (n : nat) (rest : list str) : text_line t = true -> (if over then bare_line c n && (length t <=? n) else is_ascii_punct c && (1 <=? n)) = true ->
    match title_source over t c n ++ rest with [] => True | l :: _ => indent_of l = 0 end.
  Proof.
    intros Ht H. destruct over; cbn [title_source app].
    - apply andb_true_iff in H as [H _]. destruct (bare_ink _ _ H) as (_ & Hi & Hn). destruct n as [|n]; [lia|]. cbn [repeat].
      change (c :: repeat c n) with ([] ++ c :: repeat c n). rewrite ink_indent; auto. reflexivity.
    - unfold text_line in Ht. apply andb_true_iff in Ht as [Ht _]. apply andb_true_iff in Ht as [Ht _]. exact (pad_indent 0 t Ht).
  Qed.
  Lemma title_read (over : bool) p (t : str) (c : char) (n : nat) (rest : list str) : skipn p src = title_source over t c n ++ rest -> text_line t = true -> snug t = true ->
    (if over then bare_line c n && (length t <=? n) else is_ascii_punct c && (1 <=? n)) = true ->
    titled p t (title_style over c) (length (title_source over t c n)).
  Proof.
    intros E Ht Hs H. destruct over; apply andb_true_iff in H as [H1 H2]; apply Nat.leb_le in H2.
    - now apply (over_titled p t c n rest).
    - now apply (under_titled p t c n rest).
  Qed.
  Definition ends_after (b : mark) (prev : tag) : Prop := b = MText \/ (b = MPlain /\ is_terms prev = false).
  Lemma end_all b p L c st e s seen n : ender ord full src 0 p 0 b -> forall prev, ends_after b prev -> Forall (deeper 0 prev) L -> e <> [] ->
    at_ src c (fstack L ++ st) (fentries L ++ e) s seen p n -> n + length L <= 10 ->
    exists c', steps src 0 c c' /\ at_ src c' st e (s ++ ends_of L) seen p (n + length L).
  Proof.
    intros He prev Hb HF Hne Hat Hn. apply (unwind ord full src 0 p 0 b He L); auto.
    eapply Forall_impl; [|exact HF]. intros f. destruct Hb as [-> |[-> Hb]].
    - apply (deeper_ended 0 prev (Para [])). now destruct prev.
    - apply (deeper_ended 0 prev (Remark [])). destruct prev; try reflexivity. discriminate Hb.
  Qed.

  Lemma run_elements D : D <= 8 -> forall d prev gap0 L secs c s seen p pre,
    elements_ok prev gap0 d = true -> src = pre ++ repeat [] gap0 ++ document_source d ->
    Forall (deeper 0 prev) L -> (prev = TNone \/ prev = TText -> L = []) -> levels_ok secs (length (uniq seen)) ->
    at_ src c (fstack L ++ sec_stack secs) (fentries L ++ sec_entries secs) s seen p 0 ->
    past_blanks (skipn p src) = past_blanks (document_source d) ->
    length L <= D -> document_depth d <= D -> D + length (uniq (seen ++ styles d)) <= 9 ->
    exists c' L' secs' t seen' q tag, steps src 0 c c' /\
      at_ src c' (fstack L' ++ sec_stack secs') (fentries L' ++ sec_entries secs') (s ++ t) seen' q 0 /\ Forall (deeper 0 tag) L' /\
      t ++ ends_of L' = ends_of L ++ elements_latex seen d /\ length src <= q.
  Proof.
    intros HD. induction d as [|[el gap] d IH]; intros prev gap0 L secs c s seen p pre Hok Hsrc HL Hp Hlev Hat E HlenL Hdep Hsum;
      destruct (sec_top secs) as (S0 & x & r & st & e & Est & Een & Hh & Htr & Hsec & HS0).
    - rewrite Est in Hat. cbn [document_source flat_map past_blanks] in E.
      destruct (approach ord full src 0 L S0 st _ s seen c p 0 [] (Forall_impl _ (deeper_skippable 0 prev) HL) (home_skippable _ _ _ Hh) Hat ltac:(lia) E eq_refl)
        as (c1 & q & Hs & Ha & Eq). rewrite <- Est in Ha.
      exists c1, L, secs, [], seen, q, prev. split; [exact Hs|]. rewrite app_nil_r. split; [exact Ha|]. split; [exact HL|].
      split; [cbn; now rewrite app_nil_r|]. now apply skipn_end.
    - cbn [elements_ok] in Hok. apply andb_true_iff in Hok as [Hok Hrest]. apply andb_true_iff in Hok as [Hok Hgap]. apply andb_true_iff in Hok as [Hel Hspec].
      destruct (element_nonempty el Hel) as (l0 & ls0 & El0 & Hl0).
      set (rest := repeat [] gap ++ document_source d).
      assert (Eds : document_source ((el, gap) :: d) = element_source el ++ rest) by (cbn [document_source flat_map fst snd]; unfold rest; now rewrite <- app_assoc).
      assert (Epb : past_blanks (element_source el ++ rest) = element_source el ++ rest) by (rewrite El0; cbn [app]; now apply past_blanks_cons).
      rewrite Eds in E, Hsrc. rewrite Epb in E.
      assert (Hsrc' : src = (pre ++ repeat [] gap0 ++ element_source el) ++ repeat [] gap ++ document_source d)
        by (rewrite Hsrc; unfold rest; now rewrite <- !app_assoc).
      assert (Hdep' : element_depth el <= D /\ document_depth d <= D)
        by (change (document_depth ((el, gap) :: d)) with (Nat.max (element_depth el) (document_depth d)) in Hdep; lia).
      destruct Hdep' as [Hdb Hdd].
      pose proof (levels_length _ _ Hlev) as Hsl. pose proof (uniq_grows seen (styles ((el, gap) :: d))) as Hug.
      assert (Hpast : past_blanks rest = past_blanks (document_source d)) by apply past_blanks_repeat.
      assert (Hlow : element_tag el = TLeaf \/ element_tag el = TTerms \/ element_tag el = TBox -> low_head 0 (document_source d)).
      { intros Etag. destruct d as [|[e2 gap2] d2]; [exact I|].
        cbn [elements_ok] in Hrest. apply andb_true_iff in Hrest as [Hrest _]. apply andb_true_iff in Hrest as [Hrest _]. apply andb_true_iff in Hrest as [Hel2 Hsp2].
        destruct (element_first e2 Hel2) as (l2 & ls2 & El2 & Hne2 & Hb2 & Hi2).
        { destruct e2 as [| | | | | | | |b2]; try reflexivity. destruct (is_quote b2) eqn:Q; [|reflexivity].
          destruct (may_follow_quote _ _ Hsp2 Q) as [T|T]; destruct Etag as [Etag|[Etag|Etag]]; congruence. }
        cbn [document_source flat_map fst snd]. rewrite El2. cbn [app low_head]. split; [exact Hb2|]. now rewrite Hi2. }
      destruct (match el with Block _ => false | _ => true end) eqn:Hkind.
      + (* titles and rules *)
        rewrite Est in Hat.
        destruct (approach ord full src 0 L S0 st _ s seen c p 0 _ (Forall_impl _ (deeper_skippable 0 prev) HL) (home_skippable _ _ _ Hh) Hat ltac:(lia) E Epb)
          as (c1 & p1 & Hs1 & Ha1 & E1). rewrite <- Est in Ha1.
        assert (Title : forall b names title style used, titled (p1 + length (targets_source names)) title style used -> ender ord full src 0 p1 0 b -> ends_after b prev -> 1 <= used ->
          length (targets_source names) + used = length (element_source el) ->
          forallb (fun x => target_name (fst x)) names = true -> (exists rest', skipn p1 src = targets_source names ++ rest' /\ match rest' with [] => True | l :: _ => indent_of l = 0 end) ->
          style_of el = Some style -> element_latex seen el gap = targets_latex names ++ title_latex (level_after seen style) title -> element_tag el = TText ->
          exists c' L' secs' t seen' q tag, steps src 0 c c' /\
            at_ src c' (fstack L' ++ sec_stack secs') (fentries L' ++ sec_entries secs') (s ++ t) seen' q 0 /\ Forall (deeper 0 tag) L' /\
            t ++ ends_of L' = ends_of L ++ elements_latex seen ((el, gap) :: d) /\ length src <= q).
        { intros b names title style used Ht He Hen Hu Hlen Hnames (rest' & Erest & Hrest0) Hsty Htex Htag.
          destruct (end_all _ p1 L c1 (sec_stack secs) (sec_entries secs) s seen 0 He prev Hen HL) with (2 := Ha1) as (c2 & Hs2 & Ha2); [rewrite Een; discriminate|lia|].
          apply at_waiting in Ha2. rewrite Est, Een in Ha2.
          destruct (run_targets ord full src S0 x st r e _ seen rest' Hh Hrest0 names c2 p1 _ [] Ha2 ltac:(lia) Erest Hnames) as (c2' & n2 & Hs2' & Ha2' & Hn2 & _).
          rewrite <- Est, <- Een in Ha2'.
          destruct (run_title _ title style used Ht Hu secs c2' _ seen n2 _ _ Hlev (le_n _) Ha2' ltac:(lia)) as (c3 & secs3 & Hs3 & Ha3 & Hlev3).
          replace (labels_latex ([] ++ map (fun x => normalize_refname (fst x)) names)) with (targets_latex names) in Ha3
            by (unfold labels_latex, targets_latex; cbn [app]; rewrite !flat_map_concat_map, map_map; reflexivity).
          assert (Hsum3 : D + length (uniq ((seen ++ [style]) ++ styles d)) <= 9).
          { rewrite <- app_assoc. cbn [styles flat_map fst] in Hsum. rewrite Hsty in Hsum. exact Hsum. }
          destruct (IH (element_tag el) gap [] secs3 c3 _ (seen ++ [style]) (p1 + length (targets_source names) + used) _ Hrest Hsrc' (Forall_nil _) (fun _ => eq_refl) Hlev3 Ha3)
            as (c4 & L4 & secs4 & t4 & seen4 & q4 & tag4 & Hs4 & Ha4 & HF4 & Et4 & Hq4); auto; [|cbn; lia|].
          { rewrite <- Nat.add_assoc, Hlen, (skipn_past _ _ _ _ E1). exact Hpast. }
          exists c4, L4, secs4, ((ends_of L ++ targets_latex names ++ title_latex (level_after seen style) title) ++ t4), seen4, q4, tag4.
          split; [eapply steps_trans; [|exact Hs4]; eapply steps_trans; [|exact Hs3]; eapply steps_trans; [|exact Hs2']; eapply steps_trans; eauto|].
          rewrite !app_assoc. rewrite !app_assoc in Ha4. split; [exact Ha4|]. split; [exact HF4|]. split; [|exact Hq4].
          rewrite <- !app_assoc, Et4. cbn [elements_latex ends_of map concat app]. rewrite Hsty, Htex. now rewrite <- !app_assoc. }
        destruct el as [t ch n|t ch n|names over t ch n|ch n|t ls|t q ls|ds|ti op fi mo|b]; [| | | | | | | |discriminate Hkind]; cbn [element_ok element_source] in *.
        * do 3 apply andb_true_iff in Hel as [Hel ?]. apply Nat.leb_le in H.
          destruct (under_titled p1 t ch n rest) as [Ht He]; auto.
          apply (Title MText [] t (Under ch) 2); auto; try lia; [cbn; now rewrite Nat.add_0_r|now left|].
          exists (t :: repeat ch n :: rest). split; [exact E1|]. apply (title_first false t ch n rest); [assumption|]. apply andb_true_iff. split; [assumption|now apply Nat.leb_le].
        * do 3 apply andb_true_iff in Hel as [Hel ?]. apply Nat.leb_le in H.
          destruct (over_titled p1 t ch n rest) as [Ht He]; auto. apply negb_true_iff in Hspec.
          apply (Title MPlain [] t (OverAndUnder ch) 3); auto; try lia; [cbn; now rewrite Nat.add_0_r|now right|].
          exists (repeat ch n :: t :: repeat ch n :: rest). split; [exact E1|]. apply (title_first true t ch n rest); [assumption|]. apply andb_true_iff. split; [assumption|now apply Nat.leb_le].
        * (* targets *)
          apply andb_true_iff in Hel as [Hel Ho]. apply andb_true_iff in Hel as [Hel Hsn]. apply andb_true_iff in Hel as [Hnm Htl].
          destruct names as [|[name g] names]; [discriminate Hnm|]. apply negb_true_iff in Hspec. rewrite <- app_assoc in E1.
          assert (He : ender ord full src 0 p1 0 MPlain).
          { apply leaver_target with name.
            - cbn [targets_source flat_map fst app] in E1. now apply skipn_cons in E1.
            - cbn [forallb fst] in Hnm. now apply andb_true_iff in Hnm. }
          apply (Title MPlain ((name, g) :: names) t (title_style over ch) (length (title_source over t ch n))); auto.
          { apply title_read with rest; auto. now apply skipn_past in E1. }
          { now right. }
          { destruct over; cbn; lia. }
          { now rewrite app_length. }
          { eexists. split; [exact E1|]. now apply title_first. }
        * clear Title. apply andb_true_iff in Hel as [Hb Hn4]. apply Nat.leb_le in Hn4. apply andb_true_iff in Hspec as [Hspec Hnt]. apply negb_true_iff in Hnt. apply andb_true_iff in Hspec as [Hg0 Hg]. apply Nat.leb_le in Hg0, Hg. assert (Hen : ends_after MPlain prev) by now right.
          assert (Hpos : p1 = length (pre ++ repeat (@nil char) gap0)).
          { eapply position; [exact E1|now rewrite <- app_assoc|discriminate]. }
          destruct (rule_line p1 ch n (repeat [] (gap - 1) ++ document_source d)) as [Hbody He]; auto.
          { rewrite E1. unfold rest. destruct gap as [|g]; [lia|]. cbn [repeat app]. replace (S g - 1) with g by lia. reflexivity. }
          { destruct gap0 as [|g0]; [lia|]. exists (length (pre ++ repeat (@nil char) g0)). split.
            - rewrite Hpos, !app_length. cbn [repeat length]. lia.
            - rewrite Hsrc. change (repeat [] (S g0)) with ([] :: repeat (@nil char) g0). rewrite (repeat_cons g0 []), <- !app_assoc, app_assoc.
              rewrite nth_error_app2, Nat.sub_diag by lia. reflexivity. }
          destruct (end_all _ p1 L c1 (sec_stack secs) (sec_entries secs) s seen 0 He prev Hen HL) with (2 := Ha1) as (c2 & Hs2 & Ha2); [rewrite Een; discriminate|lia|].
          rewrite Est, Een in Ha2. pose proof (at_cur _ _ _ _ _ _ _ _ _ _ Ha2) as Hc2. pose proof (at_doc _ _ _ _ _ _ _ _ _ _ Ha2) as Hu2.
          destruct (exec_push ord full (parse table 0) (cf_doc c2) NTransition _ _ seen (lit "\hrulefill" ++ nl1) nl1 (cf_cur c2)
            (fun ok => if ok then PRet (TSuccess Neither (Some 2)) else leave) Hu2) as (d' & Ed & Hu'); try reflexivity.
          { rewrite (under_data _ _ _ _ _ _ _ _ Hu2). exact Htr. }
          change ((lit "\hrulefill" ++ nl1) ++ nl1) with (lit "\hrulefill" ++ nl2) in Hu'. destruct (find_bare_rest ch n Hb) as (cs & Hf & C1 & _).
          assert (Htbl : live S0 /\ table S0 = Some BODY_TRANSITIONS) by (split; [exact (home_live _ _ _ Hh)|exact HS0]).
          destruct (step_transition ord full src 0 c2 S0 st ((x, r) :: e) (s ++ ends_of L) seen p1 (0 + length L) (repeat ch n) BODY_TRANSITIONS body_line cs Neither (Some 2)
            ((x, r) :: e) ((s ++ ends_of L) ++ lit "\hrulefill" ++ nl2) seen d' (cf_cur c2) 0 (S0 :: st) Ha2 ltac:(lia)) as (c3 & Hs3 & Ha3); auto.
          { cbn [app] in E1. now apply skipn_cons in E1. }
          { apply Htbl. }
          { unfold BODY_TRANSITIONS, empty_line_entry. rewrite find_none by now apply bare_blank. exact Hf. }
          { exists 0. intros f Hf0. rewrite Hbody by auto. eapply exec_up; [|exact Hf0]. exact Ed. }
          { lia. }
          rewrite Hc2 in Ha3. rewrite <- Est, <- Een in Ha3.
          destruct (IH TNone gap [] secs c3 _ seen (p1 + 2) _ Hrest Hsrc' (Forall_nil _) (fun _ => eq_refl) Hlev Ha3)
            as (c4 & L4 & secs4 & t4 & seen4 & q4 & tag4 & Hs4 & Ha4 & HF4 & Et4 & Hq4); auto; try exact Hsum; try (cbn [length]; lia).
          { unfold rest in E1. destruct gap as [|g]; [lia|]. cbn [repeat app] in E1.
            change (repeat ch n :: [] :: repeat [] g ++ document_source d) with ([repeat ch n; []] ++ repeat [] g ++ document_source d) in E1.
            apply skipn_past in E1. cbn [length] in E1. rewrite E1. apply past_blanks_repeat. }
          exists c4, L4, secs4, ((ends_of L ++ lit "\hrulefill" ++ nl2) ++ t4), seen4, q4, tag4.
          split; [eapply steps_trans; [|exact Hs4]; eapply steps_trans; [|exact Hs3]; eapply steps_trans; eauto|].
          rewrite !app_assoc. rewrite !app_assoc in Ha4. split; [exact Ha4|]. split; [exact HF4|]. split; [|exact Hq4].
          rewrite <- !app_assoc, Et4. cbn [elements_latex element_latex style_of ends_of map concat]. rewrite app_nil_r. cbn [app]. now rewrite <- !app_assoc.
        * clear Title. pose proof (verbatim_ender ord full src p1 t ls rest Hel E1) as He. assert (Hen : ends_after MText prev) by now left.
          destruct (end_all _ p1 L c1 (sec_stack secs) (sec_entries secs) s seen 0 He prev Hen HL) with (2 := Ha1) as (c2 & Hs2 & Ha2); [rewrite Een; discriminate|lia|].
          rewrite Est, Een in Ha2.
          destruct (run_verbatim ord full src c2 S0 st x r e (s ++ ends_of L) seen p1 (0 + length L) t ls gap (document_source d) Hh HS0) with (4 := Ha2) as (c3 & Hs3 & Ha3); auto.
          { apply (home_allows _ _ _ _ Hh). now left. }
          { destruct secs as [|[[[t0 l1] sty] acc1] secs]; apply (f_equal (hd (NDocument, None))) in Een; cbn in Een; apply (f_equal fst) in Een; cbn [fst] in Een; subst x; reflexivity. }
          { lia. }
          rewrite <- Est, <- Een in Ha3.
          destruct (IH TLeaf gap [] secs c3 _ seen _ _ Hrest Hsrc' (Forall_nil _) (fun _ => eq_refl) Hlev Ha3)
            as (c4 & L4 & secs4 & t4 & seen4 & q4 & tag4 & Hs4 & Ha4 & HF4 & Et4 & Hq4); auto; try exact Hsum; try (cbn [length]; lia).
          { unfold rest in E1. rewrite app_assoc in E1. apply skipn_past in E1. rewrite app_length, repeat_length, Nat.add_assoc in E1. exact (f_equal past_blanks E1). }
          exists c4, L4, secs4, ((ends_of L ++ element_latex seen (Verbatim t ls) gap) ++ t4), seen4, q4, tag4.
          split; [eapply steps_trans; [|exact Hs4]; eapply steps_trans; [|exact Hs3]; eapply steps_trans; eauto|].
          rewrite !app_assoc. split; [exact Ha4|]. split; [exact HF4|]. split; [|exact Hq4].
          rewrite <- !app_assoc, Et4. cbn [elements_latex style_of ends_of map concat]. rewrite app_nil_r. reflexivity.
        * clear Title. pose proof (quoted_ender ord full src p1 t q ls rest Hel E1) as He. assert (Hen : ends_after MText prev) by now left.
          destruct (end_all _ p1 L c1 (sec_stack secs) (sec_entries secs) s seen 0 He prev Hen HL) with (2 := Ha1) as (c2 & Hs2 & Ha2); [rewrite Een; discriminate|lia|].
          rewrite Est, Een in Ha2.
          destruct (run_quoted ord full src c2 S0 st x r e (s ++ ends_of L) seen p1 (0 + length L) t q ls gap rest Hh HS0) with (4 := Ha2) as (c3 & Hs3 & Ha3); auto.
          { apply (home_allows _ _ _ _ Hh). now left. }
          { destruct secs as [|[[[t0 l1] sty] acc1] secs]; apply (f_equal (hd (NDocument, None))) in Een; cbn in Een; apply (f_equal fst) in Een; cbn [fst] in Een; subst x; reflexivity. }
          { lia. }
          { unfold rest. destruct d; [destruct gap; cbn; auto|]. apply Nat.leb_le in Hspec. destruct gap as [|g]; [lia|]. reflexivity. }
          rewrite <- Est, <- Een in Ha3.
          destruct (IH TText gap [] secs c3 _ seen _ _ Hrest Hsrc' (Forall_nil _) (fun _ => eq_refl) Hlev Ha3)
            as (c4 & L4 & secs4 & t4 & seen4 & q4 & tag4 & Hs4 & Ha4 & HF4 & Et4 & Hq4); auto; try exact Hsum; try (cbn [length]; lia).
          { exact (eq_trans (f_equal past_blanks (skipn_past _ _ _ _ E1)) Hpast). }
          exists c4, L4, secs4, ((ends_of L ++ element_latex seen (Quoted t q ls) gap) ++ t4), seen4, q4, tag4.
          split; [eapply steps_trans; [|exact Hs4]; eapply steps_trans; [|exact Hs3]; eapply steps_trans; eauto|].
          rewrite !app_assoc. split; [exact Ha4|]. split; [exact HF4|]. split; [|exact Hq4].
          rewrite <- !app_assoc, Et4. cbn [elements_latex style_of ends_of map concat]. rewrite app_nil_r. reflexivity.
        * clear Title. destruct ds as [|x0 ds]; [discriminate Hel|]. change (forallb definition_ok (x0 :: ds) = true) in Hel.
          apply negb_true_iff in Hspec. assert (Hen : ends_after MPlain prev) by now right. pose proof Hel as Hx0. cbn [forallb] in Hx0. apply andb_true_iff in Hx0 as [Hx0 _].
          assert (E1x : skipn p1 src = term_line x0 :: blocks_source (d_extra x0) (d_body x0) ++ terms_source ds ++ rest).
          { rewrite E1. unfold terms_source at 1. cbn [flat_map app]. rewrite <- app_assoc. reflexivity. }
          pose proof (term_ender ord full src p1 x0 _ Hx0 E1x) as He.
          destruct (end_all _ p1 L c1 (sec_stack secs) (sec_entries secs) s seen 0 He prev Hen HL) with (2 := Ha1) as (c2 & Hs2 & Ha2); [rewrite Een; discriminate|lia|].
          rewrite Est, Een in Ha2.
          destruct (step_terms ord full src c2 S0 x st r e (s ++ ends_of L) seen p1 (0 + length L) x0 (terms_source ds ++ rest) Hh HS0) with (2 := Ha2) (4 := Hx0) (5 := E1x) as (c3 & Hs3 & Ha3); auto.
          { destruct secs as [|[[[t0 l1] sty] acc1] secs]; apply (f_equal (hd (NDocument, None))) in Een; cbn in Een; apply (f_equal fst) in Een; cbn [fst] in Een; subst x; reflexivity. }
          { lia. }
          cbn [element_depth] in Hdb. fold (terms_depth (x0 :: ds)) in Hdb.
          destruct (run_terms ord full Hord src (x0 :: ds) ((x, r) :: e) (S0 :: st) [] c3 _ seen p1 (0 + length L + 1) rest Hel (Forall_nil _) Ha3)
            as (c4 & L4 & t4 & q4 & Hs4 & Ha4 & Et4 & HF4 & HL4 & Hpb4).
          { cbn [length]. lia. } { lia. } { now rewrite E1. }
          { unfold rest. destruct gap as [|g]; [|cbn; now left]. destruct d; [exact I|]. cbn [is_title style_of orb] in Hgap. discriminate Hgap. }
          { unfold low. rewrite Hpast. destruct (document_source d) as [|l2 ls2] eqn:Ed2; [exact I|]. assert (Hl2 : low_head 0 (l2 :: ls2)) by (apply Hlow; now (right; left)).
            rewrite past_blanks_cons; [exact Hl2|]. cbn in Hl2. destruct Hl2 as [Hl2 _]. intros ->. discriminate Hl2. }
          rewrite app_assoc in Ha4. 
          destruct (IH TTerms gap (L4 ++ [(SDefinitionList, NDefinitionList 0)]) secs c4 (((s ++ ends_of L) ++ lit "\begin{itemize}" ++ nl1) ++ t4) seen q4 _ Hrest Hsrc') with (3 := Hlev)
            as (c5 & L5 & secs5 & t5 & seen5 & q5 & tag5 & Hs5 & Ha5 & HF5 & Et5 & Hq5); auto; try exact Hsum.
          { apply Forall_app. split; [eapply Forall_impl; [|exact HF4]; intros; now apply deeper_strict|]. constructor; [|constructor]. cbn. auto. }
          { intros [H|H]; discriminate H. }
          { rewrite fstack_app, fentries_app, <- !app_assoc, Est, Een. cbn [fstack fentries map fst snd app refs_of]. rewrite <- ?app_assoc in Ha4. exact Ha4. }
          { now rewrite Hpb4. }
          { rewrite app_length. cbn [length] in *. lia. }
          exists c5, L5, secs5, ((ends_of L ++ (lit "\begin{itemize}" ++ nl1) ++ t4) ++ t5), seen5, q5, tag5.
          split; [eapply steps_trans; [|exact Hs5]; eapply steps_trans; [|exact Hs4]; eapply steps_trans; [|exact Hs3]; eapply steps_trans; eauto|].
          split; [rewrite <- !app_assoc; rewrite <- !app_assoc in Ha5; exact Ha5|]. split; [exact HF5|]. split; [|exact Hq5].
          rewrite <- !app_assoc, Et5, ends_of_app. cbn [elements_latex element_latex style_of]. rewrite app_nil_r. rewrite <- !app_assoc. do 3 f_equal.
          rewrite (app_assoc t4), Et4, ends_one. rewrite <- ?app_assoc. reflexivity.
        * (* a point of interest in columns *)
          clear Title. apply andb_true_iff in Hel as [Hel Hmo]. apply negb_true_iff in Hspec. assert (Hen : ends_after MPlain prev) by now right.
          rewrite <- app_assoc in E1.
          pose proof (columned_first ord full src ti op fi _ p1 Hel E1) as He.
          destruct (end_all _ p1 L c1 (sec_stack secs) (sec_entries secs) s seen 0 He prev Hen HL) with (2 := Ha1) as (c2 & Hs2 & Ha2); [rewrite Een; discriminate|lia|].
          rewrite Est, Een in Ha2. cbn [element_depth] in Hdb. fold (columns_depth (blocks_depth fi) mo) in Hdb.
          destruct (run_columned ord full Hord src c2 S0 x st r e (s ++ ends_of L) seen p1 (0 + length L) ti op fi mo rest Hel Hmo Hh Ha2)
            as (c4 & L4 & t4 & q4 & Hs4 & Ha4 & Et4 & HF4 & HL4 & Hpb4); auto; try lia.
          { unfold rest. destruct gap as [|g]; [|cbn; now left]. destruct d; [exact I|]. cbn [is_title style_of orb] in Hgap. discriminate Hgap. }
          { unfold low. rewrite Hpast. destruct (document_source d) as [|l2 ls2] eqn:Ed2; [exact I|]. assert (Hl2 : low_head 0 (l2 :: ls2)) by (apply Hlow; now (right; right)).
            rewrite past_blanks_cons; [exact Hl2|]. cbn in Hl2. destruct Hl2 as [Hl2 _]. intros ->. discriminate Hl2. }
          rewrite <- Est, <- Een in Ha4.
          destruct (IH TBox gap L4 secs c4 ((s ++ ends_of L) ++ t4) seen q4 _ Hrest Hsrc' HF4) with (3 := Ha4)
            as (c5 & L5 & secs5 & t5 & seen5 & q5 & tag5 & Hs5 & Ha5 & HF5 & Et5 & Hq5); auto; try exact Hsum; try lia.
          { intros [H|H]; discriminate H. }
          { now rewrite Hpb4. }
          exists c5, L5, secs5, ((ends_of L ++ t4) ++ t5), seen5, q5, tag5.
          split; [eapply steps_trans; [|exact Hs5]; eapply steps_trans; [|exact Hs4]; eapply steps_trans; eauto|].
          split; [rewrite <- !app_assoc; rewrite <- !app_assoc in Ha5; exact Ha5|]. split; [exact HF5|]. split; [|exact Hq5].
          rewrite <- !app_assoc, Et5. cbn [elements_latex element_latex style_of]. rewrite app_nil_r. f_equal. rewrite app_assoc, Et4. reflexivity.
      + (* blocks *)
        destruct el as [t ch n|t ch n|names over t ch n|ch n|t ls|t q ls|ds|ti op fi mo|b]; try discriminate Hkind. clear Hkind. cbn [element_ok element_source element_depth is_title style_of] in *.
        rewrite Est, Een in Hat.
        assert (Hnext : d <> [] -> 1 <= gap) by (intros Hd; destruct d; [congruence|]; now apply Nat.leb_le in Hgap).
        destruct (block_after ord full b (proj1 (nested ord full Hord) b) src 0 0 S0 x r e st L prev c s seen p 0 rest Hel Hspec Hh HL Hp Hat)
          as (c1 & L1 & t1 & q1 & Hs1 & Ha1 & Et1 & HF1 & HL1 & Hq1); auto.
        { destruct (is_quote b) eqn:Q.
          - rewrite (Hp (may_follow_quote _ _ Hspec Q)). destruct b; try discriminate; cbn; lia.
          - destruct b; cbn [opens]; try discriminate Q; lia. }
        { lia. }
        { unfold rest. destruct gap as [|g]; [|cbn; now left]. destruct d; [exact I|]. specialize (Hnext ltac:(discriminate)). lia. }
        { intros Hnp. unfold low. rewrite Hpast. destruct d as [|[e2 gap2] d2]; [exact I|].
          cbn [elements_ok] in Hrest. apply andb_true_iff in Hrest as [Hrest _]. apply andb_true_iff in Hrest as [Hrest _]. apply andb_true_iff in Hrest as [Hel2 Hsp2].
          destruct (element_first e2 Hel2) as (l2 & ls2 & El2 & Hne2 & Hb2 & Hi2).
          { destruct e2 as [| | | | | | | |b2]; try reflexivity. destruct (is_quote b2) eqn:Q; [|reflexivity].
            destruct (may_follow_quote _ _ Hsp2 Q) as [T|T]; cbn [element_tag] in T; destruct b; discriminate. }
          cbn [document_source flat_map fst snd]. rewrite El2. cbn [app]. rewrite past_blanks_cons by exact Hne2. cbn [low_head]. split; [exact Hb2|]. now rewrite Hi2. }
        { intros _. unfold rest. destruct gap as [|g]; [|right; cbn [repeat app]; eauto]. destruct d; [now left|]. specialize (Hnext ltac:(discriminate)). lia. }
        rewrite <- Est, <- Een in Ha1.
        destruct (IH (tag_of b) gap L1 secs c1 (s ++ t1) seen q1 _ Hrest Hsrc' HF1) with (3 := Ha1)
          as (c4 & L4 & secs4 & t4 & seen4 & q4 & tag4 & Hs4 & Ha4 & HF4 & Et4 & Hq4); auto.
        { intros Ht. destruct b; cbn [tag_of left_open depth] in *; destruct Ht as [Ht|Ht]; try discriminate; destruct L1; auto; cbn in HL1; lia. }
        { now rewrite Hq1. }
        { pose proof (left_depth b). lia. }
        exists c4, L4, secs4, (t1 ++ t4), seen4, q4, tag4. split; [eapply steps_trans; eauto|]. rewrite app_assoc. split; [exact Ha4|]. split; [exact HF4|].
        split; [|exact Hq4]. rewrite <- app_assoc, Et4, app_assoc, Et1, <- app_assoc. cbn [elements_latex element_latex style_of]. now rewrite app_nil_r.
  Qed.
End Document.
