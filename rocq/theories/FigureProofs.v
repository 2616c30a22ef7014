(* FigureProofs.v -- figures (used for C47). *)
From Verif Require Import Base Unicode Regex Patterns Common Converters NodeTypes Tree DocTree History Blocks Prog ParseLoop
  Inline Body Directives Parser Spec RegexProofs BlockProofs TreeProofs DocTreeProofs HyperrefProofs InlineSpec RegexGroups InlineProofs LoopProofs
  Utf8Latex Writer WriterProofs Transforms TextProofs OpenProofs SimpleSpec LineProofs Properties7 RunProofs StepProofs ParaProofs NumberProofs LeaveProofs GroupProofs
  MarkerProofs OpenerProofs EntryProofs LeafProofs ShiftProofs BoxProofs.

Definition figure_node (opts : settings) (m : nat) : TreeNodeType :=
  NFigure m (meant str_to_horizontal_alignment (setting "align" opts)) (meant str_to_length (setting "figwidth" opts)) (setting "figclass" opts)
    (map_opt normalize_refname (setting "name" opts)).
Definition figure_image (uri : str) (opts : settings) : TreeNodeType :=
  NImage uri (setting "alt" opts) (meant str_to_length (setting "height" opts)) (meant str_to_length (setting "width" opts))
    (meant str_to_percentage (setting "scale" opts)) None (setting "target" opts) None (setting "class" opts) false.
Lemma figure_ends opts m : end_of (SFigure, figure_node opts m) = figure_end opts.
Proof. unfold end_of, figure_node, figure_end. cbn [snd]. destruct (setting "name" opts); reflexivity. Qed.
Lemma figure_lines uri opts t k rest : para_ok t = true ->
  pad k (marker_line (lit "figure") uri) :: map (pad (k + 3)) (map setting_line opts) ++ [] :: map (pad (k + 3)) (text_lines t) ++ rest =
  directive_source k (lit "figure") uri opts (text_lines t) ++ rest.
Proof.
  intros Hp. pose proof (text_nonempty _ Hp) as Hne. unfold directive_source. cbn [app]. f_equal. rewrite map_app, <- app_assoc. f_equal.
  - rewrite !map_map. apply map_ext. reflexivity.
  - destruct (text_lines t) as [|l ls] eqn:El; [destruct (para_ok_first _ Hp) as (? & ? & Q & _); rewrite El in Q; discriminate|].
    cbn [below]. change (map (shifted (k + 3)) ([] :: l :: ls)) with ([] :: map (shifted (k + 3)) (l :: ls)). cbn [app]. f_equal. f_equal.
    apply map_ext_in. intros a Ha. rewrite Forall_forall in Hne. symmetry. apply shifted_nonempty. auto.
Qed.

Section Figures.
  Variables (ord : hash_order) (full : bool).
  Notation under := (under ord full).
  Notation at_ := (at_ ord full).
  Variables (src : list str).
  Lemma step_figure uri opts tx c S0 y k st r e s seen p n rest :
    argument_ok uri = true -> nonempty uri = true -> forallb setting_ok opts = true -> para_ok tx = true ->
    home S0 y k -> at_ src c (S0 :: st) ((y, r) :: e) s seen p n -> n <= 9 ->
    skipn p src = directive_source k (lit "figure") uri opts (text_lines tx) ++ rest -> head_ok (k + 3) rest ->
    exists c' q, steps src 0 c c' /\
      at_ src c' (SFigure :: S0 :: st) ((figure_node opts (k + 3), None) :: (y, r) :: e) (s ++ figure_begin uri opts ++ caption_latex tx) seen q 0 /\
      skipn q src = rest.
  Proof.
    intros Ha Hu Ho Hp Hh Hat Hn E Hr. pose proof (at_cur _ _ _ _ _ _ _ _ _ _ Hat) as Hc. pose proof (at_doc _ _ _ _ _ _ _ _ _ _ Hat) as Hun.
    destruct (para_ok_first _ Hp) as (l & more & El & Hst & Hen). destruct (para_ok_lines _ Hp) as [Hne Hls]. pose proof (para_ok_inv _ Hp) as (Hch & Hwr & _).
    assert (Hall : Forall (fun l => starts_text l = true) (text_lines tx)) by (eapply Forall_impl; [|exact Hls]; now intros ? [? _]).
    assert (Hpr : proper (text_lines tx)).
    { rewrite El. exists l, more. split; [reflexivity|]. apply (pad_not_blank 0) in Hst as Q. apply (pad_indent 0) in Hst as Q2. auto. }
    assert (Hl : nth_error src p = Some (pad k (marker_line (lit "figure") uri))) by (unfold directive_source in E; cbn [app] in E; now apply skipn_cons in E).
    destruct (home_table _ _ _ Hh) as (tbl & Htb & Hb).
    destruct (directive_by_indent src 0 p k (lit "figure") uri tbl Hl Hb eq_refl Ha) as (cs & Hf & Hx).
    match type of Hx with context [MkMarker ?a ?b ?c] => set (m := MkMarker a b c) in Hx end.
    assert (Hm : m_body m = k + 3).
    { unfold m. cbn [m_body]. rewrite (body_indent_below src p k _ _ _ _ _ E Ho); [reflexivity|right; exact Hpr|right; exact Hne]. }
    pose proof (contents src p k _ _ _ _ 0 rest E Hne) as Ec. cbn [repeat app] in Ec. rewrite app_nil_r in Ec.
    pose proof E as E1. rewrite box_lines in E1 by exact Hne. set (rest1 := [] :: map (shifted (k + 3)) (text_lines tx) ++ rest) in *.
    assert (Hg : gap_head rest1) by (right; unfold rest1; eauto).
    assert (Hbd : opts <> [] \/ @nil str <> [] -> m_body m = k + 3) by auto.
    set (bt := blank_taken opts (map (shifted (k + 3)) (below (text_lines tx)) ++ rest)) in *.
    set (q := 1 + (length opts + bt)). set (cur1 := cur_add (cf_cur c) q).
    (* the figure and its image *)
    destruct (fresh_open ord full (cf_doc c) _ s seen (figure_node opts (k + 3)) Hun eq_refl eq_refl) as (d1 & Ed1 & F1).
    { rewrite (under_data _ _ _ _ _ _ _ _ Hun). apply (home_allows _ _ _ _ Hh). a_kind. }
    destruct (fresh_mention ord full d1 _ _ _ _ seen (figure_image uri opts) (image_latex uri opts None) F1 eq_refl eq_refl eq_refl) as (d2 & img & Ed2 & F2).
    { intros refs. destruct (image_writes ord full uri opts None (setting "target" opts) None (setting "class" opts) refs) as (pre & P1 & P2 & P3). exists pre, nl1. auto. }
    cbn [app] in F2.
    assert (Hex : forall f, pexec (parse table f) (directive src 0 cs) (cf_doc c) (cf_cur c) = Ret (TSuccess (Push [SFigure]) None, d2, cur1)).
    { intros f. rewrite (Hx (parse table f) (cf_doc c) (cf_cur c) y k Hc (under_data _ _ _ _ _ _ _ _ Hun) (home_indent _ _ _ Hh)). cbn [Nat.add]. rewrite match_same.
      rewrite parser_figure. unfold parse_figure.
      rewrite (exec_arguments src p k (lit "figure") uri opts [] rest1 m E1 Ha Ho Hg Hbd eq_refl eq_refl) by exact Hc.
      destruct uri as [|u0 uri']; [discriminate|]. cbn [args_of].
      rewrite (exec_options src p k (lit "figure") (u0 :: uri') opts [] rest1 m E1 Ho Hg Hbd) by (clear -Hc; destruct (cf_cur c); cbn in *; lia). rewrite cur_add_add.
      replace (blank_taken opts (map (shifted (k + 3)) (below []) ++ rest1)) with bt by (unfold bt; destruct (text_lines tx); [congruence|reflexivity]).
      fold q cur1. rewrite !opt_setting, Hm.
      change (NFigure _ _ _ _ _) with (figure_node opts (k + 3)).
      unfold Prog.pushed. cbn [pbind pexec]. rewrite Ed1. cbn [obind pexec negb].
      replace (concat_lines [u0 :: uri']) with (u0 :: uri') by reflexivity.
      change (NImage _ _ _ _ _ _ _ _ _ _) with (figure_image (u0 :: uri') opts). rewrite Ed2. reflexivity. }
    destruct (placed_step src 0 c S0 st p n _ tbl directive cs (Push [SFigure]) None d2 cur1 0 (SFigure :: S0 :: st) (at_placed _ _ _ _ _ _ _ _ _ _ Hat) Hn Hl (home_live _ _ _ Hh) Htb Hf) as (c1 & Hs1 & P1 & D1); auto.
    { exists 0. intros f _. apply Hex. }
    { unfold cur1, q. clear -Hc. destruct (cf_cur c); cbn in *; lia. }
    assert (Hoff : cur_offset cur1 + 0 = p + 1 + (length opts + bt)) by (unfold cur1, q; clear -Hc; destruct (cf_cur c); cbn in *; lia).
    rewrite Hoff in P1.
    (* empty lines *)
    set (g := length (leading opts)).
    assert (Eg : skipn (p + 1 + (length opts + bt)) src = repeat [] g ++ map (pad (k + 3)) (text_lines tx) ++ rest).
    { rewrite Ec, map_app, <- app_assoc. f_equal; [unfold g; destruct opts; reflexivity|]. f_equal. apply map_ext_in. intros a Hin. apply shifted_nonempty.
      pose proof (text_nonempty _ Hp) as Q. rewrite Forall_forall in Q. auto. }
    destruct (placed_blanks src 0 SFigure (S0 :: st) (map (pad (k + 3)) (text_lines tx) ++ rest) ltac:(split; [exact I|eexists; reflexivity]) g c1 _ 0 P1 ltac:(lia) Eg) as (c2 & Hs2 & P2 & D2).
    assert (P3 : placed src c2 (SFigure :: S0 :: st) (p + 1 + (length opts + bt) + g) 0) by (destruct g; exact P2).
    (* the caption *)
    assert (E2 : skipn (p + 1 + (length opts + bt) + g) src = map (pad (k + 3)) (text_lines tx) ++ rest).
    { apply skipn_past in Eg. now rewrite repeat_length in Eg. }
    rewrite <- D1, <- D2 in F2.
    pose proof Hun as [Hop _ _ _].
    destruct (exec_caption ord full src 0 (parse table 0) (cf_doc c2) (cf_cur c2) _ _ s (k + 3) (meant str_to_horizontal_alignment (setting "align" opts)) (meant str_to_length (setting "figwidth" opts)) (setting "figclass" opts)
      (map_opt normalize_refname (setting "name" opts)) img _ seen (k + 3) tx (text_lines tx) rest (p + 1 + (length opts + bt) + g) (lit "\begin{center}" ++ nl1) Hop F2)
      as (d3 & Ed3 & U3); auto.
    all: try (first [exact (pl_cur _ _ _ _ _ P3) | exact E2 | now apply head_para_ends | now apply para_nonempty | apply split_lines_length]).
    { rewrite (para_text _ Hp). unfold strip_indicator. now rewrite find_from_text by (eapply chunks_end; exact Hch). }
    destruct (placed_para src 0 c2 SFigure BODY_TRANSITIONS (S0 :: st) _ 0 (k + 3) (text_lines tx) false l more rest d3 I eq_refl ltac:(now left) P3 ltac:(lia) E2 Hr El Hen Hall Ed3) as (c3 & Hs3 & P4 & D3).
    exists c3, (p + 1 + (length opts + bt) + g + length (text_lines tx)). split; [eapply steps_trans; [exact Hs1|]; eapply steps_trans; eauto|].
    split.
    - apply placed_at; [exact P4|]. rewrite D3. unfold figure_begin, caption_latex. rewrite <- !app_assoc in *. exact U3.
    - apply skipn_past in E2. now rewrite map_length in E2.
  Qed.
End Figures.
