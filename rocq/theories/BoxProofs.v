(* BoxProofs.v -- directives with blocks inside: admonitions, only, unknown ones
   (used for C47). *)
From Coq Require Import Permutation.
From Verif Require Import Base Unicode Regex Patterns Common Converters NodeTypes Tree DocTree History Blocks Prog ParseLoop
  Inline Body Directives Parser Spec RegexProofs BlockProofs TreeProofs DocTreeProofs HyperrefProofs InlineSpec RegexGroups InlineProofs LoopProofs
  Utf8Latex Writer WriterProofs Transforms TextProofs RefnameProofs OpenProofs SimpleSpec LineProofs Properties7 RunProofs StepProofs ParaProofs NumberProofs LeaveProofs GroupProofs
  MarkerProofs OpenerProofs LeafProofs ShiftProofs ConverterProofs ExerciseSpec ExerciseProofs.

(* ---------- which parser ---------- *)
Lemma one_of_in l names : one_of l names = true -> In l names.
Proof. unfold one_of. intros H. apply existsb_exists in H as (x & Hx & E). apply TextProofs.str_eqb_eq in E. now subst. Qed.
Lemma not_one_of l names x : one_of l names = false -> In x names -> str_eqb l x = false.
Proof. intros H Hx. destruct (str_eqb l x) eqn:E; [|reflexivity]. exfalso. assert (one_of l names = true) by (apply existsb_exists; eauto). congruence. Qed.
Definition plain_variant (v : AdmonitionType) : Prop := match v with AdmAdmonition _ => False | _ => True end.
Lemma parser_standard name : one_of name standard_names = true ->
  exists v, parser_for (directive_label name) = parse_standard_admonition v /\ admonition_display v = name /\ plain_variant v /\ directive_name name = true.
Proof.
  intros H. apply one_of_in in H. unfold standard_names in H. cbn [map In] in H.
  assert (G : forall n v, directive_label n = n -> standard_admonition n = Some v -> parser_for (directive_label n) = parse_standard_admonition v).
  { intros n v E1 E2. rewrite E1. unfold parser_for. now rewrite E2. }
  repeat (destruct H as [<-|H]; [eexists; split; [apply G; vm_compute; reflexivity|]; repeat split; vm_compute; reflexivity|]). contradiction.
Qed.
Lemma parser_admonition : parser_for (directive_label (lit "admonition")) = parse_generic_admonition. Proof. the_parser. Qed.
Lemma parser_submit : parser_for (directive_label (lit "submit")) = parse_aplus_submit. Proof. the_parser. Qed.
Lemma parser_interest : parser_for (directive_label (lit "point-of-interest")) = parse_poi. Proof. the_parser. Qed.
Lemma parser_only : parser_for (directive_label (lit "only")) = parse_sphinx_only. Proof. the_parser. Qed.

Lemma lowercase_lower name : lowercase_name name = true -> to_lowercase name = name.
Proof.
  unfold lowercase_name, to_lowercase. induction name as [|c t IH]; [reflexivity|]. cbn [forallb flat_map]. intros H. apply andb_true_iff in H as [Hc Ht]. rewrite (IH Ht).
  assert (E : lower_char c = [c]); [|now rewrite E].
  unfold lower_char, ascii_lower, is_ascii_upper. unfold in_range in *. rewrite ?orb_true_iff, ?andb_true_iff, ?N.leb_le, ?N.eqb_eq in Hc.
  replace (c <? 128)%N with true by (symmetry; apply N.ltb_lt; lia). replace ((65 <=? c) && (c <=? 90))%N with false; [reflexivity|].
  symmetry. apply andb_false_iff. rewrite !N.leb_gt. lia.
Qed.
Lemma lowercase_label name : name <> [] -> lowercase_name name = true -> directive_label name = name.
Proof.
  intros Hne H. unfold directive_label. rewrite (lowercase_lower _ H).
  assert (E : split_whitespace name = [name]).
  { unfold split_whitespace. assert (G : forall s cur, lowercase_name s = true -> cur <> [] \/ s <> [] -> split_ws_aux s cur = [rev cur ++ s]).
    { induction s as [|c s IH]; intros cur Hs Hn.
      - cbn. destruct cur; [intuition congruence|]. now rewrite app_nil_r.
      - unfold lowercase_name in Hs. cbn [forallb] in Hs. apply andb_true_iff in Hs as [Hc Hs]. cbn [split_ws_aux].
        replace (is_whitespace c) with false.
        2:{ symmetry. destruct (is_whitespace c) eqn:E; [|reflexivity]. exfalso. unfold is_whitespace in E. unfold in_range in *.
            rewrite ?orb_true_iff, ?andb_true_iff, ?N.eqb_eq, ?N.leb_le in *. lia. }
        rewrite IH; [|exact Hs|left; discriminate]. cbn [rev]. now rewrite <- app_assoc. }
    rewrite G; auto. }
  rewrite E. cbn [concat]. rewrite app_nil_r. now apply lowercase_lower.
Qed.
Lemma parser_custom name : directive_name name = true -> lowercase_name name = true -> one_of name (standard_names ++ other_names) = false ->
  parser_for (directive_label name) = parse_unknown_directive name.
Proof.
  intros Hn Hl Ho. rewrite lowercase_label by (auto; intros ->; discriminate). unfold parser_for.
  assert (G : forall x, In x (standard_names ++ other_names) -> str_eqb name x = false) by (intros; eapply not_one_of; eauto).
  unfold standard_names, other_names in G. cbn [map app] in G.
  replace (standard_admonition name) with (@None AdmonitionType).
  2:{ unfold standard_admonition. rewrite !G by (cbn [In]; tauto). reflexivity. }
  unfold directive_parsers. cbn [find_parser]. rewrite !G by (cbn [In]; tauto). reflexivity.
Qed.
Lemma box_name_ok x : box_ok x = true -> directive_name (box_name x) = true.
Proof.
  unfold box_ok. intros H. apply andb_true_iff in H as [_ H]. destruct x; cbn [box_name]; try reflexivity.
  - now apply parser_standard in H as (v & _ & _ & _ & H).
  - do 2 apply andb_true_iff in H as [H _]. now apply andb_true_iff in H as [_ H].
Qed.

(* ---------- what is written around the blocks ---------- *)
Definition box_pre (x : box) : str := lit "\begin{" ++ box_env x ++ lit "}" ++ box_details x ++ nl1.
Definition box_post (x : box) : str := lit "\end{" ++ box_env x ++ lit "}" ++ nl2.
Lemma box_latex_eq x inside : box_latex x inside = box_pre x ++ inside ++ box_post x.
Proof. unfold box_latex, box_pre, box_post. rewrite <- !app_assoc. reflexivity. Qed.
(* ---------- exercises ---------- *)
Definition tokenizer_of (opts : settings) : AplusRadarTokenizer :=
  match tokenizer (setting "radar-tokenizer" opts) with Some t => t | None => NoTokenizer end.
Definition exercise_node (m : nat) (key grade : str) (points : option N) (opts : settings) : TreeNodeType :=
  NAplusSubmit m key grade (match points with Some p => p | None => 10%N end) (or_else (setting "config" opts) [])
    (number_in "submissions" opts 10) (number_in "points-to-pass" opts 0)
    (or_else (setting "class" opts) []) (or_else (setting "title" opts) []) (or_else (setting "category" opts) (lit "submit"))
    (exercise_status (setting "status" opts)) (some_flag (setting "ajax" opts))
    (some_flag (setting "allow-assistant-viewing" opts)) (some_flag (setting "allow-assistant-grading" opts))
    (some_flag (setting "quiz" opts)) (or_else (setting "url" opts) []) (tokenizer_of opts)
    (match tokenizer_of opts with NoTokenizer => None | _ => meant parse_u32 (setting "radar_minimum_match_tokens" opts) end)
    (or_else (setting "lti" opts) []) (or_else (setting "lti_resource_link_id" opts) [])
    (some_flag (setting "lti_open_in_iframe" opts)) (some_flag (setting "lti_aplus_get_and_post" opts)).
Definition interest_node (m : nat) (title : str) (opts : settings) : TreeNodeType :=
  NAplusPOI title m (setting "id" opts) (setting "previous" opts) (setting "next" opts) (setting "hidden" opts) (setting "class" opts)
    (meant str_to_length (setting "height" opts)) (setting "columns" opts) (setting "bgimg" opts)
    (setting "not_in_slides" opts) (setting "not_in_book" opts) (setting "no_poi_box" opts).
Lemma digits_of_dec n : forallb is_ascii_digit (dec n) = true.
Proof. apply forallb_forall. apply Forall_forall. apply dec_digits. Qed.
Lemma parse_dec n : (n <= u32_max)%N -> parse_u32 (dec n) = Some n.
Proof.
  intros H. unfold parse_u32. rewrite parse_uint_digits by (first [apply dec_nonempty|apply dec_digits_range]). rewrite dec_value.
  apply N.leb_le in H. now rewrite H.
Qed.
Lemma parts_given (key grade pts : str) : forallb is_ascii_alnum key = true -> length grade <= 1 -> forallb is_ascii_upper grade = true -> forallb is_ascii_digit pts = true ->
  exercise_args (key ++ after_space (grade ++ pts)) = (key, grade, pts).
Proof.
  intros Hk Hl Hg Hp. apply exercise_args_spec.
  assert (Hup : not_before is_ascii_upper (pts ++ [])).
  { destruct pts as [|c t]; [exact I|]. cbn [forallb] in Hp. apply andb_true_iff in Hp as [Hp _]. cbn. revert Hp. unfold is_ascii_digit, is_ascii_upper, in_range.
    rewrite andb_true_iff, andb_false_iff, !N.leb_le, !N.leb_gt. lia. }
  assert (Hgr : grade = [] \/ exists c, grade = [c] /\ is_ascii_upper c = true).
  { destruct grade as [|c [|? ?]]; [now left|right|cbn in Hl; lia]. exists c. split; [reflexivity|]. cbn [forallb] in Hg. now apply andb_true_iff in Hg as [Hg _]. }
  assert (Hns : not_before (N.eqb 32) (grade ++ pts ++ [])).
  { destruct Hgr as [-> |(c & -> & Hc)].
    - cbn [app]. destruct pts as [|c t]; [exact I|]. cbn [forallb] in Hp. apply andb_true_iff in Hp as [Hp _]. change (N.eqb 32 c = false). apply N.eqb_neq. intros <-. discriminate.
    - change (N.eqb 32 c = false). apply N.eqb_neq. intros <-. discriminate. }
  exists (match grade ++ pts with [] => [] | _ => [32%N] end), []. split.
  { destruct Hgr as [-> |(c & -> & Hc)]; cbn [app]; [destruct pts as [|p0 pts']; [reflexivity|]; cbn [after_space app]; rewrite app_nil_r; reflexivity|]. cbn [after_space app]. now rewrite app_nil_r. }
  split; [exact Hk|]. split.
  { destruct Hgr as [-> |(c & -> & Hc)]; cbn [app]; [destruct pts; [exact I|reflexivity]|reflexivity]. }
  split; [destruct (grade ++ pts); reflexivity|]. split; [exact Hns|]. split; [destruct Hgr as [-> |Hc]; [left; auto|now right]|]. split; [exact Hp|exact I].
Qed.
Lemma exercise_argument_parts key grade points : forallb is_ascii_alnum key = true -> length grade <= 1 -> forallb is_ascii_upper grade = true ->
  exercise_args (exercise_argument key grade points) = (key, grade, match points with Some p => dec p | None => [] end).
Proof.
  intros Hk Hl Hg. unfold exercise_argument. destruct points as [p|]; apply parts_given; auto. apply digits_of_dec.
Qed.
Lemma flag_in k opts : flag_item (some_flag (setting k opts)) (lit k) = flag k opts.
Proof. unfold flag_item, some_flag, flag, shown. now destruct (setting k opts). Qed.
Lemma any_in k v : nonempty_item (fun t => lit k ++ lit "=" ++ t) v = if_any k v.
Proof. destruct v; reflexivity. Qed.

(* the node and the state a box is read in, its contents being at column m *)
Definition box_frame (x : box) (v : AdmonitionType) (m : nat) : frame :=
  match x with
  | Standard _ opts => (SAdmonition, NAdmonition m (setting "class" opts) (setting "name" opts) v)
  | Titled title opts => (SAdmonition, NAdmonition m (setting "class" opts) (setting "name" opts) (AdmAdmonition title))
  | Only c => (SBody, NSphinxOnly c m)
  | Custom name arg opts => (SBody, NUnknownDirective name arg opts m)
  | Exercise key grade points opts => (SBody, exercise_node m key grade points opts)
  | Interest title opts => (SAplusMultiCol, interest_node m title opts)
  end.
Lemma box_home x v m : home (fst (box_frame x v m)) (snd (box_frame x v m)) m.
Proof. destruct x; constructor. Qed.
Lemma box_end x v m : box_ok x = true -> (nested_alone x = true -> plain_variant v /\ admonition_display v = box_name x) -> end_of (box_frame x v m) = box_post x.
Proof.
  intros Hok Hv. unfold box_post. destruct x; cbn [box_frame end_of snd box_env]; try reflexivity.
  - destruct (Hv eq_refl) as [Hp E]. cbn [box_name] in E. rewrite <- E. destruct v; try contradiction; reflexivity.
  - unfold box_ok in Hok. apply andb_true_iff in Hok as [_ H]. apply andb_true_iff in H as [H _]. apply andb_true_iff in H as [_ H]. now rewrite lowercase_lower.
Qed.
Section Boxes.
  Variables (ord : hash_order) (full : bool).
  Notation under := (under ord full).
  Notation at_ := (at_ ord full).
  Hypothesis (Hord : forall l, Permutation (ord l) l).
  Lemma box_begins x v m : box_ok x = true -> (nested_alone x = true -> plain_variant v /\ admonition_display v = box_name x) ->
    pre_string ord full (snd (box_frame x v m)) None = Ret (box_pre x).
  Proof.
    intros Hok Hv. unfold box_pre. destruct x; cbn [box_frame snd box_env box_details pre_string]; unfold begin_env, braces, brackets, nl, nl1.
    - destruct (Hv eq_refl) as [Hp E]. cbn [box_name] in E. rewrite <- E. destruct v; try contradiction; reflexivity.
    - now rewrite <- !app_assoc.
    - now rewrite <- !app_assoc.
    - unfold box_ok in Hok. apply andb_true_iff in Hok as [Ha H]. apply andb_true_iff in H as [H _]. apply andb_true_iff in H as [H Hlow]. apply andb_true_iff in H as [H _].
      rewrite (lowercase_lower _ Hlow). apply Nat.leb_le in H. apply andb_true_iff in Ha as [Ha _]. cbn [box_argument] in Ha.
      replace (if blank arg then [] else lit "{" ++ arg ++ lit "}") with (match arg with [] => [] | _ => lit "{" ++ arg ++ lit "}" end).
      2:{ destruct (argument_starts _ Ha) as [-> | (c & t & -> & Hc & _)]; [reflexivity|]. unfold blank. cbn [forallb]. now rewrite Hc. }
      destruct opts as [|[k w] [|? ?]]; [| |cbn in H; lia].
      + rewrite (Permutation_nil (Permutation_sym (Hord []))). cbn [map option_list app]. now rewrite <- !app_assoc.
      + rewrite (Permutation_length_1_inv (Permutation_sym (Hord [(k, w)]))). cbn [map fst snd option_list join]. unfold brackets. now rewrite <- !app_assoc.
    - unfold box_ok in Hok. apply andb_true_iff in Hok as [Hok _]. apply andb_true_iff in Hok as [_ Ho]. cbn [box_settings] in Ho.
      destruct (status_written opts Ho) as [Es _]. cbn [exercise_node]. unfold exercise_node at 1. cbn [pre_string]. cbv zeta.
      rewrite Es, !flag_in. rewrite (any_in "config"), (any_in "class"), (any_in "title"), (any_in "category").
      unfold box_details. f_equal. unfold begin_env, brackets, braces, nl. rewrite <- !app_assoc. cbn [app].
      repeat first [reflexivity|f_equal]. unfold exercise_options. cbn [app].
      destruct (or_else (setting "lti" opts) []), (or_else (setting "lti_resource_link_id" opts) []); reflexivity.
    - cbn [interest_node]. unfold interest_node. cbn [pre_string]. unfold box_details, interest_options. rewrite <- bracketed_commas, !commas_app.
      rewrite <- !commas_given, <- !commas_flag, <- commas_length. unfold begin_env, braces, nl, nl1. rewrite <- !app_assoc. reflexivity.
  Qed.

  Section Source.
  Variables (src : list str) (base : nat).
  Lemma box_lines k name arg opts body rest : body <> [] ->
    directive_source k name arg opts body ++ rest = directive_source k name arg opts [] ++ [] :: map (shifted (k + 3)) body ++ rest.
  Proof.
    intros H. unfold directive_source. cbn [app]. f_equal. rewrite !map_app, <- !app_assoc. f_equal. cbn [below map app].
    destruct body; [congruence|]. reflexivity.
  Qed.
  Definition proper (body : list str) : Prop := exists l0 X, body = l0 :: X /\ blank l0 = false /\ indent_of l0 = 0.
  Lemma proper_nonempty body : proper body -> body <> [].
  Proof. intros (l0 & X & -> & _). discriminate. Qed.
  Lemma open_kinds x v m : In (kind (snd (box_frame x v m))) block_kinds /\ can_have_children (kind (snd (box_frame x v m))) = true /\
    unlabelled (snd (box_frame x v m)) = true /\ untransformed (snd (box_frame x v m)) = true.
  Proof. destruct x; (split; [a_kind|]); repeat split. Qed.
  (* the parsers of those whose contents are read by the same run *)
  Lemma open_box_run x k body rest p m v : nested_alone x = false -> box_ok x = true -> proper body ->
    skipn p src = directive_source k (box_name x) (box_argument x) (box_settings x) body ++ rest ->
    m_body m = k + 3 -> m_first m = length (pad k (lit ".. " ++ box_name x ++ lit "::" ++ lead (box_argument x))) ->
    m_empty m = match box_argument x with [] => true | _ => false end ->
    forall call d cur, cur_offset cur = p -> exists q adv,
      pexec call (parser_for (directive_label (box_name x)) src m) d cur =
        pexec call (open_node (snd (box_frame x v (k + 3))) (fst (box_frame x v (k + 3))) adv) d (cur_add cur q) /\ 0 < q /\
      exists g, skipn (p + q + match adv with Some a => a | None => 0 end) src = repeat [] g ++ map (shifted (k + 3)) body ++ rest.
  Proof.
    intros Hn Hok Hp E Hm Hf He call d cur Hc. pose proof (proper_nonempty _ Hp) as Hne.
    pose proof (contents src p k _ _ _ _ 0 rest E Hne) as Ec. cbn [repeat app] in Ec. rewrite app_nil_r in Ec.
    pose proof E as E1. rewrite box_lines in E1 by exact Hne. set (rest1 := [] :: map (shifted (k + 3)) body ++ rest) in *.
    assert (Hg : gap_head rest1) by (right; unfold rest1; eauto).
    set (name := box_name x) in *. set (arg := box_argument x) in *. set (opts := box_settings x) in *.
    assert (Hb : opts <> [] \/ @nil str <> [] -> m_body m = k + 3) by auto.
    pose proof Hok as Hok'. unfold box_ok in Hok'. fold arg opts in Hok'. apply andb_true_iff in Hok' as [Hok' Hx]. apply andb_true_iff in Hok' as [Ha Ho].
    assert (Harg : forall A (K : list str -> prog A), pexec call (let* a := arguments src m in K a) d cur = pexec call (K (args_of arg)) d (cur_add cur 1)).
    { intros A K. now apply (exec_arguments src p k name arg opts [] rest1 m E1 Ha Ho Hg Hb Hf He). }
    set (bt := blank_taken opts (map (shifted (k + 3)) (below body) ++ rest)) in *.
    assert (Hopt : forall A (K : option_map -> prog A), pexec call (let* a := options src m in K a) d (cur_add cur 1) = pexec call (K (insert_all opts)) d (cur_add cur (1 + (length opts + bt)))).
    { intros A K. rewrite (exec_options src p k name arg opts [] rest1 m E1 Ho Hg Hb) by (clear -Hc; destruct cur; cbn in *; lia). rewrite cur_add_add. do 2 f_equal.
      unfold bt. destruct body; [congruence|]. reflexivity. }
    assert (Hrest : exists g, skipn (p + (1 + (length opts + bt)) + 0) src = repeat [] g ++ map (shifted (k + 3)) body ++ rest).
    { exists (length (leading opts)). rewrite Nat.add_0_r. replace (p + (1 + (length opts + bt))) with (p + 1 + (length opts + bt)) by lia. rewrite Ec, map_app, <- app_assoc. f_equal.
      destruct opts; reflexivity. }
    destruct x as [nm os|title os|cd|nm a os|key grade points os|title os]; [discriminate| | | | |]; cbn [box_name box_argument box_settings box_frame fst snd] in *; subst name arg opts.
    - exists (1 + (length os + bt)), None. split; [|split; [apply Nat.lt_0_succ|exact Hrest]]. rewrite parser_admonition. unfold parse_generic_admonition. rewrite Harg.
      destruct title as [|t0 title]; [discriminate|]. cbn [args_of]. rewrite Hopt, !opt_setting, Hm. reflexivity.
    - exists 1, (Some 1). rewrite parser_only. unfold parse_sphinx_only. rewrite Harg. destruct cd as [|c0 cd]; [discriminate|]. split; [cbn [args_of]; unfold space_join; cbn [join]; rewrite Hm; reflexivity|].
      split; [lia|]. exists 0. cbn [repeat app]. unfold directive_source in E1. cbn [map below app] in E1. apply skipn_cons in E1 as [_ E1]. unfold rest1 in E1. apply skipn_cons in E1 as [_ E1].
      rewrite !Nat.add_1_r. exact E1.
    - apply andb_true_iff in Hx as [Hx Hno]. apply andb_true_iff in Hx as [Hx Hlo]. apply andb_true_iff in Hx as [Hle Hdn]. apply negb_true_iff in Hno. apply Nat.leb_le in Hle.
      exists (1 + (length os + bt)), None. split; [|split; [apply Nat.lt_0_succ|exact Hrest]]. rewrite (parser_custom _ Hdn Hlo Hno). unfold parse_unknown_directive. rewrite Harg, Hopt, Hm.
      replace (trim (space_join (args_of a))) with a.
      2:{ unfold argument_ok in Ha. apply andb_true_iff in Ha as [Ha _]. apply andb_true_iff in Ha as [_ Ha]. apply snug_trim in Ha. destruct a; [reflexivity|]. symmetry. exact Ha. }
      replace (insert_all os) with os; [reflexivity|]. destruct os as [|[kk vv] [|? ?]]; [reflexivity|reflexivity|cbn in Hle; lia].
    - apply andb_true_iff in Hx as [Hx Htok]. apply andb_true_iff in Hx as [Hx Hcf]. apply andb_true_iff in Hx as [Hx Hpts]. apply andb_true_iff in Hx as [Hx Hup].
      apply andb_true_iff in Hx as [Hx Hgl]. apply andb_true_iff in Hx as [Hke Hkey]. apply Nat.leb_le in Hgl.
      exists (1 + (length os + bt)), None. split; [|split; [apply Nat.lt_0_succ|exact Hrest]]. rewrite parser_submit. unfold parse_aplus_submit. rewrite Harg.
      destruct (exercise_argument key grade points) as [|a0 al] eqn:Ea; [unfold exercise_argument in Ea; destruct key; discriminate|]. rewrite <- Ea in *.
      replace (args_of (exercise_argument key grade points)) with [exercise_argument key grade points] by (now rewrite Ea).
      unfold space_join. cbn [join]. rewrite exercise_argument_parts by assumption. unfold skip_empty, get_cursor, advance. cbn [pbind pexec].
      replace (blank_prefix _) with 0.
      2:{ symmetry. unfold directive_source in E1. cbn [app] in E1. apply skipn_cons in E1 as [_ E1]. replace (cur_offset (cur_add cur 1)) with (S p) by (clear -Hc; destruct cur; cbn in *; lia).
          destruct os as [|kv os']; [discriminate Hcf|]. rewrite E1. cbn [map app blank_prefix]. cbn [forallb] in Ho. apply andb_true_iff in Ho as [Hkv _].
          change (shifted (k + 3) (setting_line kv)) with (pad (k + 3) (setting_line kv)). destruct (setting_read (k + 3) kv Hkv) as (-> & _). reflexivity. }
      rewrite cur_add_0, Hopt, !opt_setting.
      destruct (setting "config" os) as [cf|] eqn:Ecf; [|discriminate Hcf].
      assert (Et : tokenizer (setting "radar-tokenizer" os) = Some (tokenizer_of os)).
      { unfold tokenizer_of. destruct (setting "radar-tokenizer" os) as [tk|]; [|reflexivity]. apply one_of_in in Htok. cbn [map In] in Htok.
        repeat (destruct Htok as [<-|Htok]; [vm_compute; reflexivity|]). contradiction. }
      rewrite Et. assert (Ep : number_or (Some (match points with Some p => dec p | None => [] end)) 10 = match points with Some p => p | None => 10%N end).
      { destruct points as [pt|]; [|reflexivity]. apply N.leb_le in Hpts. unfold number_or. cbn [and_then]. now rewrite parse_dec. }
      rewrite Ep. unfold exercise_node, opt_or, has_opt. rewrite !opt_setting, Ecf, Hm. cbn [or_else]. reflexivity.
    - exists (1 + (length os + bt)), None. split; [|split; [apply Nat.lt_0_succ|exact Hrest]]. rewrite parser_interest. unfold parse_poi. rewrite Harg, Hopt, !opt_setting, Hm.
      replace (space_join (args_of title)) with title by (destruct title; reflexivity). reflexivity.
  Qed.
  Lemma step_open_box x c S0 y k st r e s seen p n body rest v :
    nested_alone x = false -> box_ok x = true -> proper body -> home S0 y (base + k) -> at_ src c (S0 :: st) ((y, r) :: e) s seen p n -> n <= 9 ->
    skipn p src = directive_source k (box_name x) (box_argument x) (box_settings x) body ++ rest ->
    exists c' q g, steps src base c c' /\
      at_ src c' (fst (box_frame x v (k + 3)) :: S0 :: st) ((snd (box_frame x v (k + 3)), None) :: (y, r) :: e) (s ++ box_pre x) seen q 0 /\
      skipn q src = repeat [] g ++ map (shifted (k + 3)) body ++ rest.
  Proof.
    intros Hna Hok Hp Hh Hat Hn E. pose proof (at_cur _ _ _ _ _ _ _ _ _ _ Hat) as Hc. pose proof (at_doc _ _ _ _ _ _ _ _ _ _ Hat) as Hu.
    pose proof (proper_nonempty _ Hp) as Hne.
    assert (Hl : nth_error src p = Some (pad k (marker_line (box_name x) (box_argument x)))) by (unfold directive_source in E; cbn [app] in E; now apply skipn_cons in E).
    pose proof Hok as Hok'. unfold box_ok in Hok'. apply andb_true_iff in Hok' as [Hok' _]. apply andb_true_iff in Hok' as [Ha Ho].
    destruct (home_table _ _ _ Hh) as (tbl & Htb & Hb).
    destruct (directive_by_indent src base p k (box_name x) (box_argument x) tbl Hl Hb (box_name_ok _ Hok) Ha) as (cs & Hf & Hx).
    match type of Hx with context [MkMarker ?a ?b ?c] => set (m := MkMarker a b c) in Hx end.
    assert (Hm : m_body m = k + 3).
    { unfold m. cbn [m_body]. rewrite (body_indent_below src p k _ _ _ _ _ E Ho); [reflexivity|right; exact Hp|right; exact Hne]. }
    destruct (open_box_run x k body rest p m v Hna Hok Hp E Hm eq_refl eq_refl (parse table 0) (cf_doc c) (cf_cur c) Hc) as (q & adv & Hr & Hq & g & Eg).
    set (fr := box_frame x v (k + 3)) in *. destruct (open_kinds x v (k + 3)) as (K1 & K2 & K3 & K4). fold fr in K1, K2, K3, K4.
    destruct (exec_open ord full (parse table 0) (cf_doc c) (snd fr) _ s seen (box_pre x) (cur_add (cf_cur c) q)
      (fun ok => PRet (if ok then TSuccess (Push [fst fr]) adv else TFailure)) Hu K3 K4 K2) as (d' & Ed & Hu').
    { rewrite (under_data _ _ _ _ _ _ _ _ Hu). now apply (home_allows _ _ _ _ Hh). }
    { apply box_begins; [exact Hok|congruence]. }
    assert (Hex : pexec (parse table 0) (directive src base cs) (cf_doc c) (cf_cur c) = Ret (TSuccess (Push [fst fr]) adv, d', cur_add (cf_cur c) q)).
    { rewrite (Hx (parse table 0) (cf_doc c) (cf_cur c) y (base + k) Hc (under_data _ _ _ _ _ _ _ _ Hu) (home_indent _ _ _ Hh)), match_same, Hr. exact Ed. }
    assert (Hoff : cur_offset (cur_add (cf_cur c) q) = p + q) by (destruct (cf_cur c); cbn in *; lia).
    destruct (step_transition ord full src base c S0 st ((y, r) :: e) s seen p n _ tbl directive cs (Push [fst fr]) adv ((snd fr, None) :: (y, r) :: e) (s ++ box_pre x) seen
      d' (cur_add (cf_cur c) q) 0 (fst fr :: S0 :: st) Hat Hn Hl (home_live _ _ _ Hh) Htb Hf) as (c1 & Hs & Ha1); auto.
    { exists 0. intros f Hf0. eapply exec_up; [exact Hex|exact Hf0]. }
    { rewrite Hoff. lia. }
    rewrite Hoff in Ha1. exists c1, (p + q + match adv with Some a => a | None => 0 end), g. auto.
  Qed.
  (* the parser of those whose contents are read by a run of their own: up to that run *)
  Lemma nested_box_run name opts k body g rest p m v d cur y S0 r e s seen :
    box_ok (Standard name opts) = true -> proper body -> low_head k rest ->
    skipn p src = directive_source k name [] opts body ++ repeat [] g ++ rest ->
    parser_for (directive_label name) = parse_standard_admonition v -> plain_variant v -> admonition_display v = name ->
    m_body m = k + 3 -> m_first m = length (pad k (lit ".. " ++ name ++ lit "::" ++ lead [])) -> m_empty m = true ->
    home S0 y (base + k) -> under d ((y, r) :: e) s seen -> cur_offset cur = p ->
    exists q d1, let X := leading opts ++ body ++ repeat [] g in
      under d1 ((snd (box_frame (Standard name opts) v (k + 3)), None) :: (y, r) :: e) (s ++ box_pre (Standard name opts)) seen /\
      (forall call, pexec call (parser_for (directive_label name) src m) d cur =
        pexec call (PParse X (k + 3) (cur_sum (cur_add cur q)) SAdmonition (fun r => PRet (match r with
              | REOF stack | REmptyStateStack stack => TSuccess (Push stack) (Some (length X))
              | RFailure => TFailure end))) d1 (cur_add cur q)) /\ 0 < q /\
      skipn (p + q + length X) src = rest.
  Proof.
    intros Hok Hp Hr E Hpar Hv Hdis Hm Hf He Hh Hu Hc. pose proof (proper_nonempty _ Hp) as Hne.
    pose proof (contents src p k _ _ _ _ g rest E Hne) as Ec.
    pose proof E as E1. rewrite box_lines in E1 by exact Hne. set (rest1 := [] :: map (shifted (k + 3)) body ++ repeat [] g ++ rest) in *.
    assert (Hg : gap_head rest1) by (right; unfold rest1; eauto).
    assert (Hb : opts <> [] \/ @nil str <> [] -> m_body m = k + 3) by auto.
    pose proof Hok as Hok'. unfold box_ok in Hok'. cbn [box_argument box_settings] in Hok'. apply andb_true_iff in Hok' as [Hok' _]. apply andb_true_iff in Hok' as [Ha Ho].
    set (bt := blank_taken opts (map (shifted (k + 3)) (below body) ++ repeat [] g ++ rest)) in *.
    set (fr := box_frame (Standard name opts) v (k + 3)). destruct (open_kinds (Standard name opts) v (k + 3)) as (K1 & K2 & K3 & K4). fold fr in K1, K2, K3, K4.
    destruct (under_open ord full d _ s seen (snd fr) (box_pre (Standard name opts)) Hu K3 K4 K2) as (d1 & Ed & Hu1).
    { rewrite (under_data _ _ _ _ _ _ _ _ Hu). now apply (home_allows _ _ _ _ Hh). }
    { apply box_begins; [exact Hok|]. intros _. split; [exact Hv|exact Hdis]. }
    exists (1 + (length opts + bt)), d1. cbv zeta. split; [exact Hu1|]. set (X := leading opts ++ body ++ repeat [] g) in *.
    replace (p + 1 + (length opts + bt)) with (p + (1 + (length opts + bt))) in Ec by (clear; lia).
    split; [|split; [clear; lia|apply skipn_past in Ec; rewrite map_length in Ec; exact Ec]].
    intros call. rewrite Hpar. unfold parse_standard_admonition.
    rewrite (exec_arguments src p k name [] opts [] rest1 m E1 Ha Ho Hg Hb Hf He) by exact Hc. cbn [args_of app].
    rewrite (exec_options src p k name [] opts [] rest1 m E1 Ho Hg Hb) by (clear -Hc; destruct cur; cbn in *; lia). rewrite cur_add_add.
    replace (blank_taken opts (map (shifted (k + 3)) (below []) ++ rest1)) with bt by (unfold bt; destruct body; [congruence|reflexivity]).
    unfold body_block, get_cursor. cbn [pbind pexec]. rewrite Hm.
    replace (cur_offset (cur_add cur (1 + (length opts + bt)))) with (p + (1 + (length opts + bt))) by (clear -Hc; destruct cur; cbn in *; lia).
    destruct (read_block src _ k (k + 3) X rest (Some (k + 3)) Ec) as (bf & Er); auto; [unfold X; destruct opts; [discriminate|]; destruct body; [congruence|discriminate]|clear; lia|].
    rewrite Er. cbn [lift pbind ib_lines ib_offset]. rewrite !opt_setting.
    change (NAdmonition (k + 3) (setting "class" opts) (setting "name" opts) v) with (snd fr).
    unfold Prog.pushed. cbn [pbind pexec]. rewrite Ed. cbn [obind pexec negb]. reflexivity.
  Qed.
  End Source.
End Boxes.
