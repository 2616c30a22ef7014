(* Properties1.v -- the theorems for C17-C23, C40, C44, C45.
   Every theorem is followed by a concrete case that meets its hypotheses. *)
From Verif Require Import Base Common Unicode Regex Patterns Converters Spec
  TextProofs RefnameProofs ConverterProofs EnumProofs.
Local Open Scope N_scope.

(* ===== C17 reference names are normalised canonically ===== *)
(* letter case: names that agree after lower-casing, in particular names that
   agree up to ASCII case, are normalised alike *)
Theorem C17_case a b : to_lowercase a = to_lowercase b -> normalize_refname a = normalize_refname b.
Proof. exact (normalize_case a b). Qed.
Lemma to_lowercase_ascii a b : Forall (fun c => c < 128) a -> Forall (fun c => c < 128) b ->
  map ascii_lower a = map ascii_lower b -> to_lowercase a = to_lowercase b.
Proof.
  assert (G : forall s, Forall (fun c => c < 128) s -> to_lowercase s = map ascii_lower s).
  { induction 1 as [|c s Hc _ IH]; [reflexivity|]. unfold to_lowercase in *. cbn [flat_map map].
    rewrite lower_ascii by exact Hc. rewrite IH. reflexivity. }
  intros Ha Hb E. rewrite !G by assumption. exact E.
Qed.
Theorem C17_ascii_case a b : Forall (fun c => c < 128) a -> Forall (fun c => c < 128) b ->
  map ascii_lower a = map ascii_lower b -> normalize_refname a = normalize_refname b.
Proof. intros Ha Hb E. apply normalize_case. exact (to_lowercase_ascii a b Ha Hb E). Qed.
(* amount and kind of inner and outer white space *)
Theorem C17_inner_space a b w1 w2 : all_ws w1 -> all_ws w2 -> w1 <> [] -> w2 <> [] ->
  normalize_refname (a ++ w1 ++ b) = normalize_refname (a ++ w2 ++ b).
Proof. exact (normalize_gap a b w1 w2). Qed.
Theorem C17_outer_space a w1 w2 : all_ws w1 -> all_ws w2 ->
  normalize_refname (w1 ++ a ++ w2) = normalize_refname a.
Proof. exact (normalize_outer a w1 w2). Qed.
Theorem C17_idempotent s : normalize_refname (normalize_refname s) = normalize_refname s.
Proof. exact (normalize_idem s). Qed.
(* every white-space character of the result is a single inner space *)
Theorem C17_shape s p c r : normalize_refname s = p ++ c :: r -> is_whitespace c = true ->
  c = 32 /\ (exists p' d, p = p' ++ [d] /\ is_whitespace d = false) /\
  (exists e r', r = e :: r' /\ is_whitespace e = false).
Proof. exact (normalize_shape s p c r). Qed.
Example C17_ex : normalize_refname (lit "  Hello    WORLD ") = lit "hello world".
Proof. vm_compute. reflexivity. Qed.
Example C17_ex_case : normalize_refname (lit "FooBar") = normalize_refname (lit "fOObAR").
Proof. apply C17_ascii_case; [repeat constructor|repeat constructor|reflexivity]. Qed.
Example C17_ex_gap : normalize_refname (lit "a" ++ [9; 10] ++ lit "b") = normalize_refname (lit "a" ++ [32] ++ lit "b").
Proof. apply C17_inner_space; try discriminate; repeat constructor. Qed.
Print Assumptions C17_shape.

(* ===== C18 Roman numerals ===== *)
Theorem C18_roman n : 1 <= n <= 4999 ->
  upper_roman_to_usize (upper_roman n) = Some n /\ lower_roman_to_usize (lower_roman n) = Some n.
Proof. intros H. split; [apply upper_roman_correct|apply lower_roman_correct]; exact H. Qed.
Theorem C18_no_collision m n : 1 <= m <= 4999 -> 1 <= n <= 4999 ->
  upper_roman m = upper_roman n \/ lower_roman m = lower_roman n -> m = n.
Proof.
  intros Hm Hn [E|E].
  - pose proof (upper_roman_correct m Hm) as A. rewrite E, upper_roman_correct in A by exact Hn. congruence.
  - pose proof (lower_roman_correct m Hm) as A. rewrite E, lower_roman_correct in A by exact Hn. congruence.
Qed.
Theorem C18_bounded s v : upper_roman_to_usize s = Some v \/ lower_roman_to_usize s = Some v -> v <= 4999.
Proof. intros [H|H]; [exact (upper_roman_bounded s v H)|exact (lower_roman_bounded s v H)]. Qed.
Theorem C18_case s : forallb is_ascii_upper s = true ->
  lower_roman_to_usize (map ascii_lower s) = upper_roman_to_usize s.
Proof. exact (roman_case s). Qed.
Example C18_ex : upper_roman 1994 = lit "MCMXCIV" /\ lower_roman 4999 = lit "mmmmcmxcix"
  /\ upper_roman_to_usize (lit "MCMXCIV") = Some 1994.
Proof. vm_compute. auto. Qed.
Print Assumptions C18_roman.

(* ===== C19 only standard Roman numerals (false) ===== *)
(* full statement: upper_roman_to_usize s = Some v -> s = upper_roman v *)
Theorem C19_refuted : ~ (forall s v, upper_roman_to_usize s = Some v -> s = upper_roman v).
Proof.
  intros H. specialize (H (lit "IIII") 4). assert (E : upper_roman_to_usize (lit "IIII") = Some 4) by (vm_compute; reflexivity).
  specialize (H E). vm_compute in H. discriminate.
Qed.
(* the part that holds: an accepted string is a sequence of the thirteen
   Roman tokens, and its value is the sum of their values.  Missing: that the
   tokens come in the standard order and number. *)
Theorem C19_roman_tokens_partial s v : upper_roman_to_usize s = Some v ->
  exists l, Forall (fun t => In t
    [(lit "M", 1000); (lit "CM", 900); (lit "D", 500); (lit "CD", 400); (lit "C", 100); (lit "XC", 90);
     (lit "L", 50); (lit "XL", 40); (lit "X", 10); (lit "IX", 9); (lit "V", 5); (lit "IV", 4); (lit "I", 1)]) l
    /\ flat_map fst l = s /\ fold_right (fun t a => snd t + a) 0 l = v.
Proof. exact (upper_roman_additive s v). Qed.
Theorem C19_lower_roman_tokens_partial s v : lower_roman_to_usize s = Some v ->
  exists l, Forall (fun t => In t
    [(lit "m", 1000); (lit "cm", 900); (lit "d", 500); (lit "cd", 400); (lit "c", 100); (lit "xc", 90);
     (lit "l", 50); (lit "xl", 40); (lit "x", 10); (lit "ix", 9); (lit "v", 5); (lit "iv", 4); (lit "i", 1)]) l
    /\ flat_map fst l = s /\ fold_right (fun t a => snd t + a) 0 l = v.
Proof. exact (lower_roman_additive s v). Qed.
Print Assumptions C19_roman_tokens_partial.

(* ===== C20 alphabetic enumerators ===== *)
(* 96+n and 64+n are the code points of the n-th ASCII letter *)
Theorem C20_alpha s n : alpha_to_usize s = Some n <-> 1 <= n <= 26 /\ (s = [96 + n] \/ s = [64 + n]).
Proof. exact (alpha_spec s n). Qed.
Example C20_ex : alpha_to_usize (lit "c") = Some 3 /\ alpha_to_usize (lit "Z") = Some 26 /\ alpha_to_usize (lit "aa") = None.
Proof. vm_compute. auto. Qed.
Print Assumptions C20_alpha.

(* ===== C21 enumerators are classified as written ===== *)
(* For every line the enumerator pattern accepts: the line is indentation,
   delimiters and body as in enum_line; the conversion never panics; its result
   has the delimiters of the source and a number and style that the body
   denotes; it is refused only when the number does not fit a machine word or
   the Roman numeral is not convertible.  `first` = the marker starts a list. *)
Theorem C21_enumerator line cs lk in_list item start :
  captures ENUMERATOR line = Some cs ->
  exists w d body, enum_line w d body line /\ cap 1 cs = Some w /\
  exists r, enum_captures_to_int_kind_and_delims cs lk in_list false item start = Ret r /\
  match r with
  | Some (n, k, d') => d' = d /\ denotes item start ((item =? 0) && negb in_list) lk body k n
  | None => (digits body /\ usize_max < decimal_value body)
            \/ (Forall (fun c => In c (lit "ivxlcdm")) body /\ lower_roman_to_usize body = None)
            \/ (Forall (fun c => In c (lit "IVXLCDM")) body /\ upper_roman_to_usize body = None)
            \/ (body = lit "#" /\ usize_max < item + start)
  end.
Proof. exact (enumerator_as_written line cs lk in_list item start). Qed.
(* decimal markers: accepted, and read as exactly that number *)
Theorem C21_decimal w d body line lk in_list item start :
  enum_line w d body line -> body <> [] -> digits body -> decimal_value body <= usize_max ->
  exists cs, captures ENUMERATOR line = Some cs /\
    enum_captures_to_int_kind_and_delims cs lk in_list false item start = Ret (Some (decimal_value body, Arabic, d)).
Proof.
  intros Hl Hne Hd Hv. destruct (enum_digits_line w d body line lk in_list false item start Hl Hne Hd) as (cs & E & E2).
  exists cs. split; [exact E|]. rewrite E2. destruct (N.leb_spec (decimal_value body) usize_max); [reflexivity|lia].
Qed.
Example C21_ex :
  match captures ENUMERATOR (lit "  (xiv) text") with
  | Some cs => enum_captures_to_int_kind_and_delims cs None false false 3 1 = Ret (Some (14, LowerRoman, Parens))
  | None => False
  end.
Proof. vm_compute. reflexivity. Qed.
Example C21_ex2 : exists cs, captures ENUMERATOR (lit "  42) text") = Some cs /\
  enum_captures_to_int_kind_and_delims cs None false false 0 1 = Ret (Some (42, Arabic, RParen)).
Proof.
  apply (C21_decimal (lit "  ") RParen (lit "42") (lit "  42) text") None false 0 1).
  - split; [repeat constructor|]. exists (lit " text"). split; [reflexivity|]. right. exists (lit "text"). reflexivity.
  - discriminate.
  - repeat constructor; discriminate.
  - vm_compute. discriminate.
Qed.
Print Assumptions C21_enumerator.

(* ===== C22 consecutive enumerators (false) ===== *)
(* "1." directly followed by "2." is rejected, "1." followed by "1." accepted *)
Definition C22_at (l1 l2 : string) : outcome bool :=
  is_enumerated_list_item [lit l1; lit l2] (MkCursor 0 0) 0 0 1 Arabic Period Arabic false 0 1.
Theorem C22_refuted :
  C22_at "1. a" "2. b" = Ret false /\ C22_at "1. a" "1. b" = Ret true.
Proof. vm_compute. auto. Qed.
(* what the check does decide: an equally indented successor numbered with
   digits is accepted iff it repeats the current number in the same style and
   delimiters.  The full statement would have `decimal_value body = number + 1`. *)
Theorem C22_successor_partial src cur base w d body line number kind delims lk il item start :
  nth_error src (S (cur_offset cur)) = Some line ->
  enum_line w d body line -> body <> [] -> digits body -> decimal_value body < usize_max ->
  is_enumerated_list_item src cur base (length w + base) number kind delims lk il item start =
  Ret ((decimal_value body =? number) && kind_eqb kind Arabic && delims_eqb d delims).
Proof. exact (next_digits src cur base w d body line number kind delims lk il item start). Qed.
Theorem C22_auto_successor_partial src cur base w d line number kind delims lk il item start :
  nth_error src (S (cur_offset cur)) = Some line ->
  enum_line w d (lit "#") line -> item + start < usize_max ->
  is_enumerated_list_item src cur base (length w + base) number kind delims lk il item start =
  Ret ((item + start =? number)
       && kind_eqb (if (item =? 0) && negb il then Arabic else lk) kind && delims_eqb d delims).
Proof. exact (next_auto src cur base w d line number kind delims lk il item start). Qed.
Theorem C22_not_an_enumerator_partial src cur base line number kind delims lk il item start :
  nth_error src (S (cur_offset cur)) = Some line ->
  blank line = false -> captures ENUMERATOR line = None ->
  is_enumerated_list_item src cur base (indent_of line + base) number kind delims lk il item start = Ret false.
Proof. exact (next_not_enum src cur base line number kind delims lk il item start). Qed.
Theorem C22_free_successor_partial src cur base indent number kind delims lk il item start :
  (forall line, nth_error src (S (cur_offset cur)) = Some line ->
     blank line = true \/ (indent < indent_of line + base)%nat) ->
  is_enumerated_list_item src cur base indent number kind delims lk il item start = Ret true.
Proof. exact (next_free src cur base indent number kind delims lk il item start). Qed.
Example C22_ex : C22_at "1. a" "   more" = Ret true /\ C22_at "1. a" "more" = Ret false
  /\ C22_at "1. a" "#. b" = Ret true.
Proof. vm_compute. auto. Qed.
Print Assumptions C22_successor_partial.

(* ===== C23 lengths and percentages ===== *)
Theorem C23_length s l : str_to_length s = Some l <->
  exists w1 num u w2 ip fp, s = w1 ++ num ++ unit_str u ++ w2 /\ all_ws w1 /\ all_ws w2 /\
    numeral num ip fp /\ l = MkLength u (FNum (decimal_value (ip ++ fp)) (length fp)).
Proof. exact (str_to_length_spec s l). Qed.
Theorem C23_percentage s f : str_to_percentage s = Some f <->
  exists w1 num w w2 ip fp, s = w1 ++ num ++ w ++ lit "%" ++ w2 /\
    all_ws w1 /\ all_ws w /\ all_ws w2 /\
    numeral num ip fp /\ f = FNum (decimal_value (ip ++ fp)) (length fp).
Proof. exact (percentage_spec s f). Qed.
Example C23_ex : str_to_length (lit " 12.50px ") = Some (MkLength Px (FNum 1250 2))
  /\ str_to_length (lit "12 px") = None /\ str_to_percentage (lit "33%") = Some (FNum 33 0)
  /\ map (fun u => str_to_length (lit "7" ++ unit_str u)) [Em; Ex; Mm; Cm; In_; Px; Pt; Pc]
     = map (fun u => Some (MkLength u (FNum 7 0))) [Em; Ex; Mm; Cm; In_; Px; Pt; Pc].
Proof. vm_compute. auto. Qed.
(* the eight unit names *)
Theorem C23_units : map unit_str [Em; Ex; Mm; Cm; In_; Px; Pt; Pc]
  = map lit ["em"; "ex"; "mm"; "cm"; "in"; "px"; "pt"; "pc"]%string.
Proof. reflexivity. Qed.
(* an alignment: one of the names, with any white space around it *)
Definition alignment_names : list (HTMLAlignment * string) :=
  [(ATop, "top"); (AMiddle, "middle"); (ABottom, "bottom"); (ALeft, "left"); (ACenter, "center"); (ARight, "right")]%string.
Definition side_names : list (HorizontalAlignment * string) := [(HLeft, "left"); (HCenter, "center"); (HRight, "right")]%string.
Lemma trim_name c t d w1 w2 : all_ws w1 -> all_ws w2 -> is_whitespace c = false -> is_whitespace d = false -> (exists u, c :: t = u ++ [d]) -> trim (w1 ++ (c :: t) ++ w2) = c :: t.
Proof. intros H1 H2 Hc Hd E. now apply trim_core with (d := d). Qed.
Ltac named_trim := match goal with
  | H1 : all_ws ?w1, H2 : all_ws ?w2 |- context [trim (?w1 ++ ?n ++ ?w2)] =>
      let v := eval vm_compute in n in let d := eval vm_compute in (last v 0%N) in let u := eval vm_compute in (removelast v) in
      let c := eval vm_compute in (hd 0%N v) in let t := eval vm_compute in (tl v) in
      change n with v; rewrite (trim_name c t d w1 w2 H1 H2 eq_refl eq_refl (ex_intro _ u eq_refl)) end.
Theorem C23_alignment s a : str_to_html_alignment s = Some a <->
  exists w1 name w2, In (a, name) alignment_names /\ s = w1 ++ lit name ++ w2 /\ all_ws w1 /\ all_ws w2.
Proof.
  split.
  - unfold str_to_html_alignment. destruct (trim_split s) as (w1 & w2 & H1 & H2 & E). intros H. cbv zeta in H.
    repeat match type of H with (if str_eqb ?x ?y then _ else _) = _ => let Q := fresh in destruct (str_eqb x y) eqn:Q;
      [apply str_eqb_eq in Q; rewrite Q in E; injection H as <-; exists w1; eexists; exists w2; split; [|split; [exact E|split; assumption]]; cbn [In alignment_names side_names]; repeat first [left; reflexivity|right]|] end. congruence.
  - intros (w1 & name & w2 & Hin & -> & H1 & H2). unfold str_to_html_alignment. cbv zeta.
    repeat (destruct Hin as [Hin|Hin]; [injection Hin as <- <-; named_trim; vm_compute; reflexivity|]). destruct Hin.
Qed.
Theorem C23_side s a : str_to_horizontal_alignment s = Some a <->
  exists w1 name w2, In (a, name) side_names /\ s = w1 ++ lit name ++ w2 /\ all_ws w1 /\ all_ws w2.
Proof.
  split.
  - unfold str_to_horizontal_alignment. destruct (trim_split s) as (w1 & w2 & H1 & H2 & E). intros H. cbv zeta in H.
    repeat match type of H with (if str_eqb ?x ?y then _ else _) = _ => let Q := fresh in destruct (str_eqb x y) eqn:Q;
      [apply str_eqb_eq in Q; rewrite Q in E; injection H as <-; exists w1; eexists; exists w2; split; [|split; [exact E|split; assumption]]; cbn [In alignment_names side_names]; repeat first [left; reflexivity|right]|] end. congruence.
  - intros (w1 & name & w2 & Hin & -> & H1 & H2). unfold str_to_horizontal_alignment. cbv zeta.
    repeat (destruct Hin as [Hin|Hin]; [injection Hin as <- <-; named_trim; vm_compute; reflexivity|]). destruct Hin.
Qed.
Example C23_alignment_ex : str_to_html_alignment (lit "  middle ") = Some AMiddle /\ str_to_html_alignment (lit "mid dle") = None /\
  str_to_horizontal_alignment (lit "right") = Some HRight /\ str_to_horizontal_alignment (lit "top") = None.
Proof. vm_compute. auto. Qed.
Print Assumptions C23_alignment.
Print Assumptions C23_length.

(* ===== C40 command line flags ===== *)
Theorem C40_flags args :
  (print_full_document (options_new args) = true <-> In (lit "--full-doc") args) /\
  (generate_class_file (options_new args) = true <-> In (lit "--aplus-cls") args).
Proof.
  destruct (options_fold args (MkOptions StdOut false false)) as [H1 H2]. unfold options_new.
  rewrite H1, H2. cbn [print_full_document generate_class_file orb]. unfold flag.
  rewrite !str_mem_In. split; reflexivity.
Qed.
Theorem C40_last_output_choice before choice after :
  choice = lit "--to-stdout" \/ choice = lit "--to-file" ->
  Forall (fun a => a <> lit "--to-stdout" /\ a <> lit "--to-file") after ->
  output_stream (options_new (before ++ choice :: after)) =
  if str_eqb choice (lit "--to-file") then ToFile else StdOut.
Proof. exact (options_stream_last before choice after). Qed.
Theorem C40_default_stdout args :
  Forall (fun a => a <> lit "--to-stdout" /\ a <> lit "--to-file") args ->
  output_stream (options_new args) = StdOut.
Proof. exact (options_stream_none args). Qed.
Theorem C40_unknown_ignored before x after :
  x <> lit "--to-stdout" -> x <> lit "--to-file" -> x <> lit "--full-doc" -> x <> lit "--aplus-cls" ->
  options_new (before ++ x :: after) = options_new (before ++ after).
Proof. exact (options_unknown before x after). Qed.
Example C40_ex : options_new [lit "rustla"; lit "--to-file"; lit "--full-doc"; lit "--to-stdout"; lit "in.rst"]
  = MkOptions StdOut true false.
Proof. vm_compute. reflexivity. Qed.
Print Assumptions C40_flags.

(* ===== C44 stripping indentation ===== *)
(* returned line: exactly the first n characters are gone, all white space *)
Theorem C44_removes_only_space line n r : line <> [] -> strip_indent line n = Ret (Some r) <->
  exists p, line = p ++ r /\ length p = n /\ all_ws p.
Proof. intros Hne. destruct line as [|c l]; [congruence|]. exact (strip_loop_some (c :: l) n r). Qed.
Theorem C44_not_indented line n : strip_indent line n = Ret None <->
  exists p c t, line = p ++ c :: t /\ (length p < n)%nat /\ all_ws p /\ is_whitespace c = false.
Proof.
  destruct line as [|c l]; [|exact (strip_loop_none (c :: l) n)].
  split; [discriminate|]. intros (p & d & t & E & _). destruct p; discriminate.
Qed.
Theorem C44_empty n : strip_indent [] n = Ret (Some []).
Proof. reflexivity. Qed.
(* full statement: always one of these two results.  False: *)
Theorem C44_total_refuted : ~ (forall line n, exists r, strip_indent line n = Ret r).
Proof. intros H. destruct (H (lit "  ") 3%nat) as [r E]. vm_compute in E. discriminate. Qed.
(* the one remaining outcome: a white-space-only line shorter than n panics *)
Theorem C44_panics line n : strip_indent line n = Panic <-> line <> [] /\ all_ws line /\ (length line < n)%nat.
Proof.
  destruct line as [|c l].
  - split; [discriminate|]. intros [H _]. congruence.
  - etransitivity; [exact (strip_loop_panic (c :: l) n)|]. split; [intros H; split; [discriminate|exact H]|intros [_ H]; exact H].
Qed.
Theorem C44_terminates line n : strip_indent line n <> OutOfFuel.
Proof. destruct line; [discriminate|]. exact (strip_loop_no_fuel _ n). Qed.
Example C44_ex : strip_indent (lit "   text") 2 = Ret (Some (lit " text")) /\ strip_indent (lit " text") 3 = Ret None
  /\ strip_indent (lit "  ") 3 = Panic.
Proof. vm_compute. auto. Qed.
Print Assumptions C44_removes_only_space.

(* ===== C45 line splitting ===== *)
Theorem C45_lossless s :
  exists fin, (fin = [] \/ fin = [newline]) /\ drop_cr s = join [newline] (str_to_lines s) ++ fin.
Proof. exact (lines_join s). Qed.
Theorem C45_no_newline s l : In l (str_to_lines s) -> ~ In newline l.
Proof. exact (lines_no_newline s l). Qed.
Example C45_ex : str_to_lines (lit "ab" ++ [13; 10] ++ lit "c" ++ [10; 10] ++ lit "d" ++ [10]) = [lit "ab"; lit "c"; []; lit "d"].
Proof. vm_compute. reflexivity. Qed.
Print Assumptions C45_lossless.
