(* LeafProofs.v -- directives without contents of their own: listings, pictures
   and formulas (used for C47). *)
From Verif Require Import Base Unicode Regex Patterns Common Converters NodeTypes Tree DocTree History Blocks Prog ParseLoop
  Inline Body Directives Parser Spec RegexProofs BlockProofs TreeProofs DocTreeProofs HyperrefProofs InlineSpec RegexGroups InlineProofs LoopProofs
  Utf8Latex Writer WriterProofs Transforms TextProofs OpenProofs DirectiveSpec DirectiveProofs SimpleSpec LineProofs Properties7 RunProofs MarkerProofs StepProofs ParaProofs LeaveProofs GroupProofs
  OpenerProofs.

(* ---------- option lines ---------- *)
Lemma all_ws_pad k : all_ws (repeat 32%N k).
Proof. unfold all_ws. apply Forall_forall. intros x Hx. apply repeat_spec in Hx. now subst. Qed.
Lemma name_ink c : is_ascii_alnum c || N.eqb c 45 || N.eqb c 95 = true -> is_whitespace c = false /\ c <> 58%N /\ c <> 92%N /\ c <> 10%N.
Proof.
  intros H. assert (A : forall c, is_ascii_alnum c = true -> is_whitespace c = false /\ c <> 58%N /\ c <> 92%N /\ c <> 10%N).
  { clear. intros c H. pose proof (alnum_starter _ H) as S. apply starter_spec in S as (S & _). split; [exact S|].
    unfold is_ascii_alnum, is_ascii_alpha, is_ascii_upper, is_ascii_lower, is_ascii_digit, in_range in H.
    rewrite ?orb_true_iff, ?andb_true_iff, ?N.leb_le in H. lia. }
  apply orb_true_iff in H as [H|H]; [apply orb_true_iff in H as [H|H]; [now apply A|]|]; apply N.eqb_eq in H; subst c; (split; [reflexivity|]); repeat split; discriminate.
Qed.
Lemma setting_syntax w kv : all_ws w -> setting_ok kv = true -> option_syntax w (fst kv) (after_space (snd kv)) (w ++ setting_line kv) /\ ~ In 58%N (fst kv).
Proof.
  intros Hw H. unfold setting_ok in H. apply andb_true_iff in H as [H _]. apply andb_true_iff in H as [H _]. apply andb_true_iff in H as [Hne Hch].
  destruct kv as [k v]. cbn [fst snd] in *. assert (Hall : Forall (fun c => is_whitespace c = false /\ c <> 58%N /\ c <> 92%N /\ c <> 10%N) k).
  { apply Forall_forall. intros c Hc. rewrite forallb_forall in Hch. apply name_ink, Hch, Hc. }
  rewrite Forall_forall in Hall. split.
  2:{ intros Hin. apply Hall in Hin. tauto. }
  unfold option_syntax. split; [unfold setting_line; reflexivity|]. split; [exact Hw|]. split.
  2:{ destruct v as [|c v]; [now left|right; exists (c :: v); reflexivity]. }
  destruct k as [|a k]; [discriminate|]. split; [exists a, k; split; [reflexivity|apply Hall; now left]|].
  destruct (exists_last (l := a :: k) ltac:(discriminate)) as (l' & y & Ey). rewrite Ey in *.
  split; [exists y, l'; split; [reflexivity|apply Hall, in_or_app; right; now left]|]. split.
  - intros t Et. apply app_inj_tail in Et as [_ ->]. assert (In 92%N (l' ++ [92%N])) by (apply in_or_app; right; now left). apply Hall in H. tauto.
  - intros a0 t b E Hin. assert (In 10%N (l' ++ [y])) by (rewrite E; right; apply in_or_app; now left). apply Hall in H. tauto.
Qed.
Lemma snug_trim l : snug l = true -> trim l = l.
Proof. intros H. now apply str_eqb_eq. Qed.
Lemma trim_lead l : trim (32%N :: l) = trim l.
Proof. reflexivity. Qed.
Lemma trim_ws_app a b : all_ws a -> trim (a ++ b) = trim b.
Proof. intros H. unfold trim. now rewrite trim_start_ws. Qed.
Lemma setting_read j kv : setting_ok kv = true -> let line := pad j (setting_line kv) in
  blank line = false /\ indent_of line = j /\
  exists cs, captures FIELD_MARKER line = Some cs /\ length (opt_cap 1 cs) = j /\ (trim (opt_cap 2 cs), trim (skipn (length (whole cs)) line)) = kv.
Proof.
  intros H line. pose proof (setting_syntax (repeat 32%N j) kv (all_ws_pad j) H) as [S Hc].
  destruct (marker_captures _ _ _ _ S Hc) as (cs & a & b & E & C1 & C2 & Er & Ha & Hlen & _). subst line. unfold pad.
  split; [apply ink_not_blank; reflexivity|]. split; [exact (eq_trans (ink_indent _ 58%N _ (ws_pad j) eq_refl) (pad_length j))|].
  exists cs. split; [exact E|]. unfold opt_cap. rewrite C1, C2. split; [apply pad_length|].
  destruct kv as [k v]. cbn [fst snd] in *. f_equal.
  - destruct S as (_ & _ & (Hs & He & _) & _). symmetry. apply trimmed_is. exists [], []. split; [now rewrite app_nil_r|]. split; [constructor|]. split; [constructor|]. right. now split.
  - unfold setting_ok in H. apply andb_true_iff in H as [_ Hv]. cbn [snd] in Hv. apply snug_trim in Hv. etransitivity; [|exact Hv].
    replace (trim v) with (trim (after_space v)) by (destruct v; reflexivity). rewrite Er, trim_ws_app by exact Ha. f_equal.
    unfold setting_line. cbn [fst snd]. rewrite Er.
    replace (repeat 32%N j ++ lit ":" ++ k ++ lit ":" ++ a ++ b) with ((repeat 32%N j ++ lit ":" ++ k ++ lit ":" ++ a) ++ b) by (now rewrite <- !app_assoc).
    replace (length (whole cs)) with (length (repeat 32%N j ++ lit ":" ++ k ++ lit ":" ++ a)).
    { rewrite skipn_app, skipn_all, Nat.sub_diag. reflexivity. }
    rewrite Hlen. rewrite !app_length. change (length (lit ":")) with 1. reflexivity.
Qed.
(* what follows the options *)
Definition gap_head (rest : list str) : Prop := rest = [] \/ exists r, rest = [] :: r.
Definition ended (tail : list str) : bool := match tail with [] => false | _ => true end.
Lemma options_read j opts tail : forallb setting_ok opts = true -> gap_head tail ->
  option_lines (map (shifted j) (map setting_line opts) ++ tail) j = (opts, ended tail).
Proof.
  intros H Ht. induction opts as [|kv opts IH].
  - cbn [map app]. destruct Ht as [-> | (r & ->)]; reflexivity.
  - cbn [forallb] in H. apply andb_true_iff in H as [Hk H]. cbn [map app].
    replace (shifted j (setting_line kv)) with (pad j (setting_line kv)) by reflexivity.
    destruct (setting_read j kv Hk) as (Hb & _ & cs & E & C1 & C2). cbn [option_lines]. rewrite Hb, E, C1, Nat.eqb_refl. cbn [negb].
    rewrite IH by exact H. now rewrite C2.
Qed.

(* ---------- the marker line ---------- *)
Definition args_of (arg : str) : list str := match arg with [] => [] | _ => [arg] end.
Lemma not_field arg : argument_ok arg = true -> arg <> [] -> is_match FIELD_MARKER arg = false.
Proof.
  intros H Hne. destruct (argument_starts _ H) as [-> | (c & t & -> & Hc & H58)]; [congruence|].
  destruct (is_match FIELD_MARKER (c :: t)) eqn:E; [|reflexivity]. apply option_like_match in E as (w & n & r & Es & Hw & _). exfalso.
  destruct w as [|x w]; [apply (f_equal (hd 0%N)) in Es; exact (H58 Es)|]. apply (f_equal (hd 0%N)) in Es. cbn in Es. subst x. apply Forall_inv in Hw. congruence.
Qed.
Lemma arg_not_blank arg : argument_ok arg = true -> blank arg = match arg with [] => true | _ => false end.
Proof. intros H. destruct (argument_starts _ H) as [-> | (c & t & -> & Hc & _)]; [reflexivity|]. cbn. now rewrite Hc. Qed.
Lemma after_marker w name arg : skipn (length (w ++ lit ".. " ++ name ++ lit "::" ++ lead arg)) (w ++ marker_line name arg) = arg.
Proof.
  unfold marker_line. replace (w ++ lit ".. " ++ name ++ lit "::" ++ after_space arg) with ((w ++ lit ".. " ++ name ++ lit "::" ++ lead arg) ++ arg).
  - rewrite skipn_app, skipn_all, Nat.sub_diag. reflexivity.
  - replace (after_space arg) with (lead arg ++ arg) by (destruct arg; reflexivity). now rewrite <- !app_assoc.
Qed.
Definition tail_of (opts : settings) (body rest : list str) (k : nat) : list str :=
  map (shifted (k + 3)) (map setting_line opts ++ below body) ++ rest.
(* the line of the marker is not continued *)
Lemma argument_lines_stop k m opts body rest first : forallb setting_ok opts = true -> gap_head rest ->
  (opts <> [] \/ body <> [] -> m = k + 3) -> argument_lines (tail_of opts body rest k) m first false = [].
Proof.
  intros Ho Hr Hm. unfold tail_of. destruct opts as [|kv opts].
  - cbn [map app]. destruct body as [|l body]; cbn [below map app].
    + destruct Hr as [-> | (r & ->)]; [reflexivity|]. cbn. destruct (negb _); reflexivity.
    + cbn. destruct (negb _); reflexivity.
  - cbn [forallb] in Ho. apply andb_true_iff in Ho as [Hk _]. cbn [map app argument_lines].
    replace (shifted (k + 3) (setting_line kv)) with (pad (k + 3) (setting_line kv)) by reflexivity.
    destruct (setting_read (k + 3) kv Hk) as (Hb & Hi & _). rewrite Hi, Hm by (left; discriminate). rewrite Nat.eqb_refl. cbn [negb andb].
    pose proof (setting_syntax [] kv (Forall_nil _) Hk) as [S _].
    assert (M : is_match FIELD_MARKER (trim (pad (k + 3) (setting_line kv))) = true).
    { unfold pad. rewrite trim_ws_app by apply all_ws_pad. apply option_like_match. cbn [app] in S.
      destruct kv as [a v]. cbn [fst snd] in *. unfold setting_ok in Hk. apply andb_true_iff in Hk as [_ Hv]. cbn [snd] in Hv. apply snug_trim in Hv.
      assert (E : trim (setting_line (a, v)) = setting_line (a, v)).
      { symmetry. apply trimmed_is. exists [], []. split; [now rewrite app_nil_r|]. split; [constructor|]. split; [constructor|]. right. split.
        - exists 58%N. eexists. split; reflexivity.
        - unfold setting_line. cbn [fst snd]. destruct v as [|c v].
          + exists 58%N, (lit ":" ++ a). split; [cbn [after_space]; rewrite app_nil_r; reflexivity|reflexivity].
          + pose proof (trim_trimmed (c :: v)) as T. rewrite Hv in T. destruct T as (_ & _ & _ & _ & _ & [T|[_ (y & u & Eu & Hy)]]); [discriminate|].
            exists y, (lit ":" ++ a ++ lit ":" ++ 32%N :: u). split; [|exact Hy]. cbn [after_space]. rewrite Eu, <- !app_assoc. reflexivity. }
      rewrite E. eexists _, _, _. exact S. }
    rewrite M, orb_true_r. reflexivity.
Qed.

Lemma shifted_blank b l : blank (shifted b l) = blank l.
Proof. destruct l; [reflexivity|]. unfold shifted, pad. rewrite blank_app. replace (blank (repeat 32%N b)) with true; [reflexivity|]. symmetry. apply ws_pad. Qed.
Lemma shifted_indent b l : blank l = false -> indent_of (shifted b l) = b + indent_of l.
Proof. destruct l as [|c l]; [discriminate|]. intros _. unfold shifted, pad. induction b; [reflexivity|]. cbn [repeat app indent_of Nat.add]. change (is_whitespace 32%N) with true. cbn iota. now rewrite IHb. Qed.
Lemma shifted_skip b l : skipn b (shifted b l) = l.
Proof. destruct l; [apply skipn_nil|apply pad_skip]. Qed.

(* ---------- the lines below ---------- *)
Lemma block_loop k b rest : low_head k rest -> k < b -> forall X prev m,
  exists bf, indented_loop (map (shifted b) X ++ rest) prev false (Some b) false (Some m) = (map (shifted b) X, Some m, bf).
Proof.
  intros Hr Hb. induction X as [|l X IH]; intros prev m.
  - cbn [map app]. destruct rest as [|l rest]; [cbn; eauto|]. cbn in Hr. destruct Hr as [Hr1 Hr2]. cbn [indented_loop]. rewrite Hr1.
    replace (indent_of l <? b) with true by (symmetry; apply Nat.ltb_lt; lia). rewrite orb_true_r. cbn [negb andb]. eauto.
  - cbn [map app indented_loop]. rewrite andb_false_r.
    replace (negb (blank (shifted b l)) && ((indent_of (shifted b l) <? 1) || (indent_of (shifted b l) <? b))) with false.
    2:{ symmetry. destruct (blank (shifted b l)) eqn:E; [reflexivity|]. rewrite shifted_blank in E. rewrite (shifted_indent _ _ E). cbn [negb andb].
        apply orb_false_iff. split; apply Nat.ltb_ge; lia. }
    destruct (IH (Some (shifted b l)) m) as (bf & E). rewrite E. eauto.
Qed.
Lemma read_block src q k b X rest first : skipn q src = map (shifted b) X ++ rest -> X <> [] -> low_head k rest -> k < b ->
  first = None \/ first = Some b ->
  exists bf, read_indented_block src q false true (Some b) first false = Ret (Some (MkIndentedBlock X b (length X) bf)).
Proof.
  intros E Hne Hr Hb Hf. destruct X as [|l X]; [congruence|]. cbn [map app] in E. apply skipn_cons in E as [Hl Hrest].
  destruct (block_loop k b rest Hr Hb X (Some (shifted b l)) b) as (bf & El). exists bf.
  unfold read_indented_block. destruct src as [|s0 src0] eqn:Es; [destruct q; discriminate|]. rewrite <- Es in *.
  unfold checked_sub. replace (q <=? length src) with true by (symmetry; apply Nat.leb_le, Nat.lt_le_incl, nth_error_Some; congruence).
  replace (match first with None => Some b | Some _ => first end) with (Some b) by (destruct Hf as [-> | ->]; reflexivity).
  cbn [obind]. rewrite Hl. cbn [unwrap obind]. rewrite Hrest, El. cbn [obind unwrap strip_block].
  rewrite shifted_skip, map_map, (map_ext _ (fun l => l)), map_id by (intros; apply shifted_skip).
  cbn [length]. reflexivity.
Qed.
(* ---------- numbers ---------- *)
Lemma pow10_spec n : pow10 n = (10 ^ N.of_nat n)%N.
Proof. induction n as [|n IH]; [reflexivity|]. cbn [pow10]. rewrite IH, Nat2N.inj_succ, N.pow_succ_r'. reflexivity. Qed.
Lemma nearest_spec num d : (0 < d)%N -> ((200 * num + d) / (2 * d))%N = nearest (100 * num) d.
Proof.
  intros Hd. unfold nearest. set (n := (100 * num)%N). replace (200 * num)%N with (2 * n)%N by (unfold n; lia).
  pose proof (N.div_mod n d ltac:(lia)) as Hdm. pose proof (N.mod_lt n d ltac:(lia)) as Hm.
  set (q := (n / d)%N) in *. set (r := (n mod d)%N) in *.
  destruct (N.ltb_spec (2 * r) d) as [H|H].
  - symmetry. apply N.div_unique with (r := (2 * r + d)%N); lia.
  - symmetry. apply N.div_unique with (r := (2 * r - d)%N); lia.
Qed.
Lemma two_digits : forallb (fun n => let x := N.of_nat n in let f := dec x in
  str_eqb (zeros (2 - length f) ++ f) (dec (x / 10) ++ dec (x mod 10))) (seq 0 100) = true.
Proof. vm_compute. reflexivity. Qed.
Lemma fmt2_nearest num den : (0 < den)%N -> fmt2 num den = as_hundredths (nearest (100 * num) den).
Proof.
  intros Hd. unfold fmt2, as_hundredths. rewrite nearest_spec by exact Hd. set (h := nearest (100 * num) den). f_equal. f_equal.
  pose proof two_digits as T. rewrite forallb_forall in T. pose proof (N.mod_lt h 100 ltac:(discriminate)) as Hl.
  specialize (T (N.to_nat (h mod 100))). rewrite N2Nat.id in T.
  assert (E : zeros (2 - length (dec (h mod 100))) ++ dec (h mod 100) = dec (h mod 100 / 10) ++ dec ((h mod 100) mod 10)).
  { apply str_eqb_eq. apply T. apply in_seq. lia. }
  etransitivity; [exact E|].
  replace (h / 10 mod 10)%N with (h mod 100 / 10)%N.
  2:{ change 100%N with (10 * 10)%N. rewrite N.mod_mul_r by discriminate. rewrite (N.mul_comm 10 (_ mod _)), N.div_add by discriminate.
      rewrite N.div_small by (apply N.mod_lt; discriminate). apply N.add_0_l. }
  replace ((h mod 100) mod 10)%N with (h mod 10)%N; [reflexivity|].
  change 100%N with (10 * 10)%N. rewrite N.mod_mul_r by discriminate. rewrite (N.mul_comm 10 (_ mod _)), N.mod_add by discriminate.
  now rewrite N.mod_mod by discriminate.
Qed.
Lemma fmt2_spec f : fmt2_fnum f = two_decimals f.
Proof.
  unfold fmt2_fnum, two_decimals, hundredths. rewrite fmt2_nearest, pow10_spec; [reflexivity|]. rewrite pow10_spec. apply N.neq_0_lt_0, N.pow_nonzero. discriminate.
Qed.

(* ---------- the nodes ---------- *)
Lemma opt_setting key opts : opt (insert_all opts) key = setting key opts.
Proof. unfold opt, setting. apply insert_all_spec. Qed.
Lemma dec_cat l : join [] [l] = l. Proof. reflexivity. Qed.
Definition picture_node (uri : str) (opts : settings) : TreeNodeType :=
  NImage uri (setting "alt" opts) (meant str_to_length (setting "height" opts)) (meant str_to_length (setting "width" opts))
    (meant str_to_percentage (setting "scale" opts)) (meant str_to_html_alignment (setting "align" opts))
    (setting "target" opts) (setting "name" opts) (setting "class" opts) false.
Lemma image_writes ord full uri opts align target name class : let node := NImage uri (setting "alt" opts) (meant str_to_length (setting "height" opts)) (meant str_to_length (setting "width" opts))
    (meant str_to_percentage (setting "scale" opts)) (meant str_to_html_alignment align) target name class false in
  forall refs, exists pre, pre_string ord full node refs = Ret pre /\ post_string full node refs = Ret nl1 /\ pre ++ nl1 = image_latex uri opts align.
Proof.
  intros node refs. eexists. split; [reflexivity|]. split; [reflexivity|]. unfold image_latex. cbn zeta.
  unfold option_list, opt_item, shown, meant, braces. rewrite <- !app_assoc. f_equal.
  destruct (setting "scale" opts) as [v|]; cbn [meant]; [destruct (str_to_percentage v) as [pc|]; [rewrite fmt2_spec|]|]; reflexivity.
Qed.
Lemma picture_writes ord full uri opts : exists pre, pre_string ord full (picture_node uri opts) None = Ret pre /\
  post_string full (picture_node uri opts) None = Ret nl1 /\ pre ++ nl1 = picture_latex uri opts.
Proof. apply (image_writes ord full uri opts (setting "align" opts)). Qed.

(* ---------- options with commas after them ---------- *)
Definition commas (given : list str) : str := flat_map (fun v => v ++ lit ",") given.
Lemma bracketed_commas given : bracketed (commas given) = each_comma given.
Proof.
  unfold each_comma, bracketed, brackets. destruct given as [|g given]; [reflexivity|]. fold (commas (g :: given)).
  destruct (commas (g :: given)) eqn:E; [|reflexivity]. exfalso. unfold commas in E. cbn [flat_map] in E. destruct g; discriminate.
Qed.
Lemma commas_app a b : commas (a ++ b) = commas a ++ commas b. Proof. apply flat_map_app. Qed.
Lemma commas_given k opts : opt_part (lit k ++ lit "=") (setting k opts) = commas (as_given k opts).
Proof. unfold as_given, shown, opt_part, commas. destruct (setting k opts); [|reflexivity]. cbn [flat_map]. rewrite app_nil_r, <- !app_assoc. reflexivity. Qed.
Lemma commas_length k opts : opt_part (lit k ++ lit "=") (Datatypes.option_map rst_length_to_string (meant str_to_length (setting k opts))) = commas (as_length k opts).
Proof. unfold as_length, shown, opt_part, commas. destruct (meant str_to_length (setting k opts)); [|reflexivity]. cbn [flat_map Datatypes.option_map]. rewrite app_nil_r, <- !app_assoc. reflexivity. Qed.
Lemma commas_flag k opts : flag_part (lit k) (some_flag (setting k opts)) = commas (flag k opts).
Proof. unfold flag, shown, flag_part, some_flag, commas. destruct (setting k opts); [|reflexivity]. cbn [flat_map]. rewrite app_nil_r. reflexivity. Qed.
Lemma commas_one v : commas [v] = v ++ comma. Proof. unfold commas. cbn [flat_map]. now rewrite app_nil_r. Qed.

(* ---------- active elements ---------- *)
Lemma in_one_of l names : one_of l names = true -> In l names.
Proof. unfold one_of. intros H. apply existsb_exists in H as (x & Hx & E). apply TextProofs.str_eqb_eq in E. now subst. Qed.
Definition input_node (key : str) (opts : settings) : TreeNodeType :=
  NAplusActiveElementInput key (setting "title" opts) (setting "default" opts) (setting "class" opts)
    (meant str_to_length (setting "width" opts)) (meant str_to_length (setting "height" opts))
    (meant clear_of (setting "clear" opts)) (meant input_type_of (setting "type" opts))
    (match setting "type" opts with Some t => if str_eqb t (lit "clickable") then setting "file" opts else None | None => None end).
Lemma clear_cases v : one_of v (map lit ["both"; "left"; "right"]%string) = true -> exists c, clear_of v = Some c /\ clear_str c = lit "clear=" ++ v.
Proof. intros H. apply in_one_of in H. cbn [map In] in H. repeat (destruct H as [<-|H]; [eexists; split; vm_compute; reflexivity|]). contradiction. Qed.
Lemma clear_none v : one_of v (map lit ["both"; "left"; "right"]%string) = false -> clear_of v = None.
Proof.
  unfold one_of, clear_of. cbn [map existsb]. rewrite !orb_false_iff. intros (E1 & E2 & E3 & _). now rewrite E1, E2, E3.
Qed.
Lemma split_no_colon v : forallb (fun c => negb (N.eqb c 58)) v = true -> split_on (ch ":") v = [v].
Proof.
  unfold split_on. change (ch ":") with 58%N. intros Hv. assert (G : forall cur, split_on_aux 58%N v cur = [rev cur ++ v]); [|apply (G [])]. revert Hv. induction v as [|c v IH]; intros H cur.
  - cbn. now rewrite app_nil_r.
  - cbn [forallb] in H. apply andb_true_iff in H as [Hc H]. apply negb_true_iff in Hc. cbn [split_on_aux]. rewrite Hc, (IH H). cbn [rev]. now rewrite <- app_assoc.
Qed.
Lemma input_type_cases v : input_type v = true -> exists t, input_type_of v = Some t /\
  match t with AEFile => lit "type=file" | AEClickable => lit "type=clickable" | AEDropdown o => lit "type=dropdown:" ++ o end = lit "type=" ++ v /\
  str_eqb v (lit "clickable") = match t with AEClickable => true | _ => false end.
Proof.
  unfold input_type. intros H. apply orb_true_iff in H as [H|H].
  - apply in_one_of in H. cbn [map In] in H. repeat (destruct H as [<-|H]; [eexists; split; [vm_compute; reflexivity|split; vm_compute; reflexivity]|]). contradiction.
  - apply andb_true_iff in H as [H Hc]. apply TextProofs.str_eqb_eq in H. rewrite <- (firstn_skipn 9 v), H. set (o := skipn 9 v) in *. exists (AEDropdown o).
    split; [|split; reflexivity]. unfold input_type_of. replace (str_eqb (lit "dropdown:" ++ o) (lit "file")) with false by reflexivity.
    replace (str_eqb (lit "dropdown:" ++ o) (lit "clickable")) with false by reflexivity.
    replace (starts_with (lit "dropdown:") (lit "dropdown:" ++ o)) with true by reflexivity.
    replace (split_on (ch ":") (lit "dropdown:" ++ o)) with (lit "dropdown" :: split_on (ch ":") o) by reflexivity.
    rewrite split_no_colon by exact Hc. reflexivity.
Qed.
Lemma input_written ord full key opts : leaf_ok (Input key opts) = true ->
  exists pre, pre_string ord full (input_node key opts) None = Ret pre /\ post_string full (input_node key opts) None = Ret nl2 /\ pre ++ nl2 = input_latex key opts.
Proof.
  unfold leaf_ok. intros H. apply andb_true_iff in H as [_ H]. apply andb_true_iff in H as [H Hty]. apply andb_true_iff in H as [_ Hcl].
  eexists. split; [reflexivity|]. split; [reflexivity|]. unfold input_latex. cbv zeta. rewrite <- bracketed_commas, !commas_app.
  match goal with |- (lit "\aeinput" ++ bracketed ?a ++ _) ++ _ = lit "\aeinput" ++ bracketed ?b ++ _ => assert (E : a = b) end.
  { f_equal; [exact (commas_given "default" opts)|]. f_equal; [exact (commas_given "class" opts)|].
    f_equal; [exact (commas_length "width" opts)|]. f_equal; [exact (commas_length "height" opts)|]. f_equal; [|f_equal].
    - unfold limited in Hcl. unfold as_given. destruct (setting "clear" opts) as [v|]; [|reflexivity]. destruct (clear_cases v Hcl) as (c & Ec & Ew).
      cbn [meant shown]. rewrite Ec, commas_one. cbn [Datatypes.option_map opt_part app]. rewrite Ew. reflexivity.
    - unfold as_given. destruct (setting "type" opts) as [v|]; [|reflexivity]. destruct (input_type_cases v Hty) as (t & Et & Ew & _).
      cbn [meant shown]. rewrite Et, commas_one. change (lit "type" ++ lit "=" ++ v) with (lit "type=" ++ v). rewrite <- Ew. destruct t; try reflexivity.
    - destruct (setting "type" opts) as [v|]; [|reflexivity]. destruct (input_type_cases v Hty) as (t & Et & _ & Ec). cbn [meant]. rewrite Et, Ec. destruct t; try reflexivity.
      rewrite <- (commas_given "file" opts). destruct (setting "file" opts); reflexivity. }
  unfold str in *. rewrite E. unfold braces, or_else. rewrite <- !app_assoc. reflexivity.
Qed.
Definition output_node (key : str) (opts : settings) : TreeNodeType :=
  NAplusActiveElementOutput key (or_else (setting "config" opts) []) (or_else (setting "inputs" opts) []) (setting "title" opts) (setting "class" opts)
    (meant str_to_length (setting "width" opts)) (meant str_to_length (setting "height" opts)) (meant clear_of (setting "clear" opts))
    (match setting "type" opts with Some t => if str_eqb t (lit "image") then AEImage else AEText | None => AEText end)
    (meant parse_u32 (setting "submissions" opts)) (some_flag (setting "scale-size" opts)) (exercise_status (setting "status" opts)).
Lemma status_written opts : forallb setting_ok opts = true -> submit_status (exercise_status (setting "status" opts)) = lit "status=" ++ status_of opts /\
  output_status (exercise_status (setting "status" opts)) = lit "status=" ++ (if str_eqb (status_of opts) (lit "enrollment_ext") then lit "enrollment-ext" else status_of opts).
Proof.
  intros Ho. unfold status_of, exercise_status. destruct (setting "status" opts) as [v|] eqn:Ev; [|split; reflexivity].
  replace (trim v) with v.
  2:{ symmetry. assert (Hin : In (lit "status", v) opts).
      { clear Ho. unfold setting in Ev. assert (G : forall acc, last_value (lit "status") opts acc = Some v -> In (lit "status", v) opts \/ acc = Some v).
        { clear Ev. induction opts as [|[a b] os IH]; intros acc H; [now right|]. cbn [last_value] in H. apply IH in H as [H|H]; [left; now right|].
          destruct (str_eqb (lit "status") a) eqn:E; [|now right]. apply TextProofs.str_eqb_eq in E. left. left. rewrite <- E. congruence. }
        apply G in Ev as [H|H]; [exact H|discriminate]. }
      rewrite forallb_forall in Ho. apply Ho in Hin. unfold setting_ok in Hin. apply andb_true_iff in Hin as [_ Hin]. now apply snug_trim in Hin. }
  unfold one_of. cbn [map existsb].
  destruct (str_eqb v (lit "ready")) eqn:E1; [apply TextProofs.str_eqb_eq in E1; subst v; split; reflexivity|].
  destruct (str_eqb v (lit "hidden")) eqn:E2; [apply TextProofs.str_eqb_eq in E2; subst v; split; reflexivity|].
  destruct (str_eqb v (lit "enrollment")) eqn:E3; [apply TextProofs.str_eqb_eq in E3; subst v; split; reflexivity|].
  destruct (str_eqb v (lit "enrollment_ext")) eqn:E4; [apply TextProofs.str_eqb_eq in E4; subst v; split; reflexivity|].
  destruct (str_eqb v (lit "maintenance")) eqn:E5; [apply TextProofs.str_eqb_eq in E5; subst v; split; reflexivity|]. split; reflexivity.
Qed.
Lemma output_written ord full key opts : leaf_ok (Output key opts) = true ->
  exists pre, pre_string ord full (output_node key opts) None = Ret pre /\ post_string full (output_node key opts) None = Ret nl2 /\ pre ++ nl2 = output_latex key opts.
Proof.
  unfold leaf_ok. intros H. apply andb_true_iff in H as [Ho H]. apply andb_true_iff in Ho as [_ Ho]. cbn [leaf_settings] in Ho. apply andb_true_iff in H as [H Hin]. apply andb_true_iff in H as [_ Hcf].
  eexists. split; [reflexivity|]. split; [reflexivity|]. unfold output_latex. cbv zeta. rewrite <- bracketed_commas, !commas_app.
  match goal with |- (lit "\aeoutput" ++ bracketed ?a ++ _) ++ _ = lit "\aeoutput" ++ bracketed ?b ++ _ => assert (E : a = b) end.
  { destruct (setting "config" opts) as [cf|] eqn:Ecf; [|discriminate].
    assert (Ec : commas (as_given "config" opts) = lit "config=" ++ cf ++ comma) by (rewrite <- (commas_given "config" opts), Ecf; reflexivity).
    rewrite Ec. cbn [or_else]. rewrite <- (app_assoc (lit "config=")), <- (app_assoc cf). do 3 f_equal. f_equal; [exact (commas_given "class" opts)|].
    f_equal; [exact (commas_length "width" opts)|]. f_equal; [exact (commas_length "height" opts)|]. f_equal; [|f_equal; [|f_equal; [|f_equal]]].
    - unfold limited, as_given. destruct (setting "clear" opts) as [v|]; [|reflexivity]. destruct (one_of v _) eqn:Eo.
      + destruct (clear_cases v Eo) as (c & Ecl & Ew). cbn [meant shown]. rewrite Ecl, commas_one. cbn [Datatypes.option_map opt_part app]. rewrite Ew. reflexivity.
      + cbn [meant]. now rewrite (clear_none v Eo).
    - rewrite commas_one. destruct (setting "type" opts) as [v|]; [|reflexivity]. destruct (str_eqb v (lit "image")) eqn:E; [|reflexivity].
      apply TextProofs.str_eqb_eq in E. subst v. reflexivity.
    - destruct (meant parse_u32 (setting "submissions" opts)); [|reflexivity]. cbn [shown Datatypes.option_map opt_part]. rewrite commas_one, <- app_assoc. reflexivity.
    - exact (commas_flag "scale-size" opts).
    - rewrite commas_one. destruct (status_written opts Ho) as [_ Es]. now rewrite Es. }
  unfold str in *. rewrite E. unfold braces. rewrite <- !app_assoc. unfold or_else. destruct (setting "inputs" opts); reflexivity.
Qed.

(* ---------- listings ---------- *)
Lemma drop_empty_repeat g X : drop_empty (repeat [] g ++ X) = drop_empty X.
Proof. induction g; [reflexivity|]. exact IHg. Qed.
Lemma drop_empty_id l X : l <> [] -> drop_empty (l :: X) = l :: X.
Proof. destruct l; [congruence|reflexivity]. Qed.
Lemma rev_repeat {A} (x : A) n : rev (repeat x n) = repeat x n.
Proof.
  induction n as [|n IH]; [reflexivity|]. cbn [repeat rev]. rewrite IH. clear. induction n as [|n IH]; [reflexivity|]. cbn [repeat app]. now rewrite IH.
Qed.
Lemma trim_empty_listing g g' ls : (exists l X, ls = l :: X /\ l <> []) -> last ls [] <> [] ->
  trim_empty (repeat [] g ++ ls ++ repeat [] g') = ls.
Proof.
  intros (l & X & -> & Hl) Hlast. unfold trim_empty. rewrite drop_empty_repeat. cbn [app]. rewrite (drop_empty_id l) by exact Hl.
  destruct (exists_last (l := l :: X) ltac:(discriminate)) as (Y & y & E). rewrite app_comm_cons, E in *. rewrite last_last in Hlast.
  rewrite !rev_app_distr, rev_repeat, drop_empty_repeat. cbn [rev app]. rewrite drop_empty_id by exact Hlast.
  cbn [rev]. now rewrite rev_involutive.
Qed.

(* ---------- formulas ---------- *)
Definition glue (ls : list str) : str := concat (map (cons newline) ls).
Lemma math_blocks_lines tail : forall ls blk, forallb (fun l => negb (blank l)) ls = true ->
  math_blocks (ls ++ tail) blk = math_blocks tail (blk ++ glue ls).
Proof.
  induction ls as [|l ls IH]; intros blk H; [cbn [glue map concat app]; now rewrite app_nil_r|]. cbn [forallb] in H. apply andb_true_iff in H as [Hl H].
  cbn [app math_blocks]. rewrite Hl, IH by exact H. cbn [glue map concat]. fold (glue ls). rewrite <- app_assoc. reflexivity.
Qed.
Lemma formula_lines f : formula_ok f = true -> f <> [] /\ forallb (fun l => negb (blank l)) f = true /\ snug (join [newline] f) = true.
Proof.
  unfold formula_ok. intros H. apply andb_true_iff in H as [H Hs]. apply andb_true_iff in H as [Hne Hl]. split; [now destruct f|]. split; [|exact Hs].
  apply forallb_forall. intros x Hx. rewrite forallb_forall in Hl. apply Hl in Hx. now apply andb_true_iff in Hx.
Qed.
Lemma glue_blank f : f <> [] -> forallb (fun l => negb (blank l)) f = true -> blank (glue f) = false.
Proof.
  destruct f as [|l f]; [congruence|]. cbn [forallb]. intros _ H. apply andb_true_iff in H as [H _]. apply negb_true_iff in H.
  cbn [glue map concat]. change ((newline :: l) ++ concat (map (cons newline) f)) with ([newline] ++ (l ++ glue f)). rewrite !blank_app, H. now rewrite andb_false_r.
Qed.
Lemma glue_join l f : glue (l :: f) = newline :: join [newline] (l :: f).
Proof.
  revert l. induction f as [|m f IH]; intros l; [cbn; now rewrite app_nil_r|].
  change (glue (l :: m :: f)) with ((newline :: l) ++ glue (m :: f)). rewrite IH. reflexivity.
Qed.
Lemma trim_glue f : f <> [] -> snug (join [newline] f) = true -> trim (glue f) = join [newline] f.
Proof. destruct f as [|l f]; [congruence|]. intros _ H. rewrite glue_join. apply snug_trim in H. etransitivity; [|exact H]. reflexivity. Qed.
Lemma math_blocks_blank g : forall blk, math_blocks (repeat [] g) blk = if blank blk then [] else [blk].
Proof.
  induction g as [|g IH]; intros blk; [reflexivity|]. cbn [repeat math_blocks]. replace (blank []) with true by reflexivity. cbn [negb].
  destruct (blank blk) eqn:E; cbn [negb]; rewrite IH; [now rewrite E|]. reflexivity.
Qed.
Lemma math_blocks_all g : forall more first, forallb formula_ok (first :: more) = true ->
  math_blocks ((first ++ flat_map (cons []) more) ++ repeat [] g) [] = map glue (first :: more).
Proof.
  induction more as [|f more IH]; intros first H; cbn [forallb] in H; apply andb_true_iff in H as [Hf H]; destruct (formula_lines _ Hf) as (Hne & Hl & _).
  - cbn [flat_map]. rewrite app_nil_r, math_blocks_lines by exact Hl. cbn [app]. rewrite math_blocks_blank, glue_blank by auto. reflexivity.
  - cbn [flat_map]. rewrite <- !app_assoc, math_blocks_lines by exact Hl. cbn [app math_blocks]. replace (blank []) with true by reflexivity.
    cbn [negb]. rewrite glue_blank by auto. cbn [negb]. cbn [map]. f_equal. rewrite app_assoc. now apply IH.
Qed.
(* a node that is written at once *)
Definition written (ord : hash_order) (full : bool) (x : TreeNodeType) (s : str) : Prop :=
  exists pre post, pre_string ord full x None = Ret pre /\ post_string full x None = Ret post /\ s = pre ++ post.
Lemma formula_written ord full f name class : written ord full (NMathBlock (join [newline] f) name class) (formula_latex name f).
Proof.
  do 2 eexists. split; [reflexivity|]. split; [reflexivity|]. unfold formula_latex, anchor_string, anchor_kind, begin_env, end_env, nl1, nl2, nl.
  assert (A : forall n, anchor1 (lit "rstlabel") n = lit "\rstlabel{" ++ n ++ lit "}" ++ [newline]).
  { intros n. transitivity (lit "\" ++ lit "rstlabel" ++ braces n ++ nl); [reflexivity|]. unfold braces, nl. rewrite <- !app_assoc. reflexivity. }
  destruct name as [n|]; [rewrite A|]; rewrite ?app_nil_r, <- !app_assoc; reflexivity.
Qed.
Lemma math_nodes_written ord full name class : forall fs i j, forallb formula_ok fs = true -> (name <> None -> j = N.succ i) ->
  exists ss, Forall2 (written ord full) (math_nodes (map glue fs) name class (Some i)) ss /\ concat ss = formulas_latex name j fs.
Proof.
  induction fs as [|f fs IH]; intros i j H Hij; [exists []; split; [constructor|reflexivity]|].
  cbn [forallb] in H. apply andb_true_iff in H as [Hf H]. destruct (formula_lines _ Hf) as (Hne & _ & Hs).
  cbn [map math_nodes map_opt formulas_latex]. rewrite trim_glue by auto. destruct name as [n|]; cbn [map_opt].
  - rewrite Hij by discriminate. destruct (IH (N.succ i) (N.succ (N.succ i)) H ltac:(reflexivity)) as (ss & F & E).
    eexists. split; [constructor; [apply formula_written|exact F]|]. cbn [concat]. now rewrite E.
  - destruct (IH i (N.succ j) H ltac:(congruence)) as (ss & F & E).
    eexists. split; [constructor; [apply formula_written|exact F]|]. cbn [concat]. now rewrite E.
Qed.
Definition math_node (x : TreeNodeType) : Prop := match x with NMathBlock _ _ _ => True | _ => False end.
Lemma math_nodes_kind name class bs : forall i, Forall math_node (math_nodes bs name class i).
Proof. induction bs as [|b bs IH]; intros i; cbn [math_nodes]; constructor; [exact I|apply IH]. Qed.
Lemma formulas_written ord full first more name class : forallb formula_ok (first :: more) = true ->
  exists ss, Forall2 (written ord full) (math_nodes (map glue (first :: more)) name class (match map glue (first :: more) with [_] => None | _ => Some 0%N end)) ss /\
    concat ss = match more with [] => formula_latex name first | _ => formulas_latex name 1 (first :: more) end.
Proof.
  intros H. destruct more as [|f more].
  - cbn [forallb] in H. rewrite andb_true_r in H. destruct (formula_lines _ H) as (Hne & _ & Hs).
    cbn [map math_nodes map_opt]. rewrite trim_glue by auto. destruct name as [n|]; cbn [map_opt]; (eexists; split; [constructor; [apply formula_written|constructor]|]; cbn [concat]; apply app_nil_r).
  - apply (math_nodes_written ord full name class (first :: f :: more) 0%N 1%N H). reflexivity.
Qed.

Lemma snug_starts l : snug l = true -> l = [] \/ exists c t, l = c :: t /\ is_whitespace c = false.
Proof.
  intros H. apply snug_trim in H. pose proof (trim_trimmed l) as T. rewrite H in T. destruct T as (_ & _ & _ & _ & _ & [T|[(c & t & -> & Hc) _]]); eauto.
Qed.
Lemma body_first l : leaf_ok l = true -> leaf_body l = [] \/ exists l0 X, leaf_body l = l0 :: X /\ blank l0 = false /\ indent_of l0 = 0.
Proof.
  unfold leaf_ok. intros H. apply andb_true_iff in H as [_ H]. destruct l as [older lang opts ls|lang opts ls|uri opts|key opts|key opts|opts first more]; cbn [leaf_body].
  - apply andb_true_iff in H as [H _]. apply andb_true_iff in H as [H _]. destruct ls as [|[|c l] X]; try discriminate. apply negb_true_iff in H.
    right. exists (c :: l), X. split; [reflexivity|]. cbn. now rewrite H.
  - apply andb_true_iff in H as [H _]. apply andb_true_iff in H as [H _]. destruct ls as [|[|c l] X]; try discriminate. apply negb_true_iff in H.
    right. exists (c :: l), X. split; [reflexivity|]. cbn. now rewrite H.
  - now left.
  - now left.
  - now left.
  - right. cbn [forallb] in H. apply andb_true_iff in H as [H _]. destruct (formula_lines _ H) as (Hne & Hl & Hs). destruct first as [|l0 X]; [congruence|].
    cbn [forallb] in Hl. apply andb_true_iff in Hl as [Hl _]. apply negb_true_iff in Hl. destruct l0 as [|c l0]; [discriminate|].
    exists (c :: l0), (X ++ flat_map (cons []) more). split; [reflexivity|]. split; [exact Hl|].
    destruct (snug_starts _ Hs) as [E|(y & t & E & Hy)]; [destruct X; discriminate|].
    assert (y = c) by (destruct X; apply (f_equal (hd 0%N)) in E; cbn in E; congruence). subst y. cbn. now rewrite Hy.
Qed.
Lemma map_shifted_blank b g : map (shifted b) (repeat [] g) = repeat [] g.
Proof. induction g; [reflexivity|]. cbn [repeat map]. now rewrite IHg. Qed.

Lemma cur_add_add c a b : cur_add (cur_add c a) b = cur_add c (a + b).
Proof. destruct c. unfold cur_add. cbn. f_equal. lia. Qed.
Lemma cur_add_0 c : cur_add c 0 = c.
Proof. destruct c. unfold cur_add. cbn. f_equal. lia. Qed.
Lemma gap_below k body rest : gap_head rest -> gap_head (map (shifted (k + 3)) (below body) ++ rest).
Proof. destruct body; [auto|]. intros _. right. cbn [below map app]. eauto. Qed.
Definition blank_taken (opts : settings) (tail : list str) : nat :=
  match opts with [] => 0 | _ => if ended tail then 1 else 0 end.

(* ---------- which parser ---------- *)
Ltac the_parser := unfold parser_for;
  match goal with |- context [directive_label ?l] => let v := eval vm_compute in (directive_label l) in replace (directive_label l) with v by (vm_compute; reflexivity) end;
  match goal with |- context [standard_admonition ?l] => let v := eval vm_compute in (standard_admonition l) in change (standard_admonition l) with v; cbv iota end;
  unfold directive_parsers; cbn [find_parser];
  repeat match goal with |- context [str_eqb ?a ?b] => let v := eval vm_compute in (str_eqb a b) in change (str_eqb a b) with v; cbv iota end; reflexivity.
Lemma parser_code_block : parser_for (directive_label (lit "code-block")) = parse_sphinx_code_block. Proof. the_parser. Qed.
Definition listing_name (older : bool) : str := if older then lit "sourcecode" else lit "code-block".
Lemma parser_sourcecode : parser_for (directive_label (lit "sourcecode")) = parse_sphinx_code_block. Proof. the_parser. Qed.
Lemma parser_listing older : parser_for (directive_label (listing_name older)) = parse_sphinx_code_block.
Proof. destruct older; [exact parser_sourcecode|exact parser_code_block]. Qed.
Lemma parser_code : parser_for (directive_label (lit "code")) = parse_code. Proof. the_parser. Qed.
Lemma parser_image : parser_for (directive_label (lit "image")) = parse_image. Proof. the_parser. Qed.
Lemma parser_figure : parser_for (directive_label (lit "figure")) = parse_figure. Proof. the_parser. Qed.
Lemma parser_input : parser_for (directive_label (lit "ae-input")) = parse_ae_input. Proof. the_parser. Qed.
Lemma parser_output : parser_for (directive_label (lit "ae-output")) = parse_ae_output. Proof. the_parser. Qed.
Lemma parser_math : parser_for (directive_label (lit "math")) = parse_math_block. Proof. the_parser. Qed.

Section Leaves.
  Variables (ord : hash_order) (full : bool).
  Notation under := (under ord full).
  Notation at_ := (at_ ord full).
  Variables (src : list str) (base : nat).

  (* ---------- lines that end or quote something ---------- *)
  Lemma directive_by_indent p j name arg tbl : nth_error src p = Some (pad j (marker_line name arg)) -> body_table tbl ->
    directive_name name = true -> argument_ok arg = true ->
    exists cs, find_transition (pad j (marker_line name arg)) tbl = Some (directive, cs) /\
    forall call d cur x m, cur_offset cur = p -> focused_data d = x -> NodeTypes.body_indent x = Some m ->
      pexec call (directive src base cs) d cur =
      pexec call (match indent_match m (base + j) with
                  | JustRight => parser_for (directive_label name) src
                      (MkMarker (match indent_on_subsequent_lines src p with Some (i, _) => i | None => length (pad j (lit ".. " ++ name ++ lit "::" ++ lead arg)) end)
                         (length (pad j (lit ".. " ++ name ++ lit "::" ++ lead arg))) (match arg with [] => true | _ => false end))
                  | TooMuch => open_block_quote (base + j)
                  | TooLittle => leave
                  end) d cur.
  Proof.
    intros Hl Hb Hn Ha. destruct (find_directive tbl (repeat 32%N j) name arg Hb (ws_pad j) Hn Ha) as (cs & Hf & C1 & C2 & Cw).
    exists cs. split; [exact Hf|]. intros call d cur x m Hc Hx Hm. unfold directive.
    rewrite (cap_len_ok _ _ _ _ _ _ _ C1), pad_length, (get_cap_ok _ _ _ _ _ _ _ C2). unfold get_cursor. cbn [pbind pexec].
    rewrite Hc, Hl. cbn [unwrap lift pbind]. rewrite (Nat.add_comm j). rewrite (exec_by_indent _ _ _ _ _ _ _ Hx Hm).
    unfold match_len. rewrite Cw. unfold empty_after, pad. rewrite after_marker, arg_not_blank by exact Ha. reflexivity.
  Qed.
  Lemma leaver_directive p j name arg : nth_error src p = Some (pad j (marker_line name arg)) -> directive_name name = true -> argument_ok arg = true ->
    leaver ord full src base p j.
  Proof.
    intros Hl Hn Ha. eexists. split; [exact Hl|]. intros tbl Hb. destruct (directive_by_indent p j name arg tbl Hl Hb Hn Ha) as (cs & Hf & Hx).
    exists directive, cs. split; [exact Hf|]. intros call d x r e s seen cur m Hu Hne Hc Hi Hm Hj.
    rewrite (Hx call d cur x m Hc (under_data _ _ _ _ _ _ _ _ Hu) Hm), match_less by exact Hj. reflexivity.
  Qed.
  Lemma quote_directive p j name arg : nth_error src p = Some (pad j (marker_line name arg)) -> directive_name name = true -> argument_ok arg = true ->
    by_its_indent src base p j.
  Proof.
    intros Hl Hn Ha. eexists. split; [exact Hl|]. intros tbl Hb. destruct (directive_by_indent p j name arg tbl Hl Hb Hn Ha) as (cs & Hf & Hx).
    exists directive, cs. split; [exact Hf|]. intros call d x m cur Hd Hc Hm Hj. rewrite (Hx call d cur x m Hc Hd Hm), match_more by exact Hj. reflexivity.
  Qed.
  Lemma list_line_directive p j name arg : nth_error src p = Some (pad j (marker_line name arg)) -> directive_name name = true ->
    list_line src p j MPlain.
  Proof.
    intros Hl Hn. eexists. split; [exact Hl|]. destruct (marker_shape name arg Hn) as (c & t & Hc & _ & ->). unfold pad.
    split; [now apply ink_blank|]. split; [apply cm_bullet; auto using ws_pad|]. split; [apply cm_enum; auto using ws_pad|]. split; [apply ink_field; [apply ws_pad|reflexivity|discriminate]|]. eexists _, _. split; reflexivity.
  Qed.

  (* ---------- arguments and options ---------- *)
  Section Head.
    Variables (p k : nat) (name arg : str) (opts : settings) (body rest : list str) (m : marker).
    Hypotheses (Esrc : skipn p src = directive_source k name arg opts body ++ rest)
      (Ha : argument_ok arg = true) (Ho : forallb setting_ok opts = true) (Hr : gap_head rest)
      (Hb : opts <> [] \/ body <> [] -> m_body m = k + 3)
      (Hf : m_first m = length (pad k (lit ".. " ++ name ++ lit "::" ++ lead arg)))
      (He : m_empty m = match arg with [] => true | _ => false end).
    Lemma src_below : nth_error src p = Some (pad k (marker_line name arg)) /\ skipn (S p) src = tail_of opts body rest k.
    Proof. apply (skipn_cons _ _ _ _ Esrc). Qed.
    Lemma exec_arguments call d cur {A} (K : list str -> prog A) : cur_offset cur = p ->
      pexec call (let* a := arguments src m in K a) d cur = pexec call (K (args_of arg)) d (cur_add cur 1).
    Proof.
      intros Hc. destruct src_below as [_ Eb]. unfold arguments, scan_arguments, advance, get_cursor. rewrite He, Hf. cbn [pbind pexec].
      destruct (argument_starts _ Ha) as [Ea | (c & t & Ea & Hwc & _)].
      - replace (cur_offset (cur_add cur (if match arg with [] => true | _ :: _ => false end then 1 else 0))) with (S p) by (rewrite Ea; destruct cur; cbn in *; lia).
        rewrite Eb. replace (negb match arg with [] => true | _ :: _ => false end) with false by (now rewrite Ea).
        rewrite argument_lines_stop by auto. cbn [length]. rewrite Ea. cbn [args_of]. rewrite cur_add_0. reflexivity.
      - assert (Hsk : skipn (length (pad k (lit ".. " ++ name ++ lit "::" ++ lead arg))) (pad k (marker_line name arg)) = arg) by apply after_marker.
        replace (cur_offset (cur_add cur (if match arg with [] => true | _ :: _ => false end then 1 else 0))) with p by (rewrite Ea; destruct cur; cbn in *; lia).
        rewrite Esrc. unfold directive_source. cbn [app argument_lines].
        replace (negb match arg with [] => true | _ :: _ => false end) with true by (now rewrite Ea). cbn [negb andb].
        rewrite Hsk, arg_not_blank, not_field by (auto; rewrite Ea; discriminate).
        change (map (shifted (k + 3)) (map setting_line opts ++ below body) ++ rest) with (tail_of opts body rest k). rewrite argument_lines_stop by auto.
        rewrite Ea. cbn [orb args_of length]. rewrite cur_add_0. reflexivity.
    Qed.
    Lemma exec_options call d cur {A} (K : option_map -> prog A) : cur_offset cur = S p ->
      pexec call (let* a := options src m in K a) d cur = pexec call (K (insert_all opts)) d
        (cur_add cur (length opts + blank_taken opts (map (shifted (k + 3)) (below body) ++ rest))).
    Proof.
      intros Hc. destruct src_below as [_ Eb]. unfold options, scan_options, advance, get_cursor. cbn [pbind pexec].
      rewrite Hc, Eb. unfold tail_of. rewrite map_app, <- app_assoc.
      destruct opts as [|kv os] eqn:Eo.
      - replace (option_lines _ (m_body m)) with (@nil (str * str), ended (map (shifted (k + 3)) (below body) ++ rest)).
        2:{ cbn [map app]. destruct (gap_below k body rest Hr) as [-> | (r & ->)]; reflexivity. }
        cbn [length pbind pexec blank_taken Nat.add]. rewrite !cur_add_0. reflexivity.
      - rewrite <- Eo in *. rewrite Hb by (left; rewrite Eo; discriminate). rewrite options_read by (auto; now apply gap_below).
        replace (blank_taken opts (map (shifted (k + 3)) (below body) ++ rest)) with (if ended (map (shifted (k + 3)) (below body) ++ rest) then 1 else 0) by (rewrite Eo; reflexivity).
        cbn [pbind pexec]. rewrite <- cur_add_add. rewrite Eo at 1. cbn [pbind pexec]. reflexivity.
    Qed.
  End Head.

  Lemma push_all_written call cur S0 x r k : home S0 x k -> forall xs ss, Forall2 (written ord full) xs ss ->
    Forall (fun y => unlabelled y = true /\ untransformed y = true /\ In (kind y) block_kinds) xs ->
    forall d e s seen, under d ((x, r) :: e) s seen ->
    exists d', pexec call (push_all xs) d cur = Ret (true, d', cur) /\ under d' ((x, r) :: e) (s ++ concat ss) seen.
  Proof.
    intros Hh xs ss F. induction F as [|y z xs ss (pre & post & E1 & E2 & ->) F IH]; intros Hin d e s seen H.
    - exists d. cbn. rewrite app_nil_r. auto.
    - apply Forall_cons_iff in Hin as [(H1 & H2 & H3) Hin]. cbn [push_all concat].
      destruct (under_leaf ord full d _ s seen y pre post H H1 H2) as (d1 & E & Hu & _); auto.
      { rewrite (under_data _ _ _ _ _ _ _ _ H). now apply (home_allows _ _ _ _ Hh). }
      unfold Prog.pushed. cbn [pbind pexec]. rewrite E. cbn [obind]. destruct (IH Hin _ _ _ _ Hu) as (d' & E' & H'). exists d'. split; [exact E'|].
      now rewrite app_assoc.
  Qed.

  (* where the contents are *)
  Definition leading (opts : settings) : list str := match opts with [] => [[]] | _ => [] end.
  Lemma contents p k name arg opts body g rest : skipn p src = directive_source k name arg opts body ++ repeat [] g ++ rest -> body <> [] ->
    skipn (p + 1 + (length opts + blank_taken opts (map (shifted (k + 3)) (below body) ++ repeat [] g ++ rest))) src =
    map (shifted (k + 3)) (leading opts ++ body ++ repeat [] g) ++ rest.
  Proof.
    intros E Hb. unfold directive_source in E. destruct body as [|l body]; [congruence|]. cbn [app] in E. apply skipn_cons in E as [_ E].
    rewrite !map_app, map_shifted_blank. rewrite map_app, <- app_assoc in E. replace (p + 1) with (S p) by lia. destruct opts as [|kv opts]; cbn [leading blank_taken].
    - cbn [map app length Nat.add] in E |- *. rewrite Nat.add_0_r, E. cbn [below map app]. rewrite <- !app_assoc. reflexivity.
    - cbn [below map app ended] in E |- *. cbn [length]. 
      change (shifted (k + 3) (setting_line kv) :: map (shifted (k + 3)) (map setting_line opts) ++ shifted (k + 3) [] :: shifted (k + 3) l :: map (shifted (k + 3)) body ++ repeat [] g ++ rest)
        with (map (shifted (k + 3)) (map setting_line (kv :: opts)) ++ shifted (k + 3) [] :: shifted (k + 3) l :: map (shifted (k + 3)) body ++ repeat [] g ++ rest) in E.
      apply skipn_past in E. rewrite !map_length in E. cbn [length] in E.
      change (shifted (k + 3) [] :: shifted (k + 3) l :: map (shifted (k + 3)) body ++ repeat [] g ++ rest)
        with ([@nil char] ++ shifted (k + 3) l :: map (shifted (k + 3)) body ++ repeat [] g ++ rest) in E.
      apply skipn_past in E. cbn [length] in E. replace (S p + (S (length opts) + 1)) with (S p + S (length opts) + 1) by lia. rewrite E. cbn [app]. now rewrite <- app_assoc.
  Qed.
  Lemma body_indent_below p k name arg opts body rest : skipn p src = directive_source k name arg opts body ++ rest ->
    forallb setting_ok opts = true -> (body = [] \/ exists l0 X, body = l0 :: X /\ blank l0 = false /\ indent_of l0 = 0) ->
    opts <> [] \/ body <> [] -> indent_on_subsequent_lines src p = Some (k + 3, 0).
  Proof.
    intros E Ho Hb Hne. apply (skipn_cons _ _ _ _) in E as [_ E]. unfold indent_on_subsequent_lines. rewrite E. destruct opts as [|kv opts].
    - destruct Hb as [-> | (l0 & X & -> & Hl & Hi)]; [intuition congruence|]. cbn [map app below first_indent_of]. replace (blank (shifted (k + 3) [])) with true by reflexivity.
      rewrite shifted_blank, Hl, shifted_indent, Hi, Nat.add_0_r by exact Hl. reflexivity.
    - cbn [forallb] in Ho. apply andb_true_iff in Ho as [Hk _]. cbn [map app first_indent_of].
      replace (shifted (k + 3) (setting_line kv)) with (pad (k + 3) (setting_line kv)) by reflexivity.
      destruct (setting_read (k + 3) kv Hk) as (-> & -> & _). reflexivity.
  Qed.

  Lemma leaf_name_ok l : directive_name (leaf_name l) = true.
  Proof. destruct l as [[|] ? ? ?| | | | |]; reflexivity. Qed.
  Definition leaf_run (k : nat) (l : leaf) (rest : list str) (p : nat) (m : marker) : Prop := forall call d cur S0 x r e s seen,
    home S0 x (base + k) -> under d ((x, r) :: e) s seen -> cur_offset cur = p ->
    exists d' cur' adv, pexec call (parser_for (directive_label (leaf_name l)) src m) d cur = Ret (TSuccess Neither adv, d', cur') /\
      under d' ((x, r) :: e) (s ++ leaf_latex l) seen /\ cur_baseline cur' = cur_baseline cur /\ p < cur_offset cur' /\
      exists g, skipn (cur_offset cur' + match adv with Some a => a | None => 0 end) src = repeat [] g ++ rest.
  Lemma run_listing k older lang opts ls rest p g m : leaf_ok (Listing older lang opts ls) = true ->
    skipn p src = leaf_source k (Listing older lang opts ls) ++ repeat [] g ++ rest -> gap_head (repeat [] g ++ rest) -> low_head k rest ->
    (opts <> [] \/ ls <> [] -> m_body m = k + 3) -> m_first m = length (pad k (lit ".. " ++ listing_name older ++ lit "::" ++ lead lang)) ->
    m_empty m = match lang with [] => true | _ => false end ->
    leaf_run k (Listing older lang opts ls) rest p m.
  Proof.
    intros Hok E Hg Hr Hb Hf He. unfold leaf_ok in Hok. cbn [leaf_argument leaf_settings] in Hok. apply andb_true_iff in Hok as [Hok Hls]. apply andb_true_iff in Hok as [Ha Ho].
    apply andb_true_iff in Hls as [Hls Hlast]. apply andb_true_iff in Hls as [Hfirst _].
    assert (Hne : ls <> []) by (intros ->; discriminate). assert (Hm : m_body m = k + 3) by auto.
    assert (HL : last ls [] <> []) by (destruct (last ls []); [discriminate Hlast|discriminate]).
    assert (HF : exists l X, ls = l :: X /\ l <> []) by (destruct ls as [|[|a l0] X]; [discriminate..|]; do 2 eexists; split; [reflexivity|discriminate]).
    intros call d cur S0 x r e s seen Hh Hu Hc. unfold leaf_source in E. cbn [leaf_argument leaf_settings leaf_body] in E. change (leaf_name (Listing older lang opts ls)) with (listing_name older) in E.
    change (leaf_name (Listing older lang opts ls)) with (listing_name older). rewrite parser_listing.
    unfold parse_sphinx_code_block.
    rewrite (exec_arguments p k (listing_name older) lang opts ls (repeat [] g ++ rest) m E Ha Ho Hg Hb Hf He) by exact Hc.
    rewrite (exec_options p k (listing_name older) lang opts ls (repeat [] g ++ rest) m E Ho Hg Hb) by (destruct cur; cbn in *; lia).
    unfold body_block, get_cursor. cbn [pbind pexec]. rewrite Hm, cur_add_add.
    pose proof (contents p k _ _ _ _ _ _ E Hne) as Ec. set (q := length opts + blank_taken opts (map (shifted (k + 3)) (below ls) ++ repeat [] g ++ rest)) in *.
    replace (cur_offset (cur_add cur (1 + q))) with (p + 1 + q) by (destruct cur; cbn in *; lia).
    destruct (read_block src (p + 1 + q) k (k + 3) _ rest None Ec) as (bf & Er); auto; [destruct opts; [discriminate|]; destruct ls; [congruence|discriminate]|lia|].
    rewrite Er. cbn [lift pbind ib_lines ib_offset]. unfold add_node.
    set (lno := and_then _ _).
    match goal with |- context [DPush ?y] => set (node := y) end.
    assert (Hw : written ord full node (leaf_latex (Listing older lang opts ls))).
    { do 2 eexists. split; [reflexivity|]. split; [reflexivity|]. cbn [leaf_latex]. unfold begin_env, end_env, brackets, nl1, nl2, nl, join_lines.
      replace (trim_empty (leading opts ++ ls ++ repeat [] g)) with ls.
      2:{ symmetry. destruct opts; [now apply (trim_empty_listing 1)|now apply (trim_empty_listing 0)]. }
      replace (match args_of lang with [] => lit "python" | _ :: _ => concat_lines (args_of lang) end) with (match lang with [] => lit "python" | _ => lang end) by (destruct lang; reflexivity).
      rewrite <- !app_assoc. reflexivity. }
    destruct Hw as (pre & post & E1 & E2 & Ew).
    destruct (exec_push ord full call d node _ s seen pre post (cur_add cur (1 + q)) (fun ok => PRet (if ok then TSuccess Neither (Some (length (leading opts ++ ls ++ repeat [] g))) else TFailure)) Hu) as (d' & Ed & Hu'); auto.
    { rewrite (under_data _ _ _ _ _ _ _ _ Hu). apply (home_allows _ _ _ _ Hh). a_kind. }
    exists d', (cur_add cur (1 + q)), (Some (length (leading opts ++ ls ++ repeat [] g))). split; [exact Ed|]. split; [rewrite Ew; exact Hu'|].
    split; [reflexivity|]. split; [destruct cur; cbn in *; lia|]. exists 0. cbn [repeat app].
    replace (cur_offset (cur_add cur (1 + q))) with (p + 1 + q) by (destruct cur; cbn in *; lia).
    apply skipn_past in Ec. rewrite map_length in Ec. exact Ec.
  Qed.
  Lemma run_code k lang opts ls rest p g m : leaf_ok (Code lang opts ls) = true ->
    skipn p src = leaf_source k (Code lang opts ls) ++ repeat [] g ++ rest -> gap_head (repeat [] g ++ rest) -> low_head k rest ->
    (opts <> [] \/ ls <> [] -> m_body m = k + 3) -> m_first m = length (pad k (lit ".. " ++ lit "code" ++ lit "::" ++ lead lang)) ->
    m_empty m = match lang with [] => true | _ => false end ->
    leaf_run k (Code lang opts ls) rest p m.
  Proof.
    intros Hok E Hg Hr Hb Hf He. unfold leaf_ok in Hok. cbn [leaf_argument leaf_settings] in Hok. apply andb_true_iff in Hok as [Hok Hls]. apply andb_true_iff in Hok as [Ha Ho].
    apply andb_true_iff in Hls as [Hls Hlast]. apply andb_true_iff in Hls as [Hfirst _].
    assert (Hne : ls <> []) by (intros ->; discriminate). assert (Hm : m_body m = k + 3) by auto.
    assert (HL : last ls [] <> []) by (destruct (last ls []); [discriminate Hlast|discriminate]).
    assert (HF : exists l X, ls = l :: X /\ l <> []) by (destruct ls as [|[|a l0] X]; [discriminate..|]; do 2 eexists; split; [reflexivity|discriminate]).
    intros call d cur S0 x r e s seen Hh Hu Hc. unfold leaf_source in E. cbn [leaf_name leaf_argument leaf_settings leaf_body] in E.
    cbn [leaf_name]. rewrite parser_code.
    unfold parse_code.
    rewrite (exec_arguments p k (lit "code") lang opts ls (repeat [] g ++ rest) m E Ha Ho Hg Hb Hf He) by exact Hc.
    rewrite (exec_options p k (lit "code") lang opts ls (repeat [] g ++ rest) m E Ho Hg Hb) by (destruct cur; cbn in *; lia).
    unfold body_block, get_cursor. cbn [pbind pexec]. rewrite Hm, cur_add_add.
    pose proof (contents p k _ _ _ _ _ _ E Hne) as Ec. set (q := length opts + blank_taken opts (map (shifted (k + 3)) (below ls) ++ repeat [] g ++ rest)) in *.
    replace (cur_offset (cur_add cur (1 + q))) with (p + 1 + q) by (destruct cur; cbn in *; lia).
    destruct (read_block src (p + 1 + q) k (k + 3) _ rest None Ec) as (bf & Er); auto; [destruct opts; [discriminate|]; destruct ls; [congruence|discriminate]|lia|].
    rewrite Er. cbn [lift pbind ib_lines ib_offset]. unfold add_node.
    match goal with |- context [DPush ?y] => set (node := y) end.
    assert (Hw : written ord full node (leaf_latex (Code lang opts ls))).
    { do 2 eexists. split; [reflexivity|]. split; [reflexivity|]. cbn [leaf_latex]. unfold begin_env, end_env, brackets, nl1, nl2, nl, join_lines.
      destruct lang; unfold args_of, concat_lines; cbn [join]; unfold brackets; rewrite <- ?app_assoc; reflexivity. }
    destruct Hw as (pre & post & E1 & E2 & Ew).
    destruct (exec_push ord full call d node _ s seen pre post (cur_add cur (1 + q)) (fun ok => PRet (if ok then TSuccess Neither (Some (length (leading opts ++ ls ++ repeat [] g))) else TFailure)) Hu) as (d' & Ed & Hu'); auto.
    { rewrite (under_data _ _ _ _ _ _ _ _ Hu). apply (home_allows _ _ _ _ Hh). a_kind. }
    exists d', (cur_add cur (1 + q)), (Some (length (leading opts ++ ls ++ repeat [] g))). split; [exact Ed|]. split; [rewrite Ew; exact Hu'|].
    split; [reflexivity|]. split; [destruct cur; cbn in *; lia|]. exists 0. cbn [repeat app].
    replace (cur_offset (cur_add cur (1 + q))) with (p + 1 + q) by (destruct cur; cbn in *; lia).
    apply skipn_past in Ec. rewrite map_length in Ec. exact Ec.
  Qed.
  (* those that make one node of their argument and options *)
  Lemma run_node l node k arg opts rest p g m : leaf_ok l = true -> leaf_argument l = arg -> leaf_settings l = opts -> leaf_body l = [] -> nonempty arg = true ->
    skipn p src = leaf_source k l ++ repeat [] g ++ rest -> gap_head (repeat [] g ++ rest) ->
    (opts <> [] \/ @nil str <> [] -> m_body m = k + 3) -> m_first m = length (pad k (lit ".. " ++ leaf_name l ++ lit "::" ++ lead arg)) ->
    m_empty m = match arg with [] => true | _ => false end -> (g = 0 -> rest = []) ->
    (forall call d cur c', (forall A (K : list str -> prog A), pexec call (let* a := arguments src m in K a) d cur = pexec call (K [arg]) d (cur_add cur 1)) ->
      (forall A (K : option_map -> prog A), pexec call (let* o := options src m in K o) d (cur_add cur 1) = pexec call (K (insert_all opts)) d c') ->
      pexec call (parser_for (directive_label (leaf_name l)) src m) d cur = pexec call (add_node node None) d c') ->
    unlabelled node = true -> untransformed node = true -> In (kind node) block_kinds ->
    (exists pre post, pre_string ord full node None = Ret pre /\ post_string full node None = Ret post /\ pre ++ post = leaf_latex l) ->
    leaf_run k l rest p m.
  Proof.
    intros Hok Harg Hopt Hbody Hne E Hg Hb Hf He Hg0 Hpar Hlab Htr Hkd (pre & post & E1 & E2 & Ew). unfold leaf_ok in Hok. rewrite Harg, Hopt in Hok. apply andb_true_iff in Hok as [Hok _]. apply andb_true_iff in Hok as [Ha Ho].
    intros call d cur S0 x r e s seen Hh Hu Hc. unfold leaf_source in E. rewrite Harg, Hopt, Hbody in E.
    assert (Ea : args_of arg = [arg]) by (destruct arg; [discriminate|reflexivity]).
    set (q := length opts + blank_taken opts (repeat [] g ++ rest)).
    rewrite (Hpar call d cur (cur_add cur (1 + q))).
    2:{ intros A K. now rewrite (exec_arguments p k (leaf_name l) arg opts [] (repeat [] g ++ rest) m E Ha Ho Hg Hb Hf He), Ea by exact Hc. }
    2:{ intros A K. rewrite (exec_options p k (leaf_name l) arg opts [] (repeat [] g ++ rest) m E Ho Hg Hb) by (destruct cur; cbn in *; lia). rewrite cur_add_add. reflexivity. }
    unfold add_node.
    destruct (exec_push ord full call d node _ s seen pre post (cur_add cur (1 + q)) (fun ok => PRet (if ok then TSuccess Neither None else TFailure)) Hu) as (d' & Ed & Hu'); auto.
    { rewrite (under_data _ _ _ _ _ _ _ _ Hu). now apply (home_allows _ _ _ _ Hh). }
    exists d', (cur_add cur (1 + q)), None. split; [exact Ed|]. split; [rewrite <- Ew; exact Hu'|].
    split; [reflexivity|]. split; [destruct cur; cbn in *; lia|]. rewrite Nat.add_0_r.
    replace (cur_offset (cur_add cur (1 + q))) with (S p + q) by (destruct cur; cbn in *; lia).
    apply (skipn_cons _ _ _ _) in E as [_ E]. cbn [below] in E. rewrite app_nil_r in E.
    apply skipn_past in E. rewrite !map_length in E. unfold q. rewrite Nat.add_assoc.
    assert (Hbt : blank_taken opts (repeat [] g ++ rest) = 0 \/ blank_taken opts (repeat [] g ++ rest) = 1 /\ ended (repeat [] g ++ rest) = true).
    { unfold blank_taken. destruct opts; [now left|]. destruct (ended (repeat [] g ++ rest)); auto. }
    destruct Hbt as [-> | [-> Hbt]]; [rewrite Nat.add_0_r; eauto|]. destruct g as [|g]; [rewrite Hg0 in Hbt by reflexivity; discriminate|].
    exists g. cbn [repeat app] in E. apply skipn_cons in E as [_ E]. now rewrite Nat.add_1_r.
  Qed.
  Ltac known_kind := a_kind.
  Lemma run_picture k uri opts rest p g m : leaf_ok (Picture uri opts) = true ->
    skipn p src = leaf_source k (Picture uri opts) ++ repeat [] g ++ rest -> gap_head (repeat [] g ++ rest) ->
    (opts <> [] \/ @nil str <> [] -> m_body m = k + 3) -> m_first m = length (pad k (lit ".. " ++ lit "image" ++ lit "::" ++ lead uri)) ->
    m_empty m = match uri with [] => true | _ => false end -> (g = 0 -> rest = []) ->
    leaf_run k (Picture uri opts) rest p m.
  Proof.
    intros Hok E Hg Hb Hf He Hg0. assert (Hne : nonempty uri = true) by (unfold leaf_ok in Hok; now apply andb_true_iff in Hok as [_ Hok]).
    apply (run_node (Picture uri opts) (picture_node uri opts) k uri opts rest p g m); auto; try known_kind.
    - intros call d cur c' Harg Hopt. cbn [leaf_name]. rewrite parser_image. unfold parse_image. rewrite Harg, Hopt, !opt_setting. reflexivity.
    - destruct (picture_writes ord full uri opts) as (pre & E1 & E2 & Ew). exists pre, nl1. auto.
  Qed.
  Lemma run_input k key opts rest p g m : leaf_ok (Input key opts) = true ->
    skipn p src = leaf_source k (Input key opts) ++ repeat [] g ++ rest -> gap_head (repeat [] g ++ rest) ->
    (opts <> [] \/ @nil str <> [] -> m_body m = k + 3) -> m_first m = length (pad k (lit ".. " ++ lit "ae-input" ++ lit "::" ++ lead key)) ->
    m_empty m = match key with [] => true | _ => false end -> (g = 0 -> rest = []) ->
    leaf_run k (Input key opts) rest p m.
  Proof.
    intros Hok E Hg Hb Hf He Hg0. pose proof Hok as H. unfold leaf_ok in H. apply andb_true_iff in H as [_ H]. apply andb_true_iff in H as [H Hty]. apply andb_true_iff in H as [Hne Hcl].
    apply (run_node (Input key opts) (input_node key opts) k key opts rest p g m); auto; try known_kind.
    - intros call d cur c' Harg Hopt. cbn [leaf_name]. rewrite parser_input. unfold parse_ae_input. rewrite Harg, Hopt, !opt_setting.
      replace (invalid clear_of (setting "clear" opts)) with false.
      2:{ unfold limited in Hcl. unfold invalid. destruct (setting "clear" opts) as [v|]; [|reflexivity]. destruct (clear_cases v Hcl) as (c & -> & _). reflexivity. }
      replace (invalid input_type_of (setting "type" opts)) with false.
      2:{ unfold invalid. destruct (setting "type" opts) as [v|]; [|reflexivity]. destruct (input_type_cases v Hty) as (c & -> & _). reflexivity. }
      reflexivity.
    - destruct (input_written ord full key opts Hok) as (pre & E1 & E2 & Ew). exists pre, nl2. auto.
  Qed.
  Lemma run_output k key opts rest p g m : leaf_ok (Output key opts) = true ->
    skipn p src = leaf_source k (Output key opts) ++ repeat [] g ++ rest -> gap_head (repeat [] g ++ rest) ->
    (opts <> [] \/ @nil str <> [] -> m_body m = k + 3) -> m_first m = length (pad k (lit ".. " ++ lit "ae-output" ++ lit "::" ++ lead key)) ->
    m_empty m = match key with [] => true | _ => false end -> (g = 0 -> rest = []) ->
    leaf_run k (Output key opts) rest p m.
  Proof.
    intros Hok E Hg Hb Hf He Hg0. pose proof Hok as H. unfold leaf_ok in H. apply andb_true_iff in H as [_ H]. apply andb_true_iff in H as [H Hin]. apply andb_true_iff in H as [Hne Hcf].
    apply (run_node (Output key opts) (output_node key opts) k key opts rest p g m); auto; try known_kind.
    - intros call d cur c' Harg Hopt. cbn [leaf_name]. rewrite parser_output. unfold parse_ae_output. rewrite Harg, Hopt. unfold has_opt. rewrite !opt_setting.
      unfold output_node, or_else. destruct (setting "config" opts); [|discriminate Hcf]. destruct (setting "inputs" opts); [|discriminate Hin]. reflexivity.
    - destruct (output_written ord full key opts Hok) as (pre & E1 & E2 & Ew). exists pre, nl2. auto.
  Qed.
  Lemma run_formulas k opts first more rest p g m : leaf_ok (Formulas opts first more) = true ->
    skipn p src = leaf_source k (Formulas opts first more) ++ repeat [] g ++ rest -> gap_head (repeat [] g ++ rest) -> low_head k rest ->
    (opts <> [] \/ leaf_body (Formulas opts first more) <> [] -> m_body m = k + 3) -> m_first m = length (pad k (lit ".. " ++ lit "math" ++ lit "::" ++ lead [])) ->
    m_empty m = true ->
    leaf_run k (Formulas opts first more) rest p m.
  Proof.
    intros Hok E Hg Hr Hb Hf He. pose proof (body_first _ Hok) as Hbf. unfold leaf_ok in Hok. cbn [leaf_argument leaf_settings] in Hok. apply andb_true_iff in Hok as [Hok Hls]. apply andb_true_iff in Hok as [Ha Ho].
    assert (Hne : leaf_body (Formulas opts first more) <> []).
    { cbn [leaf_body forallb] in *. apply andb_true_iff in Hls as [H1 _]. apply formula_lines in H1 as (H1 & _). destruct first; [congruence|discriminate]. }
    assert (Hm : m_body m = k + 3) by auto.
    intros call d cur S0 x r e s seen Hh Hu Hc. unfold leaf_source in E. cbn [leaf_name leaf_argument leaf_settings] in E.
    set (body := leaf_body (Formulas opts first more)) in *.
    cbn [leaf_name]. rewrite parser_math.
    unfold parse_math_block.
    rewrite (exec_arguments p k (lit "math") [] opts body (repeat [] g ++ rest) m E Ha Ho Hg Hb Hf He) by exact Hc.
    rewrite (exec_options p k (lit "math") [] opts body (repeat [] g ++ rest) m E Ho Hg Hb) by (destruct cur; cbn in *; lia).
    cbn [args_of]. unfold body_block, get_cursor. cbn [pbind pexec]. rewrite Hm, cur_add_add.
    pose proof (contents p k _ _ _ _ _ _ E Hne) as Ec. set (q := length opts + blank_taken opts (map (shifted (k + 3)) (below body) ++ repeat [] g ++ rest)) in *.
    replace (cur_offset (cur_add cur (1 + q))) with (p + 1 + q) by (destruct cur; cbn in *; lia).
    destruct (read_block src (p + 1 + q) k (k + 3) _ rest (Some (k + 3)) Ec) as (bf & Er); auto; [destruct opts; [discriminate|]; destruct body; [congruence|discriminate]|lia|].
    rewrite Er. cbn [lift pbind ib_lines ib_offset].
    assert (Em : math_blocks (leading opts ++ body ++ repeat [] g) [] = map glue (first :: more)).
    { destruct opts; cbn [leading app]; [|now apply math_blocks_all]. cbn [math_blocks]. now apply math_blocks_all. }
    rewrite Em, !opt_setting. destruct (map glue (first :: more)) as [|b0 bs0] eqn:Eg; [discriminate|]. rewrite <- Eg.
    destruct (formulas_written ord full first more (setting "name" opts) (setting "class" opts) Hls) as (ss & F & Es).
    destruct (push_all_written call (cur_add cur (1 + q)) S0 x r (base + k) Hh _ _ F) with (d := d) (e := e) (s := s) (seen := seen) as (d' & Ed & Hu'); auto.
    { eapply Forall_impl; [|apply math_nodes_kind]. intros y Hy. destruct y; try contradiction Hy. cbn. tauto. }
    replace (match b0 :: bs0 with [] => Some 0%N | [_] => None | _ :: _ :: _ => Some 0%N end) with (match map glue (first :: more) with [_] => None | _ => Some 0%N end) by (now rewrite Eg).
    exists d', (cur_add cur (1 + q)), (Some (length (leading opts ++ body ++ repeat [] g))). split.
    { rewrite pexec_bind, Ed. reflexivity. }
    split; [cbn [leaf_latex]; rewrite Es in Hu'; destruct more; exact Hu'|].
    split; [reflexivity|]. split; [destruct cur; cbn in *; lia|]. exists 0. cbn [repeat app].
    replace (cur_offset (cur_add cur (1 + q))) with (p + 1 + q) by (destruct cur; cbn in *; lia).
    apply skipn_past in Ec. rewrite map_length in Ec. exact Ec.
  Qed.
  Lemma step_leaf c S0 x k st r e s seen p n l g rest :
    home S0 x (base + k) -> at_ src c (S0 :: st) ((x, r) :: e) s seen p n -> n <= 9 ->
    skipn p src = leaf_source k l ++ repeat [] g ++ rest -> (g = 0 -> rest = []) -> low_head k rest -> leaf_ok l = true ->
    exists c' q g', steps src base c c' /\ at_ src c' (S0 :: st) ((x, r) :: e) (s ++ leaf_latex l) seen q 0 /\ skipn q src = repeat [] g' ++ rest.
  Proof.
    intros Hh Hat Hn E Hg Hr Hok. pose proof (at_cur _ _ _ _ _ _ _ _ _ _ Hat) as Hc. pose proof (at_doc _ _ _ _ _ _ _ _ _ _ Hat) as Hu.
    assert (Hgap : gap_head (repeat [] g ++ rest)).
    { destruct g as [|g]; [rewrite Hg by reflexivity; now left|right; cbn; eauto]. }
    assert (Hl : nth_error src p = Some (pad k (marker_line (leaf_name l) (leaf_argument l)))).
    { unfold leaf_source, directive_source in E. cbn [app] in E. now apply skipn_cons in E. }
    pose proof Hok as Hok'. unfold leaf_ok in Hok'. apply andb_true_iff in Hok' as [Hok' _]. apply andb_true_iff in Hok' as [Ha Ho].
    destruct (home_table _ _ _ Hh) as (tbl & Htb & Hb).
    destruct (directive_by_indent p k (leaf_name l) (leaf_argument l) tbl Hl Hb (leaf_name_ok l) Ha) as (cs & Hf & Hx).
    match type of Hx with context [MkMarker ?a ?b ?c] => set (m := MkMarker a b c) in Hx end.
    assert (Hrun : leaf_run k l rest p m).
    { assert (Hm : leaf_settings l <> [] \/ leaf_body l <> [] -> m_body m = k + 3).
      { intros H. unfold m. cbn [m_body]. unfold leaf_source in E. now rewrite (body_indent_below p k _ _ _ _ _ E Ho (body_first _ Hok) H). }
      destruct l as [older lang opts ls|lang opts ls|uri opts|key opts|key opts|opts first more].
      - eapply run_listing; eauto.
      - eapply run_code; eauto.
      - eapply run_picture; eauto.
      - eapply run_input; eauto.
      - eapply run_output; eauto.
      - eapply run_formulas; eauto. }
    assert (Hex : exists d' cur' adv, pexec (parse table 0) (directive src base cs) (cf_doc c) (cf_cur c) = Ret (TSuccess Neither adv, d', cur') /\
      under d' ((x, r) :: e) (s ++ leaf_latex l) seen /\ cur_baseline cur' = cur_baseline (cf_cur c) /\ p < cur_offset cur' /\
      exists g, skipn (cur_offset cur' + match adv with Some a => a | None => 0 end) src = repeat [] g ++ rest).
    { rewrite (Hx (parse table 0) (cf_doc c) (cf_cur c) x (base + k) Hc (under_data _ _ _ _ _ _ _ _ Hu) (home_indent _ _ _ Hh)), match_same.
      eapply Hrun; eauto. }
    destruct Hex as (d' & cur' & adv & Hex & Hu' & Hbl & Hp & g' & Eg').
    destruct (step_transition ord full src base c S0 st ((x, r) :: e) s seen p n _ tbl directive cs Neither adv ((x, r) :: e) (s ++ leaf_latex l) seen
      d' cur' 0 (S0 :: st) Hat Hn Hl (home_live _ _ _ Hh) Htb Hf) as (c1 & Hs & Ha1); auto.
    { exists 0. intros f Hf0. eapply exec_up; [exact Hex|exact Hf0]. }
    { lia. }
    exists c1, (cur_offset cur' + match adv with Some a => a | None => 0 end), g'. auto.
  Qed.
End Leaves.
