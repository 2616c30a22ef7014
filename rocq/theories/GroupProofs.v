(* GroupProofs.v -- runs of the parser over one paragraph, comment, item or empty
   line, and the openings of lists and quotes (used for C47). *)
From Verif Require Import Base Unicode Regex Patterns Common Converters NodeTypes Tree DocTree History Blocks Prog ParseLoop
  Inline Body Directives Parser Spec RegexProofs BlockProofs TreeProofs DocTreeProofs HyperrefProofs InlineSpec RegexGroups InlineProofs LoopProofs
  Utf8Latex Writer WriterProofs Transforms TextProofs OpenProofs SimpleSpec LineProofs Properties7 RunProofs StepProofs ParaProofs NumberProofs LeaveProofs.

Lemma skipn_past {A} p (l a r : list A) : skipn p l = a ++ r -> skipn (p + length a) l = r.
Proof.
  revert l. induction p as [|p IH]; intros l H.
  - cbn in H. subst l. cbn [Nat.add]. rewrite skipn_app, Nat.sub_diag, skipn_all2 by lia. reflexivity.
  - destruct l as [|x l]; [|apply IH; exact H]. cbn in H. symmetry in H. apply app_eq_nil in H as [-> ->]. apply skipn_nil.
Qed.
Lemma skipn_end {A} p (l : list A) : skipn p l = [] -> length l <= p.
Proof. apply skipn_nil_inv. Qed.
Lemma cursor_at cur p : cur_offset cur = p -> cur = MkCursor p (cur_baseline cur).
Proof. destruct cur; cbn. now intros ->. Qed.

Lemma exec_up {A} (p : prog A) d cur f0 r : pexec (parse table f0) p d cur = Ret r ->
  forall f, f0 <= f -> pexec (parse table f) p d cur = Ret r.
Proof. intros H f Hf. rewrite <- H. apply pexec_le; [now apply parse_le|rewrite H; discriminate]. Qed.

(* ---------- what may come after a group of lines of indentation k ---------- *)
Definition bullet_line (j : nat) (b : char) (l : str) : Prop :=
  existsb (N.eqb b) bullet_chars = true /\ exists t, l = pad j (b :: 32%N :: t) /\ starts_text t = true.
(* the first line of an item of a list *)
Definition item_line (j : nat) (l : str) : Prop :=
  blank l = false /\ indent_of l = j /\ captures LINE l = None /\
  exists cs, captures TEXT l = Some cs /\ cap 1 cs = Some (repeat 32%N j).
Definition head_ok (k : nat) (rest : list str) : Prop :=
  match rest with [] => True | l :: _ => l = [] \/ exists j, item_line j l /\ j < k end.
Lemma bullet_line_indent j b l : bullet_line j b l -> indent_of l = j.
Proof. intros (Hb & t & -> & _). now apply bullet_indent. Qed.
Lemma bullet_line_blank j b l : bullet_line j b l -> blank l = false.
Proof. intros (Hb & t & -> & _). unfold pad. apply ink_not_blank. now apply bullet_ink. Qed.
Lemma bullet_line_no_line j b l : bullet_line j b l -> captures LINE l = None.
Proof.
  intros (Hb & t & -> & Ht). apply starts_text_inside in Ht as (a & c & t' & -> & Hc).
  replace (pad j (b :: 32%N :: a ++ c :: t')) with ((repeat 32%N j ++ b :: 32%N :: a) ++ c :: t') by (unfold pad; now rewrite <- app_assoc).
  now apply starter_no_line.
Qed.
Lemma bullet_line_text j b l : bullet_line j b l -> exists cs, captures TEXT l = Some cs /\ cap 1 cs = Some (repeat 32%N j).
Proof. intros (Hb & t & -> & Ht). apply ink_text; [apply ws_pad|now apply bullet_ink]. Qed.
Lemma bullet_item j b l : bullet_line j b l -> item_line j l.
Proof. intros H. split; [eapply bullet_line_blank; eauto|]. split; [eapply bullet_line_indent; eauto|]. split; [eapply bullet_line_no_line; eauto|]. eapply bullet_line_text; eauto. Qed.
Lemma number_item d auto n j l : number_line d auto n j l -> item_line j l.
Proof.
  intros (t & -> & Hst & Hn). split; [now apply nb_not_blank|]. split; [now apply nb_indent|]. split; [now apply nb_line|]. now apply nb_text.
Qed.
Lemma head_para_ends k rest : head_ok k rest -> para_ends k rest.
Proof.
  destruct rest as [|l rest]; [trivial|]. cbn. intros [-> | (j & (_ & Hi & _) & Hj)]; [now left|right].
  rewrite Hi. lia.
Qed.
Lemma pad_no_line k l : starts_text l = true -> captures LINE (pad k l) = None.
Proof. intros H. apply starts_text_inside in H as (a & c & t & -> & Hc). unfold pad. rewrite app_assoc. now apply starter_no_line. Qed.
Lemma pad_text k l : starts_text l = true -> exists cs, captures TEXT (pad k l) = Some cs /\ cap 1 cs = Some (repeat 32%N k).
Proof. intros H. apply starts_text_inv in H as (c & t & -> & _ & Hc). apply ink_text; [apply ws_pad|exact Hc]. Qed.

(* ---------- comments ---------- *)
Lemma trim_end_ws a w : ws w -> trim_end (a ++ w) = trim_end a.
Proof.
  intros H. unfold trim_end. rewrite rev_app_distr. f_equal. assert (G : forallb is_whitespace (rev w) = true).
  { unfold ws in H. rewrite forallb_forall in *. intros x Hx. apply H. now apply in_rev. }
  clear H. induction (rev w) as [|c v IH]; [reflexivity|]. cbn in G. apply andb_true_iff in G as [G1 G2]. cbn. rewrite G1. auto.
Qed.
Lemma trim_blanks t g : blank t = false -> trim (join [newline] (t :: repeat [] g)) = trim t.
Proof.
  intros H. assert (E : exists w, join [newline] (t :: repeat [] g) = t ++ w /\ ws w).
  { revert t H. induction g as [|g IH]; intros t H; [exists []; cbn; now rewrite app_nil_r|].
    exists (newline :: repeat newline g). split.
    - cbn [repeat join]. f_equal. cbn [app]. f_equal. clear. induction g as [|g IH]; [reflexivity|]. cbn [repeat join app]. now rewrite IH.
    - unfold ws. cbn [forallb]. replace (is_whitespace newline) with true by reflexivity. cbn. clear. induction g; [reflexivity|]. cbn [repeat forallb]. now rewrite IHg. }
  destruct E as (w & -> & Hw). unfold trim. rewrite trim_start_app by exact H. now apply trim_end_ws.
Qed.
Lemma lines_one t : t <> [] -> one_line t = true -> lines t = [t].
Proof.
  intros Hne H. unfold lines. assert (G : forall t cur, one_line t = true -> t ++ cur <> [] -> lines_aux t cur = [rev cur ++ t]).
  { clear. induction t as [|c t IH]; intros cur H Hne; cbn [lines_aux].
    - cbn in Hne. destruct cur; [congruence|]. now rewrite app_nil_r.
    - unfold one_line in H. cbn [existsb] in H. apply negb_true_iff, orb_false_iff in H as [H1 H2]. rewrite N.eqb_sym, H1.
      rewrite IH; [|unfold one_line; now rewrite H2|destruct t; discriminate]. cbn [rev]. now rewrite <- app_assoc. }
  now rewrite G by (auto; rewrite app_nil_r; auto).
Qed.
(* the line after some empty ones is indented by at most k *)
Definition low_head (k : nat) (r : list str) : Prop :=
  match r with [] => True | l :: _ => blank l = false /\ indent_of l <= k end.
Lemma comment_loop k r b : low_head k r -> k < b -> forall g prev min,
  exists m bf, indented_loop (repeat [] g ++ r) prev false (Some b) false (Some min) = (repeat [] g, Some m, bf) /\ m = min.
Proof.
  intros Hr Hb. induction g as [|g IH]; intros prev min.
  - cbn [repeat app]. destruct r as [|l r]; [cbn; eauto|]. cbn in Hr. destruct Hr as [Hr1 Hr2]. cbn [indented_loop]. rewrite Hr1.
    replace (indent_of l <? b) with true by (symmetry; apply Nat.ltb_lt; lia). rewrite orb_true_r. cbn [negb andb]. eauto.
  - cbn [repeat app]. destruct (IH (Some []) min) as (m & bf & E & Em). exists m, bf. split; [|exact Em].
    change (indented_loop ([] :: repeat [] g ++ r) prev false (Some b) false (Some min)) with
      (let '(ls, m, bf) := indented_loop (repeat [] g ++ r) (Some []) false (Some b) false (Some min) in (@nil char :: ls, m, bf)).
    now rewrite E.
Qed.

Section Groups.
  Variables (ord : hash_order) (full : bool).
  Notation under := (under ord full).
  Notation at_ := (at_ ord full).
  Variables (src : list str) (base : nat).

  (* ---------- empty lines ---------- *)
  Definition skippable (S0 : State) : Prop :=
    live S0 /\ exists rest, table S0 = Some (empty_line_entry :: rest).
  Lemma home_skippable S x k : home S x k -> skippable S.
  Proof. intros H. split; [eapply home_live; eauto|]. destruct H; eexists; reflexivity. Qed.
  Lemma skip_blanks S0 st e s seen r : skippable S0 -> forall g c p n, at_ src c (S0 :: st) e s seen p n -> n <= 9 ->
    skipn p src = repeat [] g ++ r ->
    exists c', steps src base c c' /\ at_ src c' (S0 :: st) e s seen (p + g) (match g with 0 => n | _ => 0 end).
  Proof.
    intros [Hlive (more & Ht)]. induction g as [|g IH]; intros c p n Hat Hn E.
    - exists c. split; [apply steps_refl|]. rewrite Nat.add_0_r. exact Hat.
    - cbn [repeat app] in E. apply skipn_cons in E as [Hl E]. destruct (find_empty more) as [cs Hf].
      pose proof (at_cur _ _ _ _ _ _ _ _ _ _ Hat) as Hc.
      destruct (step_transition ord full src base c S0 st e s seen p n [] (empty_line_entry :: more) empty_line cs Neither (Some 1) e s seen (cf_doc c) (cf_cur c) 0 (S0 :: st))
        as (c1 & Hs & Ha); auto.
      { exists 0. reflexivity. }
      { exact (at_doc _ _ _ _ _ _ _ _ _ _ Hat). }
      { lia. }
      rewrite Hc in Ha. replace (p + 1) with (S p) in Ha by lia.
      destruct (IH c1 (S p) 0 Ha ltac:(lia) E) as (c2 & Hs2 & Ha2). exists c2. split; [eapply steps_trans; eauto|].
      replace (p + S g) with (S p + g) by lia. destruct g; exact Ha2.
  Qed.

  Lemma placed_blanks S0 st r : skippable S0 -> forall g c p n, placed src c (S0 :: st) p n -> n <= 9 ->
    skipn p src = repeat [] g ++ r ->
    exists c', steps src base c c' /\ placed src c' (S0 :: st) (p + g) (match g with 0 => n | _ => 0 end) /\ cf_doc c' = cf_doc c.
  Proof.
    intros [Hlive (more & Ht)]. induction g as [|g IH]; intros c p n Hat Hn E.
    - exists c. split; [apply steps_refl|]. rewrite Nat.add_0_r. auto.
    - cbn [repeat app] in E. apply skipn_cons in E as [Hl E]. destruct (find_empty more) as [cs Hf].
      pose proof (pl_cur _ _ _ _ _ Hat) as Hc.
      destruct (placed_step src base c S0 st p n [] (empty_line_entry :: more) empty_line cs Neither (Some 1) (cf_doc c) (cf_cur c) 0 (S0 :: st))
        as (c1 & Hs & Ha & Ed); auto.
      { exists 0. reflexivity. }
      { lia. }
      rewrite Hc in Ha. replace (p + 1) with (S p) in Ha by lia.
      destruct (IH c1 (S p) 0 Ha ltac:(lia) E) as (c2 & Hs2 & Ha2 & Ed2). exists c2. split; [eapply steps_trans; eauto|].
      replace (p + S g) with (S p + g) by lia. split; [destruct g; exact Ha2|congruence].
  Qed.

  (* ---------- paragraphs ---------- *)
  Lemma placed_para c S0 tbl st p n j ls (next : bool) l more rest d' :
    live S0 -> table S0 = Some tbl -> body_table tbl ->
    placed src c (S0 :: st) p n -> n <= 9 ->
    skipn p src = map (pad j) ls ++ rest -> head_ok j rest ->
    ls = l :: more -> like_enumerator l = false -> Forall (fun l => starts_text l = true) ls ->
    pexec (parse table 0) (parse_paragraph src base (base + j)) (cf_doc c) (cf_cur c) =
      Ret (TSuccess (if next then Push [SLiteralBlock] else Neither) (Some 1), d', cur_add (cf_cur c) (length ls - 1)) ->
    exists c', steps src base c c' /\
      placed src c' (if next then SLiteralBlock :: S0 :: st else S0 :: st) (p + length ls) 0 /\ cf_doc c' = d'.
  Proof.
    intros Hlive Ht Hb Hat Hn E Hr El Hen Hls Ed. pose proof (pl_cur _ _ _ _ _ Hat) as Hc.
    assert (Hl : nth_error src p = Some (pad j l) /\ skipn (S p) src = map (pad j) more ++ rest).
    { rewrite El in *. cbn [map app] in E. now apply skipn_cons in E. }
    assert (Hst : starts_text l = true) by (rewrite El in Hls; now apply Forall_cons_iff in Hls).
    destruct Hl as [Hl Hrest]. destruct (find_text tbl (repeat 32%N j) l Hb (ws_pad j) Hst Hen) as (cs & Hf & C1).
    assert (Hbody : forall call, pexec call (body_text src base cs) (cf_doc c) (cf_cur c) =
      pexec call (parse_paragraph src base (base + j)) (cf_doc c) (cf_cur c)).
    { intros call. unfold body_text. rewrite (cap_len_ok _ _ _ _ _ _ _ C1), pad_length. unfold get_cursor. cbn [pbind pexec]. rewrite Hc.
      replace (j + base) with (base + j) by lia.
      rewrite El in Hls. apply Forall_cons_iff in Hls as [_ Hls].
      destruct more as [|l2 more].
      - cbn [map app] in Hrest. destruct rest as [|l2 rest].
        + replace (nth_error src (S p)) with (@None str); [reflexivity|]. symmetry. apply nth_error_None. now apply skipn_end.
        + apply skipn_cons in Hrest as [Hn2 _]. rewrite Hn2. cbn in Hr. destruct Hr as [-> | (i & (_ & _ & Hnl & tcs & Etx & C) & Hi')].
          * rewrite nil_line, nil_text. reflexivity.
          * rewrite Hnl, Etx.
            rewrite (cap_len_ok _ _ _ _ _ _ _ C), pad_length. replace (base + j <? i + base) with false by (symmetry; apply Nat.ltb_ge; lia). reflexivity.
      - cbn [map app] in Hrest. apply skipn_cons in Hrest as [Hn2 _]. rewrite Hn2. apply Forall_cons_iff in Hls as [H2 _].
        rewrite (pad_no_line _ _ H2). destruct (pad_text j _ H2) as (tcs & -> & C).
        rewrite (cap_len_ok _ _ _ _ _ _ _ C), pad_length. replace (base + j <? j + base) with false by (symmetry; apply Nat.ltb_ge; lia). reflexivity. }
    set (pp := if next then Push [SLiteralBlock] else Neither) in *.
    assert (Hex : forall f, pexec (parse table f) (body_text src base cs) (cf_doc c) (cf_cur c) = Ret (TSuccess pp (Some 1), d', cur_add (cf_cur c) (length ls - 1))).
    { intros f. rewrite Hbody. eapply exec_up; [exact Ed|lia]. }
    assert (Hlen1 : 1 <= length ls) by (rewrite El; cbn [length]; lia).
    destruct (placed_step src base c S0 st p n (pad j l) tbl body_text cs pp (Some 1)
      d' (cur_add (cf_cur c) (length ls - 1)) 0 (if next then SLiteralBlock :: S0 :: st else S0 :: st) Hat Hn Hl Hlive Ht Hf) as (c1 & Hs & Ha & Edoc); auto.
    { exists 0. auto. }
    { unfold pp. destruct next; reflexivity. }
    { cbn [cur_add cur_offset]. rewrite Hc. lia. }
    exists c1. split; [exact Hs|]. split; [|exact Edoc]. cbn [cur_add cur_offset] in Ha. rewrite Hc in Ha.
    replace (p + (length ls - 1) + 1) with (p + length ls) in Ha by lia. exact Ha.
  Qed.
  Lemma step_para_as c S0 tbl st x r e s seen p n j tx ls next l more rest :
    live S0 -> table S0 = Some tbl -> body_table tbl -> NodeTypes.body_indent x = Some (base + j) ->
    child_is_allowed (kind x) KParagraph = Ret true ->
    at_ src c (S0 :: st) ((x, r) :: e) s seen p n -> n <= 9 ->
    skipn p src = map (pad j) ls ++ rest -> head_ok j rest ->
    chunks_ok true tx = true -> forallb written_chunk tx = true -> chunks_source tx <> [] ->
    ls = l :: more -> like_enumerator l = false -> Forall (fun l => starts_text l = true) ls -> length ls = S (newlines (chunks_source tx)) ->
    strip_indicator (trim_end (join [newline] ls)) = (chunks_source tx, next) ->
    exists c', steps src base c c' /\
      at_ src c' (if next then SLiteralBlock :: S0 :: st else S0 :: st) ((x, r) :: e) (s ++ para_latex tx) seen (p + length ls) 0.
  Proof.
    intros Hlive Ht Hb Hi Hk Hat Hn E Hr Hch Hwr Hsne El Hen Hls Hlen Hstrip. pose proof (at_cur _ _ _ _ _ _ _ _ _ _ Hat) as Hc. pose proof (at_doc _ _ _ _ _ _ _ _ _ _ Hat) as Hu.
    assert (Hne : ls <> []) by (rewrite El; discriminate).
    destruct (exec_paragraph_as ord full src base (parse table 0) _ _ _ _ _ _ _ j tx ls next rest p Hu Hi Hk Hc E (head_para_ends _ _ Hr) Hch Hwr Hsne Hne Hls Hlen Hstrip) as (d' & Ed & Hu').
    destruct (placed_para c S0 tbl st p n j ls next l more rest d' Hlive Ht Hb (at_placed _ _ _ _ _ _ _ _ _ _ Hat) Hn E Hr El Hen Hls Ed) as (c1 & Hs & Ha & <-).
    exists c1. split; [exact Hs|]. now apply placed_at.
  Qed.
  Lemma step_para c S0 tbl st x r e s seen p n j tx rest :
    live S0 -> table S0 = Some tbl -> body_table tbl -> NodeTypes.body_indent x = Some (base + j) ->
    child_is_allowed (kind x) KParagraph = Ret true ->
    at_ src c (S0 :: st) ((x, r) :: e) s seen p n -> n <= 9 ->
    skipn p src = map (pad j) (text_lines tx) ++ rest -> para_ok tx = true -> head_ok j rest ->
    exists c', steps src base c c' /\ at_ src c' (S0 :: st) ((x, r) :: e) (s ++ para_latex tx) seen (p + length (text_lines tx)) 0.
  Proof.
    intros Hlive Ht Hb Hi Hk Hat Hn E Hok Hr.
    destruct (para_ok_first _ Hok) as (l & more & El & Hst & Hen). pose proof (para_ok_inv _ Hok) as (Hch & Hwr & _). pose proof (para_ok_lines _ Hok) as [_ Hls].
    apply (step_para_as c S0 tbl st x r e s seen p n j tx (text_lines tx) false l more rest); auto.
    - now apply para_nonempty.
    - eapply Forall_impl; [|exact Hls]. now intros ? [? _].
    - apply split_lines_length.
    - rewrite (para_text _ Hok). unfold strip_indicator. now rewrite find_from_text by (eapply chunks_end; exact Hch).
  Qed.

  (* ---------- comments ---------- *)
  Lemma step_remark c S0 x k st r e s seen p n t g rest :
    home S0 x (base + k) -> at_ src c (S0 :: st) ((x, r) :: e) s seen p n -> n <= 9 ->
    skipn p src = pad k (lit ".. " ++ t) :: repeat [] g ++ rest -> low_head k rest ->
    starts_word t = true -> one_line t = true -> no_markup_chars t = true -> snug t = true ->
    exists c', steps src base c c' /\ at_ src c' (S0 :: st) ((x, r) :: e) (s ++ lit "% " ++ t ++ nl2) seen (p + (1 + g)) 0.
  Proof.
    intros Hh Hat Hn E Hr Hst Ho Hm Hs. pose proof (at_cur _ _ _ _ _ _ _ _ _ _ Hat) as Hc. pose proof (at_doc _ _ _ _ _ _ _ _ _ _ Hat) as Hu.
    apply skipn_cons in E as [Hl Hrest]. destruct (home_table _ _ _ Hh) as (tbl & Htb & Hb).
    destruct (find_comment tbl (repeat 32%N k) t Hb (ws_pad k) Hst Hm) as (cs & Hf & C1 & Cw).
    assert (Hnb : blank t = false) by (apply starts_word_text, starts_text_inv in Hst as (a & b & -> & _ & Ha); cbn; now rewrite Ha).
    unfold snug in Hs. apply str_eqb_eq in Hs.
    assert (Hne : t <> []) by (intros ->; discriminate Hnb).
    assert (Hlen : length (whole cs) = k + 3) by (rewrite Cw, app_length, pad_length; reflexivity).
    assert (Hread : read_indented_block src p false true (Some (k + 3)) (Some (k + 3)) false =
                    Ret (Some (MkIndentedBlock (t :: repeat [] g) (k + 3) (1 + g) (snd (indented_loop (repeat [] g ++ rest) (Some (pad k (lit ".. " ++ t))) false (Some (k + 3)) false (Some (k + 3))))))).
    { destruct (comment_loop k rest (k + 3) Hr ltac:(lia) g (Some (pad k (lit ".. " ++ t))) (k + 3)) as (m & bf & El & ->).
      unfold read_indented_block. destruct src as [|s0 src0] eqn:Es; [destruct p; discriminate|]. rewrite <- Es in *.
      unfold checked_sub. replace (p <=? length src) with true by (symmetry; apply Nat.leb_le, Nat.lt_le_incl, nth_error_Some; congruence).
      cbn [obind]. rewrite Hl. cbn [unwrap obind]. rewrite Hrest, El. cbn [obind unwrap strip_block snd].
      replace (skipn (k + 3) (pad k (lit ".. " ++ t))) with t.
      2:{ unfold pad. rewrite Nat.add_comm. rewrite <- (pad_skip k (lit ".. " ++ t)) at 1. unfold pad.
          change t with (skipn 3 (lit ".. " ++ t)) at 1. clear. induction k; [reflexivity|exact IHk]. }
      replace (map (skipn (k + 3)) (repeat [] g)) with (repeat (@nil char) g).
      2:{ clear. induction g as [|g IH]; [reflexivity|]. cbn [repeat map]. rewrite skipn_nil. now f_equal. }
      cbn [length]. rewrite repeat_length. reflexivity. }
    destruct (exec_push ord full (parse table 0) (cf_doc c) (NComment (Some t)) _ s seen (lit "% " ++ t ++ nl2) [] (cf_cur c)
      (fun ok => PRet (if ok then TSuccess Neither (Some (1 + g)) else TFailure)) Hu) as (d' & Ed & Hu').
    { reflexivity. } { reflexivity. }
    { rewrite (under_data _ _ _ _ _ _ _ _ Hu). apply (home_allows _ _ _ _ Hh). a_kind. }
    { cbn [pre_string]. rewrite lines_one by auto. cbn [map concat]. rewrite app_nil_r. unfold nl2, nl. cbn [app]. now rewrite <- !app_assoc. }
    { reflexivity. }
    rewrite app_nil_r in Hu'.
    assert (Hex : pexec (parse table 0) (body_comment src base cs) (cf_doc c) (cf_cur c) = Ret (TSuccess Neither (Some (1 + g)), d', cf_cur c)).
    { unfold body_comment. unfold match_len. rewrite Hlen, (cap_len_ok _ _ _ _ _ _ _ C1), pad_length. unfold get_cursor. cbn [pbind pexec]. rewrite Hc, (Nat.add_comm k).
      cbv zeta. rewrite (exec_by_indent _ _ _ _ _ _ _ (under_data _ _ _ _ _ _ _ _ Hu) (home_indent _ _ _ Hh)), match_same.
      match goal with |- context [lift (checked_sub ?z base)] => match z with match _ with _ => _ end => replace z with (k + 3 + base) end end.
      2:{ destruct g as [|g]; cbn [repeat app] in Hrest.
          - destruct rest as [|l rest].
            + replace (nth_error src (S p)) with (@None str); [reflexivity|]. symmetry. apply nth_error_None. now apply skipn_end.
            + apply skipn_cons in Hrest as [-> _]. cbn in Hr. destruct Hr as [-> Hi].
              replace (indent_of l + base <? base + k + 1) with true by (symmetry; apply Nat.ltb_lt; lia). reflexivity.
          - apply skipn_cons in Hrest as [-> _]. reflexivity. }
      unfold checked_sub. replace (base <=? k + 3 + base) with true by (symmetry; apply Nat.leb_le; lia). cbn [lift pbind]. rewrite !Nat.add_sub, Hread. cbn [lift pbind ib_lines ib_offset].
      unfold join_lines. rewrite trim_blanks, Hs by exact Hnb. destruct t as [|a t]; [congruence|]. exact Ed. }
    destruct (step_transition ord full src base c S0 st ((x, r) :: e) s seen p n _ tbl body_comment cs Neither (Some (1 + g)) ((x, r) :: e) (s ++ lit "% " ++ t ++ nl2) seen
      d' (cf_cur c) 0 (S0 :: st) Hat Hn Hl (home_live _ _ _ Hh) Htb Hf) as (c1 & Hst1 & Ha); eauto.
    { exists 0. intros f Hf0. eapply exec_up; [exact Hex|exact Hf0]. }
    { lia. }
    exists c1. split; [exact Hst1|]. rewrite Hc in Ha. exact Ha.
  Qed.
End Groups.
