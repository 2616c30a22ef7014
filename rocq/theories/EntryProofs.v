(* EntryProofs.v -- footnotes and citations (used for C47). *)
From Verif Require Import Base Unicode Regex Patterns Common Converters NodeTypes Tree DocTree History Blocks Prog ParseLoop
  Inline Body Directives Parser Spec RegexProofs BlockProofs TreeProofs DocTreeProofs HyperrefProofs InlineSpec RegexGroups InlineProofs LoopProofs
  Utf8Latex Writer WriterProofs Transforms TextProofs OpenProofs SimpleSpec LineProofs Properties7 RunProofs MarkerProofs StepProofs ParaProofs NumberProofs LeaveProofs GroupProofs
  OpenerProofs.

(* ---------- the marker ---------- *)
Lemma rel_relc r s t : rel r s t -> forall i, exists n, relc r i s t n.
Proof.
  induction 1; intros i.
  - eexists. constructor.
  - eexists. now constructor.
  - destruct (IHrel1 i) as (n1 & R1). edestruct IHrel2 as (n2 & R2). eexists. econstructor; eauto.
  - destruct (IHrel i) as (n1 & R1). eexists. apply relc_altl. eauto.
  - destruct (IHrel i) as (n1 & R1). eexists. apply relc_altr. eauto.
  - eexists. constructor.
  - destruct (IHrel1 i) as (n1 & R1). edestruct IHrel2 as (n2 & R2). eexists. eapply relc_star1; eauto.
  - destruct (IHrel i) as (n1 & R1). eexists. constructor. eauto.
  - eexists. constructor.
Qed.
Lemma udigit_ascii c : N.ltb c 128 = true -> udigit c = is_ascii_digit c.
Proof.
  intros H. assert (G : forallb (fun n => Bool.eqb (udigit (N.of_nat n)) (is_ascii_digit (N.of_nat n))) (seq 0 128) = true) by (vm_compute; reflexivity).
  rewrite forallb_forall in G. specialize (G (N.to_nat c)). rewrite N2Nat.id in G. apply Bool.eqb_prop, G. apply in_seq. apply N.ltb_lt in H. lia.
Qed.
Lemma bracket_split (a b : str) : forall r t, ~ In 93%N a -> ~ In 93%N b -> a ++ 93%N :: r = b ++ 93%N :: t -> a = b /\ r = t.
Proof.
  revert b. induction a as [|x a IH]; intros [|y b] r t Ha Hb E; cbn [app] in E.
  - apply (f_equal (@tl N)) in E. now split.
  - exfalso. apply (f_equal (hd 0%N)) in E. cbn in E. apply Hb. left. now symmetry.
  - exfalso. apply (f_equal (hd 0%N)) in E. cbn in E. apply Ha. left. exact E.
  - pose proof (f_equal (hd 0%N) E) as Eh. apply (f_equal (@tl N)) in E. cbn in Eh, E. subst y.
    destruct (IH b r t) as [-> ->]; auto; [intros H; apply Ha; now right|intros H; apply Hb; now right].
Qed.
Definition label_re : re := Seq [Cls alpha; Star true (Cls alnum); sep_runs "-+._:" alnum].
Lemma label_re_chars s t : rel label_re s t -> exists p, s = p ++ t /\ ~ In 93%N p.
Proof.
  intros H. unfold label_re in H. cbn [Seq] in H. apply rel_cat_inv in H as (s1 & H & H2). apply rel_cls_inv in H as (x & -> & Hx).
  apply rel_cat_inv in H2 as (s2 & H2 & H3). apply rel_star_cls in H2 as (l & -> & Hl).
  assert (Hx93 : x <> 93%N) by (intros ->; discriminate).
  assert (Hl93 : ~ In 93%N l) by (intros Q; rewrite forallb_forall in Hl; apply Hl in Q; discriminate).
  apply runs_chars in H3 as [-> | (p & c & -> & Hc & Hp)].
  - exists (x :: l). split; [reflexivity|]. intros [Q|Q]; auto.
  - exists (x :: l ++ p ++ [c]). split; [cbn [app]; rewrite <- !app_assoc; reflexivity|]. intros [Q|Q]; [auto|].
    apply in_app_or in Q as [Q|Q]; [auto|]. apply in_app_or in Q as [Q|[Q|[]]]; [|subst c; discriminate].
    rewrite Forall_forall in Hp. apply Hp in Q. discriminate.
Qed.
Lemma note_no_bracket m : note_ok m = true -> ~ In 93%N (note_label m).
Proof.
  intros H Q. destruct m as [l|l]; cbn [note_ok note_label] in *.
  - destruct l as [|a t]; [discriminate|]. apply andb_true_iff in H as [Ha Ht]. destruct Q as [-> |Q]; [discriminate|].
    apply name_chars in Ht. rewrite Forall_forall in Ht. apply Ht in Q as [Q|Q]; discriminate.
  - apply andb_true_iff in H as [_ H]. rewrite forallb_forall in H. apply H in Q. discriminate.
Qed.
Definition note_fn (m : note) : transition := match m with Citation _ => body_citation | Footnote _ => body_footnote end.
Definition note_re (m : note) : re := match m with Citation _ => CITATION | Footnote _ => FOOTNOTE end.

Section NoteLine.
  Variables (w : str) (m : note) (c : char) (t : str).
  Hypothesis (Hw : ws w) (Hm : note_ok m = true) (Hc : is_whitespace c = false).
  Let L := w ++ note_marker m ++ 32%N :: c :: t.
  Lemma note_line_eq : L = w ++ 46%N :: 46%N :: 32%N :: 91%N :: note_label m ++ 93%N :: 32%N :: c :: t.
  Proof. unfold L, note_marker. rewrite <- !app_assoc. reflexivity. Qed.
  Lemma nt_32 : N.eqb 32 c = false. Proof. apply N.eqb_neq. intros <-. discriminate. Qed.
  (* the part both patterns begin with *)
  Lemma nt_head X i s u n : relc (Cat (Lit (q "..")) (Cat spaces1 (Cat (Chr (ch "[")) X))) i s u n -> forall w', ws w' ->
    L = w' ++ s -> w' = w /\ exists j, relc X j (note_label m ++ 93%N :: 32%N :: c :: t) u n.
  Proof.
    intros R w' Hw' E. rewrite note_line_eq in E. apply relc_cat_inv in R as (t1 & n1 & n2 & R1 & R2 & ->). apply relc_lit_inv in R1 as [-> ->]. cbn [q lit app] in E.
    change (N_of_ascii "."%char) with 46%N in E. apply ws_head in E as (<- & _ & E); auto. apply (f_equal (@tl N)) in E. cbn [tl] in E. subst t1. split; [reflexivity|].
    apply relc_cat_inv in R2 as (t2 & n3 & n4 & R2 & R3 & ->).
    assert (n3 = []) by (eapply relc_nogrp; [|exact R2]; reflexivity). subst n3. apply relc_rel in R2.
    apply relc_cat_inv in R3 as (t3 & n5 & n6 & R3 & R4 & ->). apply relc_chr_inv in R3 as [-> ->].
    apply rel_plus_cls in R2 as (l & E & Hne & Hl). destruct l as [|x l]; [congruence|]. apply (f_equal (@tl N)) in E. cbn [tl app] in E.
    destruct l as [|y l].
    - apply (f_equal (@tl N)) in E. cbn [tl app] in E. subst t3. rewrite !app_nil_r. eexists. exact R4.
    - apply (f_equal (hd 0%N)) in E. cbn in E. subst y. cbn [forallb] in Hl. rewrite !andb_false_r in Hl. discriminate.
  Qed.
  Lemma nt_tail u n i : relc (Cat (Chr (ch "]")) after) i (93%N :: 32%N :: c :: t) u n -> u = c :: t /\ n = [].
  Proof.
    intros R. apply relc_cat_inv in R as (t1 & n1 & n2 & R1 & R2 & ->). apply relc_chr_inv in R1 as [E ->].
    apply (f_equal (@tl N)) in E. cbn [tl] in E. subst t1.
    assert (n2 = []) by (eapply relc_nogrp; [|exact R2]; reflexivity). subst n2. split; [|reflexivity]. eapply after_inv1; [apply nt_32|exact R2].
  Qed.
  Lemma nt_whole : firstn (length L - length (c :: t)) L = w ++ note_marker m ++ [32%N].
  Proof.
    unfold L. replace (w ++ note_marker m ++ 32%N :: c :: t) with ((w ++ note_marker m ++ [32%N]) ++ c :: t) by (rewrite <- !app_assoc; reflexivity).
    apply whole_firstn.
  Qed.
  Lemma nt_start X : rel X (note_label m ++ 93%N :: 32%N :: c :: t) (93%N :: 32%N :: c :: t) ->
    rel (Seq [Grp 1 ws0; Lit (q ".."); spaces1; Chr (ch "["); X; Chr (ch "]"); after]) L (c :: t).
  Proof.
    intros HX. rewrite note_line_eq. cbn [Seq].
    apply rel_cat with (46%N :: 46%N :: 32%N :: 91%N :: note_label m ++ 93%N :: 32%N :: c :: t);
      [apply rel_grp, rel_star_cls; exists w; split; [reflexivity|exact Hw]|].
    apply rel_cat with (32%N :: 91%N :: note_label m ++ 93%N :: 32%N :: c :: t); [apply rel_lit; reflexivity|].
    apply rel_cat with (91%N :: note_label m ++ 93%N :: 32%N :: c :: t).
    { unfold spaces1, Plus. eapply rel_cat; [apply rel_chr; reflexivity|apply rel_star0]. }
    eapply rel_cat; [apply rel_chr; reflexivity|]. eapply rel_cat; [exact HX|]. eapply rel_cat; [apply rel_chr; reflexivity|].
    apply after_rel, nt_32.
  Qed.
  Lemma nt_citation l : m = Citation l -> exists cs, captures CITATION L = Some cs /\ cap 1 cs = Some w /\ cap 2 cs = Some l /\ whole cs = w ++ note_marker m ++ [32%N].
  Proof.
    intros Em. pose proof (note_no_bracket _ Hm) as Hnb.
    destruct (captures_some CITATION L (c :: t)) as [cs E].
    { apply nt_start. apply rel_grp. rewrite Em in Hm |- *. cbn [note_ok note_label] in *. destruct l as [|a l]; [discriminate|]. apply andb_true_iff in Hm as [Ha Hl].
      destruct (name_rest_rel (93%N :: 32%N :: c :: t) l Hl) as (x & r & -> & Hx & R). cbn [app].
      eapply rel_cat; [now apply rel_cls|]. apply rel_cat with (r ++ 93%N :: 32%N :: c :: t); [|exact R]. apply rel_star_cls. exists x. split; [now rewrite <- app_assoc|exact Hx]. }
    exists cs. split; [exact E|]. unfold CITATION in E. cbn [Seq] in E. apply captures_ws in E as (w' & t' & u & new & E & H & R & ->).
    destruct (nt_head _ _ _ _ _ R w' H E) as (Ew & j & R1). clear R E. subst w'.
    apply relc_cat_inv in R1 as (t1 & n1 & n2 & R1 & R2 & ->). apply relc_grp_simple in R1 as (nm & Enm & R1 & ->); [|reflexivity].
    change (rel label_re (nm ++ t1) t1) in R1. destruct (label_re_chars _ _ R1) as (p & Ep & Hp). apply app_inv_tail in Ep. subst p.
    pose proof R2 as R3. apply relc_cat_inv in R3 as (t2 & na & nb & R3 & _ & _). apply relc_chr_inv in R3 as [E1 _]. change (ch "]") with 93%N in E1.
    rewrite E1 in Enm. apply bracket_split in Enm as [<- E2]; auto. rewrite <- E2 in E1. rewrite E1 in R2. apply nt_tail in R2 as [-> ->].
    rewrite Em. cbn [app cap Nat.eqb note_label]. split; [reflexivity|]. split; [reflexivity|]. unfold whole. cbn [cap Nat.eqb]. rewrite <- Em. apply nt_whole.
  Qed.
  Lemma nt_not_footnote l : m = Citation l -> captures FOOTNOTE L = None.
  Proof.
    intros Em. apply captures_none. intros (u & R). unfold FOOTNOTE in R. cbn [Seq Alts] in R.
    apply rel_cat_inv in R as (s & R1 & R2). apply rel_ws0 in R1 as (w' & E & Hw').
    destruct (rel_relc _ _ _ R2 0) as (n & R3). destruct (nt_head _ _ _ _ _ R3 w' Hw' E) as (_ & j & R4). clear R2 R3.
    apply relc_rel in R4. apply rel_cat_inv in R4 as (s1 & R4 & _). rewrite Em in R4, Hm. cbn [note_label note_ok] in *. destruct l as [|a l]; [discriminate|]. apply andb_true_iff in Hm as [Ha _].
    assert (A128 : N.ltb a 128 = true) by (clear -Ha; unfold is_ascii_alpha, is_ascii_upper, is_ascii_lower, in_range in Ha; rewrite ?orb_true_iff, ?andb_true_iff, ?N.leb_le in Ha; apply N.ltb_lt; lia).
    cbn [app] in R4. apply rel_alt_inv in R4 as [R4|R4].
    { apply rel_grp_inv in R4. unfold Plus in R4. apply rel_cat_inv in R4 as (x & R4 & _). apply rel_cls_inv in R4 as (y & Ey & Hy).
      apply (f_equal (hd 0%N)) in Ey. cbn in Ey. subst y. rewrite udigit_ascii in Hy by exact A128.
      clear -Ha Hy. unfold is_ascii_alpha, is_ascii_digit, is_ascii_upper, is_ascii_lower, in_range in *. rewrite ?orb_true_iff, ?andb_true_iff, ?N.leb_le in *. lia. }
    apply rel_alt_inv in R4 as [R4|R4].
    { apply rel_grp_inv in R4. apply rel_chr in R4. apply (f_equal (hd 0%N)) in R4. cbn in R4. subst a. discriminate. }
    apply rel_alt_inv in R4 as [R4|R4].
    { apply rel_cat_inv in R4 as (x & R4 & _). apply rel_chr in R4. apply (f_equal (hd 0%N)) in R4. cbn in R4. subst a. discriminate. }
    { apply rel_grp_inv in R4. apply rel_chr in R4. apply (f_equal (hd 0%N)) in R4. cbn in R4. subst a. discriminate. }
  Qed.
  Lemma nt_footnote l : m = Footnote l -> exists cs, captures FOOTNOTE L = Some cs /\ cap 1 cs = Some w /\ cap 2 cs = Some l /\ whole cs = w ++ note_marker m ++ [32%N].
  Proof.
    intros Em. pose proof (note_no_bracket _ Hm) as Hnb. rewrite Em in Hm. cbn [note_ok] in Hm. apply andb_true_iff in Hm as [Hne Hd].
    assert (Hu : forallb udigit l = true).
    { rewrite forallb_forall in Hd |- *. intros x Hx. apply Hd in Hx. rewrite udigit_ascii; [exact Hx|].
      clear -Hx. unfold is_ascii_digit, in_range in Hx. rewrite ?andb_true_iff, ?N.leb_le in Hx. apply N.ltb_lt. lia. }
    destruct (captures_some FOOTNOTE L (c :: t)) as [cs E].
    { apply nt_start. rewrite Em. cbn [note_label Alts]. apply rel_altl. apply rel_grp. apply rel_plus_cls. exists l. split; [reflexivity|]. split; [now destruct l|exact Hu]. }
    exists cs. split; [exact E|]. unfold FOOTNOTE in E. cbn [Seq Alts] in E. apply captures_ws in E as (w' & t' & u & new & E & H & R & ->).
    destruct (nt_head _ _ _ _ _ R w' H E) as (Ew & j & R1). clear R E. subst w'.
    apply relc_cat_inv in R1 as (t1 & n1 & n2 & R1 & R2 & ->).
    assert (Hhd : forall b, In b (lit "#*") -> hd 0%N (note_label m ++ 93%N :: 32%N :: c :: t) <> b).
    { intros b Hb. rewrite Em. cbn [note_label]. destruct l as [|a l]; [discriminate|]. cbn [app hd]. cbn [forallb] in Hd. apply andb_true_iff in Hd as [Ha _].
      vm_compute in Hb. intros ->. repeat (destruct Hb as [<-|Hb]; [discriminate|]). contradiction. }
    apply relc_alt_inv in R1 as [R1|R1].
    2:{ exfalso. apply relc_rel in R1. apply rel_alt_inv in R1 as [R1|R1]; [|apply rel_alt_inv in R1 as [R1|R1]].
        - apply rel_grp_inv in R1. apply rel_chr in R1. apply (Hhd 35%N); [now left|]. now rewrite R1.
        - apply rel_cat_inv in R1 as (x & R1 & _). apply rel_chr in R1. apply (Hhd 35%N); [now left|]. now rewrite R1.
        - apply rel_grp_inv in R1. apply rel_chr in R1. apply (Hhd 42%N); [right; now left|]. now rewrite R1. }
    apply relc_grp_simple in R1 as (nm & Enm & R1 & ->); [|reflexivity].
    apply rel_plus_cls in R1 as (p & Ep & _ & Hp). apply app_inv_tail in Ep. subst p.
    assert (Hp93 : ~ In 93%N nm) by (intros Q; rewrite forallb_forall in Hp; apply Hp in Q; rewrite udigit_ascii in Q; [discriminate|reflexivity]).
    pose proof R2 as R3. apply relc_cat_inv in R3 as (t2 & na & nb & R3 & _ & _). apply relc_chr_inv in R3 as [E1 _]. change (ch "]") with 93%N in E1.
    rewrite E1 in Enm. apply bracket_split in Enm as [<- E2]; auto. rewrite <- E2 in E1. rewrite E1 in R2. apply nt_tail in R2 as [-> ->].
    rewrite Em. cbn [app cap Nat.eqb note_label]. split; [reflexivity|]. split; [reflexivity|]. unfold whole. cbn [cap Nat.eqb]. rewrite <- Em. apply nt_whole.
  Qed.
  Lemma find_note tbl : body_table tbl -> exists cs, find_transition L tbl = Some (note_fn m, cs) /\ cap 1 cs = Some w /\ cap 2 cs = Some (note_label m) /\
    whole cs = w ++ note_marker m ++ [32%N].
  Proof.
    intros Hb.
    assert (G : exists cs, find_transition L body_rest = Some (note_fn m, cs) /\ cap 1 cs = Some w /\ cap 2 cs = Some (note_label m) /\ whole cs = w ++ note_marker m ++ [32%N]).
    { unfold body_rest. cbn [find_transition].
      assert (B1 : captures BULLET L = None) by (rewrite note_line_eq; now apply cm_bullet).
      assert (B2 : captures ENUMERATOR L = None) by (rewrite note_line_eq; now apply cm_enum).
      assert (B3 : captures FIELD_MARKER L = None) by (rewrite note_line_eq; now apply cm_field).
      rewrite B1, B2, B3.
      assert (D : (exists l, m = Citation l) \/ exists l, m = Footnote l) by (destruct m; eauto). destruct D as [(l & Em)|(l & Em)].
      - destruct (nt_citation l Em) as (cs & E & C1 & C2 & C3). exists cs. rewrite (nt_not_footnote l Em), E. rewrite Em at 1 2. auto.
      - destruct (nt_footnote l Em) as (cs & E & C1 & C2 & C3). exists cs. rewrite E. rewrite Em at 1 2. auto. }
    destruct G as (cs & E & C). exists cs. split; [|exact C]. pose proof note_line_eq as El.
    apply find_in_body; [exact Hb|rewrite El; now apply ink_blank|rewrite El; now apply cm_attribution|rewrite El; now apply ink_break|exact E].
  Qed.
End NoteLine.

Definition note_state (m : note) : State := match m with Citation _ => SCitation | Footnote _ => SFootnote end.
Definition note_node (m : note) (b : nat) : TreeNodeType :=
  match m with Citation l => NCitation b l | Footnote l => NFootnote b FManual (normalize_refname l) (normalize_refname l) end.
Lemma trim_ink l : Forall (fun c => is_whitespace c = false) l -> trim l = l.
Proof.
  assert (T : forall l, Forall (fun c => is_whitespace c = false) l -> trim_start l = l) by (intros [|c l0] H; [reflexivity|]; apply Forall_cons_iff in H as [H _]; cbn; now rewrite H).
  intros H. unfold trim, trim_end. rewrite (T l H). rewrite T; [apply rev_involutive|]. apply Forall_forall. intros c Hc. apply in_rev in Hc. rewrite Forall_forall in H. auto.
Qed.
Lemma note_trim l : note_ok (Citation l) = true -> trim l = l.
Proof.
  cbn [note_ok]. destruct l as [|a t]; [discriminate|]. intros H. apply andb_true_iff in H as [Ha Ht]. apply trim_ink. apply name_chars in Ht.
  assert (G : forall c, is_ascii_alnum c = true -> is_whitespace c = false).
  { intros c Hc. apply alnum_starter, starter_spec in Hc. tauto. }
  constructor; [apply G; now apply alpha_alnum|]. eapply Forall_impl; [|exact Ht]. intros c [Hc| ->]; [now apply G|reflexivity].
Qed.

Section Entries.
  Variables (ord : hash_order) (full : bool).
  Notation under := (under ord full).
  Notation at_ := (at_ ord full).
  Variables (src : list str) (base : nat).

  (* what the transition does after reading the marker *)
  Definition note_act (m : note) (p k : nat) : prog tresult :=
    let body := marker_body_indent src p (k + base) (k + S (length (note_marker m)) + base) in
    let* ok := Prog.pushed (DPushFocus (note_node m body)) in
    if negb ok then PRet TFailure else
    let* r := parse_first_node_block src base body (Some (k + S (length (note_marker m)) + base)) (note_state m) false in
    PRet (finish_first_block r).
  Lemma exec_note m k cs call d cur : note_ok m = true -> cap 1 cs = Some (repeat 32%N k) -> cap 2 cs = Some (note_label m) ->
    whole cs = repeat 32%N k ++ note_marker m ++ [32%N] ->
    pexec call (note_fn m src base cs) d cur = pexec call (by_indent (k + base) (note_act m (cur_offset cur) k)) d cur.
  Proof.
    intros Hm C1 C2 Cw. assert (El : match_len cs = k + S (length (note_marker m))).
    { unfold match_len. rewrite Cw, !app_length, pad_length. cbn [length]. lia. }
    destruct m as [l|l]; cbn [note_fn note_label] in *.
    - unfold body_citation. rewrite El. rewrite (cap_len_ok _ _ _ _ _ _ _ C1), pad_length. rewrite (get_cap_ok _ _ _ _ _ _ _ C2). unfold get_cursor. cbn [pbind pexec].
      rewrite (note_trim _ Hm). reflexivity.
    - unfold body_footnote. rewrite El. unfold get_cursor. cbn [pbind pexec]. rewrite C1, pad_length. unfold footnote_kind. rewrite C2.
      unfold get_doc. cbn [pbind pexec footnote_label lift]. reflexivity.
  Qed.
  Lemma note_line m k l : starts_text l = true -> note_ok m = true -> forall tbl, body_table tbl -> exists cs,
    find_transition (pad k (note_marker m ++ 32%N :: l)) tbl = Some (note_fn m, cs) /\ cap 1 cs = Some (repeat 32%N k) /\ cap 2 cs = Some (note_label m) /\
    whole cs = repeat 32%N k ++ note_marker m ++ [32%N].
  Proof.
    intros Hst Hm tbl Hb. destruct l as [|c t]; [discriminate|]. pose proof (starts_text_ink c t Hst) as Hc. apply find_note; auto using ws_pad.
  Qed.
  Lemma leaver_note p j m l : nth_error src p = Some (pad j (note_marker m ++ 32%N :: l)) -> note_ok m = true -> starts_text l = true -> leaver ord full src base p j.
  Proof.
    intros Hl Hm Hst. eexists. split; [exact Hl|]. intros tbl Hb. destruct (note_line m j l Hst Hm tbl Hb) as (cs & Hf & C1 & C2 & Cw). exists (note_fn m), cs. split; [exact Hf|].
    intros call d x r e s seen cur b Hu Hne Hc Hi Hbi Hj. rewrite (exec_note m j) by auto. rewrite (Nat.add_comm j).
    rewrite (exec_by_indent _ _ _ _ _ _ _ (under_data _ _ _ _ _ _ _ _ Hu) Hbi), match_less by exact Hj. reflexivity.
  Qed.
  Lemma quote_note p j m l : nth_error src p = Some (pad j (note_marker m ++ 32%N :: l)) -> note_ok m = true -> starts_text l = true -> by_its_indent src base p j.
  Proof.
    intros Hl Hm Hst. eexists. split; [exact Hl|]. intros tbl Hb. destruct (note_line m j l Hst Hm tbl Hb) as (cs & Hf & C1 & C2 & Cw). exists (note_fn m), cs. split; [exact Hf|].
    intros call d x b cur Hx Hc Hbi Hj. rewrite (exec_note m j) by auto. rewrite (Nat.add_comm j).
    rewrite (exec_by_indent _ _ _ _ _ _ _ Hx Hbi), match_more by exact Hj. reflexivity.
  Qed.
  Lemma list_line_note p j m l : nth_error src p = Some (pad j (note_marker m ++ 32%N :: l)) -> list_line src p j MPlain.
  Proof.
    intros Hl. eexists. split; [exact Hl|]. unfold pad, note_marker. rewrite <- !app_assoc.
    change (lit ".. [" ++ note_label m ++ lit "]" ++ 32%N :: l) with (46%N :: 46%N :: 32%N :: 91%N :: note_label m ++ lit "]" ++ 32%N :: l).
    split; [now apply ink_blank|]. split; [apply cm_bullet; auto using ws_pad|]. split; [apply cm_enum; auto using ws_pad|]. split; [apply ink_field; [apply ws_pad|reflexivity|discriminate]|]. eexists _, _. split; reflexivity.
  Qed.
  Lemma note_first_line m k l : blank (pad k (note_marker m ++ 32%N :: l)) = false /\ indent_of (pad k (note_marker m ++ 32%N :: l)) = k.
  Proof.
    unfold pad, note_marker. rewrite <- !app_assoc.
    change (lit ".. [" ++ note_label m ++ lit "]" ++ 32%N :: l) with (46%N :: 46%N :: 32%N :: 91%N :: note_label m ++ lit "]" ++ 32%N :: l).
    split; [now apply ink_not_blank|]. rewrite ink_indent; [apply pad_length|apply ws_pad|reflexivity].
  Qed.

  Lemma step_note c S0 x k st r e s seen p n m tx rest w :
    home S0 x (base + k) -> at_ src c (S0 :: st) ((x, r) :: e) s seen p n -> n <= 9 -> note_ok m = true -> para_ok tx = true ->
    skipn p src = entry_lines k m (text_lines tx) ++ rest ->
    marker_body_indent src p (k + base) (k + S (length (note_marker m)) + base) = base + (k + w) -> 3 <= w -> (length (text_lines tx) <= 1 \/ w = 3) ->
    head_ok (k + w) rest ->
    exists c', steps src base c c' /\
      at_ src c' (note_state m :: S0 :: st) ((note_node m (base + (k + w)), refs_of (note_node m (base + (k + w)))) :: (x, r) :: e)
        (s ++ note_begin m ++ para_latex tx) seen (p + length (text_lines tx)) 0.
  Proof.
    intros Hh Hat Hn Hm Hok E Hbody Hw3 Hw Hr. pose proof (at_cur _ _ _ _ _ _ _ _ _ _ Hat) as Hc. pose proof (at_doc _ _ _ _ _ _ _ _ _ _ Hat) as Hu.
    destruct (para_ok_lines _ Hok) as [_ Hls]. destruct (para_ok_first _ Hok) as (l & more & El & Hst & Hen).
    assert (Hmore : Forall (fun l => starts_text l = true) more).
    { rewrite El in Hls. apply Forall_cons_iff in Hls as [_ Hls]. eapply Forall_impl; [|exact Hls]. now intros ? (? & _). }
    assert (Hl : nth_error src p = Some (pad k (note_marker m ++ 32%N :: l)) /\ skipn (S p) src = map (pad (k + w)) more ++ rest).
    { rewrite El in E. cbn [entry_lines app] in E. apply skipn_cons in E as [E1 E2]. split; [exact E1|]. rewrite E2.
      destruct Hw as [Hw| ->]; [|reflexivity]. rewrite El in Hw. cbn [length] in Hw. destruct more; [reflexivity|cbn [length] in Hw; lia]. }
    destruct Hl as [Hl Hrest].
    destruct (home_table _ _ _ Hh) as (tbl & Htb & Hb).
    destruct (note_line m k l Hst Hm tbl Hb) as (cs & Hf & C1 & C2 & Cw).
    set (nd := note_node m (base + (k + w))) in *.
    (* the entry *)
    destruct (under_label ord full (cf_doc c) _ s seen nd (note_begin m) Hu) as (d1 & Ed & Hu1).
    { subst nd. destruct m; exact I. }
    { rewrite (under_data _ _ _ _ _ _ _ _ Hu). apply (home_allows _ _ _ _ Hh). subst nd. destruct m; a_kind. }
    { subst nd. destruct m; [|reflexivity]. cbn [note_node pre_string note_begin]. unfold braces. now rewrite <- !app_assoc. }
    (* its first lines *)
    assert (Hread : exists bf, read_indented_block src p true true (Some (k + w)) (Some (k + S (length (note_marker m)))) false =
                    Ret (Some (MkIndentedBlock (map (pad 0) (text_lines tx)) (k + w) (length (text_lines tx)) bf))).
    { replace (k + w) with (k + (w - 2) + 2) in Hr, Hrest |- * by lia.
      destruct (item_loop (k + (w - 2)) rest Hr more (Some (pad k (note_marker m ++ 32%N :: l))) (k + (w - 2) + 2) Hmore) as (bf & Eloop). exists bf.
      unfold read_indented_block. destruct src as [|s0 src0] eqn:Es; [destruct p; discriminate|]. rewrite <- Es in *.
      unfold checked_sub. replace (p <=? length src) with true by (symmetry; apply Nat.leb_le, Nat.lt_le_incl, nth_error_Some; congruence).
      cbn [obind]. rewrite Hl. cbn [unwrap obind]. rewrite Hrest, Eloop. cbn [obind unwrap strip_block].
      replace (skipn (k + S (length (note_marker m))) (pad k (note_marker m ++ 32%N :: l))) with (pad 0 l).
      2:{ unfold pad. cbn [repeat app]. replace (repeat 32%N k ++ note_marker m ++ 32%N :: l) with ((repeat 32%N k ++ note_marker m ++ [32%N]) ++ l) by (rewrite <- !app_assoc; reflexivity).
          rewrite skipn_app. rewrite skipn_all2 by (rewrite !app_length, repeat_length; cbn [length]; lia). rewrite !app_length, repeat_length. cbn [length app].
          replace (k + S (length (note_marker m)) - (k + (length (note_marker m) + 1))) with 0 by lia. reflexivity. }
      replace (map (skipn (k + (w - 2) + 2)) (map (pad (k + (w - 2) + 2)) more)) with (map (pad 0) more).
      2:{ rewrite map_map. apply map_ext. intros a. now rewrite pad_skip. }
      rewrite El. cbn [map length]. rewrite map_length. reflexivity. }
    destruct Hread as (bf & Hread).
    (* the parser for them *)
    set (inner_src := map (pad 0) (text_lines tx)).
    set (c0 := initial (cur_sum (cf_cur c)) (note_state m) d1).
    assert (Ha0 : at_ inner_src c0 [note_state m] ((nd, refs_of nd) :: (x, r) :: e) (s ++ note_begin m) seen 0 0).
    { split; try reflexivity; [|exact Hu1]. replace (length inner_src <=? 0) with false; [reflexivity|].
      symmetry. apply Nat.leb_gt. unfold inner_src. rewrite map_length, El. cbn. lia. }
    assert (Hhn : home (note_state m) nd (base + (k + w))) by (subst nd; destruct m; constructor).
    destruct (step_para ord full inner_src (base + (k + w)) c0 (note_state m) BODY_TRANSITIONS [] nd (refs_of nd)
      ((x, r) :: e) (s ++ note_begin m) seen 0 0 0 tx []) with (6 := Ha0) as (c1 & Hs1 & Ha1).
    { destruct m; exact I. } { destruct m; reflexivity. } { now left. } { rewrite Nat.add_0_r. exact (home_indent _ _ _ Hhn). }
    { apply (home_allows _ _ _ _ Hhn). a_kind. }
    { lia. } { cbn [skipn]. now rewrite app_nil_r. } { exact Hok. } { exact I. }
    cbn [Nat.add] in Ha1.
    assert (Hrun : exists f0, forall f, f0 <= f -> parse table f inner_src (base + (k + w)) (cur_sum (cf_cur c)) (note_state m) d1 = Ret (REOF [note_state m], cf_doc c1)).
    { unfold parse. fold c0. eapply run_steps; [exact Hs1|]. eapply run_end in Ha1 as Hend; [exact Hend|lia|]. unfold inner_src. now rewrite map_length. }
    destruct Hrun as (f0 & Hrun). pose proof (at_doc _ _ _ _ _ _ _ _ _ _ Ha1) as Hu2. rewrite <- app_assoc in Hu2.
    assert (Hex : pexec (parse table f0) (note_fn m src base cs) (cf_doc c) (cf_cur c) = Ret (TSuccess (Push [note_state m]) (Some (length (text_lines tx))), cf_doc c1, cf_cur c)).
    { rewrite (exec_note m k) by auto. rewrite (Nat.add_comm k base).
      rewrite (exec_by_indent _ _ _ _ _ _ _ (under_data _ _ _ _ _ _ _ _ Hu) (home_indent _ _ _ Hh)), match_same.
      unfold note_act. rewrite Hc, Hbody. fold nd. cbv zeta. unfold Prog.pushed. cbn [pbind pexec]. rewrite Ed. cbn [obind pexec negb].
      unfold parse_first_node_block, get_cursor. cbn [pbind pexec]. unfold checked_sub.
      replace (base <=? k + S (length (note_marker m)) + base) with true by (symmetry; apply Nat.leb_le; lia). cbn [lift pbind].
      replace (base <=? base + (k + w)) with true by (symmetry; apply Nat.leb_le; lia). cbn [lift pbind].
      replace (base + (k + w) - base) with (k + w) by lia. replace (k + S (length (note_marker m)) + base - base) with (k + S (length (note_marker m))) by lia. rewrite Hc, Hread.
      cbn [lift pbind pexec ib_lines ib_offset]. fold inner_src. rewrite Hrun by lia. cbn [obind pexec finish_first_block]. reflexivity. }
    destruct (step_transition ord full src base c S0 st _ s seen p n _ tbl (note_fn m) cs (Push [note_state m]) (Some (length (text_lines tx)))
      ((nd, refs_of nd) :: (x, r) :: e) (s ++ note_begin m ++ para_latex tx) seen (cf_doc c1) (cf_cur c) 0 (note_state m :: S0 :: st)
      Hat Hn Hl (home_live _ _ _ Hh) Htb Hf) with (2 := Hu2) as (c2 & Hs2 & Ha2); auto.
    { exists f0. intros f Hf0. eapply exec_up; [exact Hex|exact Hf0]. }
    { rewrite El. cbn [length]. lia. }
    exists c2. split; [exact Hs2|]. rewrite Hc in Ha2. exact Ha2.
  Qed.
End Entries.
