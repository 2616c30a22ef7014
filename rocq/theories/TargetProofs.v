(* TargetProofs.v -- hyperlink targets in front of a title (used for C47, C57). *)
From Verif Require Import Base Unicode Regex Patterns Common Converters NodeTypes Tree DocTree History Blocks Prog ParseLoop
  Inline Body Directives Parser Spec RegexProofs BlockProofs TreeProofs DocTreeProofs HyperrefProofs InlineSpec RegexGroups InlineProofs LoopProofs
  Utf8Latex Writer WriterProofs Transforms TextProofs OpenProofs SimpleSpec LineProofs Properties7 RunProofs MarkerProofs StepProofs ParaProofs LeaveProofs GroupProofs
  OpenerProofs EntryProofs.

(* ---------- the marker ---------- *)
Lemma target_rest_split l : target_rest l = true -> exists x r z, l = x ++ r ++ [z] /\ forallb alnum_sp x = true /\ is_ascii_alnum z = true /\
  (forall s, rel (sep_runs "-+._:" alnum_sp) (r ++ s) s) /\ match r with [] => True | c :: _ => target_char c = false end.
Proof.
  induction l as [|c l IH]; [discriminate|]. destruct l as [|d l].
  - cbn [target_rest]. intros H. exists [], [], c. split; [reflexivity|]. split; [reflexivity|]. split; [exact H|]. split; [intros s; apply rel_star0|exact I].
  - intros H. change (target_rest (c :: d :: l)) with
      ((target_char c || (existsb (N.eqb c) (lit "-+._") && target_char d && negb (Nat.eqb (length l) 0))) && target_rest (d :: l)) in H.
    apply andb_true_iff in H as [H Hr]. destruct (IH Hr) as (x & r & z & E & Hx & Hz & R & Hh). destruct (target_char c) eqn:Hc.
    + exists (c :: x), r, z. split; [rewrite E; reflexivity|]. split; [cbn [forallb]; rewrite Hx, andb_true_r; exact Hc|]. auto.
    + cbn [orb] in H. apply andb_true_iff in H as [H Hl]. apply andb_true_iff in H as [Hs Hd].
      destruct x as [|x0 x].
      * exfalso. destruct r as [|r0 r]; cbn [app] in E.
        -- apply (f_equal (@length N)) in E. cbn [length] in E. destruct l; [discriminate|discriminate].
        -- apply (f_equal (hd 0%N)) in E. cbn in E. subst r0. congruence.
      * exists [], (c :: (x0 :: x) ++ r), z. split; [rewrite E; cbn [app]; rewrite <- !app_assoc; reflexivity|]. split; [reflexivity|]. split; [exact Hz|]. split; [|exact Hc].
        intros s. unfold sep_runs. apply rel_star1 with (r ++ s).
        { cbn [Seq]. rewrite <- app_comm_cons, <- app_assoc. eapply rel_cat; [apply rel_cls|apply rel_plus_cls].
          - unfold cls_of. change (q "-+._:") with (lit "-+._:"). clear -Hs. cbn [lit existsb] in *. rewrite !orb_true_iff in *. tauto.
          - exists (x0 :: x). split; [reflexivity|]. split; [discriminate|exact Hx]. }
        { cbn [app length]. rewrite !app_length. lia. }
        apply R.
Qed.
Lemma target_rel name s : target_name name = true ->
  rel (Seq [Cls alnum; Star true (Cls alnum_sp); sep_runs "-+._:" alnum_sp; Plus true (Cls alnum)]) (name ++ s) s.
Proof.
  destruct name as [|c t]; [discriminate|]. cbn [target_name]. intros H. apply andb_true_iff in H as [Hc Ht].
  destruct (target_rest_split t Ht) as (x & r & z & -> & Hx & Hz & R & _). cbn [Seq app]. rewrite <- !app_assoc.
  eapply rel_cat; [now apply rel_cls|]. eapply rel_cat; [apply rel_star_cls; exists x; split; [reflexivity|exact Hx]|].
  eapply rel_cat; [apply R|]. apply rel_plus_cls. exists [z]. split; [reflexivity|]. split; [discriminate|]. cbn [forallb]. now rewrite andb_true_r.
Qed.
Lemma target_no_colon name : target_name name = true -> ~ In 58%N name.
Proof.
  assert (G : forall l, target_rest l = true -> ~ In 58%N l).
  { induction l as [|c l IH]; [discriminate|]. destruct l as [|d l].
    - cbn [target_rest]. intros H [->|[]]. discriminate.
    - intros H. change (target_rest (c :: d :: l)) with
        ((target_char c || (existsb (N.eqb c) (lit "-+._") && target_char d && negb (Nat.eqb (length l) 0))) && target_rest (d :: l)) in H.
      apply andb_true_iff in H as [H Hr]. intros [->|Q]; [|now apply (IH Hr)]. apply orb_true_iff in H as [H|H]; [discriminate|].
      apply andb_true_iff in H as [H _]. apply andb_true_iff in H as [H _]. discriminate. }
  destruct name as [|c t]; [discriminate|]. cbn [target_name]. intros H. apply andb_true_iff in H as [Hc Ht]. intros [->|Q]; [discriminate|]. now apply (G t).
Qed.
Lemma colon_split (b : str) : forall a r, ~ In 58%N b -> a ++ 58%N :: r = b ++ [58%N] -> a = b /\ r = [].
Proof.
  induction b as [|x b IH]; intros a r Hb E.
  - destruct a as [|y a]; [split; [reflexivity|now apply (f_equal (@tl N)) in E]|]. apply (f_equal (@tl N)) in E. cbn in E. destruct a; discriminate.
  - destruct a as [|y a]; cbn [app] in E.
    + exfalso. apply (f_equal (hd 0%N)) in E. cbn in E. apply Hb. now left.
    + pose proof (f_equal (hd 0%N) E) as Eh. cbn in Eh. subst y. apply (f_equal (@tl N)) in E. cbn [tl] in E.
      destruct (IH a r) as [-> ->]; auto. intros Q. apply Hb. now right.
Qed.

Lemma not_anonymous name : target_name name = true -> str_eqb name (lit "_") = false.
Proof.
  destruct name as [|c t]; [reflexivity|]. cbn [target_name]. intros H. apply andb_true_iff in H as [H _]. change (N.eqb c 95 && str_eqb t [] = false).
  destruct (N.eqb_spec c 95); [subst; discriminate|reflexivity].
Qed.

Section TargetLine.
  Variables (w name : str).
  Hypothesis (Hw : ws w) (Hn : target_name name = true).
  Let L := w ++ target_line name.
  Lemma target_line_eq : L = w ++ 46%N :: 46%N :: 32%N :: 95%N :: name ++ [58%N].
  Proof. reflexivity. Qed.
  (* what all these patterns begin with *)
  Lemma tg_head X i s u n : relc (Cat (Lit (q "..")) (Cat spaces1 X)) i s u n -> forall w', ws w' ->
    L = w' ++ s -> w' = w /\ exists j, relc X j (95%N :: name ++ [58%N]) u n.
  Proof.
    intros R w' Hw' E. rewrite target_line_eq in E. apply relc_cat_inv in R as (t1 & n1 & n2 & R1 & R2 & ->). apply relc_lit_inv in R1 as [-> ->]. cbn [q lit app] in E.
    change (N_of_ascii "."%char) with 46%N in E. apply ws_head in E as (<- & _ & E); auto. apply (f_equal (@tl N)) in E. cbn [tl] in E. subst t1. split; [reflexivity|].
    apply relc_cat_inv in R2 as (t2 & n3 & n4 & R2 & R3 & ->).
    assert (n3 = []) by (eapply relc_nogrp; [|exact R2]; reflexivity). subst n3. apply relc_rel in R2.
    apply rel_plus_cls in R2 as (l & E & Hne & Hl). destruct l as [|x l]; [congruence|]. apply (f_equal (@tl N)) in E. cbn [tl app] in E.
    destruct l as [|y l].
    - cbn [app] in E. subst t2. rewrite ?app_nil_r. eexists. exact R3.
    - apply (f_equal (hd 0%N)) in E. cbn in E. subst y. cbn [forallb] in Hl. rewrite !andb_false_r in Hl. discriminate.
  Qed.
  Lemma tg_none X p : starts_with_class p X -> p 95%N = false -> captures (Cat (Grp 1 ws0) (Cat (Lit (q "..")) (Cat spaces1 X))) L = None.
  Proof.
    intros HX Hp. apply captures_none. intros (u & R). apply rel_cat_inv in R as (s & R1 & R2). apply rel_ws0 in R1 as (w' & E & Hw').
    destruct (rel_relc _ _ _ R2 0) as (n & R3). destruct (tg_head _ _ _ _ _ R3 w' Hw' E) as (_ & j & R4). apply relc_rel in R4.
    apply HX in R4 as (a & t' & Ea & Ha). apply (f_equal (hd 0%N)) in Ea. cbn in Ea. subst a. congruence.
  Qed.
  Lemma tg_target : exists cs, captures HYPERLINK_TARGET L = Some cs /\ cap 1 cs = Some w /\ cap 2 cs = Some name /\ whole cs = L.
  Proof.
    pose proof (target_no_colon _ Hn) as Hnc.
    destruct (captures_some HYPERLINK_TARGET L []) as [cs E].
    { unfold HYPERLINK_TARGET. rewrite target_line_eq. cbn [Seq].
      eapply rel_cat; [apply rel_grp, rel_star_cls; exists w; split; [reflexivity|exact Hw]|].
      eapply rel_cat; [apply rel_lit; reflexivity|].
      eapply rel_cat; [unfold spaces1, Plus; eapply rel_cat; [apply rel_chr; reflexivity|apply rel_star0]|].
      eapply rel_cat; [apply rel_chr; reflexivity|].
      apply rel_cat with [58%N]; [apply rel_grp, rel_altl; now apply target_rel|].
      eapply rel_cat; [apply rel_chr; reflexivity|]. apply rel_altr. constructor. }
    exists cs. split; [exact E|]. unfold HYPERLINK_TARGET in E. cbn [Seq] in E. apply captures_ws in E as (w' & t' & u & new & E & H & R & ->).
    destruct (tg_head _ _ _ _ _ R w' H E) as (Ew & j & R1). clear R E. subst w'.
    apply relc_cat_inv in R1 as (t1 & n1 & n2 & R1 & R2 & ->). apply relc_chr_inv in R1 as [E1 ->]. apply (f_equal (@tl N)) in E1. cbn [tl] in E1. subst t1.
    apply relc_cat_inv in R2 as (t1 & n1 & n3 & R1 & R2 & ->). apply relc_grp_simple in R1 as (nm & Enm & R1 & ->); [|reflexivity].
    apply relc_cat_inv in R2 as (t2 & na & nb & R2 & R3 & ->). apply relc_chr_inv in R2 as [E1 ->]. change (ch ":") with 58%N in E1.
    rewrite E1 in Enm. symmetry in Enm. apply colon_split in Enm as [-> ->]; [|exact Hnc].
    assert (nb = []) by (eapply relc_nogrp; [|exact R3]; reflexivity). subst nb.
    assert (u = []).
    { apply relc_rel in R3. unfold after, spaces1 in R3. apply rel_alt_inv in R3 as [R3|R3].
      - apply rel_plus_cls in R3 as (l & E & Hne & _). destruct l; [congruence|discriminate].
      - now apply rel_eot_inv in R3 as [_ R3]. }
    subst u. cbn [app cap Nat.eqb]. split; [reflexivity|]. split; [reflexivity|]. unfold whole. cbn [cap Nat.eqb length]. rewrite Nat.sub_0_r, firstn_all. reflexivity.
  Qed.
  Lemma find_target tbl : body_table tbl -> exists cs, find_transition L tbl = Some (body_hyperlink_target, cs) /\ cap 1 cs = Some w /\ cap 2 cs = Some name /\ whole cs = L.
  Proof.
    intros Hb. destruct tg_target as (cs & E & C). exists cs. split; [|exact C]. pose proof target_line_eq as El.
    apply find_in_body; [exact Hb|rewrite El; now apply ink_blank|rewrite El; now apply cm_attribution|rewrite El; now apply ink_break|].
    unfold body_rest. cbn [find_transition].
    assert (B1 : captures BULLET L = None) by (rewrite El; now apply cm_bullet).
    assert (B2 : captures ENUMERATOR L = None) by (rewrite El; now apply cm_enum).
    assert (B3 : captures FIELD_MARKER L = None) by (rewrite El; now apply cm_field).
    assert (B4 : captures FOOTNOTE L = None) by (apply (tg_none _ (N.eqb 91)); [apply sw_cat, sw_chr; reflexivity|reflexivity]).
    assert (B5 : captures CITATION L = None) by (apply (tg_none _ (N.eqb 91)); [apply sw_cat, sw_chr; reflexivity|reflexivity]).
    now rewrite B1, B2, B3, B4, B5, E.
  Qed.
End TargetLine.

(* ---------- labels that wait for a node ---------- *)
Definition clean (d : DocTree) : DocTree := d_set_hyperref d (h_set_accumulated (hyperref d) []).
Lemma clean_same d : accumulated (hyperref d) = [] -> clean d = d.
Proof. destruct d as [t n h c s]. destruct h. cbn. intros ->. reflexivity. Qed.
Section Waiting.
  Variables (ord : hash_order) (full : bool).
  Notation under := (under ord full).
  Notation at_ := (at_ ord full).
  Variable src : list str.
  Record waiting (c : config) (st : list State) (e : list entry) (s : str) (seen : list SectionLineStyle) (p n : nat) (acc : list str) : Prop := {
    wt_placed : placed src c st p n;
    wt_doc : under (clean (cf_doc c)) e s seen;
    wt_acc : accumulated (hyperref (cf_doc c)) = acc }.
  Lemma at_waiting c st e s seen p n : at_ src c st e s seen p n -> waiting c st e s seen p n [].
  Proof.
    intros H. pose proof (at_doc _ _ _ _ _ _ _ _ _ _ H) as Hu. pose proof (u_acc _ _ _ _ _ _ Hu) as Ha.
    split; [eapply at_placed; eauto|rewrite clean_same by exact Ha; exact Hu|exact Ha].
  Qed.
  Lemma clean_close d x r e s seen post : under (clean d) ((x, r) :: e) s seen -> e <> [] -> post_string full x r = Ret post ->
    exists d', d_focus_on_parent d = Ret d' /\ under (clean d') e (s ++ post) seen /\ accumulated (hyperref d') = accumulated (hyperref d).
  Proof.
    intros Hu Hne Hp. destruct (under_close ord full _ _ _ _ _ _ _ Hu Hne Hp) as (d' & Ed & Hu' & _).
    unfold d_focus_on_parent in *. change (tree (clean d)) with (tree d) in Ed. destruct (focus_on_parent (tree d)) as [r0| |]; try discriminate.
    cbn [obind] in *. eexists. split; [reflexivity|]. split; [|reflexivity]. apply Ret_inj in Ed. subst d'. exact Hu'.
  Qed.
  Lemma clean_section d e s seen title style acc : under (clean d) e s seen -> accumulated (hyperref d) = acc ->
    child_is_allowed (kind (focused_data d)) KSection = Ret true ->
    let x := NSection title (level_after seen style) style in
    forall pre, pre_string ord full x (Some (acc ++ [normalize_refname title])) = Ret pre ->
    exists d', dop_exec (DSection title style) d = Ret (AOk, d') /\
      under d' ((x, Some (acc ++ [normalize_refname title])) :: e) (s ++ pre) (seen ++ [style]).
  Proof.
    intros [Ho Ha Hc Hs] Hacc Hk x pre Hpre. cbn [dop_exec]. unfold new_section_data. cbn [clean sections d_set_hyperref] in Hs. rewrite (sec_inv_level _ _ _ Hs). fold x.
    assert (Eh : hyperref_actions d x = Ret (
      d_set_sections (add_targets (clean d) (acc ++ [normalize_refname title]))
        (let s := add_section_level (sections d) style in if (highest_level s <? level_after seen style)%nat then increment_section_number s else s),
      x, Some (acc ++ [normalize_refname title]))).
    { unfold hyperref_actions. rewrite Hacc. unfold x.
      assert (G : forall l, sections (add_targets (clean d) l) = sections d).
      { intros l. enough (G : forall l d0, sections (add_targets d0 l) = sections d0) by apply (G l (clean d)).
        clear. unfold add_targets. induction l as [|a l IH]; intros d0; [reflexivity|]. cbn [fold_left]. now rewrite IH. }
      destruct acc as [|a acc].
      - pose proof (clean_same d Hacc) as Q. rewrite Q in G |- *. cbn [app]. cbv zeta. rewrite (G [normalize_refname title]). reflexivity.
      - fold (clean d). cbv zeta. rewrite (G ((a :: acc) ++ [normalize_refname title])). reflexivity. }
    unfold push_data_and_focus. rewrite Eh. cbn [obind].
    set (d1 := d_set_sections _ _).
    assert (D1 : tree d1 = tree d /\ incoming_classes d1 = [] /\ accumulated (hyperref d1) = [] /\ node_count d1 = node_count d).
    { subst d1. cbn [tree d_set_sections incoming_classes hyperref node_count].
      assert (G : forall l d0, tree (add_targets d0 l) = tree d0 /\ incoming_classes (add_targets d0 l) = incoming_classes d0 /\
        accumulated (hyperref (add_targets d0 l)) = accumulated (hyperref d0) /\ node_count (add_targets d0 l) = node_count d0).
      { clear. unfold add_targets. induction l as [|a l IH]; intros d0; [auto|]. cbn [fold_left]. destruct (IH (add_target d0 a (node_count d0))) as (-> & -> & -> & ->). auto. }
      destruct (G (acc ++ [normalize_refname title]) (clean d)) as (-> & -> & -> & ->). auto. }
    destruct D1 as (Et & Ec & Ea & En). rewrite no_classes by exact Ec. cbn [tree clean d_set_hyperref] in Ho. destruct (opened_kids _ _ _ _ _ Ho) as [ks Ek]. rewrite Et.
    rewrite (push_focus_ok d ks) by eauto using opened_wf. cbn [obind]. eexists. split; [reflexivity|].
    split; cbn [tree hyperref incoming_classes sections d_set_count d_set_tree]; auto.
    - now apply opened_open.
    - subst d1. cbn [sections d_set_sections]. pose proof (sec_inv_push _ _ style Hs) as G. cbn zeta in G. rewrite (sec_inv_level _ _ _ Hs) in G. exact G.
  Qed.

  (* ---------- targets ---------- *)
  Lemma leaver_target p name : nth_error src p = Some (target_line name) -> target_name name = true -> ender ord full src 0 p 0 MPlain.
  Proof.
    intros Hl Hn. split.
    - eexists. split; [exact Hl|]. intros tbl Hb. destruct (find_target [] name eq_refl Hn tbl Hb) as (cs & Hf & C1 & C2 & Cw). exists body_hyperlink_target, cs. split; [exact Hf|].
      intros call d x r e s seen cur b Hu Hne Hc Hi Hbi Hj. unfold body_hyperlink_target. rewrite (cap_len_ok _ _ _ _ _ _ _ C1), (get_cap_ok _ _ _ _ _ _ _ C2). unfold get_cursor. cbn [pbind pexec length].
      rewrite not_anonymous by assumption. cbn [pbind]. rewrite (exec_by_indent _ _ _ _ _ _ _ (under_data _ _ _ _ _ _ _ _ Hu) Hbi), match_less by exact Hj. reflexivity.
    - eexists. split; [exact Hl|]. change (target_line name) with ([] ++ 46%N :: 46%N :: 32%N :: 95%N :: name ++ [58%N]).
      split; [now apply ink_blank|]. split; [apply cm_bullet; auto; reflexivity|]. split; [apply cm_enum; auto; reflexivity|]. split; [apply ink_field; [reflexivity|reflexivity|discriminate]|]. eexists _, _. split; reflexivity.
  Qed.
  Lemma step_target c S0 x st r e s seen p n acc name : home S0 x 0 -> waiting c (S0 :: st) ((x, r) :: e) s seen p n acc -> n <= 9 ->
    nth_error src p = Some (target_line name) -> target_name name = true ->
    (forall l, nth_error src (S p) = Some l -> blank l = true \/ indent_of l = 0) ->
    exists c', steps src 0 c c' /\ waiting c' (S0 :: st) ((x, r) :: e) s seen (p + 1) 0 (acc ++ [normalize_refname name]).
  Proof.
    intros Hh [Hp Hu Ha] Hn Hl Hname Hnext. pose proof (pl_cur _ _ _ _ _ Hp) as Hc. destruct (home_table _ _ _ Hh) as (tbl & Htb & Hb).
    destruct (find_target [] name eq_refl Hname tbl Hb) as (cs & Hf & C1 & C2 & Cw). change ([] ++ target_line name) with (target_line name) in *.
    set (d' := push_to_internal_target_stack (cf_doc c) (normalize_refname name)).
    assert (El : match_len cs = length (target_line name)) by (unfold match_len; now rewrite Cw).
    assert (Hlen : 0 < length (target_line name)) by (unfold target_line; rewrite !app_length; cbn; lia).
    assert (Hbody : match nth_error src (S p) with
              | Some l => if blank l then match_len cs else let i := indent_of l + 0 in if i <? 0 + 3 then match_len cs else i
              | None => match_len cs end = length (target_line name)).
    { destruct (nth_error src (S p)) as [l|] eqn:E1; [|exact El]. destruct (blank l) eqn:Bl; [exact El|]. destruct (Hnext l eq_refl) as [H|H]; [congruence|]. rewrite H. exact El. }
    assert (Hread : exists bf, read_indented_block src p true true (Some (length (target_line name))) (Some (length (target_line name))) false =
       Ret (Some (MkIndentedBlock [[]] (length (target_line name)) 1 bf))).
    { unfold read_indented_block. destruct src as [|s0 src0] eqn:Es; [destruct p; discriminate|]. rewrite <- Es in *.
      unfold checked_sub. replace (p <=? length src) with true by (symmetry; apply Nat.leb_le, Nat.lt_le_incl, nth_error_Some; congruence).
      cbn [obind]. rewrite Hl. cbn [unwrap obind].
      assert (G : exists bf, indented_loop (skipn (S p) src) (Some (target_line name)) true (Some (length (target_line name))) false (Some (length (target_line name))) =
        ([], Some (length (target_line name)), bf)).
      { destruct (skipn (S p) src) as [|l ls] eqn:E1; [cbn; eauto|]. apply skipn_cons in E1 as [E1 _]. cbn [indented_loop].
        destruct (blank l) eqn:Bl; [cbn [negb andb]; eauto|]. destruct (Hnext l E1) as [H|H]; [congruence|]. rewrite H. cbn [negb andb orb Nat.ltb Nat.leb]. eauto. }
      destruct G as (bf & G). rewrite G. cbn [obind unwrap strip_block map length]. rewrite skipn_all. eauto. }
    destruct Hread as (bf & Hread).
    assert (Hex : pexec (parse table 0) (body_hyperlink_target src 0 cs) (cf_doc c) (cf_cur c) = Ret (TSuccess Neither (Some 1), d', cf_cur c)).
    { unfold body_hyperlink_target. rewrite (cap_len_ok _ _ _ _ _ _ _ C1), (get_cap_ok _ _ _ _ _ _ _ C2). unfold get_cursor. cbn [pbind pexec length].
      rewrite not_anonymous by assumption. cbn [pbind]. rewrite Hc. cbv zeta in Hbody |- *. rewrite Hbody, El. pose proof (under_data _ _ _ _ _ _ _ _ Hu) as Hfd. change (focused_data (clean (cf_doc c))) with (focused_data (cf_doc c)) in Hfd.
      rewrite (exec_by_indent _ _ _ _ _ _ _ Hfd (home_indent _ _ _ Hh)), match_same. rewrite Hread. reflexivity. }
    destruct (placed_step src 0 c S0 st p n _ tbl body_hyperlink_target cs Neither (Some 1) d' (cf_cur c) 0 (S0 :: st) Hp Hn Hl (home_live _ _ _ Hh) Htb Hf) as (c1 & Hs & Hp1 & Ed); auto.
    { exists 0. intros f Hf0. eapply exec_up; [exact Hex|exact Hf0]. }
    { lia. }
    exists c1. split; [exact Hs|]. rewrite Hc in Hp1. split; [exact Hp1|rewrite Ed; exact Hu|]. rewrite Ed. cbn. now rewrite Ha.
  Qed.
  Lemma target_ink name : blank (target_line name) = false /\ indent_of (target_line name) = 0.
  Proof.
    change (target_line name) with ([] ++ 46%N :: 46%N :: 32%N :: 95%N :: name ++ [58%N]).
    split; [now apply ink_not_blank|]. rewrite ink_indent; reflexivity.
  Qed.
  (* several of them, up to a line that is not indented *)
  Lemma run_targets S0 x st r e s seen rest : home S0 x 0 -> match rest with [] => True | l :: _ => indent_of l = 0 end ->
    forall names c p n acc, waiting c (S0 :: st) ((x, r) :: e) s seen p n acc -> n <= 9 ->
    skipn p src = targets_source names ++ rest -> forallb (fun x => target_name (fst x)) names = true ->
    exists c' n', steps src 0 c c' /\
      waiting c' (S0 :: st) ((x, r) :: e) s seen (p + length (targets_source names)) n' (acc ++ map (fun x => normalize_refname (fst x)) names) /\ (n' = n \/ n' = 0) /\
      (names <> [] -> n' = 0).
  Proof.
    intros Hh Hr. induction names as [|[name g] names IH]; intros c p n acc Hw Hn E Hok.
    - exists c, n. split; [apply steps_refl|]. cbn [targets_source flat_map length map]. rewrite Nat.add_0_r, app_nil_r. split; [exact Hw|]. split; [now left|congruence].
    - cbn [forallb fst] in Hok. apply andb_true_iff in Hok as [Hname Hok]. cbn [targets_source flat_map fst snd app] in E. rewrite <- app_assoc in E.
      apply skipn_cons in E as [Hl E].
      destruct (step_target c S0 x st r e s seen p n acc name Hh Hw Hn Hl Hname) as (c1 & Hs1 & [Hp1 Hu1 Ha1]).
      { intros l El. destruct g as [|g].
        - cbn [repeat app] in E. destruct names as [|[name2 g2] names].
          + cbn [flat_map app] in E. destruct rest as [|l' rest]; [apply skipn_end in E; assert (S p < length src) by (apply nth_error_Some; congruence); lia|]. apply skipn_cons in E as [E _]. right. congruence.
          + cbn [flat_map fst app] in E. apply skipn_cons in E as [E _]. rewrite E in El. apply some_inj in El. subst l. right. apply target_ink.
        - cbn [repeat app] in E. apply skipn_cons in E as [E _]. left. rewrite E in El. apply some_inj in El. now subst l. }
      destruct (placed_blanks src 0 S0 st (targets_source names ++ rest) (home_skippable _ _ _ Hh) g c1 (p + 1) 0 Hp1 ltac:(lia)) as (c2 & Hs2 & Hp2 & Ed2).
      { rewrite Nat.add_1_r. exact E. }
      destruct (IH c2 (p + 1 + g) 0 (acc ++ [normalize_refname name])) as (c3 & n3 & Hs3 & Hw3 & Hn3 & _); [split; [destruct g; exact Hp2|rewrite Ed2; exact Hu1|now rewrite Ed2]|lia| |exact Hok|].
      { rewrite Nat.add_1_r. replace g with (length (repeat (@nil char) g)) at 1 by apply repeat_length. eapply skipn_past. exact E. }
      exists c3, 0. split; [eapply steps_trans; [exact Hs1|]; eapply steps_trans; eauto|].
      assert (n3 = 0) by lia. subst n3. cbn [targets_source flat_map map fst snd length app] in *. rewrite app_length, repeat_length.
      fold (targets_source names). rewrite <- app_assoc in Hw3. cbn [app] in Hw3. replace (p + S (g + length (targets_source names))) with (p + 1 + g + length (targets_source names)) by lia.
      split; [exact Hw3|]. split; [now right|reflexivity].
  Qed.
End Waiting.
