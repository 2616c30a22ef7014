(* MarkerProofs.v -- the first line of a directive (used for C47). *)
From Verif Require Import Base Unicode Regex Patterns Common Converters NodeTypes Tree DocTree History Blocks Prog ParseLoop
  Inline Body Directives Parser Spec RegexProofs BlockProofs InlineSpec RegexGroups InlineProofs
  SimpleSpec LineProofs RunProofs.

Lemma alnum_starter c : is_ascii_alnum c = true -> starter c = true.
Proof.
  intros H. unfold starter, is_ascii_punct, is_ascii_alnum, is_ascii_alpha, is_ascii_upper, is_ascii_lower, is_ascii_digit, in_range in *.
  assert (W : is_whitespace c = false).
  { destruct (is_whitespace c) eqn:E; [|reflexivity]. exfalso. unfold is_whitespace in E.
    rewrite ?orb_true_iff, ?andb_true_iff, ?N.eqb_eq, ?N.leb_le in *. unfold in_range in *. rewrite ?andb_true_iff, ?N.leb_le in *. lia. }
  rewrite W. cbn [existsb negb andb]. rewrite ?orb_true_iff, ?andb_true_iff, ?N.leb_le in H.
  rewrite ?andb_true_iff, ?negb_true_iff, ?orb_false_iff, ?andb_false_iff, ?N.leb_gt, ?N.eqb_neq. lia.
Qed.
Lemma alpha_alnum c : is_ascii_alpha c = true -> is_ascii_alnum c = true.
Proof. unfold is_ascii_alnum. intros ->. reflexivity. Qed.

(* ---------- names ---------- *)
Lemma name_rest_rel s : forall l, name_rest l = true ->
  exists a r, l = a ++ r /\ forallb is_ascii_alnum a = true /\ rel (sep_runs "-+._:" alnum) (r ++ s) s.
Proof.
  intros l. remember (length l) as n eqn:En. assert (Hn : length l <= n) by lia. clear En. revert l Hn.
  induction n as [|n IH]; intros l Hn H.
  { destruct l; [|cbn in Hn; lia]. exists [], []. repeat split; auto. apply rel_star0. }
  destruct l as [|c t]; [exists [], []; repeat split; auto; apply rel_star0|]. cbn [length] in Hn. cbn [name_rest] in H.
  destruct (is_ascii_alnum c) eqn:Ec.
  - destruct (IH t ltac:(lia) H) as (a & r & -> & Ha & R). exists (c :: a), r. split; [reflexivity|]. split; [cbn; now rewrite Ec|exact R].
  - apply andb_true_iff in H as [E45 H]. apply N.eqb_eq in E45. subst c. destruct t as [|d u]; [discriminate|]. apply andb_true_iff in H as [Hd Hu].
    cbn [length] in Hn. destruct (IH u ltac:(lia) Hu) as (a & r & -> & Ha & R).
    exists [], (45%N :: d :: a ++ r). split; [reflexivity|]. split; [reflexivity|].
    unfold sep_runs in *. apply rel_star1 with (r ++ s); [| |exact R].
    + cbn [Seq app]. apply rel_cat with (d :: (a ++ r) ++ s); [apply rel_cls; reflexivity|].
      unfold Plus. apply rel_cat with ((a ++ r) ++ s); [now apply rel_cls|].
      apply rel_star_cls. exists a. split; [now rewrite <- app_assoc|exact Ha].
    + cbn [app length]. rewrite !app_length. lia.
Qed.
Lemma name_chars l : name_rest l = true -> Forall (fun c => is_ascii_alnum c = true \/ c = 45%N) l.
Proof.
  remember (length l) as n eqn:En. assert (Hn : length l <= n) by lia. clear En. revert l Hn.
  induction n as [|n IH]; intros [|c t] Hn H; try constructor; cbn [length] in Hn; try lia.
  - cbn [name_rest] in H. destruct (is_ascii_alnum c) eqn:Ec; [now left|]. apply andb_true_iff in H as [E45 H]. apply N.eqb_eq in E45. now right.
  - cbn [name_rest] in H. destruct (is_ascii_alnum c) eqn:Ec; [apply IH; [lia|exact H]|].
    apply andb_true_iff in H as [E45 H]. destruct t as [|d u]; [discriminate|]. apply andb_true_iff in H as [Hd Hu]. cbn [length] in Hn.
    constructor; [now left|apply IH; [lia|exact Hu]].
Qed.
Lemma directive_name_chars l : directive_name l = true -> Forall (fun c => is_ascii_alnum c = true \/ c = 45%N) l.
Proof.
  destruct l as [|a [|b t]]; try discriminate. cbn [directive_name]. intros H. apply andb_true_iff in H as [H Ht]. apply andb_true_iff in H as [Ha Hb].
  constructor; [left; now apply alpha_alnum|]. constructor; [now left|now apply name_chars].
Qed.
(* what a name in the pattern consists of *)
Definition name_re : re := Seq [Cls alpha; Plus true (Cls alnum); sep_runs "-+._:" alnum].
Definition name_char (c : char) : bool := is_ascii_alnum c || existsb (N.eqb c) (lit "-+._:").
Lemma runs_chars s t : rel (sep_runs "-+._:" alnum) s t ->
  s = t \/ exists p c, s = p ++ c :: t /\ is_ascii_alnum c = true /\ Forall (fun c => name_char c = true) p.
Proof.
  unfold sep_runs. set (R := Seq [Cls (cls_of (q "-+._:")); Plus true (Cls alnum)]).
  assert (G : forall r s t, rel r s t -> r = Star true R -> s = t \/ exists p c, s = p ++ c :: t /\ is_ascii_alnum c = true /\ Forall (fun c => name_char c = true) p);
    [|intros H; eapply G; [exact H|reflexivity]].
  clear s t. induction 1; try discriminate; intros E; [now left|]. injection E as -> ->.
  right. subst R. cbn [Seq] in H. apply rel_cat_inv in H as (s1 & H & H2). apply rel_cls_inv in H as (x & -> & Hx).
  apply rel_plus_cls in H2 as (l & -> & Hne & Hl).
  assert (Hlast : exists l' y, l = l' ++ [y]) by (destruct (exists_last Hne) as (l' & y & ->); eauto). destruct Hlast as (l' & y & ->).
  rewrite forallb_app in Hl. apply andb_true_iff in Hl as [Hl' Hy]. cbn in Hy. rewrite andb_true_r in Hy.
  assert (Hnx : name_char x = true).
  { unfold name_char. unfold cls_of in Hx. change (q "-+._:") with (lit "-+._:") in Hx. rewrite Hx. apply orb_true_r. }
  assert (Hl2 : Forall (fun c => name_char c = true) l').
  { apply Forall_forall. intros c Hc. rewrite forallb_forall in Hl'. unfold name_char. unfold alnum in Hl'. now rewrite (Hl' c Hc). }
  destruct (IHrel2 eq_refl) as [-> | (p & c & -> & Hc & Hp)].
  - exists (x :: l'), y. split; [cbn [app]; now rewrite <- app_assoc|]. split; [exact Hy|]. now constructor.
  - exists (x :: l' ++ y :: p), c. split; [cbn [app]; rewrite <- !app_assoc; reflexivity|]. split; [exact Hc|].
    constructor; [exact Hnx|]. apply Forall_app. split; [exact Hl2|]. constructor; [|exact Hp]. unfold name_char. unfold alnum in Hy. now rewrite Hy.
Qed.
Lemma name_re_chars s t : rel name_re s t -> exists p c, s = p ++ c :: t /\ is_ascii_alnum c = true /\ Forall (fun c => name_char c = true) p.
Proof.
  intros H. unfold name_re in H. cbn [Seq] in H. apply rel_cat_inv in H as (s1 & H & H2). apply rel_cls_inv in H as (x & -> & Hx).
  apply rel_cat_inv in H2 as (s2 & H2 & H3). apply rel_plus_cls in H2 as (l & -> & Hne & Hl).
  assert (Hnx : name_char x = true) by (unfold name_char; rewrite (alpha_alnum _ Hx); reflexivity).
  destruct (exists_last Hne) as (l' & y & ->). rewrite forallb_app in Hl. apply andb_true_iff in Hl as [Hl' Hy]. cbn in Hy. rewrite andb_true_r in Hy.
  assert (Hl2 : Forall (fun c => name_char c = true) l').
  { apply Forall_forall. intros c Hc. rewrite forallb_forall in Hl'. unfold name_char. unfold alnum in Hl'. now rewrite (Hl' c Hc). }
  apply runs_chars in H3 as [-> | (p & c & -> & Hc & Hp)].
  - exists (x :: l'), y. split; [cbn [app]; now rewrite <- app_assoc|]. split; [exact Hy|]. now constructor.
  - exists (x :: l' ++ y :: p), c. split; [cbn [app]; rewrite <- !app_assoc; reflexivity|]. split; [exact Hc|].
    constructor; [exact Hnx|]. apply Forall_app. split; [exact Hl2|]. constructor; [|exact Hp]. unfold name_char. unfold alnum in Hy. now rewrite Hy.
Qed.
Lemma name_rel s l : directive_name l = true -> rel name_re (l ++ s) s.
Proof.
  destruct l as [|a [|b t]]; try discriminate. cbn [directive_name]. intros H. apply andb_true_iff in H as [H Ht]. apply andb_true_iff in H as [Ha Hb].
  destruct (name_rest_rel s t Ht) as (x & r & -> & Hx & R). unfold name_re. cbn [Seq app].
  apply rel_cat with (b :: (x ++ r) ++ s); [now apply rel_cls|]. apply rel_cat with (r ++ s); [|exact R].
  unfold Plus. apply rel_cat with ((x ++ r) ++ s); [now apply rel_cls|]. apply rel_star_cls. exists x. split; [now rewrite <- app_assoc|exact Hx].
Qed.

Lemma app_inv_length {A} (a b c d : list A) : length a = length c -> a ++ b = c ++ d -> a = c /\ b = d.
Proof.
  revert c. induction a as [|x a IH]; intros [|y c] Hl E; try discriminate; [now split|]. cbn in Hl, E. injection E as -> E.
  destruct (IH c ltac:(lia) E) as [-> ->]. now split.
Qed.

(* ---------- the line ---------- *)
Lemma argument_starts arg : argument_ok arg = true -> arg = [] \/ exists c t, arg = c :: t /\ is_whitespace c = false /\ c <> 58%N.
Proof.
  unfold argument_ok. intros H. apply andb_true_iff in H as [H Hc]. apply andb_true_iff in H as [_ Hs]. destruct arg as [|c t]; [now left|right].
  exists c, t. split; [reflexivity|]. split; [|apply negb_true_iff, N.eqb_neq in Hc; exact Hc].
  unfold snug in Hs. apply TextProofs.str_eqb_eq in Hs. destruct (is_whitespace c) eqn:E; [|reflexivity]. exfalso.
  apply (f_equal (@length _)) in Hs. unfold trim in Hs. cbn [trim_start] in Hs. rewrite E in Hs.
  assert (G : forall l, length (trim_start l) <= length l).
  { clear. induction l as [|x l IH]; cbn [trim_start]; [lia|]. destruct (is_whitespace x); cbn [length]; lia. }
  unfold trim_end in Hs. rewrite rev_length in Hs. pose proof (G (rev (trim_start t))) as G1. rewrite rev_length in G1. pose proof (G t). cbn [length] in Hs. lia.
Qed.
Lemma dl_head name : directive_name name = true -> exists c t, name = c :: t /\ starter c = true /\ is_ascii_alnum c = true.
Proof.
  destruct name as [|c [|d t]]; try discriminate. cbn [directive_name]. intros Hn. apply andb_true_iff in Hn as [H _]. apply andb_true_iff in H as [H _].
  exists c, (d :: t). split; [reflexivity|]. apply alpha_alnum in H. split; [now apply alnum_starter|exact H].
Qed.
Section DirectiveLine.
  Variables (w name arg : str).
  Hypotheses (Hw : ws w) (Hn : directive_name name = true) (Ha : argument_ok arg = true).
  Let L := w ++ marker_line name arg.
  Definition lead : str := match arg with [] => [] | _ => [32%N] end.
  Lemma lead_arg : after_space arg = lead ++ arg.
  Proof. unfold lead. destruct arg; reflexivity. Qed.
  Lemma after_arg : rel after (after_space arg) arg.
  Proof.
    destruct (argument_starts arg Ha) as [-> | (c & t & -> & Hc & _)]; [apply rel_altr, rel_eot|].
    apply after_rel. apply N.eqb_neq. intros <-. discriminate.
  Qed.
  Lemma dl_directive : exists cs, captures DIRECTIVE L = Some cs /\ cap 1 cs = Some w /\ cap 2 cs = Some name /\
    whole cs = w ++ lit ".. " ++ name ++ lit "::" ++ lead.
  Proof.
    destruct (dl_head name Hn) as (c & t & En & Hc & Hca).
    assert (Hc32 : N.eqb 32 c = false) by (apply N.eqb_neq; intros <-; discriminate).
    destruct (captures_some DIRECTIVE L arg) as [cs E].
    { unfold DIRECTIVE, L, marker_line. cbn [Seq]. apply rel_cat with (lit ".. " ++ name ++ lit "::" ++ after_space arg);
        [apply rel_grp, rel_star_cls; exists w; split; [reflexivity|exact Hw]|].
      apply rel_cat with (32%N :: name ++ lit "::" ++ after_space arg); [apply rel_lit; reflexivity|].
      apply rel_cat with (name ++ lit "::" ++ after_space arg).
      { unfold spaces1, Plus. apply rel_cat with (name ++ lit "::" ++ after_space arg); [now apply rel_chr|apply rel_star0]. }
      apply rel_cat with (lit "::" ++ after_space arg); [apply rel_grp; now apply name_rel|].
      apply rel_cat with (lit "::" ++ after_space arg); [apply rel_opt; now right|].
      apply rel_cat with (after_space arg); [apply rel_lit; reflexivity|exact after_arg]. }
    exists cs. split; [exact E|]. unfold DIRECTIVE in E. cbn [Seq] in E. apply captures_ws in E as (w' & t' & u & new & E & H & R & ->).
    apply relc_cat_inv in R as (t1 & n1 & n2 & R1 & R2 & ->). apply relc_lit_inv in R1 as [-> ->]. cbn [q lit app] in E.
    unfold L, marker_line in E. change (lit ".. " ++ name ++ lit "::" ++ after_space arg) with (46%N :: 46%N :: 32%N :: name ++ lit "::" ++ after_space arg) in E.
    change (N_of_ascii "."%char) with 46%N in E.
    apply ws_head in E as (<- & _ & E); auto. apply (f_equal (@tl N)) in E. cbn [tl] in E. subst t1.
    apply relc_cat_inv in R2 as (t2 & n3 & n4 & R2 & R3 & ->).
    assert (n3 = []) by (eapply relc_nogrp; [|exact R2]; reflexivity). subst n3. apply relc_rel in R2.
    apply relc_cat_inv in R3 as (t3 & n5 & n6 & R3 & R4 & ->).
    apply relc_grp_simple in R3 as (nm & Enm & R3 & ->); [|reflexivity].
    change (rel name_re (nm ++ t3) t3) in R3. destruct (name_re_chars _ _ R3) as (pn & cn & Epn & Hcn & Hpn).
    assert (Et2 : t2 = name ++ lit "::" ++ after_space arg).
    { apply rel_plus_cls in R2 as (l & E & Hne & Hl). destruct l as [|x l]; [congruence|]. apply (f_equal (@tl N)) in E. cbn [tl app] in E.
      destruct l as [|y l]; [now symmetry|]. rewrite En in E. apply (f_equal (hd 0%N)) in E. cbn in E. subst y. cbn [forallb] in Hl. rewrite Hc32 in Hl. rewrite !andb_false_r in Hl. discriminate. }
    assert (n6 = []) by (eapply relc_nogrp; [|exact R4]; reflexivity). subst n6. apply relc_rel in R4.
    (* the name *)
    assert (R5 : (exists r, t3 = 58%N :: 58%N :: r /\ rel after r u) \/ exists r, t3 = 32%N :: 58%N :: 58%N :: r /\ rel after r u).
    { apply rel_cat_inv in R4 as (t4 & R4 & R5). apply rel_cat_inv in R5 as (t5 & R5 & R6). apply rel_lit in R5. cbn [q lit app] in R5.
      change (N_of_ascii ":"%char) with 58%N in R5.
      apply rel_opt in R4 as [R4| ->]; [apply rel_chr in R4; subst t3 t4; right; eauto|left; subst t4; eauto]. }
    assert (Hclean : forall x r, (x = 58%N \/ x = 32%N) -> pn ++ cn :: x :: r = name ++ 58%N :: 58%N :: after_space arg ->
               pn ++ [cn] = name /\ x :: r = 58%N :: 58%N :: after_space arg).
    { intros x r Hx Eq. assert (Hname := directive_name_chars _ Hn).
      (* compare lengths *)
      assert (Hnc : nth_error (pn ++ cn :: x :: r) (length pn + 1) = Some x) by (rewrite nth_error_app2 by lia; replace (length pn + 1 - length pn) with 1 by lia; reflexivity).
      assert (Hcc : nth_error (pn ++ cn :: x :: r) (length pn) = Some cn) by (rewrite nth_error_app2 by lia; now rewrite Nat.sub_diag).
      assert (Hpc : forall i, i < length pn -> exists y, nth_error (pn ++ cn :: x :: r) i = Some y /\ name_char y = true).
      { intros i Hi. rewrite nth_error_app1 by exact Hi. destruct (nth_error pn i) as [y|] eqn:Ey; [|apply nth_error_None in Ey; lia].
        exists y. split; [reflexivity|]. apply nth_error_In in Ey. rewrite Forall_forall in Hpn. now apply Hpn. }
      rewrite Eq in Hnc, Hcc, Hpc.
      assert (Hlow : length name <= length pn + 1).
      { destruct (le_lt_dec (length name) (length pn + 1)) as [?|Hlt]; [assumption|exfalso].
        rewrite nth_error_app1 in Hnc by exact Hlt. apply nth_error_In in Hnc. rewrite Forall_forall in Hname. apply Hname in Hnc.
        destruct Hx as [-> | ->]; destruct Hnc as [Hnc|Hnc]; discriminate. }
      assert (Hlen : length name = length pn + 1).
      { destruct (Nat.eq_dec (length name) (length pn + 1)) as [?|Hd]; [assumption|exfalso].
        assert (Hi : length name <= length pn) by lia.
        remember (length pn - length name) as k eqn:Ek.
        rewrite nth_error_app2 in Hcc by exact Hi. rewrite <- Ek in Hcc.
        destruct k as [|[|k]]; cbn [nth_error] in Hcc.
        - injection Hcc as <-. discriminate.
        - injection Hcc as <-. discriminate.
        - (* the space after the colons is inside pn *)
          rewrite nth_error_app2 in Hnc by lia. replace (length pn + 1 - length name) with (S (S (S k))) in Hnc by lia. cbn [nth_error] in Hnc.
          destruct (argument_starts arg Ha) as [Ea | (a & b & Ea & _ & _)]; rewrite Ea in *; cbn [after_space] in *; [destruct k; discriminate|].
          destruct k as [|k]; cbn [nth_error] in Hcc; [injection Hcc as <-; discriminate|].
          destruct (Hpc (length name + 2)) as (y & Ey & Hy); [lia|]. rewrite nth_error_app2 in Ey by lia. replace (length name + 2 - length name) with 2 in Ey by lia.
          cbn in Ey. injection Ey as <-. discriminate. }
      replace (pn ++ cn :: x :: r) with ((pn ++ [cn]) ++ x :: r) in Eq by (rewrite <- app_assoc; reflexivity).
      apply app_inv_length; [|exact Eq]. rewrite app_length. cbn [length]. lia. }
    rewrite <- Enm, Et2 in Epn.
    assert (F : name = pn ++ [cn] /\ t3 = lit "::" ++ after_space arg /\ rel after (after_space arg) u).
    { destruct R5 as [(r & -> & R5)|(r & -> & R5)].
      - destruct (Hclean 58%N (58%N :: r)) as [A B]; [now left|now symmetry|]. split; [now symmetry|].
        assert (r = after_space arg) by (apply (f_equal (@tl N)) in B; apply (f_equal (@tl N)) in B; exact B). subst r. split; [reflexivity|exact R5].
      - destruct (Hclean 32%N (58%N :: 58%N :: r)) as [A B]; [now right|now symmetry|]. discriminate B. }
    destruct F as (Ename & Et3 & R6). 
    assert (Eu : u = arg).
    { destruct (argument_starts arg Ha) as [Ea | (a & b & Ea & Hwa & _)]; rewrite Ea in *; cbn [after_space] in R6.
      - apply rel_length in R6. cbn in R6. destruct u; [reflexivity|cbn in R6; lia].
      - assert (Ha32 : N.eqb 32 a = false) by (apply N.eqb_neq; intros <-; discriminate).
        unfold after in R6. apply rel_alt_inv in R6 as [R6|R6]; [|apply rel_eot_inv in R6 as [R6 _]; discriminate].
        apply rel_plus_cls in R6 as (l & El & Hne & Hl). destruct l as [|x l]; [congruence|]. apply (f_equal (@tl N)) in El. cbn [tl app] in El.
        destruct l as [|y l]; [now symmetry|]. apply (f_equal (hd 0%N)) in El. cbn in El. subst y. cbn [forallb] in Hl. rewrite Ha32 in Hl. rewrite !andb_false_r in Hl. discriminate. }
    assert (Enm2 : nm = name).
    { rewrite Et2, Et3 in Enm. apply app_inv_tail in Enm. now symmetry. }
    subst u nm. cbn [app cap Nat.eqb]. split; [reflexivity|]. split; [reflexivity|].
    unfold whole. cbn [cap Nat.eqb]. unfold L, marker_line. rewrite lead_arg.
    replace (w ++ lit ".. " ++ name ++ lit "::" ++ lead ++ arg) with ((w ++ lit ".. " ++ name ++ lit "::" ++ lead) ++ arg) by (now rewrite <- !app_assoc).
    apply whole_firstn.
  Qed.
End DirectiveLine.
Lemma marker_shape name arg : directive_name name = true -> exists c t, starter c = true /\ is_ascii_alnum c = true /\
  marker_line name arg = 46%N :: 46%N :: 32%N :: c :: t.
Proof.
  intros Hn. destruct (dl_head name Hn) as (c & t & -> & Hc & Hca). exists c, (t ++ lit "::" ++ after_space arg). split; [exact Hc|]. split; [exact Hca|]. reflexivity.
Qed.
Lemma find_directive (tbl : transition_table) w name arg : body_table tbl -> ws w -> directive_name name = true -> argument_ok arg = true ->
  exists cs, find_transition (w ++ marker_line name arg) tbl = Some (directive, cs) /\ cap 1 cs = Some w /\ cap 2 cs = Some name /\
    whole cs = w ++ lit ".. " ++ name ++ lit "::" ++ lead arg.
Proof.
  intros Hb Hw Hn Ha. destruct (dl_directive w name arg Hw Hn Ha) as (cs & E & C). exists cs. split; [|exact C].
  destruct (marker_shape name arg Hn) as (c & t & Hc & _ & Em). rewrite Em in *.
  apply find_in_body; [exact Hb|now apply ink_blank|now apply cm_attribution|now apply ink_break|]. unfold body_rest. cbn [find_transition].
  rewrite cm_bullet, cm_enum, cm_field, cm_footnote, cm_citation, cm_target, E by auto. reflexivity.
Qed.
