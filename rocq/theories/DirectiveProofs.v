(* DirectiveProofs.v -- scanning directive arguments and options *)
From Verif Require Import Base Unicode Regex RegexProofs RegexGroups Patterns Common NodeTypes Tree DocTree Spec
  TextProofs BlockProofs HyperrefProofs Prog Body Directives DirectiveSpec Inline.
Require Import Lia.

(* ---------- trimming ---------- *)
Lemma trim_start_inked s : trim_start s = [] \/ starts_inked (trim_start s).
Proof.
  induction s as [|c s IH]; cbn; auto. destruct (is_whitespace c) eqn:E; auto. right. exists c, s. auto.
Qed.
Lemma trim_start_ws w s : all_ws w -> trim_start (w ++ s) = trim_start s.
Proof. induction 1 as [|c w Hc _ IH]; cbn; auto. now rewrite Hc. Qed.
Lemma trim_start_id s : starts_inked s -> trim_start s = s.
Proof. intros (c & t & -> & H). cbn. now rewrite H. Qed.
Lemma trim_trimmed s : trimmed s (trim s).
Proof.
  destruct (trim_start_split s) as (w & Hw & E & _). unfold trim, trim_end.
  destruct (trim_start_split (rev (trim_start s))) as (e & He & E2 & _).
  exists w, (rev e). split.
  - rewrite E at 1. f_equal. rewrite <- rev_app_distr. rewrite <- E2. now rewrite rev_involutive.
  - split; [exact Hw|]. split; [apply Forall_rev; exact He|].
    destruct (trim_start_inked (rev (trim_start s))) as [->|(c & t & Ec & Hc)]; [left; reflexivity|right].
    rewrite Ec in *. split; [|exists c, (rev t); split; auto].
    destruct (trim_start_inked s) as [E3|(b & u & Eb & Hb)].
    + rewrite E3 in E2. destruct e; discriminate.
    + exists b. apply (f_equal (@rev _)) in E2. rewrite rev_involutive, rev_app_distr in E2. cbn [rev] in E2 |- *.
      rewrite Eb in E2. destruct (rev t) as [|b' t'].
      * cbn in *. exists []. split; [injection E2 as -> _; auto|]. auto.
      * cbn in *. injection E2 as -> E2. eauto.
Qed.
Lemma trimmed_unique s a b : trimmed s a -> trimmed s b -> a = b.
Proof.
  assert (H : forall s a, trimmed s a -> a = trim s).
  { clear. intros s a (w & e & -> & Hw & He & Ha). unfold trim. rewrite trim_start_ws by auto.
    destruct Ha as [->|[Ha Hb]].
    - cbn [app]. assert (E : trim_start e = []) by (apply trim_start_blank; unfold blank; apply forallb_forall; intros x Hx; unfold all_ws in He; rewrite Forall_forall in He; auto).
      rewrite E. reflexivity.
    - rewrite trim_start_id by (destruct Ha as (c & t & -> & Hc); exists c, (t ++ e); auto).
      unfold trim_end. rewrite rev_app_distr, trim_start_ws by (apply Forall_rev; exact He).
      rewrite trim_start_id; [now rewrite rev_involutive|]. destruct Hb as (c & t & -> & Hc).
      exists c, (rev t). rewrite rev_app_distr. auto. }
  intros H1 H2. rewrite (H _ _ H1). symmetry. auto.
Qed.
Lemma trimmed_is s a : trimmed s a <-> a = trim s.
Proof.
  split; [intros H; eapply trimmed_unique; [exact H|apply trim_trimmed]|intros ->; apply trim_trimmed].
Qed.
Lemma blank_ws s : blank s = true <-> all_ws s.
Proof. unfold blank, all_ws. rewrite forallb_forall, Forall_forall. reflexivity. Qed.
Lemma trim_blank_iff s : blank (trim s) = blank s.
Proof.
  destruct (trim_trimmed s) as (w & e & E & Hw & He & _).
  destruct (blank (trim s)) eqn:Eb.
  - symmetry. apply blank_ws. rewrite E. unfold all_ws. rewrite !Forall_app. apply blank_ws in Eb. auto.
  - destruct (blank s) eqn:Es; auto. apply trim_blank in Es. rewrite Es in Eb. discriminate.
Qed.

(* ---------- the field marker pattern ---------- *)
Lemma nsp_iff c : nsp c = true <-> is_whitespace c = false.
Proof. unfold nsp. destruct (is_whitespace c); cbn; intuition congruence. Qed.
Lemma spaces_rel s t : rel spaces1 s t -> exists r, s = 32%N :: r.
Proof.
  intros H. apply rel_cat_inv in H as (u & H & _). apply rel_chr in H. eauto.
Qed.
Lemma name_of_rel s t : rel (Alt (Cls nsp_nbs) (Seq [Cls nsp; Star false (Cls dot); Cls nsp_nbs])) s t <->
  exists name, s = name ++ t /\ option_name name.
Proof.
  split.
  - intros H. apply rel_alt_inv in H as [H|H].
    + apply rel_cls_inv in H as (c & -> & Hc). unfold nsp_nbs in Hc. apply andb_prop in Hc as [Hc Hb]. apply nsp_iff in Hc.
      exists [c]. split; auto. split; [exists c, []; auto|]. split; [exists c, []; auto|]. split.
      * intros u E. destruct u as [|? [|? ?]]; try discriminate. cbn in E. injection E as ->. discriminate.
      * intros a u b E. destruct u; discriminate.
    + cbn [Seq] in H. apply rel_cat_inv in H as (s1 & H1 & H). apply rel_cat_inv in H as (s2 & H2 & H3).
      apply rel_cls_inv in H1 as (c & -> & Hc). apply rel_star_cls in H2 as (m & -> & Hm). apply rel_cls_inv in H3 as (b & -> & Hb).
      unfold nsp_nbs in Hb. apply andb_prop in Hb as [Hb Hbs]. apply nsp_iff in Hc, Hb.
      exists (c :: m ++ [b]). split; [cbn; now rewrite <- app_assoc|]. split; [exists c, (m ++ [b]); auto|].
      split; [exists b, (c :: m); auto|]. split.
      * intros u E. change (c :: m ++ [b]) with ((c :: m) ++ [b]) in E. apply app_inj_tail in E as [_ ->]. discriminate.
      * intros a u b' E. injection E as <- E. apply app_inj_tail in E as [<- <-]. intros Hin.
        rewrite forallb_forall in Hm. apply Hm in Hin. discriminate.
  - intros (name & -> & (c & u & -> & Hc) & (b & v & E & Hb) & Hbs & Hnl).
    assert (Hb2 : nsp_nbs b = true).
    { unfold nsp_nbs. apply nsp_iff in Hb. rewrite Hb. cbn. destruct (N.eqb b 92) eqn:E9; auto.
      apply N.eqb_eq in E9. subst b. exfalso. apply (Hbs v). exact E. }
    destruct v as [|c' v].
    + injection E as -> ->. apply rel_altl. cbn [app]. now constructor.
    + injection E as <- ->. apply rel_altr. cbn [Seq]. rewrite <- app_comm_cons, <- app_assoc.
      apply rel_cat with (v ++ [b] ++ t); [apply rel_cls; now apply nsp_iff|].
      apply rel_cat with ([b] ++ t); [|constructor; auto]. apply rel_star_cls. exists v. split; auto.
      apply forallb_forall. intros x Hx. unfold dot. destruct (N.eqb x newline) eqn:Ex; auto.
      apply N.eqb_eq in Ex. subst x. exfalso. apply (Hnl c v b eq_refl). exact Hx.
Qed.
Lemma option_like_match line : is_match FIELD_MARKER line = true <-> option_like line.
Proof.
  rewrite is_match_spec. unfold FIELD_MARKER. cbn [Seq]. split.
  - intros (t & H). apply rel_cat_inv in H as (s1 & H1 & H). apply rel_cat_inv in H as (s2 & H2 & H).
    apply rel_cat_inv in H as (s3 & H3 & H). apply rel_cat_inv in H as (s4 & H4 & H5).
    apply rel_grp_inv, rel_star_cls in H1 as (w & -> & Hw). apply rel_chr in H2. subst.
    apply rel_grp_inv, name_of_rel in H3 as (name & -> & Hn). apply rel_chr in H4. subst.
    exists w, name, s4. split; [reflexivity|]. split; [apply blank_ws; exact Hw|]. split; auto.
    apply rel_alt_inv in H5 as [H5|H5]; [right; eapply spaces_rel; eauto|left]. apply rel_eot_inv in H5 as [-> _]. auto.
  - intros (w & name & rest & -> & Hw & Hn & Hr).
    exists (match rest with [] => [] | _ :: r => r end).
    apply rel_cat with (lit ":" ++ name ++ lit ":" ++ rest).
    { constructor. apply rel_star_cls. exists w. split; auto. apply blank_ws. exact Hw. }
    apply rel_cat with (name ++ lit ":" ++ rest); [apply rel_chr; reflexivity|].
    apply rel_cat with (lit ":" ++ rest); [constructor; apply name_of_rel; eauto|].
    apply rel_cat with rest; [apply rel_chr; reflexivity|].
    destruct Hr as [->|[r ->]]; [apply rel_altr; constructor|]. apply rel_altl.
    apply rel_cat with r; [apply rel_chr; reflexivity|constructor].
Qed.

(* ---------- arguments ---------- *)
Lemma indent_split l n : indent_of l = n -> blank l = false ->
  exists w rest, l = w ++ rest /\ all_ws w /\ length w = n /\ starts_inked rest.
Proof.
  intros E B. destruct (trim_start_split l) as (w & Hw & El & Hl). exists w, (trim_start l). repeat split; auto; [congruence|].
  destruct (trim_start_inked l) as [E0|]; auto. rewrite E0, app_nil_r in El.
  exfalso. assert (blank l = true) by (apply blank_ws; rewrite El; exact Hw). congruence.
Qed.
Lemma split_indent w rest : all_ws w -> starts_inked rest -> indent_of (w ++ rest) = length w.
Proof.
  intros Hw (c & t & -> & Hc). induction Hw as [|x w Hx _ IH]; cbn; [now rewrite Hc|]. rewrite Hx. now f_equal.
Qed.
Lemma argument_line_iff n l text : argument_line n l text <->
  indent_of l = n /\ text = trim l /\ blank text = false /\ is_match FIELD_MARKER text = false.
Proof.
  split.
  - intros (T & I & O & w & rest & -> & Hw & Hl & Hr). apply trimmed_is in T. subst text.
    split; [rewrite split_indent; auto|]. split; auto. split.
    + destruct (blank (trim _)) eqn:E; auto. destruct I as (c & t & E2 & Hc). rewrite E2 in E. cbn in E. rewrite Hc in E. discriminate.
    + destruct (is_match FIELD_MARKER _) eqn:E; auto. exfalso. apply O. now apply option_like_match.
  - intros (Hi & -> & Hb & Hm). split; [apply trim_trimmed|].
    assert (Hb2 : blank l = false) by (rewrite trim_blank_iff in Hb; exact Hb).
    split; [|split].
    + destruct (trim_trimmed l) as (w & e & _ & _ & _ & [E|[E _]]); auto. rewrite E in Hb. discriminate.
    + intros O. apply option_like_match in O. congruence.
    + apply indent_split; auto.
Qed.
Lemma argument_lines_below rest body first : exists lines tail,
  rest = lines ++ tail /\ Forall2 (argument_line body) lines (argument_lines rest body first false) /\
  match tail with [] => True | l :: _ => forall text, ~ argument_line body l text end.
Proof.
  induction rest as [|l rest IH]; cbn [argument_lines].
  - exists [], []. auto.
  - cbn [negb andb]. destruct (indent_of l =? body) eqn:Ei; cbn [negb].
    + destruct (blank (trim l) || is_match FIELD_MARKER (trim l)) eqn:Eb.
      * exists [], (l :: rest). repeat split; auto. intros text H. apply argument_line_iff in H as (_ & -> & H1 & H2).
        rewrite H1, H2 in Eb. discriminate.
      * destruct IH as (lines & tail & -> & F & T). exists (l :: lines), tail. split; [reflexivity|]. split; [|exact T].
        constructor; auto. apply argument_line_iff. apply orb_false_elim in Eb as [Eb1 Eb2]. apply Nat.eqb_eq in Ei. auto.
    + exists [], (l :: rest). repeat split; auto. intros text H. apply argument_line_iff in H as (H & _).
      apply Nat.eqb_neq in Ei. congruence.
Qed.

(* ---------- options ---------- *)
Lemma rmatch_cls {R} p i c t cs (k : @kont R) : rmatch (Cls p) i (c :: t) cs k = if p c then k (S i) t cs else None.
Proof. reflexivity. Qed.
Lemma rmatch_cls_nil {R} p i cs (k : @kont R) : rmatch (Cls p) i [] cs k = None.
Proof. reflexivity. Qed.
(* a greedy star takes as much as it can, if what follows then succeeds *)
Lemma star_greedy {R} p (k : @kont R) x w : forall n i s cs,
  forallb p w = true -> length (w ++ s) <= n -> k (i + length w) s cs = Some x ->
  (forall c t, s = c :: t -> p c = false) ->
  star_loop (rmatch (Cls p)) true k n i (w ++ s) cs = Some x.
Proof.
  induction w as [|c w IH]; intros n i s cs Hw Hn Hk Hs.
  - cbn [app length] in *. rewrite Nat.add_0_r in Hk. destruct n as [|n]; cbn [star_loop]; auto.
    destruct s as [|c t]; [rewrite rmatch_cls_nil|rewrite rmatch_cls, (Hs c t eq_refl)]; auto.
  - cbn [forallb] in Hw. apply andb_prop in Hw as [Hc Hw]. cbn [app length] in *. destruct n as [|n]; [lia|].
    cbn [star_loop]. rewrite rmatch_cls, Hc. replace (i <? S i) with true by (symmetry; apply Nat.ltb_lt; lia).
    rewrite (IH n (S i) s cs); auto; [lia|]. rewrite <- Hk. f_equal. lia.
Qed.
(* a lazy star stops at the first place where what follows succeeds *)
Lemma star_lazy {R} p (k : @kont R) x w : forall n i s cs,
  forallb p w = true -> length (w ++ s) <= n -> k (i + length w) s cs = Some x ->
  (forall a c b, w = a ++ c :: b -> k (i + length a) (c :: b ++ s) cs = None) ->
  star_loop (rmatch (Cls p)) false k n i (w ++ s) cs = Some x.
Proof.
  induction w as [|c w IH]; intros n i s cs Hw Hn Hk Hs.
  - cbn [app length] in *. rewrite Nat.add_0_r in Hk. destruct n as [|n]; cbn [star_loop]; auto. rewrite Hk. reflexivity.
  - cbn [forallb] in Hw. apply andb_prop in Hw as [Hc Hw]. cbn [app length] in *. destruct n as [|n]; [lia|].
    cbn [star_loop]. pose proof (Hs [] c w eq_refl) as H0. cbn [length app] in H0. rewrite Nat.add_0_r in H0. rewrite H0. cbn [orelse].
    rewrite rmatch_cls, Hc. replace (i <? S i) with true by (symmetry; apply Nat.ltb_lt; lia).
    apply (IH n (S i) s cs); auto; [lia|rewrite <- Hk; f_equal; lia|].
    intros a c' b ->. rewrite <- (Hs (c :: a) c' b eq_refl). cbn [length app]. f_equal. lia.
Qed.

(* the reading of an option line whose name has no colon *)
Lemma not_in_app {A} (x : A) a b : ~ In x (a ++ b) -> ~ In x a /\ ~ In x b.
Proof. intros H. split; intros H2; apply H, in_or_app; auto. Qed.
Lemma rmatch_cat {R} a b i s cs (k : @kont R) : rmatch (Cat a b) i s cs k = rmatch a i s cs (fun i1 s1 cs1 => rmatch b i1 s1 cs1 k).
Proof. reflexivity. Qed.
Lemma rmatch_alt {R} a b i s cs (k : @kont R) : rmatch (Alt a b) i s cs k = orelse (rmatch a i s cs k) (fun _ => rmatch b i s cs k).
Proof. reflexivity. Qed.
Lemma rmatch_grp {R} n r i s cs (k : @kont R) : rmatch (Grp n r) i s cs k =
  rmatch r i s cs (fun i1 s1 cs1 => k i1 s1 ((n, (i, firstn (i1 - i) s)) :: cs1)).
Proof. reflexivity. Qed.
Lemma rmatch_star {R} g r i s cs (k : @kont R) : rmatch (Star g r) i s cs k = star_loop (rmatch r) g k (length s) i s cs.
Proof. reflexivity. Qed.
Lemma rmatch_eot {R} i cs (k : @kont R) : rmatch Eot i [] cs k = k i [] cs.
Proof. reflexivity. Qed.
Lemma rmatch_chr {R} c i t cs (k : @kont R) : rmatch (Chr c) i (c :: t) cs k = k (S i) t cs.
Proof. unfold Chr. rewrite rmatch_cls, N.eqb_refl. reflexivity. Qed.
Lemma rmatch_chr_no {R} c i d t cs (k : @kont R) : c <> d -> rmatch (Chr c) i (d :: t) cs k = None.
Proof. intros H. unfold Chr. rewrite rmatch_cls. destruct (N.eqb_spec c d); congruence. Qed.
Lemma span_space (r : str) : exists a b, r = a ++ b /\ forallb (N.eqb 32) a = true /\ forall c t, b = c :: t -> N.eqb 32 c = false.
Proof.
  induction r as [|c r (a & b & -> & Ha & Hb)]; [exists [], []; repeat split; auto; discriminate|].
  destruct (N.eqb 32 c) eqn:E.
  - exists (c :: a), b. split; [reflexivity|]. split; auto. cbn [forallb]. now rewrite E, Ha.
  - exists [], (c :: a ++ b). repeat split; auto. intros d t [= <- _]. exact E.
Qed.
Lemma after_spec {R} rest : (rest = [] \/ exists r, rest = 32%N :: r) ->
  exists a b, rest = a ++ b /\ all_ws a /\ (rest <> [] -> a <> []) /\ forall i cs (k : @kont R) x, k (i + length a) b cs = Some x -> rmatch after i rest cs k = Some x.
Proof.
  intros [->|[r ->]].
  - exists [], []. split; [auto|]. split; [constructor|]. split; [auto|]. intros i cs k x H. unfold after. rewrite rmatch_alt. unfold spaces1, Plus, space, Chr.
    rewrite rmatch_cat, rmatch_cls_nil. cbn [orelse]. rewrite rmatch_eot. cbn in H. rewrite Nat.add_0_r in H. exact H.
  - destruct (span_space r) as (a & b & -> & Ha & Hb). exists (32%N :: a), b. split; [reflexivity|]. split.
    + constructor; [reflexivity|]. apply Forall_forall. intros c Hc. rewrite forallb_forall in Ha. apply Ha, N.eqb_eq in Hc. subst. reflexivity.
    + split; [intros _; discriminate|]. intros i cs k x H. unfold after. rewrite rmatch_alt. unfold spaces1, Plus. rewrite rmatch_cat. unfold space at 1. rewrite rmatch_chr.
      unfold space, Chr. rewrite rmatch_star. rewrite (star_greedy (N.eqb 32) k x a); auto.
      rewrite <- H. f_equal. cbn [length]. unfold char in *. lia.
Qed.
Lemma firstn_len {A} (a b : list A) n : n = length a -> firstn n (a ++ b) = a.
Proof. intros ->. rewrite firstn_app, Nat.sub_diag, firstn_all. cbn. apply app_nil_r. Qed.
Lemma colon_ink : is_whitespace 58%N = false.
Proof. reflexivity. Qed.
Lemma marker_captures w name rest line : option_syntax w name rest line -> ~ In 58%N name ->
  exists cs a b, captures FIELD_MARKER line = Some cs /\ cap 1 cs = Some w /\ cap 2 cs = Some name /\
    rest = a ++ b /\ all_ws a /\ length (whole cs) = length w + S (length name + S (length a)) /\ (rest <> [] -> a <> []).
Proof.
  intros (El & Hw & Hn & Hr) Hc.
  destruct (after_spec (R := nat * caps) rest Hr) as (a & b & Eab & Ha & Hane & HA).
  set (n := length w + S (length name + S (length a))).
  set (cs := [(0, (0, firstn n line)); (2, (S (length w), name)); (1, (0, w))] : caps).
  exists cs, a, b. assert (E : rexec FIELD_MARKER line = Some (n, cs)).
  { unfold rexec, FIELD_MARKER. cbn [Seq]. rewrite rmatch_cat, rmatch_grp. unfold ws0. rewrite rmatch_star.
    rewrite El at 2. apply star_greedy.
    - apply blank_ws. exact Hw.
    - rewrite El. auto.
    - cbn [plus]. rewrite rmatch_cat. change (ch ":") with 58%N. change (lit ":") with [58%N]. cbn [app]. rewrite rmatch_chr.
      rewrite rmatch_cat, rmatch_grp.
      rewrite Nat.sub_0_r. replace (firstn (length w) line) with w by (rewrite El; symmetry; apply firstn_len; auto).
      set (K := fun i1 s1 cs1 => rmatch (Cat (Chr 58%N) after) i1 s1 _ _).
      assert (HK : K (S (length w) + length name) (58%N :: rest) [(1, (0, w))] = Some (n, cs)).
      { unfold K. rewrite rmatch_cat, rmatch_chr. apply HA.
        replace (S (S (length w) + length name) + length a) with n by (unfold n; lia).
        rewrite firstn_len by lia. reflexivity. }
      assert (HK0 : forall i s, (forall c t, s = c :: t -> c <> 58%N) -> s <> [] -> forall cs1, K i s cs1 = None).
      { intros i s Hs Hne cs1. unfold K. rewrite rmatch_cat. destruct s as [|c t]; [congruence|]. apply rmatch_chr_no.
        intros E. apply (Hs c t eq_refl). auto. }
      clearbody K. destruct Hn as ((c & u & -> & Hc1) & (d & v & E & Hd) & Hbs & Hnl).
      assert (Hd2 : nsp_nbs d = true).
      { unfold nsp_nbs. apply nsp_iff in Hd. rewrite Hd. cbn. destruct (N.eqb d 92) eqn:E9; auto.
        apply N.eqb_eq in E9. subst d. exfalso. apply (Hbs v). exact E. }
      rewrite rmatch_alt. destruct v as [|c' v].
      + injection E as -> ->. cbn [app]. rewrite rmatch_cls, Hd2.
        cbn [length plus] in HK. rewrite Nat.add_1_r in HK.
        match goal with |- orelse ?X _ = _ => assert (EX : X = Some (n, cs)) by exact HK; rewrite EX end. reflexivity.
      + injection E as <- ->. cbn [app].
        assert (H1 : rmatch (Cls nsp_nbs) (S (length w)) (c :: (v ++ [d]) ++ 58%N :: rest) [(1, (0, w))] K = None).
        { rewrite rmatch_cls. destruct (nsp_nbs c); auto. apply HK0.
          - intros x t Ex. destruct v as [|y v]; cbn in Ex; injection Ex as <- _; intros ->; apply Hc; cbn; auto.
          - destruct v; discriminate. }
        match goal with |- orelse ?X _ = _ => assert (EX : X = None) by exact H1; rewrite EX end. clear EX. cbn [orelse Seq]. rewrite rmatch_cat, rmatch_cls. apply nsp_iff in Hc1. rewrite Hc1.
        rewrite rmatch_cat, rmatch_star. rewrite <- app_assoc. cbn [app]. apply star_lazy.
        * apply forallb_forall. intros x Hx. unfold dot. destruct (N.eqb x newline) eqn:Ex; auto.
          apply N.eqb_eq in Ex. subst x. exfalso. apply (Hnl c v d eq_refl). exact Hx.
        * auto.
        * rewrite rmatch_cls, Hd2. rewrite <- HK. f_equal. cbn [length]. rewrite app_length. cbn. lia.
        * intros x y z Ev. rewrite rmatch_cls. destruct (nsp_nbs y); auto. apply HK0.
          -- intros e t Ee. subst v. destruct z as [|z0 z]; cbn in Ee; injection Ee as <- _; intros ->; apply Hc;
               cbn; right; apply in_or_app; [right; cbn; auto|left; apply in_or_app; right; cbn; auto].
          -- destruct z; discriminate.
    - intros c t E. injection E as <- _. exact colon_ink. }
  unfold captures. rewrite E. repeat split; auto.
  unfold whole, cs. cbn [cap Nat.eqb]. rewrite firstn_length_le; auto.
  rewrite El, Eab, !app_length. unfold n. cbn. lia.
Qed.
Lemma ws_prefix_unique w w' (s s' : str) : all_ws w -> all_ws w' -> w ++ 58%N :: s = w' ++ 58%N :: s' -> w = w' /\ s = s'.
Proof.
  intros Hw. revert w'. induction Hw as [|c w Hc _ IH]; intros w' Hw' E.
  - destruct Hw' as [|c' w' Hc' _]; cbn in E; [injection E as ->; auto|]. injection E as <- _. rewrite colon_ink in Hc'. discriminate.
  - destruct Hw' as [|c' w' Hc' Hw']; cbn in E; [injection E as -> _; rewrite colon_ink in Hc; discriminate|].
    injection E as <- E. destruct (IH _ Hw' E) as [-> ->]. auto.
Qed.
Lemma marker_sound line cs : captures FIELD_MARKER line = Some cs ->
  exists w name rest a b, option_syntax w name rest line /\ cap 1 cs = Some w /\ cap 2 cs = Some name /\
    rest = a ++ b /\ all_ws a /\ skipn (length (whole cs)) line = b.
Proof.
  intros H. apply captures_sound in H as (p & t & new & El & H & Ecs). unfold FIELD_MARKER in H. cbn [Seq] in H.
  apply relc_cat_inv in H as (s1 & n1 & n2 & H1 & H & E1). apply relc_cat_inv in H as (s2 & n3 & n4 & H2 & H & E2).
  apply relc_cat_inv in H as (s3 & n5 & n6 & H3 & H & E3). apply relc_cat_inv in H as (s4 & n7 & n8 & H4 & H5 & E4).
  apply relc_grp_simple in H1 as (w & Ew & Hw & ->); [|reflexivity]. apply rel_star_cls in Hw as (w2 & Ew2 & Hw).
  apply app_inv_tail in Ew2. subst w2. apply relc_chr_inv in H2 as [-> ->].
  apply relc_grp_simple in H3 as (name & -> & Hn & ->); [|reflexivity]. apply name_of_rel in Hn as (name2 & En & Hn).
  apply app_inv_tail in En. subst name2. apply relc_chr_inv in H4 as [-> ->].
  assert (E8 : n8 = []) by (eapply relc_nogrp; [|exact H5]; reflexivity). subst n8.
  assert (HA : (s4 = [] \/ exists r, s4 = 32%N :: r) /\ exists a, s4 = a ++ t /\ all_ws a).
  { apply relc_alt_inv in H5 as [H5|H5].
    - apply relc_rel in H5. split; [right; eapply spaces_rel; eauto|]. unfold spaces1, space, Chr in H5.
      apply rel_plus_cls in H5 as (a & -> & _ & Ha). exists a. split; auto. apply Forall_forall. intros c Hc.
      rewrite forallb_forall in Ha. apply Ha, N.eqb_eq in Hc. now subst.
    - apply relc_eot_inv in H5 as (-> & -> & _). split; auto. exists []. split; auto. constructor. }
  destruct HA as (Hr & a & Ea & Ha). exists w, name, s4, a, t. subst n6 n4 n2 new cs.
  split; [split; [exact Ew|]; split; [now apply blank_ws|]; split; auto|].
  split; [reflexivity|]. split; [reflexivity|]. split; [exact Ea|]. split; [exact Ha|].
  unfold whole. cbn [cap Nat.eqb]. rewrite El. rewrite skipn_app, Nat.sub_diag, skipn_all. reflexivity.
Qed.
Lemma marker_sets body line cs : captures FIELD_MARKER line = Some cs -> length (opt_cap 1 cs) = body ->
  sets_option body line (trim (opt_cap 2 cs)) (trim (skipn (length (whole cs)) line)).
Proof.
  intros H Hb. destruct (marker_sound _ _ H) as (w & name & rest & a & b & S & C1 & C2 & Er & Ha & Es).
  unfold opt_cap in *. rewrite C1 in Hb. rewrite C2, Es. exists w, name, rest. repeat split; auto; try apply S.
  - apply trim_trimmed.
  - apply trimmed_is. subst rest. unfold trim. now rewrite trim_start_ws.
  - destruct (marker_captures _ _ _ _ H0 H1) as (cs' & a' & b' & H' & C1' & C2' & _).
    rewrite H in H'. apply some_inj in H'. subst cs'. congruence.
  - destruct (marker_captures _ _ _ _ H0 H1) as (cs' & a' & b' & H' & C1' & C2' & _).
    rewrite H in H'. apply some_inj in H'. subst cs'. assert (w' = w) by congruence. assert (name' = name) by congruence. subst.
    destruct S as (E1 & _). destruct H0 as (E2 & _). rewrite E1 in E2. apply app_inv_head in E2. apply app_inv_head in E2.
    apply app_inv_head in E2. apply app_inv_head in E2. auto.
Qed.
Lemma sets_marker body line k v : sets_option body line k v ->
  exists cs, captures FIELD_MARKER line = Some cs /\ length (opt_cap 1 cs) = body.
Proof.
  intros (w & name & rest & S & Hl & _). assert (M : is_match FIELD_MARKER line = true) by (apply option_like_match; exists w, name, rest; auto).
  destruct (captures FIELD_MARKER line) as [cs|] eqn:E.
  - exists cs. split; auto. destruct (marker_sound _ _ E) as (w2 & name2 & rest2 & a & b & S2 & C1 & _).
    unfold opt_cap. rewrite C1. destruct S as (E1 & Hw & _). destruct S2 as (E2 & Hw2 & _). rewrite E1 in E2.
    change (lit ":") with [58%N] in E2. cbn [app] in E2. apply ws_prefix_unique in E2 as [-> _]; auto.
  - apply captures_none in E. apply is_match_spec in M. contradiction.
Qed.
Lemma option_lines_spec body rest : exists lines tail,
  rest = lines ++ tail /\ Forall2 (fun l kv => sets_option body l (fst kv) (snd kv)) lines (fst (option_lines rest body)) /\
  (match tail with [] => True | l :: _ => all_ws l \/ forall k v, ~ sets_option body l k v end) /\
  (snd (option_lines rest body) = true <-> exists l t, tail = l :: t /\ all_ws l).
Proof.
  induction rest as [|l rest IH]; cbn [option_lines].
  - exists [], []. repeat split; cbn; auto; [discriminate|]. intros (l & t & E & _). discriminate.
  - destruct (blank l) eqn:Eb.
    { exists [], (l :: rest). repeat split; cbn; auto; [left; now apply blank_ws|]. intros _. exists l, rest. split; auto. now apply blank_ws. }
    assert (Hnb : ~ all_ws l) by (rewrite <- blank_ws; congruence).
    destruct (captures FIELD_MARKER l) as [cs|] eqn:Ec.
    + destruct (length (opt_cap 1 cs) =? body) eqn:El; cbn [negb].
      * apply Nat.eqb_eq in El. destruct IH as (lines & tail & -> & F & T & B).
        destruct (option_lines (lines ++ tail) body) as [kvs bl] eqn:Eo. exists (l :: lines), tail. cbn [fst snd] in *.
        repeat split; auto; try apply B. constructor; auto. cbn [fst snd]. now apply marker_sets.
      * exists [], (l :: rest). repeat split; cbn [fst snd]; auto; try discriminate.
        -- right. intros k v H. apply sets_marker in H as (cs' & E & H). rewrite Ec in E. apply some_inj in E. subst.
           rewrite Nat.eqb_refl in El. discriminate.
        -- intros (l' & t & [= <- <-] & H). contradiction.
    + exists [], (l :: rest). repeat split; cbn [fst snd]; auto; try discriminate.
      * right. intros k v H. apply sets_marker in H as (cs' & E & H). congruence.
      * intros (l' & t & [= <- <-] & H). contradiction.
Qed.
Lemma last_value_fold k l : forall m, map_get (fold_left (fun m kv => map_set m (fst kv) (snd kv)) l m) k = last_value k l (map_get m k).
Proof.
  induction l as [|[k' v'] l IH]; intros m; cbn [fold_left last_value fst snd]; auto.
  rewrite IH, map_get_set. reflexivity.
Qed.
Lemma insert_all_spec k l : map_get (insert_all l) k = last_value k l None.
Proof. unfold insert_all. rewrite last_value_fold. reflexivity. Qed.
