(* ChoiceProofs.v -- how the lines of answers and hints of questions are taken
   apart (used for C47). *)
From Verif Require Import Base Unicode Regex Patterns Common Converters NodeTypes Spec RegexProofs RegexGroups GreedyProofs InlineProofs TextProofs SimpleSpec LineProofs ParaProofs MarkerProofs LeafProofs.

(* ---------- answers ---------- *)
Lemma pad_space j : forallb sp (repeat 32%N j) = true. Proof. induction j; [reflexivity|exact IHj]. Qed.
Lemma label_chars signs l : label_ok signs l = true -> exists c t, l = c :: t /\ is_whitespace c = false /\ existsb (N.eqb c) signs = false /\
  forallb nsp t = true /\ nsp c = true /\ (forall x, In x l -> x <> section_sign).
Proof.
  unfold label_ok. destruct l as [|c t]; [now rewrite andb_false_r|]. intros H. apply andb_true_iff in H as [H Hs]. exists c, t. split; [reflexivity|].
  pose proof H as H'. rewrite forallb_forall in H'. cbn [forallb] in H. apply andb_true_iff in H as [Hc Ht]. apply andb_true_iff in Hc as [Hc _].
  apply negb_true_iff in Hc, Hs. split; [exact Hc|]. split; [exact Hs|]. split; [|split; [unfold nsp; now rewrite Hc|]].
  - apply forallb_forall. intros x Hx. rewrite forallb_forall in Ht. apply Ht, andb_true_iff in Hx as [Hx _]. exact Hx.
  - intros x Hx Hxx. apply H', andb_true_iff in Hx as [_ Hx]. rewrite Hxx, N.eqb_refl in Hx. discriminate.
Qed.
Lemma phrase_chars t : phrase_ok t = true -> exists c s, chunks_source t = c :: s /\ is_whitespace c = false /\ dot c = true /\ forallb dot s = true /\
  trim (chunks_source t) = chunks_source t /\ blank (chunks_source t) = false.
Proof.
  unfold phrase_ok. intros H. apply andb_true_iff in H as [H Hn]. apply andb_true_iff in H as [H Hs]. apply andb_true_iff in H as [_ Ho].
  destruct (snug_starts _ Hs) as [E | (c & s & E & Hc)]; [rewrite E in Hn; discriminate|]. exists c, s. split; [exact E|]. split; [exact Hc|].
  unfold one_line in Ho. apply negb_true_iff in Ho.
  assert (Hd : forallb dot (chunks_source t) = true).
  { apply forallb_forall. intros x Hx. unfold dot. apply negb_true_iff. destruct (N.eqb x newline) eqn:En; [|reflexivity]. apply N.eqb_eq in En. subst x.
    rewrite <- Ho. symmetry. apply existsb_exists. exists newline. split; [exact Hx|apply N.eqb_refl]. }
  rewrite E in Hd |- *. cbn [forallb] in Hd. apply andb_true_iff in Hd as [Hd1 Hd2]. rewrite <- E at 1 2. split; [exact Hd1|]. split; [exact Hd2|].
  split; [now apply snug_trim|]. cbn. now rewrite Hc.
Qed.
Lemma sp_not (c : char) : is_whitespace c = false -> sp c = false. Proof. exact (fun H => H). Qed.
Lemma space_not (c : char) : is_whitespace c = false -> N.eqb 32 c = false.
Proof. intros H. destruct (N.eqb 32 c) eqn:E; [|reflexivity]. apply N.eqb_eq in E. now subst c. Qed.

(* the part after the signs: label, full stop, space, answer *)
Definition labelled (n m : nat) : re := Seq [Grp n (Plus true (Cls nsp)); Chr (ch "."); spaces1; Grp m (Plus true (Cls dot))].
Lemma labelled_reads (P : nat * caps -> Prop) n m label a cs i (k : @kont (nat * caps)) :
  label_ok (lit "+*?") label = true -> phrase_ok a = true ->
  (forall i1 i2 i3, yields (k i1 [] ((m, (i2, chunks_source a)) :: (n, (i3, label)) :: cs)) P) ->
  yields (rmatch (labelled n m) i (label ++ lit ". " ++ chunks_source a) cs k) P.
Proof.
  intros Hl Ha Hk. destruct (label_chars _ _ Hl) as (c & t & -> & Hc & _ & Ht & Hnc & _). destruct (phrase_chars _ Ha) as (d & s & Es & Hd & Hdd & Hds & _).
  unfold labelled. cbn [Seq]. apply cat_yields, grp_yields. cbn [app]. apply m_plus; [exact Hnc|exact Ht| |].
  - intros u v E Hu Hp. destruct u as [|x u]; [congruence|]. injection E as <- E. destruct u as [|y u].
    + cbn [app] in E. subst v. reflexivity.
    + injection E as <- E. discriminate Hp.
  - apply cat_yields. change (lit ". " ++ chunks_source a) with (ch "." :: 32%N :: chunks_source a). apply m_chr.
    apply cat_yields. change (32%N :: chunks_source a) with (32%N :: [] ++ chunks_source a). unfold spaces1, space, Chr. apply m_plus; [reflexivity|reflexivity| |].
    + no_more. rewrite Es. cbn. now apply space_not.
    + apply grp_yields. rewrite Es. rewrite <- (app_nil_r s) at 1. apply m_plus; [exact Hdd|exact Hds| |].
      * no_more. exact I.
      * rewrite took_all. change (c :: t ++ ch "." :: 32%N :: [] ++ d :: s) with ((c :: t) ++ ch "." :: 32%N :: d :: s). rewrite took, <- Es. apply Hk.
Qed.

(* white space in front *)
Lemma reads_pad (P : nat * caps -> Prop) j r c t (k : @kont (nat * caps)) : is_whitespace c = false ->
  yields (rmatch r j (c :: t) [(1, (0, repeat 32%N j))] k) P -> yields (rmatch (Cat (Grp 1 ws0) r) 0 (pad j (c :: t)) [] k) P.
Proof.
  intros Hc H. apply cat_yields, grp_yields. unfold pad, ws0. apply m_star; [apply pad_space|no_more; exact Hc|].
  rewrite took, repeat_length. exact H.
Qed.
(* an optional sign *)
Lemma reads_sign (P : nat * caps -> Prop) (yes : bool) n c r i s cs (k : @kont (nat * caps)) :
  (yes = false -> hd_error s <> Some c) ->
  yields (rmatch r (if yes then S i else i) s (if yes then (n, (i, [c])) :: cs else cs) k) P ->
  yields (rmatch (Cat (Opt (Grp n (Chr c))) r) i ((if yes then [c] else []) ++ s) cs k) P.
Proof.
  intros Hno H. apply cat_yields. unfold Opt. destruct yes; cbn [app].
  - apply m_alt, grp_yields, m_chr. replace (S i - i) with 1 by lia. exact H.
  - apply m_alt2; [|exact H]. cbn [rmatch Chr]. destruct s as [|x s]; [reflexivity|]. destruct (N.eqb c x) eqn:E; [|reflexivity].
    apply N.eqb_eq in E. subst x. now destruct (Hno eq_refl).
Qed.
Lemma label_head signs l s c : label_ok signs l = true -> In c signs -> hd_error (l ++ s) <> Some c.
Proof.
  intros Hl Hc. destruct (label_chars _ _ Hl) as (x & t & -> & _ & Hx & _). cbn [app hd_error]. intros E. injection E as ->.
  enough (existsb (N.eqb c) signs = true) by congruence. apply existsb_exists. exists c. split; [exact Hc|apply N.eqb_refl].
Qed.
Definition is_right (v : verdict) : bool := match v with Right => true | _ => false end.
Definition is_neutral (v : verdict) : bool := match v with Neutral => true | _ => false end.
Lemma choice_head c : label_ok (lit "+*?") (c_label c) = true -> exists x t, choice_line c = x :: t /\ is_whitespace x = false.
Proof.
  intros H. destruct (label_chars _ _ H) as (y & u & E & Hy & _). unfold choice_line. rewrite E.
  destruct (c_ticked c), (c_verdict c); eexists _, _; (split; [reflexivity|first [reflexivity|exact Hy]]).
Qed.
Lemma pick_one_reads j c : choice_ok false c = true -> exists cs, captures PICK_ONE_CHOICE (pad j (choice_line c)) = Some cs /\
  cap 4 cs = Some (c_label c) /\ cap 5 cs = Some (chunks_source (c_answer c)) /\
  (cap 3 cs <> None <-> is_right (c_verdict c) = true) /\ (cap 2 cs <> None <-> c_ticked c = true).
Proof.
  intros H. unfold choice_ok in H. apply andb_true_iff in H as [H Hv]. apply andb_true_iff in H as [Hl Ha].
  apply captures_yields. unfold rexec, PICK_ONE_CHOICE. change (Seq [Grp 1 ws0; Opt (Grp 2 (Chr (ch "+"))); Opt (Grp 3 (Chr (ch "*"))); Grp 4 (Plus true (Cls nsp)); Chr (ch "."); spaces1; Grp 5 (Plus true (Cls dot))])
    with (Cat (Grp 1 ws0) (Cat (Opt (Grp 2 (Chr (ch "+")))) (Cat (Opt (Grp 3 (Chr (ch "*")))) (labelled 4 5)))).
  destruct (choice_head c Hl) as (x & t & Ex & Hx). rewrite Ex. apply reads_pad; [exact Hx|]. rewrite <- Ex. unfold choice_line.
  replace (verdict_sign (c_verdict c)) with (if is_right (c_verdict c) then [ch "*"] else []) by (destruct (c_verdict c); [reflexivity|reflexivity|discriminate]).
  apply (reads_sign _ (c_ticked c) 2 (ch "+")).
  { intros _. destruct (is_right (c_verdict c)); [cbn; discriminate|]. cbn [app]. apply (label_head (lit "+*?")); [exact Hl|cbn; auto]. }
  apply (reads_sign _ (is_right (c_verdict c)) 3 (ch "*")).
  { intros _. apply (label_head (lit "+*?")); [exact Hl|cbn; auto]. }
  apply labelled_reads; [exact Hl|exact Ha|]. intros i1 i2 i3. eexists. split; [reflexivity|]. cbn [snd cap Nat.eqb].
  destruct (c_ticked c), (is_right (c_verdict c)); cbn [cap Nat.eqb]; (split; [reflexivity|]); (split; [reflexivity|]); (split; split; congruence).
Qed.
Lemma pick_any_reads j c : choice_ok true c = true -> exists cs, captures PICK_ANY_CHOICE (pad j (choice_line c)) = Some cs /\
  cap 5 cs = Some (c_label c) /\ cap 6 cs = Some (chunks_source (c_answer c)) /\
  (cap 4 cs <> None <-> is_right (c_verdict c) = true) /\ (cap 3 cs <> None <-> is_neutral (c_verdict c) = true) /\ (cap 2 cs <> None <-> c_ticked c = true).
Proof.
  intros H. unfold choice_ok in H. apply andb_true_iff in H as [H Hv]. apply andb_true_iff in H as [Hl Ha].
  apply captures_yields. unfold rexec, PICK_ANY_CHOICE. change (Seq [Grp 1 ws0; Opt (Grp 2 (Chr (ch "+"))); Opt (Alt (Grp 3 (Chr (ch "?"))) (Grp 4 (Chr (ch "*")))); Grp 5 (Plus true (Cls nsp)); Chr (ch "."); spaces1; Grp 6 (Plus true (Cls dot))])
    with (Cat (Grp 1 ws0) (Cat (Opt (Grp 2 (Chr (ch "+")))) (Cat (Opt (Alt (Grp 3 (Chr (ch "?"))) (Grp 4 (Chr (ch "*"))))) (labelled 5 6)))).
  destruct (choice_head c Hl) as (x & t & Ex & Hx). rewrite Ex. apply reads_pad; [exact Hx|]. rewrite <- Ex. unfold choice_line.
  apply (reads_sign _ (c_ticked c) 2 (ch "+")).
  { intros _. destruct (c_verdict c); [|cbn; discriminate|cbn; discriminate]. cbn [verdict_sign app]. apply (label_head (lit "+*?")); [exact Hl|cbn; auto]. }
  match goal with |- yields (rmatch _ ?i _ ?cs _) _ => set (i0 := i); set (cs0 := cs) end.
  assert (T2 : cap 2 cs0 <> None <-> c_ticked c = true) by (unfold cs0; destruct (c_ticked c); cbn [cap Nat.eqb]; split; congruence).
  assert (T3 : cap 3 cs0 = None) by (unfold cs0; destruct (c_ticked c); reflexivity).
  assert (T4 : cap 4 cs0 = None) by (unfold cs0; destruct (c_ticked c); reflexivity). clearbody cs0 i0.
  apply cat_yields. unfold Opt. destruct (c_verdict c); cbn [verdict_sign is_right is_neutral].
  - apply m_alt2.
    + cbn [app]. destruct (label_chars _ _ Hl) as (y & u & E & Hy & Hs & _). rewrite E. cbn [lit] in Hs. vm_compute in Hs.
      cbn [app rmatch Chr]. destruct (N.eqb (ch "?") y) eqn:E1; [apply N.eqb_eq in E1; subst y; discriminate Hs|].
      destruct (N.eqb (ch "*") y) eqn:E2; [apply N.eqb_eq in E2; subst y; discriminate Hs|]. reflexivity.
    + cbn [app]. apply labelled_reads; [exact Hl|exact Ha|]. intros i1 i2 i3. eexists. split; [reflexivity|]. cbn [snd cap Nat.eqb].
      rewrite T3, T4. split; [reflexivity|]. split; [reflexivity|]. split; [split; congruence|]. split; [split; congruence|exact T2].
  - change (lit "*" ++ c_label c ++ lit ". " ++ chunks_source (c_answer c)) with (ch "*" :: c_label c ++ lit ". " ++ chunks_source (c_answer c)).
    apply m_alt, m_alt2; [reflexivity|]. apply grp_yields, m_chr. apply labelled_reads; [exact Hl|exact Ha|]. intros i1 i2 i3. eexists. split; [reflexivity|]. cbn [snd cap Nat.eqb].
    rewrite T3. split; [reflexivity|]. split; [reflexivity|]. split; [split; congruence|]. split; [split; congruence|exact T2].
  - change (lit "?" ++ c_label c ++ lit ". " ++ chunks_source (c_answer c)) with (ch "?" :: c_label c ++ lit ". " ++ chunks_source (c_answer c)).
    apply m_alt, m_alt. apply grp_yields, m_chr. apply labelled_reads; [exact Hl|exact Ha|]. intros i1 i2 i3. eexists. split; [reflexivity|]. cbn [snd cap Nat.eqb].
    rewrite T4. split; [reflexivity|]. split; [reflexivity|]. split; [split; congruence|]. split; [split; congruence|exact T2].
Qed.

(* ---------- hints ---------- *)
Lemma hint_head h : label_ok (lit "!") (h_label h) = true -> exists x t, hint_line h = x :: t /\ is_whitespace x = false.
Proof.
  intros H. destruct (label_chars _ _ H) as (y & u & E & Hy & _). unfold hint_line. rewrite E.
  destruct (h_other h); eexists _, _; (split; [reflexivity|first [reflexivity|exact Hy]]).
Qed.
Lemma no_sign_left (R : Type) i s cs r (k : @kont R) : ~ In section_sign s -> rmatch (Cat spaces0 (Cat (Chr 0xA7%N) r)) i s cs k = None.
Proof.
  intros H. change (star_loop (rmatch space) true (fun i1 s1 cs1 => rmatch (Cat (Chr 0xA7%N) r) i1 s1 cs1 k) (length s) i s cs = None).
  unfold space, Chr. apply star_none. intros u v -> _. cbn [rmatch Chr]. destruct v as [|x v]; [reflexivity|].
  destruct (N.eqb 0xA7 x) eqn:E; [|reflexivity]. apply N.eqb_eq in E. subst x. exfalso. apply H, in_or_app. right. now left.
Qed.
Lemma sign_reads (P : nat * caps -> Prop) a i (space_in_front : bool) cs (k : @kont (nat * caps)) : phrase_ok a = true ->
  (forall i1 i2, yields (k i1 [] ((4, (i2, chunks_source a)) :: cs)) P) ->
  yields (rmatch (Seq [spaces0; Chr 0xA7%N; spaces0; Grp 4 (Plus true (Cls dot))]) i ((if space_in_front then [32%N] else []) ++ section_sign :: 32%N :: chunks_source a) cs k) P.
Proof.
  intros Ha Hk. destruct (phrase_chars _ Ha) as (d & s & Es & Hd & Hdd & Hds & _). cbn [Seq]. apply cat_yields. unfold spaces0, space, Chr.
  apply m_star; [now destruct space_in_front|no_more; reflexivity|]. apply cat_yields. apply (m_chr _ 0xA7%N). apply cat_yields.
  change (32%N :: chunks_source a) with ([32%N] ++ chunks_source a). apply m_star; [reflexivity|no_more; rewrite Es; cbn; now apply space_not|].
  apply grp_yields. rewrite Es. rewrite <- (app_nil_r s) at 1. apply m_plus; [exact Hdd|exact Hds|no_more; exact I|].
  rewrite took_all, <- Es. apply Hk.
Qed.
Lemma hint_parts h : hint_ok h = true -> label_ok (lit "!") (h_label h) = true /\ phrase_ok (h_text h) = true /\ ~ In section_sign (chunks_source (h_text h)).
Proof.
  unfold hint_ok. intros H. apply andb_true_iff in H as [H Hs]. apply andb_true_iff in H as [Hl Ha]. split; [exact Hl|]. split; [exact Ha|].
  intros Hin. rewrite forallb_forall in Hs. apply Hs in Hin. rewrite N.eqb_refl in Hin. discriminate.
Qed.
Definition hint_caps (h : hint) (label : str) (cs : caps) : Prop :=
  cap 3 cs = Some label /\ cap 4 cs = Some (chunks_source (h_text h)) /\ (cap 2 cs <> None <-> h_other h = true).
Lemma pick_hint_reads j h : hint_ok h = true -> exists cs, captures PICK_HINT (pad j (hint_line h)) = Some cs /\ hint_caps h (h_label h) cs.
Proof.
  intros H. destruct (hint_parts h H) as (Hl & Ha & _). apply captures_yields. unfold rexec, PICK_HINT, pick_hint.
  change (Seq [Grp 1 ws0; Opt (Grp 2 (Chr (ch "!"))); Grp 3 (Plus true (Cls nsp)); spaces0; Chr 0xA7%N; spaces0; Grp 4 (Plus true (Cls dot))])
    with (Cat (Grp 1 ws0) (Cat (Opt (Grp 2 (Chr (ch "!")))) (Cat (Grp 3 (Plus true (Cls nsp))) (Seq [spaces0; Chr 0xA7%N; spaces0; Grp 4 (Plus true (Cls dot))])))).
  destruct (hint_head h Hl) as (x & t & Ex & Hx). rewrite Ex. apply reads_pad; [exact Hx|]. rewrite <- Ex. unfold hint_line.
  apply (reads_sign _ (h_other h) 2 (ch "!")).
  { intros _. apply (label_head (lit "!")); [exact Hl|cbn; auto]. }
  apply cat_yields, grp_yields. destruct (label_chars _ _ Hl) as (c & u & E & Hc & _ & Hu & Hnc & _). rewrite E. cbn [app]. apply m_plus; [exact Hnc|exact Hu|no_more; reflexivity|].
  match goal with |- context [firstn ?n (c :: u ++ ?b)] => change (c :: u ++ b) with ((c :: u) ++ b) end. rewrite took.
  apply (sign_reads _ (h_text h) _ true); [exact Ha|]. intros i1 i2. eexists. split; [reflexivity|]. unfold hint_caps. cbn [snd cap Nat.eqb].
  split; [reflexivity|]. split; [reflexivity|]. destruct (h_other h); cbn [cap Nat.eqb]; split; congruence.
Qed.
Lemma freetext_hint_reads j h : hint_ok h = true -> exists cs, captures FREETEXT_HINT (pad j (hint_line h)) = Some cs /\ hint_caps h (h_label h ++ lit " ") cs.
Proof.
  intros H. destruct (hint_parts h H) as (Hl & Ha & Hno). apply captures_yields. unfold rexec, FREETEXT_HINT, pick_hint.
  change (Seq [Grp 1 ws0; Opt (Grp 2 (Chr (ch "!"))); Grp 3 (Plus true (Cls dot)); spaces0; Chr 0xA7%N; spaces0; Grp 4 (Plus true (Cls dot))])
    with (Cat (Grp 1 ws0) (Cat (Opt (Grp 2 (Chr (ch "!")))) (Cat (Grp 3 (Plus true (Cls dot))) (Seq [spaces0; Chr 0xA7%N; spaces0; Grp 4 (Plus true (Cls dot))])))).
  destruct (hint_head h Hl) as (x & t & Ex & Hx). rewrite Ex. apply reads_pad; [exact Hx|]. rewrite <- Ex. unfold hint_line.
  apply (reads_sign _ (h_other h) 2 (ch "!")).
  { intros _. apply (label_head (lit "!")); [exact Hl|cbn; auto]. }
  apply cat_yields, grp_yields. destruct (label_chars _ _ Hl) as (c & u & E & Hc & _ & Hu & Hnc & _).
  assert (Hd : forall y, is_whitespace y = false -> dot y = true).
  { intros y Hy. unfold dot. destruct (N.eqb y newline) eqn:En; [|reflexivity]. apply N.eqb_eq in En. subst y. discriminate. }
  rewrite E. change ((c :: u) ++ [32%N; section_sign; 32%N] ++ chunks_source (h_text h)) with (c :: u ++ 32%N :: section_sign :: 32%N :: chunks_source (h_text h)).
  replace (c :: u ++ 32%N :: section_sign :: 32%N :: chunks_source (h_text h)) with (c :: (u ++ [32%N]) ++ section_sign :: 32%N :: chunks_source (h_text h))
    by (f_equal; rewrite <- app_assoc; reflexivity).
  apply m_plus; [now apply Hd| | |].
  - rewrite forallb_app. apply andb_true_iff. split; [|reflexivity]. apply forallb_forall. intros y Hy. rewrite forallb_forall in Hu. apply Hd.
    apply Hu in Hy. unfold nsp in Hy. now apply negb_true_iff in Hy.
  - intros a v Ev Hav _. destruct a as [|y a]; [congruence|]. apply (f_equal (@tl char)) in Ev. cbn [tl app] in Ev.
    match goal with |- ?G = None => change G with (rmatch (Cat spaces0 (Cat (Chr 0xA7%N) (Cat spaces0 (Grp 4 (Plus true (Cls dot)))))) (j + 0) v [] (fun i0 s0 cs0 => @None (nat * caps))) || idtac end.
    apply no_sign_left. intros Hin. assert (Hin2 : In section_sign (32%N :: chunks_source (h_text h))) by (rewrite Ev; apply in_or_app; now right).
    destruct Hin2 as [Hin2|Hin2]; [discriminate Hin2|]. exact (Hno Hin2).
  - match goal with |- context [firstn ?n (c :: ?x ++ ?b)] => change (c :: x ++ b) with ((c :: x) ++ b) end. rewrite took.
    apply (sign_reads _ (h_text h) _ false); [exact Ha|]. intros i1 i2. eexists. split; [reflexivity|]. unfold hint_caps. cbn [snd cap Nat.eqb].
    split; [reflexivity|]. split; [reflexivity|]. destruct (h_other h); cbn [cap Nat.eqb]; split; congruence.
Qed.

(* ---------- lines that are not answers ---------- *)
Lemma first_word_app a b : forallb nsp a = true -> first_word (a ++ 32%N :: b) = a.
Proof.
  induction a as [|x a IH]; [reflexivity|]. cbn [forallb app first_word]. intros H. apply andb_true_iff in H as [Hx H]. unfold nsp in Hx. apply negb_true_iff in Hx.
  rewrite Hx. f_equal. now apply IH.
Qed.
Lemma labelled_word n m s t : rel (labelled n m) s t -> exists a b, s = a ++ ch "." :: 32%N :: b /\ forallb nsp a = true.
Proof.
  unfold labelled. cbn [Seq]. intros R. apply rel_cat_inv in R as (s1 & R1 & R). apply rel_grp_inv in R1. apply rel_plus_cls in R1 as (a & -> & _ & Ha).
  apply rel_cat_inv in R as (s2 & R1 & R). apply rel_chr in R1. subst s1. apply rel_cat_inv in R as (s3 & R1 & R).
  unfold spaces1, space, Chr in R1. apply rel_plus_cls in R1 as (b & -> & Hb & Hb2). destruct b as [|y b]; [congruence|]. cbn [forallb] in Hb2. apply andb_true_iff in Hb2 as [Hy _].
  apply N.eqb_eq in Hy. subst y. exists a, (b ++ s3). auto.
Qed.
Lemma signed_word (r : re) s t : (forall s t, rel r s t -> exists a, s = a ++ t /\ forallb nsp a = true) -> forall n m,
  rel (Cat r (labelled n m)) s t -> exists a b, s = a ++ ch "." :: 32%N :: b /\ forallb nsp a = true.
Proof.
  intros Hr n m R. apply rel_cat_inv in R as (s1 & R1 & R). apply Hr in R1 as (a & -> & Ha). apply labelled_word in R as (a2 & b & -> & Ha2).
  exists (a ++ a2), b. rewrite <- app_assoc, forallb_app, Ha. auto.
Qed.
Lemma opt_sign s t r (p : char -> bool) : (forall s t, rel r s t -> exists c, s = c :: t /\ p c = true) -> (forall c, p c = true -> nsp c = true) ->
  rel (Opt r) s t -> exists a, s = a ++ t /\ forallb nsp a = true.
Proof.
  intros Hr Hp R. apply rel_alt_inv in R as [R|R].
  - apply Hr in R as (c & -> & Hc). exists [c]. cbn. rewrite Hp by exact Hc. auto.
  - apply rel_eps_inv in R. subst s. exists []. auto.
Qed.
Lemma choice_word (any : bool) s t : rel (if any then PICK_ANY_CHOICE else PICK_ONE_CHOICE) s t ->
  exists w a b, s = w ++ a ++ ch "." :: 32%N :: b /\ forallb sp w = true /\ forallb nsp a = true.
Proof.
  assert (Two : forall r, (forall s t, rel r s t -> exists a, s = a ++ t /\ forallb nsp a = true) -> forall n m s t,
     rel (Cat (Grp 1 ws0) (Cat (Opt (Grp 2 (Chr (ch "+")))) (Cat r (labelled n m)))) s t ->
     exists w a b, s = w ++ a ++ ch "." :: 32%N :: b /\ forallb sp w = true /\ forallb nsp a = true).
  { intros r Hr n m s' t' R. apply rel_cat_inv in R as (s1 & R1 & R). apply rel_grp_inv in R1. apply rel_star_cls in R1 as (w & -> & Hw).
    apply rel_cat_inv in R as (s2 & R1 & R). apply (opt_sign _ _ _ (N.eqb (ch "+"))) in R1 as (a & -> & Ha);
      [|intros ? ? R'; apply rel_grp_inv in R'; apply rel_chr in R'; subst; eexists; split; [reflexivity|apply N.eqb_refl]|intros c Hc; apply N.eqb_eq in Hc; now subst c].
    apply signed_word in R as (a2 & b & -> & Ha2); [|exact Hr]. exists w, (a ++ a2), b. rewrite <- app_assoc, forallb_app, Ha. auto. }
  destruct any; intros R.
  - apply (Two (Opt (Alt (Grp 3 (Chr (ch "?"))) (Grp 4 (Chr (ch "*")))))) with (n := 5) (m := 6) (t := t); [|exact R].
    intros s' t' R'. apply (opt_sign _ _ _ (fun c => N.eqb (ch "?") c || N.eqb (ch "*") c)) in R' as (a & -> & Ha); [eauto| |].
    + clear. intros s t R. apply rel_alt_inv in R as [R|R]; apply rel_grp_inv in R; apply rel_chr in R; subst; eexists; (split; [reflexivity|reflexivity]).
    + intros c Hc. apply orb_true_iff in Hc as [Hc|Hc]; apply N.eqb_eq in Hc; now subst c.
  - apply (Two (Opt (Grp 3 (Chr (ch "*"))))) with (n := 4) (m := 5) (t := t); [|exact R].
    intros s' t' R'. apply (opt_sign _ _ _ (N.eqb (ch "*"))) in R' as (a & -> & Ha); [eauto| |].
    + clear. intros s t R. apply rel_grp_inv in R; apply rel_chr in R; subst; eexists; (split; [reflexivity|reflexivity]).
    + intros c Hc. apply N.eqb_eq in Hc; now subst c.
Qed.
Lemma not_a_choice (any : bool) j c l rest : is_whitespace c = false -> N.eqb (last (first_word ((c :: l) ++ rest)) 0%N) 46 = false ->
  is_match (if any then PICK_ANY_CHOICE else PICK_ONE_CHOICE) (pad j (c :: l)) = false.
Proof.
  intros Hc Hw. destruct (is_match _ _) eqn:E; [|reflexivity]. apply is_match_spec in E as (t & R). apply choice_word in R as (w & a & b & E & Hsp & Ha).
  assert (E2 : c :: l = a ++ ch "." :: 32%N :: b).
  { clear -Hc E Hsp Ha. unfold pad in E. revert w E Hsp. induction j as [|j IH]; intros w E Hsp.
    - destruct w as [|y w]; [exact E|]. cbn [repeat app] in E. apply (f_equal (hd 0%N)) in E. cbn [hd] in E. subst y. cbn [forallb] in Hsp. unfold sp in Hsp. rewrite Hc in Hsp. discriminate.
    - destruct w as [|y w]; cbn [repeat app] in E.
      + exfalso. destruct a as [|y a]; cbn [app] in E; apply (f_equal (hd 0%N)) in E; cbn [hd] in E; [discriminate|]. subst y. discriminate.
      + apply (f_equal (@tl char)) in E. cbn [tl forallb] in *. apply andb_true_iff in Hsp as [_ Hsp]. eapply IH; eauto. }
  rewrite E2 in Hw. replace ((a ++ ch "." :: 32%N :: b) ++ rest) with ((a ++ [ch "."]) ++ 32%N :: b ++ rest) in Hw by (now rewrite <- !app_assoc).
  rewrite first_word_app in Hw by (rewrite forallb_app, Ha; reflexivity). rewrite last_last in Hw. discriminate.
Qed.
