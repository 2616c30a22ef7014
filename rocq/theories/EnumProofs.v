(* EnumProofs.v -- list enumerators (C21, C22) *)
From Coq Require Import ZifyBool ZifyNat ZifyN.
From Verif Require Import Base Common Regex RegexProofs Patterns Converters Spec TextProofs ConverterProofs.
Local Open Scope N_scope.

Definition base_of (d : EnumDelims) : nat := match d with Parens => 2 | RParen => 8 | Period => 14 end.
(* the six enumerator classes *)
Definition body_class (idx : nat) (body : str) : Prop :=
  match idx with
  | 0%nat => body <> [] /\ digits body
  | 1%nat => body <> [] /\ forallb (cls_of (q "ivxlcdm")) body = true
  | 2%nat => body <> [] /\ forallb (cls_of (q "IVXLCDM")) body = true
  | 3%nat => exists c, body = [c] /\ is_ascii_lower c = true
  | 4%nat => exists c, body = [c] /\ is_ascii_upper c = true
  | 5%nat => body = lit "#"
  | _ => False
  end.

Lemma enum_alts_inv b i s t n : relc (enum_alts b) i s t n ->
  exists idx body, s = body ++ t /\ body_class idx body /\ (idx < 6)%nat /\ n = [((b + idx)%nat, (i, body))].
Proof.
  intros H. unfold enum_alts in H. cbn [Alts] in H.
  apply relc_alt_inv in H as [H|H].
  { apply relc_grp_simple in H as (p & -> & H & ->); [|reflexivity].
    apply rel_plus_cls in H as (l & E & Hne & Hl). apply app_inv_tail in E. subst l.
    exists 0%nat, p. rewrite Nat.add_0_r. cbn. repeat split; auto; [|lia]. apply forallb_digits. exact Hl. }
  apply relc_alt_inv in H as [H|H].
  { apply relc_grp_simple in H as (p & -> & H & ->); [|reflexivity].
    apply rel_plus_cls in H as (l & E & Hne & Hl). apply app_inv_tail in E. subst l.
    exists 1%nat, p. repeat split; auto; lia. }
  apply relc_alt_inv in H as [H|H].
  { apply relc_grp_simple in H as (p & -> & H & ->); [|reflexivity].
    apply rel_plus_cls in H as (l & E & Hne & Hl). apply app_inv_tail in E. subst l.
    exists 2%nat, p. repeat split; auto; lia. }
  apply relc_alt_inv in H as [H|H].
  { apply relc_grp_simple in H as (p & -> & H & ->); [|reflexivity].
    apply rel_cls_inv in H as (c & E & Hc). change (c :: t) with ([c] ++ t) in E.
    apply app_inv_tail in E. subst p.
    exists 3%nat, [c]. cbn. repeat split; eauto; lia. }
  apply relc_alt_inv in H as [H|H].
  { apply relc_grp_simple in H as (p & -> & H & ->); [|reflexivity].
    apply rel_cls_inv in H as (c & E & Hc). change (c :: t) with ([c] ++ t) in E.
    apply app_inv_tail in E. subst p.
    exists 4%nat, [c]. cbn. repeat split; eauto; lia. }
  apply relc_grp_simple in H as (p & -> & H & ->); [|reflexivity].
  apply rel_chr in H. change (ch "#" :: t) with ([ch "#"] ++ t) in H. apply app_inv_tail in H. subst p.
  exists 5%nat, (lit "#"). cbn. repeat split; auto; lia.
Qed.

Lemma after_inv i s t n : relc after i s t n ->
  n = [] /\ (s = [] \/ exists r, s = 32 :: r).
Proof.
  intros H. assert (n = []) as -> by (eapply relc_nogrp; [|exact H]; reflexivity).
  split; [reflexivity|]. apply relc_rel in H. apply rel_alt_inv in H as [H|H].
  - unfold spaces1, Plus in H. apply rel_cat_inv in H as (u & H & _). apply rel_chr in H. eauto.
  - apply rel_eot_inv in H as [-> _]. auto.
Qed.

(* what the captures of an enumerator line look like *)
Lemma enum_captures_inv line cs : captures ENUMERATOR line = Some cs ->
  exists w d idx body whole_ aft i j,
    enum_line w d body line /\ body_class idx body /\ (idx < 6)%nat /\
    cs = (0%nat, whole_) :: (20%nat, aft) :: [((base_of d + idx)%nat, (i, body)); (1%nat, (j, w))].
Proof.
  intros E. destruct (captures_sound _ _ _ E) as (p & t & new & _ & H & ->).
  unfold ENUMERATOR in H. cbn [Seq] in H.
  apply relc_cat_inv in H as (t1 & n1 & n2 & H1 & H2 & ->).
  apply relc_grp_simple in H1 as (w & -> & H1 & ->); [|reflexivity].
  apply rel_star_cls in H1 as (l & El & Hw). apply app_inv_tail in El. subst l.
  assert (Haw : all_ws w) by (apply Forall_forall; rewrite forallb_forall in Hw; exact Hw).
  apply relc_cat_inv in H2 as (t2 & n3 & n4 & H2 & H3 & ->).
  apply relc_grp_inv in H3 as (n5 & H3 & ->). apply after_inv in H3 as [-> Haft].
  cbn [Alts] in H2.
  assert (G : exists d idx body i, t1 = open_of d ++ body ++ close_of d ++ t2 /\
     body_class idx body /\ (idx < 6)%nat /\ n3 = [((base_of d + idx)%nat, (i, body))]).
  { apply relc_alt_inv in H2 as [H2|H2].
    - apply relc_cat_inv in H2 as (u & m1 & m2 & Ha & Hb & ->). apply relc_chr_inv in Ha as [-> ->].
      apply relc_cat_inv in Hb as (v & m3 & m4 & Hb & Hc & ->). apply relc_chr_inv in Hc as [-> ->].
      apply enum_alts_inv in Hb as (idx & body & -> & Hb & Hi & ->).
      exists Parens, idx, body. eexists. repeat split; eauto.
    - apply relc_alt_inv in H2 as [H2|H2].
      + apply relc_cat_inv in H2 as (v & m3 & m4 & Hb & Hc & ->). apply relc_chr_inv in Hc as [-> ->].
        apply enum_alts_inv in Hb as (idx & body & -> & Hb & Hi & ->).
        exists RParen, idx, body. eexists. repeat split; eauto.
      + apply relc_cat_inv in H2 as (v & m3 & m4 & Hb & Hc & ->). apply relc_chr_inv in Hc as [-> ->].
        apply enum_alts_inv in Hb as (idx & body & -> & Hb & Hi & ->).
        exists Period, idx, body. eexists. repeat split; eauto. }
  destruct G as (d & idx & body & i & -> & Hb & Hi & ->).
  exists w, d, idx, body. do 4 eexists. split; [|split; [exact Hb|split; [exact Hi|]]].
  - split; [exact Haw|]. exists t2. split; [reflexivity|exact Haft].
  - cbn [app]. reflexivity.
Qed.

(* the value a body has, per class *)
Definition class_value (idx : nat) (d : EnumDelims) (lk : option EnumKind) (il : bool) (item start : N)
    (body : str) : branch_result :=
  match idx with
  | 0%nat => Value (parse_usize body) Arabic
  | 1%nat => if str_eqb body (lit "i") && (item =? 0) then Early 1 LowerRoman
             else Value (lower_roman_to_usize body) LowerRoman
  | 2%nat => if str_eqb body (match d with Parens => lit "I" | _ => lit "i" end) && (item =? 0)
             then Early 1 UpperRoman else Value (upper_roman_to_usize body) UpperRoman
  | 3%nat => Value (alpha_to_usize body) LowerAlpha
  | 4%nat => Value (alpha_to_usize body) UpperAlpha
  | _ => Value (if item + start <=? usize_max then Some (item + start) else None)
            (if (item =? 0) && negb il then Arabic else match lk with Some k => k | None => Arabic end)
  end.
Lemma enum_eval w d idx body whole_ aft i j lk il obs item start : (idx < 6)%nat ->
  enum_captures_to_int_kind_and_delims
    ((0%nat, whole_) :: (20%nat, aft) :: [((base_of d + idx)%nat, (i, body)); (1%nat, (j, w))])
    lk il obs item start =
  match class_value idx d lk il item start body with
  | Early n k => Ret (Some (n, k, d))
  | Value n k => finish_enum n k d obs
  | NoBranch => Panic
  end.
Proof.
  intros Hi. destruct whole_ as [x1 x2], aft as [x3 x4].
  do 6 (destruct idx as [|idx]; [destruct d; reflexivity|]). lia.
Qed.

Lemma forallb_cls_In l body : forallb (cls_of l) body = true -> Forall (fun c => In c l) body.
Proof.
  rewrite forallb_forall. intros H. apply Forall_forall. intros c Hc. apply H in Hc.
  unfold cls_of in Hc. apply existsb_exists in Hc as (x & Hx & E). apply N.eqb_eq in E. subst. exact Hx.
Qed.

Lemma class_denotes idx d lk il item start body n k :
  body_class idx body -> (idx < 6)%nat ->
  class_value idx d lk il item start body = Value (Some n) k \/
  class_value idx d lk il item start body = Early n k ->
  denotes item start ((item =? 0) && negb il) lk body k n.
Proof.
  intros Hb Hi H.
  destruct idx as [|[|[|[|[|[|]]]]]]; cbn [body_class class_value] in *; try lia.
  - destruct Hb as [Hne Hd]. destruct H as [H|H]; [|discriminate]. injection H as H <-.
    unfold parse_usize in H. rewrite parse_uint_digits in H by assumption.
    destruct (decimal_value body <=? usize_max); [|discriminate]. injection H as <-.
    apply den_arabic; assumption.
  - destruct Hb as [Hne Hr]. apply forallb_cls_In in Hr.
    destruct (str_eqb body (lit "i") && (item =? 0)) eqn:E.
    + destruct H as [H|H]; [discriminate|]. injection H as <- <-.
      apply andb_prop in E as [E _]. apply str_eqb_eq in E. subst body.
      apply den_lroman; [exact Hr|]. intros m Hm Em.
      pose proof (lower_roman_correct m Hm) as X. rewrite <- Em in X. vm_compute in X. congruence.
    + destruct H as [H|H]; [|discriminate]. injection H as H <-.
      apply den_lroman; [exact Hr|]. intros m Hm ->. rewrite lower_roman_correct in H by exact Hm. congruence.
  - destruct Hb as [Hne Hr]. apply forallb_cls_In in Hr.
    match type of H with context [if ?b then _ else _] => destruct b eqn:E end.
    + destruct H as [H|H]; [discriminate|]. injection H as <- <-.
      apply andb_prop in E as [E _]. apply str_eqb_eq in E.
      apply den_uroman; [exact Hr|]. intros m Hm Em.
      pose proof (upper_roman_correct m Hm) as X. rewrite <- Em in X. subst body.
      destruct d; vm_compute in X; congruence.
    + destruct H as [H|H]; [|discriminate]. injection H as H <-.
      apply den_uroman; [exact Hr|]. intros m Hm ->. rewrite upper_roman_correct in H by exact Hm. congruence.
  - destruct Hb as (c & -> & Hc). destruct H as [H|H]; [|discriminate]. injection H as H <-. change (alpha_to_usize [c] = Some n) in H.
    apply alpha_spec in H as (Hn & [E|E]); rewrite E.
    + apply den_lalpha; exact Hn.
    + exfalso. injection E as ->. unfold is_ascii_lower, in_range in Hc. lia.
  - destruct Hb as (c & -> & Hc). destruct H as [H|H]; [|discriminate]. injection H as H <-. change (alpha_to_usize [c] = Some n) in H.
    apply alpha_spec in H as (Hn & [E|E]); rewrite E.
    + exfalso. injection E as ->. unfold is_ascii_upper, in_range in Hc. lia.
    + apply den_ualpha; exact Hn.
  - subst body. destruct H as [H|H]; [|discriminate].
    destruct (item + start <=? usize_max); [|discriminate]. injection H as <- <-. apply den_auto.
Qed.

Lemma enumerator_as_written line cs lk il item start :
  captures ENUMERATOR line = Some cs ->
  exists w d body, enum_line w d body line /\ cap 1 cs = Some w /\
  exists r, enum_captures_to_int_kind_and_delims cs lk il false item start = Ret r /\
  match r with
  | Some (n, k, d') => d' = d /\ denotes item start ((item =? 0) && negb il) lk body k n
  | None => (digits body /\ usize_max < decimal_value body)
            \/ (Forall (fun c => In c (lit "ivxlcdm")) body /\ lower_roman_to_usize body = None)
            \/ (Forall (fun c => In c (lit "IVXLCDM")) body /\ upper_roman_to_usize body = None)
            \/ (body = lit "#" /\ usize_max < item + start)
  end.
Proof.
  intros E. destruct (enum_captures_inv _ _ E) as (w & d & idx & body & wh & aft & i & j & Hl & Hb & Hi & ->).
  exists w, d, body. split; [exact Hl|]. split.
  { destruct wh, aft. cbn [cap Nat.eqb].
    assert (Hne : (base_of d + idx =? 1)%nat = false) by (destruct d; cbn; destruct idx; reflexivity).
    rewrite Hne. reflexivity. }
  rewrite enum_eval by exact Hi.
  destruct (class_value idx d lk il item start body) as [|n k|n k] eqn:Ev.
  - exfalso. destruct idx as [|[|[|[|[|]]]]]; cbn [class_value] in Ev; try discriminate.
    + match type of Ev with context [if ?b then _ else _] => destruct b end; discriminate.
    + match type of Ev with context [if ?b then _ else _] => destruct b end; discriminate.
  - eexists. split; [reflexivity|]. split; [reflexivity|].
    eapply class_denotes; eauto.
  - destruct n as [n|].
    + cbn [finish_enum]. eexists. split; [reflexivity|]. cbn. split; [reflexivity|]. eapply class_denotes; eauto.
    + cbn [finish_enum]. exists None. split; [reflexivity|].
      destruct idx as [|[|[|[|[|[|]]]]]]; cbn [body_class class_value] in *; try lia.
      * destruct Hb as [Hne Hd]. injection Ev as Ev _. unfold parse_usize in Ev.
        rewrite parse_uint_digits in Ev by assumption.
        destruct (N.leb_spec (decimal_value body) usize_max); [discriminate|]. left. auto.
      * destruct (str_eqb body (lit "i") && (item =? 0)); [discriminate|]. injection Ev as Ev _.
        right; left. split; [apply forallb_cls_In; apply Hb|exact Ev].
      * match type of Ev with context [if ?b then _ else _] => destruct b end; [discriminate|].
        injection Ev as Ev _. right; right; left. split; [apply forallb_cls_In; apply Hb|exact Ev].
      * exfalso. destruct Hb as (c & -> & Hc). injection Ev as Ev _.
        cbn in Ev. rewrite Hc in Ev. discriminate.
      * exfalso. destruct Hb as (c & -> & Hc). injection Ev as Ev _.
        cbn in Ev. rewrite Hc in Ev. destruct (is_ascii_lower c); discriminate.
      * right; right; right. split; [exact Hb|]. injection Ev as Ev _.
        destruct (N.leb_spec (item + start) usize_max); [discriminate|assumption].
Qed.

(* ---------- lines numbered with decimal digits ---------- *)
Lemma body_class_chars idx body : body_class idx body ->
  body <> [] /\ forallb (fun c => alnum c || (c =? ch "#")) body = true.
Proof.
  assert (M : forall (P Q : char -> bool), (forall c, P c = true -> Q c = true) ->
     forall l, forallb P l = true -> forallb Q l = true).
  { intros P Q H l. rewrite !forallb_forall. auto. }
  destruct idx as [|[|[|[|[|[|]]]]]]; cbn [body_class]; [intros [H1 H2]|intros [H1 H2]|intros [H1 H2]
    |intros (c & -> & H)|intros (c & -> & H)|intros ->|intros []].
  - split; [exact H1|]. apply forallb_digits in H2. revert H2. apply M. intros c H.
    unfold alnum, is_ascii_alnum. rewrite H. rewrite orb_true_r. reflexivity.
  - split; [exact H1|]. apply forallb_forall. intros c Hc.
    apply forallb_cls_In in H2. rewrite Forall_forall in H2. apply H2 in Hc.
    cbn in Hc. repeat (destruct Hc as [<-|Hc]; [reflexivity|]). contradiction.
  - split; [exact H1|]. apply forallb_forall. intros c Hc.
    apply forallb_cls_In in H2. rewrite Forall_forall in H2. apply H2 in Hc.
    cbn in Hc. repeat (destruct Hc as [<-|Hc]; [reflexivity|]). contradiction.
  - split; [discriminate|]. cbn. unfold alnum, is_ascii_alnum, is_ascii_alpha. rewrite H. reflexivity.
  - split; [discriminate|]. cbn. unfold alnum, is_ascii_alnum, is_ascii_alpha. rewrite H.
    rewrite orb_true_r. reflexivity.
  - split; [discriminate|reflexivity].
Qed.

Lemma marker_unique w d body w' d' body' line :
  enum_line w d body line -> enum_line w' d' body' line ->
  (exists i, body_class i body) -> (exists i, body_class i body') -> w = w' /\ d = d' /\ body = body'.
Proof.
  intros (Hw & r & -> & Hr) (Hw' & r' & E & Hr') [i Hb] [i' Hb'].
  apply body_class_chars in Hb as [Hne Hc]. apply body_class_chars in Hb' as [Hne' Hc'].
  assert (W : forall v, all_ws v -> forallb is_whitespace v = true).
  { intros v Hv. apply forallb_forall. unfold all_ws in Hv. rewrite Forall_forall in Hv. exact Hv. }
  assert (A : forall c, alnum c || (c =? ch "#") = true -> is_whitespace c = false /\ c <> 40).
  { intros c. change (ch "#") with 35. unfold alnum, is_ascii_alnum, is_ascii_alpha, is_ascii_lower, is_ascii_upper, is_ascii_digit, in_range, is_whitespace. lia. }
  assert (F : forall d body t c u, body <> [] -> forallb (fun c => alnum c || (c =? ch "#")) body = true ->
     open_of d ++ body ++ t = c :: u -> is_whitespace c = false).
  { intros d0 b t c u Hn Hf Ee. destruct d0; cbn in Ee.
    - destruct b as [|x b]; [congruence|]. injection Ee as <- _. cbn in Hf. apply andb_prop in Hf as [Hf _]. apply A, Hf.
    - injection Ee as <- _. reflexivity.
    - destruct b as [|x b]; [congruence|]. injection Ee as <- _. cbn in Hf. apply andb_prop in Hf as [Hf _]. apply A, Hf. }
  apply (class_split is_whitespace) in E as [-> E]; eauto.
  split; [reflexivity|].
  assert (Cl : forall d t c u, close_of d ++ t = c :: u -> alnum c || (c =? ch "#") = false).
  { intros d0 t c u Ee. destruct d0; cbn in Ee; injection Ee as <- _; reflexivity. }
  assert (O : open_of d = open_of d' /\ body ++ close_of d ++ r = body' ++ close_of d' ++ r').
  { destruct d, d'; cbn in E |- *; auto; try (injection E as E; auto);
      try (destruct body as [|x b]; [congruence|]; injection E as Ex _; cbn in Hc; apply andb_prop in Hc as [Hc _];
           apply A in Hc; subst; destruct Hc as [_ Hc]; exfalso; apply Hc; reflexivity);
      try (destruct body' as [|x b]; [congruence|]; injection E as Ex _; cbn in Hc'; apply andb_prop in Hc' as [Hc' _];
           apply A in Hc'; subst; destruct Hc' as [_ Hc']; exfalso; apply Hc'; reflexivity). }
  destruct O as [O1 O2].
  apply (class_split (fun c => alnum c || (c =? ch "#"))) in O2 as [-> O2]; eauto.
  split; [|reflexivity].
  destruct d, d'; cbn in O1, O2; try reflexivity; try discriminate.
Qed.

Lemma enum_alts_arabic b body t : body <> [] -> digits body -> rel (enum_alts b) (body ++ t) t.
Proof.
  intros Hne Hd. unfold enum_alts. cbn [Alts]. apply rel_altl, rel_grp, rel_plus_cls.
  exists body. repeat split; auto. apply forallb_digits. exact Hd.
Qed.
Lemma enum_alts_auto b t : rel (enum_alts b) (lit "#" ++ t) t.
Proof.
  unfold enum_alts. cbn [Alts]. apply rel_altr, rel_altr, rel_altr, rel_altr, rel_altr, rel_grp, rel_chr. reflexivity.
Qed.

Lemma enum_line_matches w d body line :
  enum_line w d body line -> (forall b t, rel (enum_alts b) (body ++ t) t) ->
  exists cs, captures ENUMERATOR line = Some cs.
Proof.
  intros (Hw & r & -> & Hr) Hb.
  destruct (captures ENUMERATOR (w ++ open_of d ++ body ++ close_of d ++ r)) as [cs|] eqn:E; [eauto|].
  exfalso. apply captures_none in E. apply E.
  assert (Haft : exists t, rel (Grp 20 after) r t).
  { destruct Hr as [-> |[r' ->]].
    - exists []. apply rel_grp, rel_altr, rel_eot.
    - exists r'. apply rel_grp, rel_altl. unfold spaces1, Plus.
      eapply rel_cat; [apply rel_chr; reflexivity|apply rel_star0]. }
  destruct Haft as [t Haft]. exists t. unfold ENUMERATOR. cbn [Seq].
  eapply rel_cat.
  { apply rel_grp, rel_star_cls. exists w. split; [reflexivity|].
    apply forallb_forall. unfold all_ws in Hw. rewrite Forall_forall in Hw. exact Hw. }
  eapply rel_cat; [|exact Haft]. cbn [Alts]. destruct d; cbn [open_of close_of lit app].
  - apply rel_altr, rel_altr. eapply rel_cat; [apply Hb|apply rel_chr; reflexivity].
  - apply rel_altl. eapply rel_cat; [apply rel_chr; reflexivity|].
    eapply rel_cat; [apply Hb|apply rel_chr; reflexivity].
  - apply rel_altr, rel_altl. eapply rel_cat; [apply Hb|apply rel_chr; reflexivity].
Qed.

Lemma digits_class body idx : body <> [] -> digits body -> body_class idx body -> idx = 0%nat.
Proof.
  intros Hne Hd. destruct body as [|c body]; [congruence|]. inversion Hd as [|? ? Hc _]; subst.
  destruct idx as [|[|[|[|[|[|]]]]]]; cbn [body_class]; [reflexivity| | | | | |intros []].
  - intros [_ H]. apply forallb_cls_In in H. inversion H as [|? ? Hi _]; subst.
    exfalso. cbn in Hi. repeat (destruct Hi as [<-|Hi]; [vm_compute in Hc; destruct Hc as [H1 H2]; apply H2; reflexivity|]). contradiction.
  - intros [_ H]. apply forallb_cls_In in H. inversion H as [|? ? Hi _]; subst.
    exfalso. cbn in Hi. repeat (destruct Hi as [<-|Hi]; [vm_compute in Hc; destruct Hc as [H1 H2]; apply H2; reflexivity|]). contradiction.
  - intros (x & [= <- _] & H). unfold is_ascii_lower, in_range in H. lia.
  - intros (x & [= <- _] & H). unfold is_ascii_upper, in_range in H. lia.
  - intros [= -> _]. exfalso. vm_compute in Hc. destruct Hc as [H1 _]. apply H1. reflexivity.
Qed.
Lemma auto_class idx : body_class idx (lit "#") -> idx = 5%nat.
Proof.
  destruct idx as [|[|[|[|[|[|]]]]]]; cbn [body_class]; [| | | | |reflexivity|intros []].
  - intros [_ H]. inversion H as [|? ? [H1 _] _]. exfalso. vm_compute in H1. apply H1. reflexivity.
  - intros [_ H]. discriminate.
  - intros [_ H]. discriminate.
  - intros (c & [= <-] & H). discriminate.
  - intros (c & [= <-] & H). discriminate.
Qed.

(* the exact outcome on a line numbered with digits, or with # *)
Lemma enum_digits_line w d body line lk il obs item start :
  enum_line w d body line -> body <> [] -> digits body ->
  exists cs, captures ENUMERATOR line = Some cs /\
    enum_captures_to_int_kind_and_delims cs lk il obs item start =
    finish_enum (if decimal_value body <=? usize_max then Some (decimal_value body) else None) Arabic d obs.
Proof.
  intros Hl Hne Hd.
  destruct (enum_line_matches w d body line Hl) as [cs E]; [intros; apply enum_alts_arabic; assumption|].
  exists cs. split; [exact E|].
  destruct (enum_captures_inv _ _ E) as (w' & d' & idx & body' & wh & aft & i & j & Hl' & Hb & Hi & ->).
  destruct (marker_unique _ _ _ _ _ _ _ Hl Hl') as (<- & <- & <-).
  - exists 0%nat. cbn. auto.
  - eauto.
  - apply digits_class in Hb; [|assumption|assumption]. subst idx. rewrite enum_eval by exact Hi.
    cbn [class_value]. unfold parse_usize. rewrite parse_uint_digits by assumption. reflexivity.
Qed.
Lemma enum_auto_line w d line lk il obs item start :
  enum_line w d (lit "#") line ->
  exists cs, captures ENUMERATOR line = Some cs /\
    enum_captures_to_int_kind_and_delims cs lk il obs item start =
    finish_enum (if item + start <=? usize_max then Some (item + start) else None)
      (if (item =? 0) && negb il then Arabic else match lk with Some k => k | None => Arabic end) d obs.
Proof.
  intros Hl.
  destruct (enum_line_matches w d (lit "#") line Hl) as [cs E]; [intros; apply enum_alts_auto|].
  exists cs. split; [exact E|].
  destruct (enum_captures_inv _ _ E) as (w' & d' & idx & body' & wh & aft & i & j & Hl' & Hb & Hi & ->).
  destruct (marker_unique _ _ _ _ _ _ _ Hl Hl') as (<- & <- & <-).
  - exists 5%nat. reflexivity.
  - eauto.
  - apply auto_class in Hb. subst idx. rewrite enum_eval by exact Hi. reflexivity.
Qed.

Lemma indent_of_ws w c t : all_ws w -> is_whitespace c = false -> indent_of (w ++ c :: t) = length w.
Proof.
  intros Hw Hc. induction Hw as [|x w Hx _ IH]; cbn; [rewrite Hc; reflexivity|]. rewrite Hx, IH. reflexivity.
Qed.
Lemma blank_nws w c t : is_whitespace c = false -> blank (w ++ c :: t) = false.
Proof. intros Hc. unfold blank. rewrite forallb_app. cbn. rewrite Hc, andb_false_r. reflexivity. Qed.

Lemma enum_line_head w d body line i : enum_line w d body line -> body_class i body ->
  exists c t, line = w ++ c :: t /\ is_whitespace c = false.
Proof.
  intros (Hw & r & -> & _) Hb. apply body_class_chars in Hb as [Hne Hc].
  destruct body as [|x b]; [congruence|]. cbn in Hc. apply andb_prop in Hc as [Hc _].
  assert (is_whitespace x = false).
  { revert Hc. change (ch "#") with 35. unfold alnum, is_ascii_alnum, is_ascii_alpha, is_ascii_lower,
      is_ascii_upper, is_ascii_digit, in_range, is_whitespace. lia. }
  destruct d; cbn [open_of lit app]; eauto.
Qed.

(* the next line is numbered m with digits and equally indented: the current
   line counts as a list item exactly when m equals the CURRENT number *)
Lemma next_digits src cur bi w d body line number kind delims lk il item start :
  nth_error src (S (cur_offset cur)) = Some line ->
  enum_line w d body line -> body <> [] -> digits body -> decimal_value body < usize_max ->
  is_enumerated_list_item src cur bi (length w + bi) number kind delims lk il item start =
  Ret ((decimal_value body =? number) && kind_eqb kind Arabic && delims_eqb d delims).
Proof.
  intros Hn Hl Hne Hd Hv. unfold is_enumerated_list_item. rewrite Hn.
  assert (H0 : body_class 0 body) by (cbn; auto).
  destruct (enum_line_head _ _ _ _ _ Hl H0) as (c & t & El & Hc).
  destruct Hl as (Hw & Hl'). assert (Hl : enum_line w d body line) by (split; assumption).
  assert (Ei : indent_of line = length w) by (rewrite El; apply indent_of_ws; assumption).
  assert (Eb : blank line = false) by (rewrite El; apply blank_nws; assumption).
  rewrite Ei, Eb. rewrite Nat.ltb_irrefl, Nat.eqb_refl. cbn [orb].
  destruct (enum_digits_line w d body line (Some lk) il true item start Hl Hne Hd) as (cs & -> & ->).
  destruct (N.leb_spec (decimal_value body) usize_max) as [_|]; [|lia].
  cbn [finish_enum]. destruct (N.leb_spec (decimal_value body + 1) usize_max); [|lia].
  cbn [obind]. replace (decimal_value body + 1 =? number + 1) with (decimal_value body =? number) by lia.
  destruct kind; reflexivity.
Qed.

(* the next line carries the automatic enumerator # *)
Lemma next_auto src cur bi w d line number kind delims lk il item start :
  nth_error src (S (cur_offset cur)) = Some line ->
  enum_line w d (lit "#") line -> item + start < usize_max ->
  is_enumerated_list_item src cur bi (length w + bi) number kind delims lk il item start =
  Ret ((item + start =? number)
       && kind_eqb (if (item =? 0) && negb il then Arabic else lk) kind && delims_eqb d delims).
Proof.
  intros Hn Hl Hv. unfold is_enumerated_list_item. rewrite Hn.
  assert (H0 : body_class 5 (lit "#")) by reflexivity.
  destruct (enum_line_head _ _ _ _ _ Hl H0) as (c & t & El & Hc).
  destruct Hl as (Hw & Hl'). assert (Hl : enum_line w d (lit "#") line) by (split; assumption).
  assert (Ei : indent_of line = length w) by (rewrite El; apply indent_of_ws; assumption).
  assert (Eb : blank line = false) by (rewrite El; apply blank_nws; assumption).
  rewrite Ei, Eb. rewrite Nat.ltb_irrefl, Nat.eqb_refl. cbn [orb].
  destruct (enum_auto_line w d line (Some lk) il true item start Hl) as (cs & -> & ->).
  destruct (N.leb_spec (item + start) usize_max) as [_|]; [|lia].
  cbn [finish_enum]. destruct (N.leb_spec (item + start + 1) usize_max); [|lia].
  cbn [obind]. f_equal. f_equal. f_equal. lia.
Qed.

(* an equally indented next line that is no enumerator at all *)
Lemma next_not_enum src cur bi line number kind delims lk il item start :
  nth_error src (S (cur_offset cur)) = Some line ->
  blank line = false -> captures ENUMERATOR line = None ->
  is_enumerated_list_item src cur bi (indent_of line + bi) number kind delims lk il item start = Ret false.
Proof.
  intros Hn Hb Hc. unfold is_enumerated_list_item. rewrite Hn, Hb, Nat.ltb_irrefl, Nat.eqb_refl, Hc. reflexivity.
Qed.
(* a blank or more deeply indented next line, or none *)
Lemma next_free src cur bi ei number kind delims lk il item start :
  (forall line, nth_error src (S (cur_offset cur)) = Some line -> blank line = true \/ (ei < indent_of line + bi)%nat) ->
  is_enumerated_list_item src cur bi ei number kind delims lk il item start = Ret true.
Proof.
  intros H. unfold is_enumerated_list_item.
  destruct (nth_error src (S (cur_offset cur))) as [line|]; [|reflexivity].
  destruct (H _ eq_refl) as [-> |Hlt]; [reflexivity|].
  destruct (Nat.ltb_spec ei (indent_of line + bi)); [|lia]. rewrite orb_true_r. reflexivity.
Qed.
