(* RefnameProofs.v -- lower-casing and reference name normalisation (C17) *)
From Coq Require Import ZifyBool ZifyNat ZifyN.
From Verif Require Import Base Unicode Common Spec TextProofs.

(* ---------- the lower-case table ---------- *)
Definition nseq (n : nat) : list N := map N.of_nat (seq 0 n).
Definition members (t : list (N * N * N * N)) : list (N * N) :=
  flat_map (fun '(lo, hi, step, img) =>
    map (fun k => (lo + k * step, img + k * step)%N) (nseq (S (N.to_nat ((hi - lo) / step))))) t.

Lemma nseq_In k n : (k < N.of_nat n)%N -> In k (nseq n).
Proof.
  intros H. unfold nseq. apply in_map_iff. exists (N.to_nat k). split; [lia|].
  apply in_seq. lia.
Qed.

Lemma lower_lookup_members t c :
  Forall (fun e => let '(lo, hi, step, img) := e in (step <> 0)%N) t ->
  lower_lookup t c = c \/ In (c, lower_lookup t c) (members t).
Proof.
  induction t as [|[[[lo hi] step] img] t IH]; intros Ht; [left; reflexivity|].
  inversion Ht as [|? ? Hstep Ht']; subst. cbn [lower_lookup].
  destruct (((lo <=? c) && (c <=? hi) && ((c - lo) mod step =? 0))%N) eqn:E.
  - right. apply andb_prop in E as [E E3]. apply andb_prop in E as [E1 E2].
    apply N.leb_le in E1, E2. apply N.eqb_eq in E3.
    unfold members. cbn [flat_map]. apply in_or_app. left.
    apply in_map_iff. exists ((c - lo) / step)%N.
    assert (Hc : ((c - lo) = (c - lo) / step * step)%N).
    { rewrite (N.div_mod (c - lo) step) at 1 by assumption. rewrite E3. lia. }
    split; [f_equal; lia|].
    apply nseq_In.
    assert (((c - lo) / step <= (hi - lo) / step)%N) by (apply N.div_le_mono; lia). lia.
  - destruct (IH Ht') as [H|H]; [left; exact H|right].
    unfold members. cbn [flat_map]. apply in_or_app. right. exact H.
Qed.

Definition member_ok (cd : N * N) : bool :=
  str_eqb (lower_char (snd cd)) [snd cd] && negb (is_whitespace (snd cd))
  && negb (is_whitespace (fst cd)).
Lemma members_ok : forallb member_ok (members tbl_lower) = true.
Proof. vm_compute. reflexivity. Qed.
Lemma steps_ok : Forall (fun e => let '(lo, hi, step, img) := e in (step <> 0)%N) tbl_lower.
Proof.
  apply Forall_forall. intros [[[lo hi] step] img] H.
  assert (G : forallb (fun e => let '(lo, hi, step, img) := e in negb (step =? 0)%N) tbl_lower = true)
    by (vm_compute; reflexivity).
  rewrite forallb_forall in G. specialize (G _ H). cbn in G. lia.
Qed.

Lemma lookup_cases c :
  lower_lookup tbl_lower c = c \/
  (lower_char (lower_lookup tbl_lower c) = [lower_lookup tbl_lower c] /\
   is_whitespace (lower_lookup tbl_lower c) = false /\ is_whitespace c = false).
Proof.
  destruct (lower_lookup_members tbl_lower c steps_ok) as [H|H]; [left; exact H|right].
  pose proof members_ok as G. rewrite forallb_forall in G. specialize (G _ H).
  unfold member_ok in G. cbn [fst snd] in G.
  apply andb_prop in G as [G G3]. apply andb_prop in G as [G1 G2].
  apply str_eqb_eq in G1. rewrite negb_true_iff in G2, G3. auto.
Qed.

Lemma ws_ascii c : (c < 128)%N -> is_whitespace c = true -> is_ascii_upper c = false.
Proof. unfold is_whitespace, is_ascii_upper, in_range. lia. Qed.

Lemma lower_char_ws c : is_whitespace c = true -> lower_char c = [c].
Proof.
  intros Hw. unfold lower_char. destruct (N.ltb_spec c 128) as [Hc|Hc].
  - unfold ascii_lower. rewrite ws_ascii by assumption. reflexivity.
  - destruct (N.eqb_spec c 304) as [->|_]; [vm_compute in Hw; discriminate|].
    destruct (lookup_cases c) as [->|(_ & _ & H)]; [reflexivity|congruence].
Qed.

Lemma lower_char_nws c : is_whitespace c = false -> no_ws (lower_char c).
Proof.
  intros Hw. unfold lower_char. destruct (N.ltb_spec c 128) as [Hc|Hc].
  - constructor; [|constructor]. unfold ascii_lower.
    destruct (is_ascii_upper c) eqn:E; [|exact Hw].
    unfold is_ascii_upper, in_range in E. unfold is_whitespace. lia.
  - destruct (N.eqb_spec c 304) as [->|_]; [repeat constructor|].
    constructor; [|constructor]. destruct (lookup_cases c) as [->|(_ & H & _)]; assumption.
Qed.

Lemma lower_char_ne c : lower_char c <> [].
Proof. unfold lower_char. destruct (c <? 128)%N; [discriminate|]. destruct (c =? 304)%N; discriminate. Qed.

Lemma lower_char_idem c : to_lowercase (lower_char c) = lower_char c.
Proof.
  unfold lower_char at 1. unfold to_lowercase.
  destruct (N.ltb_spec c 128) as [Hc|Hc].
  - cbn [flat_map]. rewrite app_nil_r. unfold lower_char.
    destruct (N.ltb_spec c 128) as [_|]; [|lia].
    unfold ascii_lower. destruct (is_ascii_upper c) eqn:E.
    + unfold is_ascii_upper, in_range in E. destruct (N.ltb_spec (c + 32)%N 128) as [_|]; [|lia].
      replace (is_ascii_upper (c + 32)%N) with false; [reflexivity|].
      unfold is_ascii_upper, in_range. lia.
    + destruct (N.ltb_spec c 128) as [_|]; [|lia]. rewrite E. reflexivity.
  - destruct (N.eqb_spec c 304) as [->|Hn]; [vm_compute; reflexivity|].
    cbn [flat_map]. rewrite app_nil_r.
    assert (Elc : lower_char c = [lower_lookup tbl_lower c]).
    { unfold lower_char. destruct (N.ltb_spec c 128); [lia|].
      destruct (N.eqb_spec c 304); [congruence|reflexivity]. }
    destruct (lookup_cases c) as [H|(H & _)].
    + rewrite H. reflexivity.
    + rewrite H, Elc. reflexivity.
Qed.

Lemma to_lowercase_app a b : to_lowercase (a ++ b) = to_lowercase a ++ to_lowercase b.
Proof. unfold to_lowercase. apply flat_map_app. Qed.

Lemma to_lowercase_idem s : to_lowercase (to_lowercase s) = to_lowercase s.
Proof.
  induction s as [|c s IH]; [reflexivity|].
  change (to_lowercase (c :: s)) with (lower_char c ++ to_lowercase s).
  rewrite to_lowercase_app, lower_char_idem, IH. reflexivity.
Qed.

(* ---------- splitting at white space ---------- *)
Lemma split_ws_nws w s cur : no_ws w -> split_ws_aux (w ++ s) cur = split_ws_aux s (rev w ++ cur).
Proof.
  revert cur. induction w as [|c w IH]; intros cur H; [reflexivity|].
  inversion H as [|? ? Hc Hw]; subst. cbn [app split_ws_aux]. rewrite Hc, IH by assumption.
  cbn [rev]. rewrite <- app_assoc. reflexivity.
Qed.

Lemma split_ws_lower s : forall cur,
  split_ws_aux (to_lowercase s) (rev (to_lowercase (rev cur))) = map to_lowercase (split_ws_aux s cur).
Proof.
  induction s as [|c s IH]; intros cur.
  - cbn. destruct cur as [|d cur]; [reflexivity|].
    destruct (rev (to_lowercase (rev (d :: cur)))) eqn:E.
    + exfalso. apply (f_equal (@rev _)) in E. rewrite rev_involutive in E. cbn in E.
      rewrite to_lowercase_app in E. apply app_eq_nil in E as [_ E]. cbn in E.
      rewrite app_nil_r in E. exact (lower_char_ne _ E).
    + rewrite <- E, rev_involutive. reflexivity.
  - change (to_lowercase (c :: s)) with (lower_char c ++ to_lowercase s).
    cbn [split_ws_aux]. destruct (is_whitespace c) eqn:Ec.
    + rewrite (lower_char_ws c Ec). cbn [app split_ws_aux]. rewrite Ec.
      specialize (IH []). cbn [rev to_lowercase flat_map] in IH. 
      destruct cur as [|d cur].
      * cbn [rev to_lowercase flat_map]. exact IH.
      * destruct (rev (to_lowercase (rev (d :: cur)))) eqn:E.
        -- exfalso. apply (f_equal (@rev _)) in E. rewrite rev_involutive in E. cbn in E.
           rewrite to_lowercase_app in E. apply app_eq_nil in E as [_ E]. cbn in E.
           rewrite app_nil_r in E. exact (lower_char_ne _ E).
        -- rewrite <- E, rev_involutive. cbn [map]. f_equal. exact IH.
    + rewrite split_ws_nws by (apply lower_char_nws; exact Ec).
      rewrite <- IH. f_equal. cbn [rev]. rewrite to_lowercase_app, rev_app_distr. cbn.
      rewrite app_nil_r. reflexivity.
Qed.

Lemma split_lower s : split_whitespace (to_lowercase s) = map to_lowercase (split_whitespace s).
Proof. exact (split_ws_lower s []). Qed.

Lemma to_lowercase_join ws :
  to_lowercase (join (lit " ") ws) = join (lit " ") (map to_lowercase ws).
Proof.
  induction ws as [|w ws IH]; [reflexivity|]. cbn [join map].
  destruct ws as [|v ws]; [reflexivity|].
  rewrite !to_lowercase_app, IH. reflexivity.
Qed.

Lemma normalize_alt s : normalize_refname s = join (lit " ") (split_whitespace (to_lowercase s)).
Proof. unfold normalize_refname. rewrite to_lowercase_join, split_lower. reflexivity. Qed.

Definition word (w : str) : Prop := w <> [] /\ no_ws w.

Lemma split_ws_words s : forall cur, no_ws cur -> Forall word (split_ws_aux s cur).
Proof.
  induction s as [|c s IH]; intros cur Hcur; cbn [split_ws_aux].
  - destruct cur as [|d cur]; [constructor|]. constructor; [|constructor]. split.
    + cbn. destruct (rev cur); discriminate.
    + apply Forall_rev. exact Hcur.
  - destruct (is_whitespace c) eqn:Ec.
    + destruct cur as [|d cur]; [apply IH; constructor|]. constructor.
      * split; [cbn; destruct (rev cur); discriminate|apply Forall_rev; exact Hcur].
      * apply IH. constructor.
    + apply IH. constructor; assumption.
Qed.
Lemma split_words s : Forall word (split_whitespace s).
Proof. apply split_ws_words. constructor. Qed.

Lemma split_join ws : Forall word ws -> split_whitespace (join (lit " ") ws) = ws.
Proof.
  unfold split_whitespace. induction 1 as [|w ws [Hne Hw] Hws IH]; [reflexivity|].
  cbn [join]. destruct ws as [|v ws].
  - rewrite <- (app_nil_r w) at 1. rewrite split_ws_nws by exact Hw. rewrite app_nil_r. cbn.
    destruct (rev w) eqn:E; [apply (f_equal (@rev _)) in E; rewrite rev_involutive in E; cbn in E; congruence|].
    rewrite <- E, rev_involutive. reflexivity.
  - rewrite split_ws_nws by exact Hw. rewrite app_nil_r.
    set (J := join (lit " ") (v :: ws)) in *. cbn [lit app split_ws_aux].
    change (is_whitespace (N_of_ascii " ")) with true. cbv iota.
    destruct (rev w) eqn:E; [apply (f_equal (@rev _)) in E; rewrite rev_involutive in E; cbn in E; congruence|].
    rewrite <- E, rev_involutive, IH. reflexivity.
Qed.

Lemma normalize_idem s : normalize_refname (normalize_refname s) = normalize_refname s.
Proof.
  rewrite (normalize_alt (normalize_refname s)). rewrite (normalize_alt s).
  rewrite to_lowercase_join, split_lower, map_map.
  rewrite split_join.
  - f_equal. rewrite <- map_map. rewrite map_map. apply map_ext. intros w. apply to_lowercase_idem.
  - rewrite <- map_map, <- split_lower, <- split_lower. apply split_words.
Qed.

Lemma normalize_case a b : to_lowercase a = to_lowercase b -> normalize_refname a = normalize_refname b.
Proof. intros H. rewrite !normalize_alt, H. reflexivity. Qed.

Lemma split_ws_all_ws w s : all_ws w -> split_ws_aux (w ++ s) [] = split_ws_aux s [].
Proof. induction 1 as [|c w Hc Hw IH]; [reflexivity|]. cbn. rewrite Hc. exact IH. Qed.

Lemma split_ws_gap a w b cur :
  all_ws w -> w <> [] ->
  split_ws_aux (a ++ w ++ b) cur = split_ws_aux a cur ++ split_ws_aux b [].
Proof.
  intros Hw Hne. revert cur. induction a as [|c a IH]; intros cur.
  - destruct w as [|c w]; [congruence|]. inversion Hw as [|? ? Hc Hw']; subst.
    cbn [app split_ws_aux]. rewrite Hc.
    destruct cur; rewrite split_ws_all_ws by exact Hw'; reflexivity.
  - cbn [app split_ws_aux]. destruct (is_whitespace c).
    + destruct cur; rewrite IH; reflexivity.
    + apply IH.
Qed.

Lemma normalize_gap a b w1 w2 :
  all_ws w1 -> all_ws w2 -> w1 <> [] -> w2 <> [] ->
  normalize_refname (a ++ w1 ++ b) = normalize_refname (a ++ w2 ++ b).
Proof.
  intros. unfold normalize_refname, split_whitespace. rewrite !split_ws_gap by assumption. reflexivity.
Qed.

Lemma normalize_outer a w1 w2 :
  all_ws w1 -> all_ws w2 -> normalize_refname (w1 ++ a ++ w2) = normalize_refname a.
Proof.
  intros H1 H2. unfold normalize_refname, split_whitespace.
  rewrite split_ws_all_ws by exact H1. destruct w2 as [|c w2]; [rewrite app_nil_r; reflexivity|].
  rewrite <- (app_nil_r (c :: w2)), split_ws_gap by (auto; discriminate).
  cbn [split_ws_aux]. rewrite app_nil_r. reflexivity.
Qed.

(* every white space character of a normalised name is a single space between
   two non-white-space characters *)
Lemma join_shape ws p c r :
  Forall word ws -> join (lit " ") ws = p ++ c :: r -> is_whitespace c = true ->
  c = 32%N /\ (exists p' d, p = p' ++ [d] /\ is_whitespace d = false) /\
  (exists e r', r = e :: r' /\ is_whitespace e = false).
Proof.
  intros H. revert p. induction H as [|w ws [Hne Hw] Hws IH]; intros p E Hc.
  - destruct p; discriminate.
  - cbn [join] in E. destruct ws as [|v ws].
    + exfalso. subst w. apply Forall_app in Hw as [_ Hw]. inversion Hw. congruence.
    + set (rest := join (lit " ") (v :: ws)) in *.
      assert (Hrest : exists e r', rest = e :: r' /\ is_whitespace e = false).
      { inversion Hws as [|? ? [Hvne Hv] _]; subst. destruct v as [|e v]; [congruence|].
        inversion Hv; subst. unfold rest. cbn [join]. destruct ws; cbn [app]; eauto. }
      assert (Hlast : exists p' d, w = p' ++ [d] /\ is_whitespace d = false).
      { destruct (exists_last Hne) as (p' & d & ->). exists p', d. split; [reflexivity|].
        apply Forall_app in Hw as [_ Hw]. inversion Hw; assumption. }
      apply app_eq_app in E as (l & [[E1 E2]|[E1 E2]]).
      * destruct l as [|x l].
        -- cbn in E2. injection E2 as Ec Er. subst c. split; [reflexivity|].
           rewrite app_nil_r in E1. subst p. split; [exact Hlast|]. subst r. exact Hrest.
        -- exfalso. injection E2 as <- _. subst w. apply Forall_app in Hw as [_ Hw].
           inversion Hw. congruence.
      * destruct l as [|x l].
        -- cbn in E2. injection E2 as Ec Er. subst c. split; [reflexivity|].
           rewrite app_nil_r in E1. subst p. split; [exact Hlast|]. subst r. exact Hrest.
        -- cbn in E2. injection E2 as Ex E2.
           destruct (IH l E2 Hc) as (H1 & (p' & d & -> & Hd) & H3).
           split; [exact H1|]. split; [|exact H3].
           exists (w ++ x :: p'), d. rewrite E1. rewrite <- app_assoc. auto.
Qed.

Lemma normalize_shape s p c r :
  normalize_refname s = p ++ c :: r -> is_whitespace c = true ->
  c = 32%N /\ (exists p' d, p = p' ++ [d] /\ is_whitespace d = false) /\
  (exists e r', r = e :: r' /\ is_whitespace e = false).
Proof. rewrite normalize_alt. apply join_shape. apply split_words. Qed.

(* ASCII upper-case letters are lowered, so names differing in ASCII letter
   case normalise alike *)
Lemma lower_ascii c : (c < 128)%N -> lower_char c = [ascii_lower c].
Proof. intros H. unfold lower_char. destruct (N.ltb_spec c 128); [reflexivity|lia]. Qed.
