(* ConverterProofs.v -- proofs about Converters.v (C18-C23) *)
From Coq Require Import ZifyBool ZifyNat ZifyN.
From Verif Require Import Base Common Regex RegexProofs Patterns Converters Spec TextProofs.
Local Open Scope N_scope.

(* ---------- Roman numerals ---------- *)
Definition all_numbers : list N := map N.of_nat (seq 1 (N.to_nat 4999)).
Lemma all_numbers_In n : 1 <= n <= 4999 -> In n all_numbers.
Proof.
  intros H. unfold all_numbers. apply in_map_iff. exists (N.to_nat n). split; [lia|].
  apply in_seq. lia.
Qed.

Definition is_some_eq (o : option N) (n : N) : bool :=
  match o with Some v => v =? n | None => false end.
Lemma is_some_eq_spec o n : is_some_eq o n = true -> o = Some n.
Proof. destruct o; cbn; intros H; [apply N.eqb_eq in H; congruence|discriminate]. Qed.

Lemma upper_sweep :
  forallb (fun n => is_some_eq (upper_roman_to_usize (upper_roman n)) n) all_numbers = true.
Proof. vm_compute. reflexivity. Qed.
Lemma lower_sweep :
  forallb (fun n => is_some_eq (lower_roman_to_usize (lower_roman n)) n) all_numbers = true.
Proof. vm_compute. reflexivity. Qed.

Lemma upper_roman_correct n :
  1 <= n <= 4999 -> upper_roman_to_usize (upper_roman n) = Some n.
Proof.
  intros H. apply all_numbers_In in H. apply is_some_eq_spec.
  pose proof upper_sweep as G. rewrite forallb_forall in G. apply (G n H).
Qed.
Lemma lower_roman_correct n :
  1 <= n <= 4999 -> lower_roman_to_usize (lower_roman n) = Some n.
Proof.
  intros H. apply all_numbers_In in H. apply is_some_eq_spec.
  pose proof lower_sweep as G. rewrite forallb_forall in G. apply (G n H).
Qed.

(* the thirteen tokens *)
Definition upper_tokens : list (str * N) :=
  [(lit "M", 1000); (lit "CM", 900); (lit "D", 500); (lit "CD", 400); (lit "C", 100);
   (lit "XC", 90); (lit "L", 50); (lit "XL", 40); (lit "X", 10); (lit "IX", 9);
   (lit "V", 5); (lit "IV", 4); (lit "I", 1)].
Definition lower_tokens : list (str * N) :=
  [(lit "m", 1000); (lit "cm", 900); (lit "d", 500); (lit "cd", 400); (lit "c", 100);
   (lit "xc", 90); (lit "l", 50); (lit "xl", 40); (lit "x", 10); (lit "ix", 9);
   (lit "v", 5); (lit "iv", 4); (lit "i", 1)].
Definition token_sum (ts : list (str * N)) : N := fold_right (fun t a => snd t + a) 0 ts.
Definition token_text (ts : list (str * N)) : str := flat_map fst ts.

Ltac split_ifs :=
  repeat match goal with
  | |- context [if str_eqb ?b ?l then _ else _] => destruct (str_eqb_spec b l)
  | H : context [if str_eqb ?b ?l then _ else _] |- _ => destruct (str_eqb_spec b l)
  end.
Lemma upper_buffer_token b v : upper_buffer_value b = Some v -> In (b, v) upper_tokens.
Proof.
  unfold upper_buffer_value. intros H. split_ifs; subst; try discriminate; injection H as <-;
    unfold upper_tokens; cbn [In]; auto 20.
Qed.
Lemma lower_buffer_token b v : lower_buffer_value b = Some v -> In (b, v) lower_tokens.
Proof.
  unfold lower_buffer_value. intros H. split_ifs; subst; try discriminate; injection H as <-;
    unfold lower_tokens; cbn [In]; auto 20.
Qed.

(* two-step induction on lists *)
Lemma list_ind2 {A} (P : list A -> Prop) :
  P [] -> (forall a, P [a]) -> (forall a b l, P l -> P (b :: l) -> P (a :: b :: l)) -> forall l, P l.
Proof.
  intros H0 H1 H2. assert (G : forall l, P l /\ forall a, P (a :: l)).
  { induction l as [|b l [IH1 IH2]]; [auto|]. split; [auto|]. intros a. apply H2; auto. }
  intros l. apply G.
Qed.

Definition step_ok (f : str -> N -> option N) (ts : list (str * N)) s := forall n v,
  n <= ROMAN_MAX -> f s n = Some v ->
  v <= ROMAN_MAX /\ exists l, Forall (fun t => In t ts) l /\ token_text l = s /\ v = n + token_sum l.

Lemma token_step ts f b x n v :
  In (b, x) ts -> step_ok f ts v -> forall r, (if n + x <=? ROMAN_MAX then f v (n + x) else None) = Some r ->
  r <= ROMAN_MAX /\ exists l, Forall (fun t => In t ts) l /\ token_text l = b ++ v /\ r = n + token_sum l.
Proof.
  intros Hin Hs r H. destruct (N.leb_spec (n + x) ROMAN_MAX) as [Hle|]; [|discriminate].
  destruct (Hs _ _ Hle H) as (Hr & l & Hl & Ht & Hv). split; [exact Hr|].
  exists ((b, x) :: l). split; [constructor; assumption|].
  change (token_text ((b, x) :: l)) with (b ++ token_text l).
  change (token_sum ((b, x) :: l)) with (x + token_sum l).
  rewrite <- Ht. split; [reflexivity|]. lia.
Qed.

Lemma upper_tokens_sound s : step_ok upper_roman_loop upper_tokens s.
Proof.
  induction s as [|a|a b s IH1 IH2] using list_ind2; intros n v Hn H.
  - cbn in H. injection H as ->. split; [exact Hn|]. exists []. cbn. repeat split; [constructor|]. lia.
  - cbn [upper_roman_loop] in H. destruct (upper_buffer_value [a]) as [x|] eqn:E; [|discriminate].
    apply (token_step upper_tokens upper_roman_loop [a] x n []); [apply upper_buffer_token; exact E| |exact H].
    intros n' v' Hn' H'. cbn in H'. injection H' as ->. split; [exact Hn'|].
    exists []. cbn. repeat split; [constructor|]. lia.
  - cbn [upper_roman_loop] in H. destruct (upper_takes a b).
    + destruct (upper_buffer_value [a; b]) as [x|] eqn:E; [|discriminate].
      apply (token_step upper_tokens upper_roman_loop [a; b] x n s);
        [apply upper_buffer_token; exact E|exact IH1|exact H].
    + destruct (upper_buffer_value [a]) as [x|] eqn:E; [|discriminate].
      apply (token_step upper_tokens upper_roman_loop [a] x n (b :: s));
        [apply upper_buffer_token; exact E|exact IH2|exact H].
Qed.
Lemma lower_tokens_sound s : step_ok lower_roman_loop lower_tokens s.
Proof.
  induction s as [|a|a b s IH1 IH2] using list_ind2; intros n v Hn H.
  - cbn in H. injection H as ->. split; [exact Hn|]. exists []. cbn. repeat split; [constructor|]. lia.
  - cbn [lower_roman_loop] in H. destruct (lower_buffer_value [a]) as [x|] eqn:E; [|discriminate].
    apply (token_step lower_tokens lower_roman_loop [a] x n []); [apply lower_buffer_token; exact E| |exact H].
    intros n' v' Hn' H'. cbn in H'. injection H' as ->. split; [exact Hn'|].
    exists []. cbn. repeat split; [constructor|]. lia.
  - cbn [lower_roman_loop] in H. destruct (lower_takes a b).
    + destruct (lower_buffer_value [a; b]) as [x|] eqn:E; [|discriminate].
      apply (token_step lower_tokens lower_roman_loop [a; b] x n s);
        [apply lower_buffer_token; exact E|exact IH1|exact H].
    + destruct (lower_buffer_value [a]) as [x|] eqn:E; [|discriminate].
      apply (token_step lower_tokens lower_roman_loop [a] x n (b :: s));
        [apply lower_buffer_token; exact E|exact IH2|exact H].
Qed.

Lemma upper_roman_bounded s v : upper_roman_to_usize s = Some v -> v <= 4999.
Proof. intros H. apply upper_tokens_sound in H; [apply H|vm_compute; discriminate]. Qed.
Lemma lower_roman_bounded s v : lower_roman_to_usize s = Some v -> v <= 4999.
Proof. intros H. apply lower_tokens_sound in H; [apply H|vm_compute; discriminate]. Qed.

Lemma upper_roman_additive s v : upper_roman_to_usize s = Some v ->
  exists l, Forall (fun t => In t upper_tokens) l /\ token_text l = s /\ token_sum l = v.
Proof.
  intros H. apply upper_tokens_sound in H; [|vm_compute; discriminate].
  destruct H as (_ & l & H1 & H2 & H3). exists l. repeat split; auto.
Qed.
Lemma lower_roman_additive s v : lower_roman_to_usize s = Some v ->
  exists l, Forall (fun t => In t lower_tokens) l /\ token_text l = s /\ token_sum l = v.
Proof.
  intros H. apply lower_tokens_sound in H; [|vm_compute; discriminate].
  destruct H as (_ & l & H1 & H2 & H3). exists l. repeat split; auto.
Qed.

(* upper- and lower-case spellings convert alike *)
Definition uppers : list N := map N.of_nat (seq 65 26).
Lemma uppers_In c : is_ascii_upper c = true -> In c uppers.
Proof.
  unfold is_ascii_upper, in_range. intros H. unfold uppers. apply in_map_iff.
  exists (N.to_nat c). split; [lia|]. apply in_seq. lia.
Qed.
Definition opt_eqb (a b : option N) : bool :=
  match a, b with Some x, Some y => x =? y | None, None => true | _, _ => false end.
Lemma opt_eqb_eq a b : opt_eqb a b = true -> a = b.
Proof. destruct a, b; cbn; intros H; try congruence. apply N.eqb_eq in H. congruence. Qed.
Lemma case1 c : is_ascii_upper c = true ->
  lower_buffer_value [ascii_lower c] = upper_buffer_value [c].
Proof.
  intros H. apply uppers_In in H. apply opt_eqb_eq.
  assert (G : forallb (fun c => opt_eqb (lower_buffer_value [ascii_lower c]) (upper_buffer_value [c])) uppers = true)
    by (vm_compute; reflexivity).
  rewrite forallb_forall in G. apply (G c H).
Qed.
Lemma case2 c d : is_ascii_upper c = true -> is_ascii_upper d = true ->
  lower_buffer_value [ascii_lower c; ascii_lower d] = upper_buffer_value [c; d] /\
  lower_takes (ascii_lower c) (ascii_lower d) = upper_takes c d.
Proof.
  intros H1 H2. apply uppers_In in H1, H2.
  assert (G : forallb (fun c => forallb (fun d =>
     opt_eqb (lower_buffer_value [ascii_lower c; ascii_lower d]) (upper_buffer_value [c; d])
     && Bool.eqb (lower_takes (ascii_lower c) (ascii_lower d)) (upper_takes c d)) uppers) uppers = true)
    by (vm_compute; reflexivity).
  rewrite forallb_forall in G. specialize (G c H1). rewrite forallb_forall in G. specialize (G d H2).
  apply andb_prop in G as [G1 G2]. apply opt_eqb_eq in G1. apply eqb_prop in G2. auto.
Qed.
Lemma roman_case s : forallb is_ascii_upper s = true ->
  lower_roman_to_usize (map ascii_lower s) = upper_roman_to_usize s.
Proof.
  unfold lower_roman_to_usize, upper_roman_to_usize. generalize 0.
  induction s as [|a|a b s IH1 IH2] using list_ind2; intros n H.
  - reflexivity.
  - cbn in H. rewrite andb_true_r in H. cbn [map upper_roman_loop lower_roman_loop].
    rewrite case1 by exact H. reflexivity.
  - cbn in H. apply andb_prop in H as [Ha H]. apply andb_prop in H as [Hb Hs].
    cbn [map upper_roman_loop lower_roman_loop].
    destruct (case2 a b Ha Hb) as [E1 E2]. rewrite E2, E1, case1 by exact Ha.
    assert (Hbs : forallb is_ascii_upper (b :: s) = true) by (cbn; rewrite Hb; exact Hs).
    destruct (upper_takes a b).
    + destruct (upper_buffer_value [a; b]); [|reflexivity]. rewrite IH1 by exact Hs. reflexivity.
    + destruct (upper_buffer_value [a]); [|reflexivity].
      change (ascii_lower b :: map ascii_lower s) with (map ascii_lower (b :: s)).
      specialize (IH2 (n + n0) Hbs). cbn [map upper_roman_loop lower_roman_loop] in IH2 |- *.
      rewrite IH2. reflexivity.
Qed.

(* ---------- alphabetic enumerators ---------- *)
Lemma alpha_spec s n : alpha_to_usize s = Some n <->
  1 <= n <= 26 /\ (s = [96 + n] \/ s = [64 + n]).
Proof.
  unfold alpha_to_usize. split.
  - destruct s as [|c [|]]; try discriminate.
    unfold is_ascii_lower, is_ascii_upper, in_range.
    destruct ((97 <=? c) && (c <=? 122)) eqn:E1.
    + intros [= <-]. split; [lia|]. left. f_equal. lia.
    + destruct ((65 <=? c) && (c <=? 90)) eqn:E2; [|discriminate].
      intros [= <-]. split; [lia|]. right. f_equal. lia.
  - unfold is_ascii_lower, is_ascii_upper, in_range.
    intros [H [-> | ->]].
    + replace ((97 <=? 96 + n) && (96 + n <=? 122)) with true by lia. f_equal. lia.
    + replace ((97 <=? 64 + n) && (64 + n <=? 122)) with false by lia.
      replace ((65 <=? 64 + n) && (64 + n <=? 90)) with true by lia. f_equal. lia.
Qed.

(* ---------- decimal numerals ---------- *)
Lemma fold_dec_ge s a : a <= fold_left (fun a c => a * 10 + (c - 48)) s a.
Proof. revert a. induction s as [|c s IH]; intros a; cbn [fold_left]; [lia|]. etransitivity; [|apply IH]. lia. Qed.
Lemma digit_iff c : is_ascii_digit c = true <-> 48 <= c <= 57.
Proof. unfold is_ascii_digit, in_range. lia. Qed.
Lemma forallb_digits s : forallb is_ascii_digit s = true <-> digits s.
Proof.
  unfold digits. rewrite forallb_forall, Forall_forall. split; intros H c Hc; apply digit_iff; auto.
Qed.
Lemma parse_digits_spec mx s : forall a, digits s -> a <= mx ->
  parse_digits mx s a =
  let v := fold_left (fun a c => a * 10 + (c - 48)) s a in if v <=? mx then Some v else None.
Proof.
  induction s as [|c s IH]; intros a Hs Ha; cbn [parse_digits fold_left].
  - cbv zeta. destruct (N.leb_spec a mx); [reflexivity|lia].
  - inversion Hs as [|? ? Hc Hs']; subst. apply digit_iff in Hc. rewrite Hc. cbv zeta.
    destruct (N.leb_spec (a * 10 + (c - 48)) mx) as [Hle|Hgt].
    + rewrite IH by assumption. reflexivity.
    + pose proof (fold_dec_ge s (a * 10 + (c - 48))).
      destruct (N.leb_spec (fold_left (fun a c => a * 10 + (c - 48)) s (a * 10 + (c - 48))) mx); [lia|reflexivity].
Qed.
Lemma parse_uint_digits mx s : s <> [] -> digits s ->
  parse_uint mx s = if decimal_value s <=? mx then Some (decimal_value s) else None.
Proof.
  intros Hne Hs. unfold parse_uint. destruct s as [|c s]; [congruence|].
  inversion Hs; subst. destruct (N.eqb_spec c 43); [lia|].
  rewrite parse_digits_spec by (auto; lia). reflexivity.
Qed.

(* ---------- splitting by character class ---------- *)
Lemma class_split (P : char -> bool) a a' b b' :
  forallb P a = true -> forallb P a' = true ->
  (forall c t, b = c :: t -> P c = false) -> (forall c t, b' = c :: t -> P c = false) ->
  a ++ b = a' ++ b' -> a = a' /\ b = b'.
Proof.
  revert a'. induction a as [|c a IH]; intros [|c' a'] Ha Ha' Hb Hb' E; cbn [app] in E.
  - auto.
  - exfalso. cbn in Ha'. apply andb_prop in Ha' as [Hc _]. rewrite (Hb _ _ E) in Hc. discriminate.
  - exfalso. cbn in Ha. apply andb_prop in Ha as [Hc _]. rewrite (Hb' _ _ (eq_sym E)) in Hc. discriminate.
  - injection E as -> E. cbn in Ha, Ha'. apply andb_prop in Ha as [_ Ha]. apply andb_prop in Ha' as [_ Ha'].
    destruct (IH a' Ha Ha' Hb Hb' E) as [-> ->]. auto.
Qed.

(* ---------- trim ---------- *)
Lemma trim_start_ws w s : all_ws w -> trim_start (w ++ s) = trim_start s.
Proof. induction 1 as [|c w Hc _ IH]; [reflexivity|]. cbn. rewrite Hc. exact IH. Qed.
Lemma trim_start_split s : exists w, all_ws w /\ s = w ++ trim_start s.
Proof.
  induction s as [|c s [w [Hw E]]]; [exists []; split; [constructor|reflexivity]|].
  cbn. destruct (is_whitespace c) eqn:Ec.
  - exists (c :: w). split; [constructor; assumption|]. cbn. congruence.
  - exists []. split; [constructor|reflexivity].
Qed.
Lemma trim_end_split s : exists w, all_ws w /\ s = trim_end s ++ w.
Proof.
  unfold trim_end. destruct (trim_start_split (rev s)) as (w & Hw & E).
  exists (rev w). split; [apply Forall_rev; exact Hw|].
  rewrite <- rev_app_distr, <- E, rev_involutive. reflexivity.
Qed.
Lemma trim_split s : exists w1 w2, all_ws w1 /\ all_ws w2 /\ s = w1 ++ trim s ++ w2.
Proof.
  destruct (trim_start_split s) as (w1 & H1 & E1).
  destruct (trim_end_split (trim_start s)) as (w2 & H2 & E2).
  exists w1, w2. repeat split; auto. unfold trim. rewrite <- E2. exact E1.
Qed.
Lemma trim_start_nws c s : is_whitespace c = false -> trim_start (c :: s) = c :: s.
Proof. intros H. cbn. rewrite H. reflexivity. Qed.
Lemma trim_core w1 c s d w2 :
  all_ws w1 -> all_ws w2 -> is_whitespace c = false -> is_whitespace d = false ->
  (exists m, c :: s = m ++ [d]) -> trim (w1 ++ (c :: s) ++ w2) = c :: s.
Proof.
  intros H1 H2 Hc Hd [m Em]. unfold trim. rewrite trim_start_ws by exact H1.
  cbn [app]. rewrite trim_start_nws by exact Hc. unfold trim_end.
  change (c :: s ++ w2) with ((c :: s) ++ w2). rewrite rev_app_distr.
  rewrite trim_start_ws by (apply Forall_rev; exact H2).
  rewrite Em, rev_app_distr. cbn [rev app]. rewrite trim_start_nws by exact Hd.
  cbn [rev]. rewrite rev_involutive. reflexivity.
Qed.

(* ---------- lengths and percentages ---------- *)
Definition num_char (c : char) : bool := is_ascii_digit c || (c =? ch ".").

Lemma relc_seq2 a b i s u n : relc (Seq [a; b]) i s u n ->
  exists t n1 n2, relc a i s t n1 /\ relc b (i + (length s - length t))%nat t u n2 /\ n = n2 ++ n1.
Proof. apply relc_cat_inv. Qed.

Lemma number_re_rel s t : rel number_re s t <-> exists num ip fp, s = num ++ t /\ numeral num ip fp.
Proof.
  split.
  - intros H. apply rel_alt_inv in H as [H|H].
    + cbn [Seq] in H. apply rel_cat_inv in H as (u & H1 & H2).
      apply rel_plus_cls in H1 as (ip & -> & Hne & Hip). apply forallb_digits in Hip.
      apply rel_opt in H2 as [H2| ->].
      * cbn [Seq] in H2. apply rel_cat_inv in H2 as (v & H2 & H3).
        apply rel_chr in H2. subst u. apply rel_star_cls in H3 as (fp & -> & Hfp).
        apply forallb_digits in Hfp.
        exists (ip ++ lit "." ++ fp), ip, fp. split; [|apply num_dot; assumption].
        rewrite <- !app_assoc. reflexivity.
      * exists ip, ip, []. split; [reflexivity|]. apply num_int; assumption.
    + cbn [Seq] in H. apply rel_cat_inv in H as (u & H1 & H2). apply rel_chr in H1. subst s.
      apply rel_plus_cls in H2 as (fp & -> & Hne & Hfp). apply forallb_digits in Hfp.
      exists (lit "." ++ fp), [], fp. split; [reflexivity|]. apply num_frac; assumption.
  - intros (num & ip & fp & -> & H). destruct H as [ip Hne Hip|ip fp Hne Hip Hfp|fp Hne Hfp].
    + apply rel_altl. cbn [Seq]. eapply rel_cat.
      * apply rel_plus_cls. exists ip. repeat split; auto. apply forallb_digits. exact Hip.
      * apply rel_opt. right. reflexivity.
    + apply rel_altl. cbn [Seq]. eapply rel_cat.
      * apply rel_plus_cls. exists ip. rewrite <- app_assoc. repeat split; auto.
        apply forallb_digits. exact Hip.
      * apply rel_opt. left. cbn [Seq]. eapply rel_cat; [apply rel_chr; reflexivity|].
        apply rel_star_cls. exists fp. rewrite ?app_nil_l. split; [reflexivity|apply forallb_digits; exact Hfp].
    + apply rel_altr. cbn [Seq]. eapply rel_cat; [apply rel_chr; reflexivity|].
      apply rel_plus_cls. exists fp. repeat split; auto. apply forallb_digits. exact Hfp.
Qed.

Lemma digits_num_char s : digits s -> forallb num_char s = true.
Proof.
  intros H. apply forallb_forall. intros c Hc. unfold digits in H. rewrite Forall_forall in H.
  apply H in Hc. apply digit_iff in Hc. unfold num_char. rewrite Hc. reflexivity.
Qed.
Lemma numeral_chars num ip fp : numeral num ip fp -> forallb num_char num = true.
Proof.
  intros [ip' _ H|ip' fp' _ H1 H2|fp' _ H].
  - apply digits_num_char. exact H.
  - rewrite !forallb_app, (digits_num_char ip'), (digits_num_char fp') by assumption. reflexivity.
  - rewrite forallb_app, (digits_num_char fp') by assumption. reflexivity.
Qed.
Lemma numeral_first num ip fp : numeral num ip fp -> exists c t, num = c :: t /\ num_char c = true.
Proof.
  intros H. pose proof (numeral_chars _ _ _ H) as Hc.
  destruct num as [|c t].
  - exfalso. inversion H as [? Hne|? ? Hne ? ? E|]; subst; [congruence|].
    destruct ip; [congruence|discriminate].
  - exists c, t. split; [reflexivity|]. cbn in Hc. apply andb_prop in Hc. apply Hc.
Qed.

Lemma read_digits s : forall d m sc t, digits s ->
  read_fnum (s ++ t) d m sc =
  read_fnum t d (fold_left (fun a c => a * 10 + (c - 48)) s m) (if d then sc + length s else sc)%nat.
Proof.
  induction s as [|c s IH]; intros d m sc t Hs.
  - cbn. destruct d; [rewrite Nat.add_0_r|]; reflexivity.
  - inversion Hs as [|? ? Hc Hs']; subst. cbn [app read_fnum fold_left length].
    destruct (N.eqb_spec c (ch ".")) as [E|_]; [vm_compute in E; lia|].
    rewrite IH by assumption. destruct d; [|reflexivity]. f_equal. lia.
Qed.
Lemma parse_f64_numeral num ip fp : numeral num ip fp ->
  parse_f64 num = FNum (decimal_value (ip ++ fp)) (length fp).
Proof.
  unfold parse_f64, decimal_value. intros [ip' _ H|ip' fp' _ H1 H2|fp' _ H].
  - rewrite <- (app_nil_r ip') at 1. rewrite read_digits by exact H. cbn. rewrite app_nil_r. reflexivity.
  - rewrite read_digits by exact H1. cbn [lit app read_fnum].
    change (N_of_ascii "." =? ch ".") with true. cbv iota.
    rewrite <- (app_nil_r fp') at 1. rewrite read_digits by exact H2. cbn. rewrite fold_left_app. reflexivity.
  - cbn [lit app read_fnum]. change (N_of_ascii "." =? ch ".") with true. cbv iota.
    rewrite <- (app_nil_r fp') at 1. rewrite read_digits by exact H. reflexivity.
Qed.

Definition units : list LengthUnit := [Em; Ex; Mm; Cm; In_; Px; Pt; Pc].
Lemma unit_of_unit_str u : unit_of_str (unit_str u) = Some u.
Proof. destruct u; reflexivity. Qed.
Lemma unit_of_str_inv s u : unit_of_str s = Some u -> s = unit_str u.
Proof. unfold unit_of_str. intros H. split_ifs; subst; try discriminate; injection H as <-; reflexivity. Qed.
Definition unit_alts : re :=
  Alts (map (fun u => Lit (q u)) ["em"; "ex"; "mm"; "cm"; "in"; "px"; "pt"; "pc"]%string).
Lemma rel_alts l s t : rel (Alts l) s t <-> exists r, In r l /\ rel r s t.
Proof.
  induction l as [|r l IH]; cbn [Alts].
  - split; [intros H; apply rel_cls_inv in H as (c & _ & H); discriminate|intros (r & [] & _)].
  - destruct l as [|r' l].
    + split; [intros H; exists r; cbn; auto|intros (r' & [->|[]] & H); exact H].
    + split.
      * intros H. apply rel_alt_inv in H as [H|H].
        -- exists r. cbn; auto.
        -- apply IH in H as (r2 & Hi & H). exists r2. split; [right; exact Hi|exact H].
      * intros (r2 & [->|Hi] & H); [apply rel_altl; exact H|].
        apply rel_altr. apply IH. eauto.
Qed.
Lemma unit_alts_rel s t : rel unit_alts s t <-> exists u, s = unit_str u ++ t.
Proof.
  unfold unit_alts. rewrite rel_alts. split.
  - intros (r & Hi & H). cbn [map In] in Hi.
    repeat (destruct Hi as [<-|Hi];
      [apply rel_lit in H; subst s;
       first [exists Em; reflexivity|exists Ex; reflexivity|exists Mm; reflexivity
             |exists Cm; reflexivity|exists In_; reflexivity|exists Px; reflexivity
             |exists Pt; reflexivity|exists Pc; reflexivity]|]).
    contradiction.
  - intros [u ->].
    exists (Lit (unit_str u)). split; [|apply rel_lit; reflexivity].
    destruct u; cbn [map In]; auto 12.
Qed.

Lemma unit_first u : exists c t, unit_str u = c :: t /\ num_char c = false.
Proof. destruct u; eexists _, _; split; reflexivity. Qed.
Lemma unit_last u : exists m d, unit_str u = m ++ [d] /\ is_whitespace d = false.
Proof.
  destruct u;
  match goal with |- exists m d, unit_str ?x = _ /\ _ =>
    let v := eval vm_compute in (unit_str x) in
    match v with [?a; ?b] => exists [a], b; split; reflexivity end end.
Qed.
Lemma num_char_nws c : num_char c = true -> is_whitespace c = false.
Proof. unfold num_char, is_ascii_digit, in_range, is_whitespace. change (ch ".") with 46. lia. Qed.

Lemma str_to_length_sound s l : str_to_length s = Some l ->
  exists num u ip fp, trim s = num ++ unit_str u /\ numeral num ip fp /\
    l = MkLength u (FNum (decimal_value (ip ++ fp)) (length fp)).
Proof.
  unfold str_to_length. destruct (captures LENGTH_RE (trim s)) as [cs|] eqn:E; [|discriminate].
  destruct (captures_sound _ _ _ E) as (p & t & new & _ & H & ->).
  unfold LENGTH_RE in H. cbn [Seq] in H.
  apply relc_cat_inv in H as (t1 & n1 & n2 & H1 & H2 & ->).
  apply relc_grp_inv in H1 as (m1 & H1 & ->).
  apply relc_cat_inv in H2 as (t2 & n3 & n4 & H2 & H3 & ->).
  apply relc_grp_inv in H2 as (m2 & H2 & ->).
  apply relc_eot_inv in H3 as (-> & -> & ->).
  assert (C1 : forall s t i n, relc number_re i s t n -> n = []).
  { clear. intros s t i n H. apply relc_alt_inv in H as [H|H]; cbn [Seq] in H;
      apply relc_cat_inv in H as (u & a & b & Ha & Hb & ->).
    - apply relc_plus_cls_inv in Ha as (-> & _).
      apply relc_alt_inv in Hb as [Hb|Hb]; [|apply relc_eps_inv in Hb as [_ ->]; reflexivity].
      cbn [Seq] in Hb. apply relc_cat_inv in Hb as (v & a & b' & Ha & Hb & ->).
      apply relc_chr_inv in Ha as [_ ->]. apply relc_star_cls_inv in Hb as (-> & _). reflexivity.
    - apply relc_chr_inv in Ha as [_ ->]. apply relc_plus_cls_inv in Hb as (-> & _). reflexivity. }
  assert (C2 : forall s t i n, relc unit_alts i s t n -> n = []).
  { clear. intros s t i n H. unfold unit_alts in H. cbn [map Alts] in H.
    repeat (apply relc_alt_inv in H as [H|H]; [apply relc_lit_inv in H; apply H|]).
    apply relc_lit_inv in H. apply H. }
  pose proof (C1 _ _ _ _ H1) as ->. pose proof (C2 _ _ _ _ H2) as ->.
  apply relc_rel in H1, H2. apply number_re_rel in H1 as (num & ip & fp & E1 & Hn).
  apply (proj1 (unit_alts_rel _ _)) in H2 as (u & E2). rewrite app_nil_r in E2. subst t1.
  rewrite E1. rewrite grp_text. cbn [app cap Nat.eqb]. rewrite Nat.sub_0_r, firstn_all.
  rewrite unit_of_unit_str. intros [= <-].
  exists num, u, ip, fp. repeat split; auto. rewrite (parse_f64_numeral _ _ _ Hn). reflexivity.
Qed.

Lemma numeral_unique num ip fp ip' fp' : numeral num ip fp -> numeral num ip' fp' -> ip = ip' /\ fp = fp'.
Proof.
  assert (Hd : forall s, digits s -> forallb is_ascii_digit s = true) by (intros; apply forallb_digits; assumption).
  assert (K : forall a b a' b', digits a -> digits a' ->
     a ++ b = a' ++ b' -> (b = [] \/ exists f, b = lit "." ++ f) -> (b' = [] \/ exists f, b' = lit "." ++ f) ->
     a = a' /\ b = b').
  { intros a b a' b' Ha Ha' E Hb Hb'. eapply class_split; eauto.
    - intros c t ->. destruct Hb as [Hb|[f Hb]]; [discriminate|]. injection Hb as -> _. reflexivity.
    - intros c t ->. destruct Hb' as [Hb'|[f Hb']]; [discriminate|]. injection Hb' as -> _. reflexivity. }
  intros H1 H2.
  assert (P : forall num ip fp, numeral num ip fp -> exists b, num = ip ++ b /\ digits ip /\
     ((b = [] /\ fp = []) \/ b = lit "." ++ fp)).
  { clear. intros num ip fp [ip' Hne H|ip' fp' Hne H1 H2|fp' Hne H].
    - exists []. rewrite app_nil_r. auto.
    - eexists. split; [reflexivity|]. auto.
    - exists (lit "." ++ fp'). repeat split; [constructor|auto]. }
  apply P in H1 as (b & -> & D1 & B1). apply P in H2 as (b' & E & D2 & B2).
  destruct (K ip b ip' b') as [-> ->]; auto.
  - destruct B1 as [[-> _]| ->]; eauto.
  - destruct B2 as [[-> _]| ->]; eauto.
  - split; [reflexivity|]. destruct B1 as [[E1 F1]|E1], B2 as [[E2 F2]|E2]; rewrite E1 in E2; try discriminate; try congruence.
    apply app_inv_head in E2. exact E2.
Qed.

Lemma str_to_length_spec s l : str_to_length s = Some l <->
  exists w1 num u w2 ip fp, s = w1 ++ num ++ unit_str u ++ w2 /\ all_ws w1 /\ all_ws w2 /\
    numeral num ip fp /\ l = MkLength u (FNum (decimal_value (ip ++ fp)) (length fp)).
Proof.
  split.
  - intros H. apply str_to_length_sound in H as (num & u & ip & fp & E & Hn & ->).
    destruct (trim_split s) as (w1 & w2 & H1 & H2 & Es).
    exists w1, num, u, w2, ip, fp. repeat split; auto. rewrite Es, E, <- app_assoc. reflexivity.
  - intros (w1 & num & u & w2 & ip & fp & -> & H1 & H2 & Hn & ->).
    assert (Et : trim (w1 ++ num ++ unit_str u ++ w2) = num ++ unit_str u).
    { destruct (numeral_first _ _ _ Hn) as (c & t & -> & Hc).
      destruct (unit_last u) as (m & d & -> & Hd).
      replace (w1 ++ (c :: t) ++ (m ++ [d]) ++ w2) with (w1 ++ (c :: (t ++ m ++ [d])) ++ w2)
        by (cbn; rewrite <- !app_assoc; reflexivity).
      erewrite trim_core with (d := d); auto using num_char_nws.
      exists (c :: t ++ m). cbn. rewrite <- app_assoc. reflexivity. }
    assert (Hm : exists l, str_to_length (w1 ++ num ++ unit_str u ++ w2) = Some l).
    { unfold str_to_length. rewrite Et.
      destruct (captures LENGTH_RE (num ++ unit_str u)) as [cs|] eqn:E.
      - pose proof (captures_sound _ _ _ E) as (p & t & new & _ & H & ->).
        unfold LENGTH_RE in H. cbn [Seq] in H.
        apply relc_cat_inv in H as (t1 & n1 & n2 & Ha & Hb & ->).
        apply relc_grp_inv in Ha as (m1 & Ha & ->).
        apply relc_cat_inv in Hb as (t2 & n3 & n4 & Hb & Hc & ->).
        apply relc_grp_inv in Hb as (m2 & Hb & ->).
        apply relc_eot_inv in Hc as (-> & -> & ->).
        pose proof (relc_rel _ _ _ _ _ Hb) as Hu. apply (proj1 (unit_alts_rel _ _)) in Hu as (u' & Eu).
        rewrite app_nil_r in Eu. subst t1.
        assert (C2 : forall s t i n, relc unit_alts i s t n -> n = []).
        { clear. intros s t i n H. unfold unit_alts in H. cbn [map Alts] in H.
          repeat (apply relc_alt_inv in H as [H|H]; [apply relc_lit_inv in H; apply H|]).
          apply relc_lit_inv in H. apply H. }
        pose proof (C2 _ _ _ _ Hb) as ->.
        cbn [app cap Nat.eqb]. cbn [length]. rewrite Nat.sub_0_r, firstn_all, unit_of_unit_str. eauto.
      - exfalso. apply captures_none in E. apply E. exists []. unfold LENGTH_RE. cbn [Seq].
        eapply rel_cat; [apply rel_grp; apply number_re_rel; eauto|].
        eapply rel_cat; [apply rel_grp; apply (proj2 (unit_alts_rel _ _)); exists u; rewrite app_nil_r; reflexivity|].
        apply rel_eot. }
    destruct Hm as [l Hl]. rewrite Hl. apply str_to_length_sound in Hl as (num' & u' & ip' & fp' & E & Hn' & ->).
    rewrite Et in E.
    assert (Hf : forall u c t, unit_str u = c :: t -> num_char c = false).
    { intros v c t Ev. destruct (unit_first v) as (c' & t' & E' & Hc'). congruence. }
    apply (class_split num_char) in E as [E1 E2]; eauto using numeral_chars. subst num'.
    assert (u = u') as <-.
    { pose proof (unit_of_unit_str u) as X. rewrite E2, unit_of_unit_str in X. congruence. }
    destruct (numeral_unique _ _ _ _ _ Hn Hn') as [-> ->]. reflexivity.
Qed.

Lemma percentage_sound s f : str_to_percentage s = Some f ->
  exists num w ip fp, trim s = num ++ w ++ lit "%" /\ all_ws w /\ numeral num ip fp /\
    f = FNum (decimal_value (ip ++ fp)) (length fp).
Proof.
  unfold str_to_percentage. destruct (captures PERCENTAGE_RE (trim s)) as [cs|] eqn:E; [|discriminate].
  destruct (captures_sound _ _ _ E) as (p & t & new & _ & H & ->).
  unfold PERCENTAGE_RE in H. cbn [Seq] in H.
  apply relc_cat_inv in H as (t1 & n1 & n2 & H1 & H2 & ->).
  apply relc_grp_simple in H1 as (num & E1 & H1 & ->); [|reflexivity].
  apply relc_cat_inv in H2 as (t2 & n3 & n4 & H2 & H3 & ->).
  apply relc_star_cls_inv in H2 as (-> & w & -> & Hw).
  apply relc_cat_inv in H3 as (t3 & n5 & n6 & H3 & H4 & ->).
  apply relc_grp_simple in H3 as (pc & -> & H3 & ->); [|reflexivity].
  apply rel_chr in H3. apply relc_eot_inv in H4 as (-> & -> & ->).
  cbn [app cap Nat.eqb].
  apply number_re_rel in H1 as (num' & ip & fp & E2 & Hn). apply app_inv_tail in E2. subst num'.
  intros [= <-]. exists num, w, ip, fp. repeat split; auto.
  - rewrite E1. rewrite H3. reflexivity.
  - apply Forall_forall. rewrite forallb_forall in Hw. exact Hw.
  - rewrite (parse_f64_numeral _ _ _ Hn). reflexivity.
Qed.

Lemma all_ws_num_char w c t : all_ws w -> w = c :: t -> num_char c = false.
Proof.
  intros H ->. inversion H as [|? ? Hc _]; subst. destruct (num_char c) eqn:E; [|reflexivity].
  apply num_char_nws in E. congruence.
Qed.

Lemma percentage_spec s f : str_to_percentage s = Some f <->
  exists w1 num w w2 ip fp, s = w1 ++ num ++ w ++ lit "%" ++ w2 /\
    all_ws w1 /\ all_ws w /\ all_ws w2 /\
    numeral num ip fp /\ f = FNum (decimal_value (ip ++ fp)) (length fp).
Proof.
  split.
  - intros H. apply percentage_sound in H as (num & w & ip & fp & E & Hw & Hn & ->).
    destruct (trim_split s) as (w1 & w2 & H1 & H2 & Es).
    exists w1, num, w, w2, ip, fp. repeat split; auto. rewrite Es, E, <- !app_assoc. reflexivity.
  - intros (w1 & num & w & w2 & ip & fp & -> & H1 & Hw & H2 & Hn & ->).
    assert (Et : trim (w1 ++ num ++ w ++ lit "%" ++ w2) = num ++ w ++ lit "%").
    { destruct (numeral_first _ _ _ Hn) as (c & t & -> & Hc).
      replace (w1 ++ (c :: t) ++ w ++ lit "%" ++ w2) with (w1 ++ (c :: (t ++ w ++ lit "%")) ++ w2)
        by (cbn; rewrite <- !app_assoc; reflexivity).
      erewrite trim_core with (d := ch "%"); auto using num_char_nws.
      exists (c :: t ++ w). cbn. rewrite <- app_assoc. reflexivity. }
    destruct (str_to_percentage (w1 ++ num ++ w ++ lit "%" ++ w2)) as [f|] eqn:E.
    + apply percentage_sound in E as (num' & w' & ip' & fp' & E & Hw' & Hn' & ->).
      rewrite Et in E.
      assert (Hf : forall v, all_ws v -> forall c t, v ++ lit "%" = c :: t -> num_char c = false).
      { intros v Hv c t Ev. destruct v as [|d v]; [injection Ev as <- _; reflexivity|].
        injection Ev as <- _. eapply all_ws_num_char; [exact Hv|reflexivity]. }
      apply (class_split num_char) in E as [<- _]; eauto using numeral_chars.
      destruct (numeral_unique _ _ _ _ _ Hn Hn') as [-> ->]. reflexivity.
    + exfalso. unfold str_to_percentage in E. rewrite Et in E.
      destruct (captures PERCENTAGE_RE (num ++ w ++ lit "%")) as [cs|] eqn:Ec.
      * destruct (captures_sound _ _ _ Ec) as (p & t & new & _ & H & ->).
        unfold PERCENTAGE_RE in H. cbn [Seq] in H.
        apply relc_cat_inv in H as (t1 & n1 & n2 & Ha & Hb & ->).
        apply relc_grp_simple in Ha as (num' & E1 & Ha & ->); [|reflexivity].
        apply relc_cat_inv in Hb as (t2 & n3 & n4 & Hb & Hc & ->).
        apply relc_star_cls_inv in Hb as (-> & w' & -> & _).
        apply relc_cat_inv in Hc as (t3 & n5 & n6 & Hc & Hd & ->).
        apply relc_grp_simple in Hc as (pc & -> & Hc & ->); [|reflexivity].
        apply relc_eot_inv in Hd as (-> & -> & ->). cbn [app cap Nat.eqb] in E. discriminate.
      * apply captures_none in Ec. apply Ec. exists []. unfold PERCENTAGE_RE. cbn [Seq].
        eapply rel_cat; [apply rel_grp; apply number_re_rel; eauto|].
        eapply rel_cat; [apply rel_star_cls; exists w; split; [reflexivity|]|].
        -- apply forallb_forall. unfold all_ws in Hw. rewrite Forall_forall in Hw. exact Hw.
        -- eapply rel_cat; [apply rel_grp; apply rel_chr; reflexivity|apply rel_eot].
Qed.
