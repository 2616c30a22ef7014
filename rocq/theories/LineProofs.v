(* LineProofs.v -- which pattern of the body tables a line of a simple document
   matches, and with which captures. *)
From Coq Require Import ZifyBool ZifyNat ZifyN.
From Verif Require Import ConverterProofs.
From Verif Require Import Base Unicode Regex RegexProofs Patterns Common Converters NodeTypes Spec
  TextProofs EnumProofs InlineSpec InlineProofs SimpleSpec.
Require Import Lia.

Definition ws (w : str) : Prop := forallb is_whitespace w = true.
Lemma ws_pad k : ws (repeat 32%N k).
Proof. unfold ws. apply forallb_forall. intros c H. apply repeat_spec in H. now subst. Qed.
(* white space ends at the same place *)
Lemma ws_head : forall w w' c c' t t', ws w -> ws w' -> is_whitespace c = false -> is_whitespace c' = false ->
  w ++ c :: t = w' ++ c' :: t' -> w = w' /\ c = c' /\ t = t'.
Proof.
  unfold ws. induction w as [|x w IH]; intros [|y w'] c c' t t' H1 H2 H3 H4 E; cbn in *.
  - injection E as -> ->. auto.
  - injection E as -> ->. apply andb_true_iff in H2 as [H2 _]. congruence.
  - injection E as -> <-. apply andb_true_iff in H1 as [H1 _]. congruence.
  - injection E as -> E. apply andb_true_iff in H1 as [_ H1]. apply andb_true_iff in H2 as [_ H2].
    destruct (IH _ _ _ _ _ H1 H2 H3 H4 E) as (-> & -> & ->). auto.
Qed.
Lemma ws_head_nil w w' c t : is_whitespace c = false -> ws w' -> w ++ c :: t = w' -> False.
Proof.
  unfold ws. intros H1 H2 <-. rewrite forallb_app in H2. cbn in H2. rewrite H1, andb_false_r in H2. discriminate.
Qed.

(* ---------- patterns that start with white space ---------- *)
Definition starts_with_class (p : char -> bool) (r : re) : Prop :=
  forall s u, rel r s u -> exists a t, s = a :: t /\ p a = true.
Lemma sw_cls p : starts_with_class p (Cls p).
Proof. intros s u H. apply rel_cls_inv in H as (c & -> & H). eauto. Qed.
Lemma sw_chr (p : char -> bool) c : p c = true -> starts_with_class p (Chr c).
Proof. intros H s u R. apply rel_chr in R. subst. eauto. Qed.
Lemma sw_cat p a b : starts_with_class p a -> starts_with_class p (Cat a b).
Proof. intros H s u R. apply rel_cat_inv in R as (t & R & _). eauto. Qed.
Lemma sw_alt p a b : starts_with_class p a -> starts_with_class p b -> starts_with_class p (Alt a b).
Proof. intros H1 H2 s u R. apply rel_alt_inv in R as [R|R]; eauto. Qed.
Lemma sw_grp p n r : starts_with_class p r -> starts_with_class p (Grp n r).
Proof. intros H s u R. apply rel_grp_inv in R. eauto. Qed.
Lemma sw_lit (p : char -> bool) c s : p c = true -> starts_with_class p (Lit (c :: s)).
Proof. intros H x u R. apply rel_lit in R. subst. cbn. eauto. Qed.

Lemma rel_ws0 s t : rel (Grp 1 ws0) s t -> exists w, s = w ++ t /\ ws w.
Proof. intros H. apply rel_grp_inv, rel_star_cls in H as (w & -> & H). exists w. split; [reflexivity|exact H]. Qed.
Lemma marker_none X p w c t : starts_with_class p X -> (forall a, p a = true -> is_whitespace a = false) ->
  p c = false -> ws w -> is_whitespace c = false -> captures (Cat (Grp 1 ws0) X) (w ++ c :: t) = None.
Proof.
  intros HX Hp Hc Hw Hn. apply captures_none. intros (u & R). apply rel_cat_inv in R as (s & R1 & R2).
  apply rel_ws0 in R1 as (w' & E & Hw'). destruct (HX _ _ R2) as (a & r & -> & Ha).
  apply ws_head in E as (_ & -> & _); auto. congruence.
Qed.

(* captures exist as soon as the pattern can match *)
Lemma captures_some r s t : rel r s t -> exists cs, captures r s = Some cs.
Proof.
  intros H. destruct (captures r s) as [cs|] eqn:E; [eauto|]. apply captures_none in E. exfalso. eauto.
Qed.
Lemma captures_ws X s cs : captures (Cat (Grp 1 ws0) X) s = Some cs ->
  exists w t u new, s = w ++ t /\ ws w /\ relc X (length w) t u new /\
    cs = (0, (0, firstn (length s - length u) s)) :: new ++ [(1, (0, w))].
Proof.
  intros H. destruct (captures_sound _ _ _ H) as (p & u & new & E & R & ->). subst s.
  apply relc_cat_inv in R as (t & n1 & n2 & R1 & R2 & ->).
  apply relc_grp_simple in R1 as (w & E & R1 & ->); [|reflexivity].
  apply rel_star_cls in R1 as (w' & E' & Hw). apply app_inv_tail in E'. subst w'.
  exists w, t, u, n2. split; [exact E|]. split; [exact Hw|]. rewrite E in R2.
  replace (0 + (length (w ++ t) - length t)) with (length w) in R2 by (rewrite app_length; lia).
  split; [exact R2|]. f_equal. f_equal. f_equal. rewrite app_length. replace (length p + length u - length u) with (length p) by lia.
  rewrite firstn_app, Nat.sub_diag, firstn_O, app_nil_r, firstn_all. reflexivity.
Qed.

(* ---------- starters ---------- *)
Lemma starter_spec c : starter c = true ->
  is_whitespace c = false /\ is_ascii_punct c = false /\ c <> 0x2014%N /\ c <> 0x2022%N /\ c <> 0x2023%N /\ c <> 0x2043%N.
Proof.
  unfold starter. cbn [existsb]. rewrite !andb_true_iff, !negb_true_iff, !orb_false_iff, !N.eqb_neq. tauto.
Qed.
Lemma punct_quote c : is_quote_char c = is_ascii_punct c.
Proof.
  destruct (is_quote_char c) eqn:E.
  - unfold is_quote_char, cls_of in E. apply existsb_exists in E as (x & Hx & E). apply N.eqb_eq in E. subst x.
    symmetry. vm_compute in Hx. repeat (destruct Hx as [<-|Hx]; [reflexivity|]). contradiction.
  - symmetry. unfold is_ascii_punct, in_range. destruct (N.ltb_spec c 127) as [H|H]; [|lia].
    assert (F : forall n, (n < 127)%N -> is_quote_char n = false ->
       ((33 <=? n) && (n <=? 47) || (58 <=? n) && (n <=? 64) || (91 <=? n) && (n <=? 96) || (123 <=? n) && (n <=? 126))%N = false).
    { intros n Hn. assert (G : forallb (fun k => implb (negb (is_quote_char (N.of_nat k)))
         (negb ((33 <=? N.of_nat k) && (N.of_nat k <=? 47) || (58 <=? N.of_nat k) && (N.of_nat k <=? 64) ||
                (91 <=? N.of_nat k) && (N.of_nat k <=? 96) || (123 <=? N.of_nat k) && (N.of_nat k <=? 126))%N)) (seq 0 127) = true)
        by (vm_compute; reflexivity).
      rewrite forallb_forall in G. specialize (G (N.to_nat n)). rewrite N2Nat.id in G.
      intros Q. rewrite Q in G. cbn [negb implb] in G. apply negb_true_iff, G. apply in_seq. lia. }
    apply F; [exact H|exact E].
Qed.
Lemma punct_ink c : is_ascii_punct c = true -> is_whitespace c = false.
Proof. unfold is_ascii_punct, in_range, is_whitespace. lia. Qed.
Lemma punct_no_alnum c : is_ascii_punct c = true -> is_ascii_alnum c = false.
Proof. unfold is_ascii_punct, is_ascii_alnum, is_ascii_alpha, is_ascii_lower, is_ascii_upper, is_ascii_digit, in_range. lia. Qed.

Lemma not_punct_ne c d : is_ascii_punct c = false -> is_ascii_punct d = true -> N.eqb d c = false.
Proof. intros H1 H2. apply N.eqb_neq. intros ->. congruence. Qed.
Lemma chr_class d a : N.eqb d a = true -> a = d. Proof. intros H. now apply N.eqb_eq in H. Qed.

Ltac first_is := repeat first [apply sw_cat | apply sw_grp | apply sw_alt | (apply sw_chr; reflexivity)
  | (apply sw_lit; reflexivity) | apply sw_cls].

Lemma alts_chars l : forall s u, rel (Alts (map (fun c => Plus true (Chr c)) l)) s u ->
  exists c g, In c l /\ s = c :: g ++ u /\ forallb (N.eqb c) g = true.
Proof.
  assert (P : forall c s u, rel (Plus true (Chr c)) s u -> exists g, s = c :: g ++ u /\ forallb (N.eqb c) g = true).
  { intros c s u R. unfold Plus in R. apply rel_cat_inv in R as (v & R1 & R2). apply rel_chr in R1. subst s.
    apply rel_star_cls in R2 as (g & -> & Hg). eauto. }
  induction l as [|x l IH]; intros s u R.
  - cbn in R. apply rel_cls_inv in R as (? & _ & H). discriminate.
  - cbn [map Alts] in R. destruct l as [|y l].
    + apply P in R as (g & E & Hg). exists x, g. split; [now left|auto].
    + apply rel_alt_inv in R as [R|R].
      * apply P in R as (g & E & Hg). exists x, g. split; [now left|auto].
      * apply IH in R as (c & g & Hin & R). exists c, g. split; [now right|exact R].
Qed.
Lemma line_chars s cs : captures LINE s = Some cs -> s <> [] /\ Forall (fun c => is_ascii_punct c = true \/ c = 32%N) s.
Proof.
  intros E. destruct (captures_sound _ _ _ E) as (p & u & new & Ep & R & _). apply relc_rel in R. unfold LINE in R. cbn [Seq] in R.
  apply rel_cat_inv in R as (t1 & R1 & R2). apply rel_grp_inv in R1. apply alts_chars in R1 as (c & g & Hin & -> & Hg).
  apply rel_cat_inv in R2 as (t2 & R2 & R3). apply rel_eot_inv in R3 as [-> _]. apply rel_star_cls in R2 as (l & -> & Hl).
  split; [discriminate|]. rewrite app_nil_r.
  assert (Hc : is_ascii_punct c = true).
  { rewrite <- punct_quote. unfold is_quote_char, cls_of. apply existsb_exists. exists c. split; [exact Hin|apply N.eqb_refl]. }
  rewrite forallb_forall in Hg, Hl. constructor; [now left|]. apply Forall_forall. intros x Hx. apply in_app_or in Hx as [Hx|Hx].
  - apply Hg, N.eqb_eq in Hx. subst x. now left.
  - apply Hl, N.eqb_eq in Hx. now right.
Qed.
Lemma starter_no_line a c b : starter c = true -> captures LINE (a ++ c :: b) = None.
Proof.
  intros H. destruct (captures LINE (a ++ c :: b)) as [cs|] eqn:E; [|reflexivity]. exfalso.
  apply line_chars in E as [_ F]. rewrite Forall_forall in F. destruct (F c (in_elt _ _ _)) as [G | ->].
  - apply starter_spec in H as (_ & H & _). congruence.
  - discriminate H.
Qed.
Lemma starts_word_cons l : starts_word l = true -> exists c t, l = c :: t /\ starter c = true.
Proof. destruct l as [|c t]; [discriminate|]. eauto. Qed.
Lemma starts_text_inside l : starts_text l = true -> exists a x b, l = a ++ x :: b /\ starter x = true.
Proof.
  unfold starts_text. intros H. apply orb_true_iff in H as [H|H].
  - apply starts_word_cons in H as (c & t & -> & H). now exists [], c, t.
  - destruct l as [|c t]; [discriminate|]. apply andb_true_iff in H as [_ H]. apply orb_true_iff in H as [H|H].
    + apply starts_word_cons in H as (d & u & -> & H). now exists [c], d, u.
    + destruct t as [|d t]; [discriminate|]. apply andb_true_iff in H as [_ H]. apply starts_word_cons in H as (e & u & -> & H).
      now exists [c; d], e, u.
Qed.
Section Starter.
  Variables (w : str) (c : char) (t : str).
  Hypothesis (Hw : ws w) (Hc : starts_text (c :: t) = true).
  Let L := w ++ c :: t.
  Lemma st_cases : starter c = true \/ is_ascii_punct c = true /\ existsb (N.eqb c) (lit ".:(#-") = false /\
    exists d u, t = d :: u /\ (starter d = true \/ d = c).
  Proof.
    unfold starts_text in Hc. cbn [starts_word] in Hc. apply orb_true_iff in Hc as [H|H]; [auto|right].
    apply andb_true_iff in H as [H1 H2]. apply andb_true_iff in H1 as [H1 H3]. apply negb_true_iff in H3. split; [exact H1|]. split; [exact H3|].
    apply orb_true_iff in H2 as [H2|H2].
    - destruct t as [|d u]; [discriminate|]. exists d, u. auto.
    - destruct t as [|d u]; [discriminate|]. apply andb_true_iff in H2 as [H2 _]. apply N.eqb_eq in H2. exists d, u. auto.
  Qed.
  Lemma st_ink : is_whitespace c = false. Proof. destruct st_cases as [H|[H _]]; [now apply starter_spec|now apply punct_ink]. Qed.
  Lemma st_ne d : is_ascii_punct d = true -> existsb (N.eqb d) (lit ".:(#-") = true -> c <> d.
  Proof.
    intros H1 H2 E. rewrite <- E in H1, H2. destruct st_cases as [H|(_ & H & _)]; [|congruence]. apply starter_spec in H as (_ & H & _). congruence.
  Qed.
  Lemma st_neb d : is_ascii_punct d = true -> existsb (N.eqb d) (lit ".:(#-") = true -> N.eqb d c = false.
  Proof. intros H1 H2. apply N.eqb_neq. intros E. symmetry in E. exact (st_ne d H1 H2 E). Qed.
  Lemma st_inside : exists a x b, c :: t = a ++ x :: b /\ starter x = true.
  Proof. now apply starts_text_inside. Qed.
  Lemma st_blank : captures BLANK_LINE L = None.
  Proof.
    apply captures_none. intros (u & R). unfold BLANK_LINE in R. cbn [Seq] in R. apply rel_cat_inv in R as (s & R1 & R2).
    apply rel_star_cls in R1 as (w' & E & H). apply rel_eot_inv in R2 as [-> _]. rewrite app_nil_r in E. unfold L in E.
    exact (ws_head_nil _ _ _ _ st_ink H E).
  Qed.
  Lemma st_dot X : starts_with_class (N.eqb 46) X -> captures (Cat (Grp 1 ws0) X) L = None.
  Proof.
    intros H. apply (marker_none X (N.eqb 46)); auto using st_ink; [|apply st_neb; reflexivity].
    intros a Ha. apply chr_class in Ha. now subst.
  Qed.
  Lemma st_bullet : captures BULLET L = None.
  Proof.
    apply captures_none. intros (u & R). unfold BULLET in R. cbn [Seq] in R. apply rel_cat_inv in R as (s & R1 & R2).
    apply rel_ws0 in R1 as (w' & E & Hw'). apply rel_cat_inv in R2 as (s2 & R2 & R3). apply rel_grp_inv, rel_cls_inv in R2 as (b & -> & Hb).
    assert (Hbi : is_whitespace b = false).
    { unfold bullet_char, cls_of in Hb. apply existsb_exists in Hb as (x & Hx & Hb). apply N.eqb_eq in Hb. subst x.
      vm_compute in Hx. repeat (destruct Hx as [<-|Hx]; [reflexivity|]). contradiction. }
    unfold L in E. apply ws_head in E as (_ & Eb & Et); auto using st_ink. rewrite <- Eb in Hb. rewrite <- Et in R3.
    destruct st_cases as [H|(H & _ & d & v & Etd & Hd)].
    - destruct (starter_spec _ H) as (_ & H1 & _ & H2 & H3 & H4).
      unfold bullet_char, cls_of in Hb. apply existsb_exists in Hb as (x & Hx & Ha). apply N.eqb_eq in Ha. subst x.
      vm_compute in Hx. repeat (destruct Hx as [Hx|Hx]; [rewrite <- Hx in H1, H2, H3, H4; first [discriminate|congruence]|]). contradiction.
    - rewrite Etd in R3. unfold after in R3. apply rel_alt_inv in R3 as [R3|R3].
      + unfold spaces1, Plus in R3. apply rel_cat_inv in R3 as (v' & R3 & _). apply rel_chr in R3. injection R3 as Ed _.
        destruct Hd as [Hd|Hd]; [rewrite Ed in Hd; discriminate|]. rewrite <- Hd, Ed in H. discriminate.
      + apply rel_eot_inv in R3 as [R3 _]. discriminate.
  Qed.
  Lemma st_field : captures FIELD_MARKER L = None.
  Proof.
    apply (marker_none _ (N.eqb 58)); auto using st_ink.
    - apply sw_cat, sw_chr. reflexivity.
    - intros a Ha. apply chr_class in Ha. now subst.
    - apply st_neb; reflexivity.
  Qed.
  Lemma st_footnote : captures FOOTNOTE L = None. Proof. apply st_dot, sw_cat, sw_lit. reflexivity. Qed.
  Lemma st_citation : captures CITATION L = None. Proof. apply st_dot, sw_cat, sw_lit. reflexivity. Qed.
  Lemma st_target : captures HYPERLINK_TARGET L = None. Proof. apply st_dot, sw_cat, sw_lit. reflexivity. Qed.
  Lemma st_directive : captures DIRECTIVE L = None. Proof. apply st_dot, sw_cat, sw_lit. reflexivity. Qed.
  Lemma st_comment : captures COMMENT L = None. Proof. apply st_dot, sw_cat, sw_lit. reflexivity. Qed.
  Lemma st_attribution : captures ATTRIBUTION L = None.
  Proof.
    apply (marker_none _ (fun a => N.eqb 45 a || N.eqb 0x2014 a)); auto using st_ink.
    - apply sw_cat. cbn [Alts]. apply sw_alt; [apply sw_lit; reflexivity|apply sw_alt; [apply sw_lit; reflexivity|apply sw_chr; reflexivity]].
    - intros a Ha. apply orb_true_iff in Ha as [Ha|Ha]; apply chr_class in Ha; now subst.
    - apply orb_false_iff. split; [apply st_neb; reflexivity|].
      destruct st_cases as [H|[H _]]; [|apply N.eqb_neq; intros E; rewrite <- E in H; discriminate].
      destruct (starter_spec _ H) as (_ & _ & H' & _). apply N.eqb_neq. congruence.
  Qed.
  Lemma st_line : captures LINE L = None.
  Proof.
    destruct st_inside as (a & x & b & E & Hx). unfold L. rewrite E, app_assoc. now apply starter_no_line.
  Qed.
  Lemma st_text : exists cs, captures TEXT L = Some cs /\ cap 1 cs = Some w /\ whole cs = w ++ [c].
  Proof.
    destruct (captures_some TEXT L t) as [cs E].
    { unfold TEXT. cbn [Seq]. apply rel_cat with (c :: t); [apply rel_grp, rel_star_cls; exists w; split; [reflexivity|exact Hw]|].
      apply rel_cls. unfold nsp. now rewrite st_ink. }
    exists cs. split; [exact E|]. apply captures_ws in E as (w' & t' & u & new & E & H & R & ->).
    apply relc_cls_inv in R as (d & -> & Hd & ->). unfold nsp in Hd. apply negb_true_iff in Hd.
    apply ws_head in E as (<- & <- & <-); auto using st_ink. cbn. split; [reflexivity|].
    unfold whole. cbn [cap Nat.eqb]. unfold L. change (w ++ c :: t) with (w ++ [c] ++ t). rewrite app_assoc, app_length.
    replace (length (w ++ [c]) + length t - length t) with (length (w ++ [c])) by lia.
    rewrite firstn_app, firstn_all, Nat.sub_diag, firstn_O, app_nil_r. reflexivity.
  Qed.
  Lemma past_word_app : forall body rest, forallb is_ascii_alnum body = true ->
    past_word (body ++ rest) = past_word rest.
  Proof. induction body as [|x b IH]; cbn; auto. intros rest H. apply andb_true_iff in H as [H1 H2]. rewrite H1. auto. Qed.
  Lemma word_of_app : forall body close rest, forallb is_ascii_alnum body = true -> is_ascii_alnum close = false ->
    word_of (body ++ close :: rest) = body.
  Proof.
    induction body as [|x b IH]; cbn [app word_of forallb]; intros close rest H Hcl; [now rewrite Hcl|].
    apply andb_true_iff in H as [H1 H2]. rewrite H1. f_equal. auto.
  Qed.
  Lemma body_counter idx body : body_class idx body -> forallb is_ascii_alnum body = true -> counter body = true.
  Proof.
    intros HB Ha. unfold counter. destruct idx as [|[|[|[|[|[|]]]]]]; cbn [body_class] in HB; try contradiction.
    - destruct HB as [_ HB]. apply forallb_digits in HB. rewrite HB. now rewrite orb_true_r.
    - destruct HB as [_ HB]. unfold cls_of in HB.
      change (forallb (fun c => existsb (N.eqb c) (lit "ivxlcdm")) body = true) in HB. rewrite HB. now rewrite !orb_true_r.
    - destruct HB as [_ HB]. unfold cls_of in HB.
      change (forallb (fun c => existsb (N.eqb c) (lit "IVXLCDM")) body = true) in HB. rewrite HB. now rewrite !orb_true_r.
    - destruct HB as (? & -> & _). reflexivity.
    - destruct HB as (? & -> & _). reflexivity.
    - subst body. discriminate.
  Qed.
  Lemma st_enum : like_enumerator (c :: t) = false -> captures ENUMERATOR L = None.
  Proof.
    intros HE. destruct (captures ENUMERATOR L) as [cs|] eqn:E; [|reflexivity]. exfalso.
    apply enum_captures_inv in E as (w' & d & idx & body & _ & _ & _ & _ & (Hw' & rest & E & Hr) & HB & _ & _).
    assert (Hws : ws w') by (unfold ws; apply forallb_forall; now apply Forall_forall).
    apply body_class_chars in HB as HC. destruct HC as [Hne Hch].
    destruct body as [|b body]; [congruence|]. cbn [forallb] in Hch. apply andb_true_iff in Hch as [Hb Hch].
    assert (Hsharp : (b =? ch "#")%N = true -> False).
    { intros Hs. apply N.eqb_eq in Hs. subst b. destruct d; cbn [open_of app] in E;
        (apply ws_head in E as (_ & Ec & _); [eapply st_ne; [| |exact Ec]; reflexivity|exact Hw|exact Hws|apply st_ink|reflexivity]). }
    destruct (is_ascii_alnum b) eqn:Hal; [|apply Hsharp; unfold alnum in Hb; rewrite Hal in Hb; exact Hb].
    assert (Hbody : forallb is_ascii_alnum (b :: body) = true).
    { cbn [forallb]. rewrite Hal. cbn. destruct idx as [|[|[|[|[|[|]]]]]]; cbn [body_class] in HB; try contradiction.
      all: apply forallb_forall; intros x Hx; rewrite forallb_forall in Hch; specialize (Hch x Hx); apply orb_true_iff in Hch as [Hch|Hch]; [exact Hch|].
      all: apply N.eqb_eq in Hch; subst x; exfalso.
      - destruct HB as [_ HB]. unfold digits in HB. rewrite Forall_forall in HB. specialize (HB _ (or_intror Hx)). vm_compute in HB. destruct HB as [HB _]. now apply HB.
      - destruct HB as [_ HB]. rewrite forallb_forall in HB. specialize (HB _ (or_intror Hx)). discriminate.
      - destruct HB as [_ HB]. rewrite forallb_forall in HB. specialize (HB _ (or_intror Hx)). discriminate.
      - destruct HB as (? & HB & _). injection HB as _ ->. contradiction.
      - destruct HB as (? & HB & _). injection HB as _ ->. contradiction.
      - injection HB as _ ->. contradiction. }
    assert (Hink : is_whitespace b = false).
    { clear - Hal. unfold is_ascii_alnum, is_ascii_alpha, is_ascii_lower, is_ascii_upper, is_ascii_digit, in_range, is_whitespace in *. lia. }
    assert (K : forall close : char, (close = 46 \/ close = 41)%N -> L = w' ++ (b :: body) ++ close :: rest -> False).
    { intros close Hcl E'. cbn [app] in E'. apply ws_head in E' as (_ & Eb & Et); [|exact Hw|exact Hws|apply st_ink|exact Hink].
      unfold like_enumerator in HE. rewrite Eb, Et in HE.
      change (b :: body ++ close :: rest) with ((b :: body) ++ close :: rest) in HE.
      assert (Hcal : is_ascii_alnum close = false) by (destruct Hcl; subst close; reflexivity).
      rewrite past_word_app, word_of_app, (body_counter _ _ HB Hbody) in HE by auto. cbn [past_word andb] in HE.
      destruct Hcl; subst close; destruct Hr as [->|[r ->]]; discriminate. }
    destruct d; cbn [open_of close_of] in E.
    1: apply (K 46%N); [auto|exact E].
    2: apply (K 41%N); [auto|exact E].
    cbn [app lit] in E. apply ws_head in E as (_ & Ec & _); [|exact Hw|exact Hws|apply st_ink|reflexivity].
    eapply st_ne; [| |exact Ec]; reflexivity.
  Qed.
End Starter.

Lemma starts_text_ink c t : starts_text (c :: t) = true -> is_whitespace c = false.
Proof. intros H. exact (st_ink [] c t H). Qed.
Lemma starts_word_text l : starts_word l = true -> starts_text l = true.
Proof. unfold starts_text. now intros ->. Qed.
(* ---------- lines that start with something else ---------- *)
Lemma is_match_captures r s : is_match r s = match captures r s with Some _ => true | None => false end.
Proof. unfold is_match, captures. destruct (rexec r s) as [[n cs]|]; reflexivity. Qed.
Lemma ink_blank w c t : is_whitespace c = false -> captures BLANK_LINE (w ++ c :: t) = None.
Proof.
  intros Hc. apply captures_none. intros (u & R). unfold BLANK_LINE in R. cbn [Seq] in R. apply rel_cat_inv in R as (s & R1 & R2).
  apply rel_star_cls in R1 as (w' & E & H). apply rel_eot_inv in R2 as [-> _]. rewrite app_nil_r in E.
  exact (ws_head_nil _ _ _ _ Hc H E).
Qed.
Lemma nil_blank : exists cs, captures BLANK_LINE [] = Some cs.
Proof. eexists. vm_compute. reflexivity. Qed.
Lemma cap_app_new n a b : (forall x, In x a -> fst x <> n) -> cap n (a ++ b) = cap n b.
Proof.
  induction a as [|[m [i t]] a IH]; intros H; [reflexivity|]. cbn [app cap].
  destruct (Nat.eqb_spec m n) as [->|_]; [exfalso; apply (H (n, (i, t))); [now left|reflexivity]|]. apply IH. intros x Hx. apply H. now right.
Qed.
Lemma whole_firstn (a b : str) : firstn (length (a ++ b) - length b) (a ++ b) = a.
Proof. rewrite app_length. replace (length a + length b - length b) with (length a) by lia. rewrite firstn_app, Nat.sub_diag, firstn_O, app_nil_r. apply firstn_all. Qed.

Lemma after_inv1 i c t u n : N.eqb 32 c = false -> relc after i (32%N :: c :: t) u n -> u = c :: t.
Proof.
  intros Hc H. apply relc_rel in H. unfold after, spaces1 in H. apply rel_alt_inv in H as [H|H].
  - apply rel_plus_cls in H as (l & E & Hne & Hl). destruct l as [|x l]; [congruence|]. apply (f_equal (@tl N)) in E. cbn [tl app] in E.
    destruct l as [|y l]; [exact (eq_sym E)|]. assert (c = y) by (now apply (f_equal (hd 0%N)) in E). subst y. cbn [forallb] in Hl.
    rewrite Hc in Hl. rewrite !andb_false_r in Hl. discriminate.
  - apply rel_eot_inv in H as [E _]. discriminate.
Qed.
Lemma after_rel c t : N.eqb 32 c = false -> rel after (32%N :: c :: t) (c :: t).
Proof.
  intros Hc. apply rel_altl. unfold spaces1, Plus. apply rel_cat with (c :: t); [apply rel_chr; reflexivity|].
  apply rel_star0.
Qed.

Section Bullet.
  Variables (w : str) (b c : char) (t : str).
  Hypothesis (Hw : ws w) (Hb : existsb (N.eqb b) bullet_chars = true) (Hc : is_whitespace c = false).
  Let L := w ++ b :: 32%N :: c :: t.
  Lemma bl_cases : b = 42%N \/ b = 43%N \/ b = 45%N.
  Proof. apply existsb_exists in Hb as (x & Hx & E). apply N.eqb_eq in E. subst x. vm_compute in Hx. intuition. Qed.
  Lemma bl_ink : is_whitespace b = false. Proof. destruct bl_cases as [-> | [-> | ->]]; reflexivity. Qed.
  Lemma sp_c : N.eqb 32 c = false.
  Proof. apply N.eqb_neq. intros <-. discriminate. Qed.
  Lemma bl_bullet : exists cs, captures BULLET L = Some cs /\ cap 1 cs = Some w /\ cap 2 cs = Some [b] /\ whole cs = w ++ [b; 32%N].
  Proof.
    destruct (captures_some BULLET L (c :: t)) as [cs E].
    { unfold BULLET. cbn [Seq]. apply rel_cat with (b :: 32%N :: c :: t); [apply rel_grp, rel_star_cls; exists w; split; [reflexivity|exact Hw]|].
      apply rel_cat with (32%N :: c :: t); [|apply after_rel, sp_c].
      apply rel_grp, rel_cls. destruct bl_cases as [-> | [-> | ->]]; reflexivity. }
    exists cs. split; [exact E|]. unfold BULLET in E. cbn [Seq] in E. apply captures_ws in E as (w' & t' & u & new & E & H & R & ->).
    apply relc_cat_inv in R as (t1 & n1 & n2 & R1 & R2 & ->).
    apply relc_grp_simple in R1 as (p & E1 & R1 & ->); [|reflexivity]. apply rel_cls_inv in R1 as (d & E2 & Hd).
    change (d :: t1) with ([d] ++ t1) in E2. apply app_inv_tail in E2. subst p t'. cbn [app] in E.
    assert (Hd' : is_whitespace d = false).
    { unfold bullet_char, cls_of in Hd. apply existsb_exists in Hd as (x & Hx & Hd). apply N.eqb_eq in Hd. subst x.
      vm_compute in Hx. repeat (destruct Hx as [<-|Hx]; [reflexivity|]). contradiction. }
    apply ws_head in E as (<- & <- & <-); auto using bl_ink.
    assert (n2 = []) by (eapply relc_nogrp; [|exact R2]; reflexivity). subst n2.
    apply after_inv1 in R2; [|apply sp_c]. subst u. cbn [app cap Nat.eqb whole]. split; [reflexivity|]. split; [reflexivity|].
    unfold whole. cbn [cap Nat.eqb]. unfold L. change (w ++ b :: 32%N :: c :: t) with (w ++ [b; 32%N] ++ c :: t). rewrite app_assoc.
    apply whole_firstn.
  Qed.
  Lemma bl_attribution : captures ATTRIBUTION L = None.
  Proof.
    apply captures_none. intros (u & R). unfold ATTRIBUTION in R. cbn [Seq] in R. apply rel_cat_inv in R as (s & R1 & R2).
    apply rel_ws0 in R1 as (w' & E & Hw'). apply rel_cat_inv in R2 as (s2 & R2 & _). cbn [Alts] in R2.
    apply rel_alt_inv in R2 as [R2|R2]; [|apply rel_alt_inv in R2 as [R2|R2]].
    - apply rel_lit in R2. subst s. cbn [q lit app] in E. apply ws_head in E as (_ & Eb & Et); auto using bl_ink. discriminate.
    - apply rel_lit in R2. subst s. cbn [q lit app] in E. apply ws_head in E as (_ & Eb & Et); auto using bl_ink. discriminate.
    - apply rel_chr in R2. subst s. apply ws_head in E as (_ & Eb & Et); auto using bl_ink.
      destruct bl_cases as [B|[B|B]]; rewrite B in Eb; discriminate.
  Qed.
End Bullet.

(* a first character that starts no enumerator *)
Lemma enum_none w c t : ws w -> is_whitespace c = false -> is_ascii_alnum c = false -> c <> 40%N -> c <> 35%N ->
  captures ENUMERATOR (w ++ c :: t) = None.
Proof.
  intros Hw Hc Ha H1 H2. destruct (captures ENUMERATOR (w ++ c :: t)) as [cs|] eqn:E; [|reflexivity]. exfalso.
  apply enum_captures_inv in E as (w' & d & idx & body & _ & _ & _ & _ & (Hw' & rest & E & Hr) & HB & _ & _).
  assert (Hws : ws w') by (unfold ws; apply forallb_forall; now apply Forall_forall).
  apply body_class_chars in HB as [Hne Hch]. destruct body as [|b body]; [congruence|].
  cbn [forallb] in Hch. apply andb_true_iff in Hch as [Hb _].
  assert (Hink : is_whitespace b = false).
  { apply orb_true_iff in Hb as [Hb|Hb]; [|apply N.eqb_eq in Hb; now subst b].
    unfold alnum, is_ascii_alnum, is_ascii_alpha, is_ascii_lower, is_ascii_upper, is_ascii_digit, in_range in Hb. unfold is_whitespace. lia. }
  assert (K : forall x, w ++ c :: t = w' ++ (b :: body) ++ x -> False).
  { intros x E'. cbn [app] in E'. apply ws_head in E' as (_ & Ec & _); auto. subst b.
    apply orb_true_iff in Hb as [Hb|Hb]; [unfold alnum in Hb; congruence|]. apply N.eqb_eq in Hb. exact (H2 Hb). }
  destruct d; cbn [open_of close_of] in E.
  1: exact (K _ E).
  2: exact (K _ E).
  cbn [app lit] in E. apply ws_head in E as (_ & Ec & _); auto.
Qed.

Section CommentLine.
  Variables (w : str) (c : char) (t : str).
  Hypothesis (Hw : ws w) (Hc : starter c = true).
  Let L := w ++ 46%N :: 46%N :: 32%N :: c :: t.
  Lemma cm_bullet : captures BULLET L = None.
  Proof.
    apply (marker_none _ bullet_char); auto.
    - apply sw_cat, sw_grp, sw_cls.
    - intros a Ha. unfold bullet_char, cls_of in Ha. apply existsb_exists in Ha as (x & Hx & Ha). apply N.eqb_eq in Ha. subst x.
      vm_compute in Hx. repeat (destruct Hx as [<-|Hx]; [reflexivity|]). contradiction.
  Qed.
  Lemma cm_enum : captures ENUMERATOR L = None.
  Proof. apply enum_none; auto; discriminate. Qed.
  Lemma cm_field : captures FIELD_MARKER L = None.
  Proof.
    apply (marker_none _ (N.eqb 58)); auto.
    - apply sw_cat, sw_chr. reflexivity.
    - intros a Ha. apply chr_class in Ha. now subst.
  Qed.
  Lemma cm_attribution : captures ATTRIBUTION L = None.
  Proof.
    apply (marker_none _ (fun a => N.eqb 45 a || N.eqb 0x2014 a)); auto.
    - apply sw_cat. cbn [Alts]. apply sw_alt; [apply sw_lit; reflexivity|apply sw_alt; [apply sw_lit; reflexivity|apply sw_chr; reflexivity]].
    - intros a Ha. apply orb_true_iff in Ha as [Ha|Ha]; apply chr_class in Ha; now subst.
  Qed.
  Lemma cm_dots X p : starts_with_class p X -> p c = false -> p 32%N = false ->
    captures (Cat (Grp 1 ws0) (Cat (Lit (q "..")) (Cat spaces1 X))) L = None.
  Proof.
    intros HX H1 H2. apply captures_none. intros (u & R). apply rel_cat_inv in R as (s & R1 & R2).
    apply rel_ws0 in R1 as (w' & E & Hw'). apply rel_cat_inv in R2 as (s2 & R2 & R3). apply rel_lit in R2. subst s.
    cbn [q lit app] in E. change (N_of_ascii "."%char) with 46%N in E.
    apply ws_head in E as (_ & _ & E); auto. apply (f_equal (@tl N)) in E. cbn [tl] in E. subst s2.
    apply rel_cat_inv in R3 as (s3 & R3 & R4). destruct (HX _ _ R4) as (a & r & -> & Ha).
    apply rel_plus_cls in R3 as (l & E & Hne & Hl). destruct l as [|x l]; [congruence|]. apply (f_equal (@tl N)) in E. cbn [tl app] in E.
    assert (Hc32 : N.eqb 32 c = false) by (apply N.eqb_neq; intros <-; discriminate).
    destruct l as [|y l].
    - apply (f_equal (hd 0%N)) in E. cbn in E. congruence.
    - apply (f_equal (hd 0%N)) in E. cbn in E. subst y. cbn [forallb] in Hl. rewrite Hc32 in Hl. rewrite !andb_false_r in Hl. discriminate.
  Qed.
  Lemma cm_ne d : is_ascii_punct d = true -> N.eqb d c = false.
  Proof. intros H. apply not_punct_ne; [now apply starter_spec|exact H]. Qed.
  Lemma cm_footnote : captures FOOTNOTE L = None.
  Proof. apply (cm_dots _ (N.eqb 91)); [apply sw_cat, sw_chr; reflexivity|now apply cm_ne|reflexivity]. Qed.
  Lemma cm_citation : captures CITATION L = None.
  Proof. apply (cm_dots _ (N.eqb 91)); [apply sw_cat, sw_chr; reflexivity|now apply cm_ne|reflexivity]. Qed.
  Lemma cm_target : captures HYPERLINK_TARGET L = None.
  Proof. apply (cm_dots _ (N.eqb 95)); [apply sw_cat, sw_chr; reflexivity|now apply cm_ne|reflexivity]. Qed.
  Lemma cm_comment : exists cs, captures COMMENT L = Some cs /\ cap 1 cs = Some w /\ whole cs = w ++ lit ".. ".
  Proof.
    assert (Hc32 : N.eqb 32 c = false) by (apply N.eqb_neq; intros <-; discriminate).
    destruct (captures_some COMMENT L (c :: t)) as [cs E].
    { unfold COMMENT. cbn [Seq]. apply rel_cat with (46%N :: 46%N :: 32%N :: c :: t);
        [apply rel_grp, rel_star_cls; exists w; split; [reflexivity|exact Hw]|].
      apply rel_cat with (32%N :: c :: t); [apply rel_lit; reflexivity|now apply after_rel]. }
    exists cs. split; [exact E|]. unfold COMMENT in E. cbn [Seq] in E. apply captures_ws in E as (w' & t' & u & new & E & H & R & ->).
    apply relc_cat_inv in R as (t1 & n1 & n2 & R1 & R2 & ->). apply relc_lit_inv in R1 as [-> ->]. cbn [q lit app] in E.
    apply ws_head in E as (<- & _ & E); auto. apply (f_equal (@tl N)) in E. cbn [tl] in E. subst t1.
    assert (n2 = []) by (eapply relc_nogrp; [|exact R2]; reflexivity). subst n2.
    apply after_inv1 in R2; [|exact Hc32]. subst u. cbn [app cap Nat.eqb]. split; [reflexivity|].
    unfold whole. cbn [cap Nat.eqb]. unfold L. change (w ++ 46%N :: 46%N :: 32%N :: c :: t) with (w ++ lit ".. " ++ c :: t). rewrite app_assoc.
    apply whole_firstn.
  Qed.
  Hypothesis (Hp : plain (c :: t)).
  Lemma cm_directive : captures DIRECTIVE L = None.
  Proof.
    apply no_markup.
    - unfold DIRECTIVE. cbn [Seq]. do 5 apply n_catr. apply n_catl. apply (lit_need _ 58%N); [now left|reflexivity].
    - intros x Hx. unfold L in Hx. apply in_app_or in Hx as [Hx|Hx].
      + intros Hm. unfold ws in Hw. rewrite forallb_forall in Hw. apply Hw in Hx. clear - Hx Hm. vm_compute in Hm.
        repeat (destruct Hm as [<-|Hm]; [discriminate|]). contradiction.
      + destruct Hx as [<-|[<-|[<-|Hx]]]; [vm_compute; intuition discriminate..|exact (Hp x Hx)].
  Qed.
End CommentLine.

(* ---------- lines of one and the same punctuation character ---------- *)
Section Bare.
  Variables (c : char) (n : nat).
  Hypothesis (Hc : is_ascii_punct c = true).
  Let L := repeat c n.
  Lemma br_line : 1 <= n -> exists cs, captures LINE L = Some cs /\ cap 1 cs = Some L /\ whole cs = L.
  Proof.
    intros Hn.
    assert (Hin : In c quote_chars).
    { rewrite <- punct_quote in Hc. unfold is_quote_char, cls_of in Hc. apply existsb_exists in Hc as (x & Hx & E). apply N.eqb_eq in E. now subst x. }
    assert (H32 : N.eqb 32 c = false) by (apply N.eqb_neq; intros <-; discriminate).
    assert (Hall : forall m, forallb (N.eqb c) (repeat c m) = true).
    { induction m; cbn; auto. now rewrite N.eqb_refl. }
    destruct (captures_some LINE L []) as [cs E].
    { unfold LINE. cbn [Seq]. apply rel_cat with []; [apply rel_grp|apply rel_cat with []; [apply rel_star0|apply rel_eot]].
      assert (G : forall l, In c l -> rel (Alts (map (fun c => Plus true (Chr c)) l)) L []).
      { assert (P : rel (Plus true (Chr c)) L []).
        { unfold Plus. unfold L. destruct n as [|m]; [lia|]. cbn [repeat]. apply rel_cat with (repeat c m); [now apply rel_chr|].
          apply rel_star_cls. exists (repeat c m). rewrite app_nil_r. split; [reflexivity|apply Hall]. }
        induction l as [|x l IH]; intros H; [destruct H|]. destruct H as [->|H]; cbn [map Alts].
        - destruct l; [exact P|now apply rel_altl].
        - destruct l as [|y l]; [destruct H|]. apply rel_altr. now apply IH. }
      now apply G. }
    exists cs. split; [exact E|].
    destruct (captures_sound _ _ _ E) as (p & u & new & Ep & R & ->). unfold LINE in R. cbn [Seq] in R.
    apply relc_cat_inv in R as (t1 & n1 & n2 & R1 & R2 & ->). apply relc_grp_simple in R1 as (g & Eg & R1 & ->).
    2:{ clear. generalize quote_chars. induction s as [|x l IH]; [reflexivity|]. cbn [map Alts]. destruct l; [reflexivity|]. exact IH. }
    assert (n2 = []) by (eapply relc_nogrp; [|exact R2]; reflexivity). subst n2. apply relc_rel in R2.
    apply rel_cat_inv in R2 as (t2 & R2 & R3). apply rel_eot_inv in R3 as [-> ->].
    apply rel_star_cls in R2 as (l & El & Hl). rewrite app_nil_r in El. subst l.
    assert (t1 = []).
    { destruct t1 as [|x t1]; [reflexivity|]. exfalso. assert (In x L) by (rewrite Eg; apply in_or_app; right; now left).
      apply repeat_spec in H. subst x. cbn [forallb] in Hl. rewrite H32 in Hl. discriminate. }
    subst t1. rewrite app_nil_r in Ep, Eg. subst p g. cbn. auto.
  Qed.
  Hypothesis (H3 : 3 <= n) (Hcolon : c <> 58%N).
  Lemma br_shape : exists m, L = c :: c :: c :: repeat c m.
  Proof. unfold L. destruct n as [|[|[|m]]]; try lia. exists m. reflexivity. Qed.
  Lemma br_blank : captures BLANK_LINE L = None.
  Proof. destruct br_shape as [m ->]. apply (ink_blank [] c). now apply punct_ink. Qed.
  Lemma br_bullet : captures BULLET L = None.
  Proof.
    destruct br_shape as [m ->]. apply captures_none. intros (u & R). unfold BULLET in R. cbn [Seq] in R.
    apply rel_cat_inv in R as (s & R1 & R2). apply rel_ws0 in R1 as (w & E & Hw).
    apply rel_cat_inv in R2 as (s2 & R2 & R3). apply rel_grp_inv, rel_cls_inv in R2 as (b & -> & Hb).
    destruct w as [|x w].
    - injection E as <- <-. unfold after in R3. apply rel_alt_inv in R3 as [R3|R3].
      + unfold spaces1, Plus in R3. apply rel_cat_inv in R3 as (v & R3 & _). apply rel_chr in R3. injection R3 as Ec _. now rewrite Ec in Hc.
      + apply rel_eot_inv in R3 as [R3 _]. discriminate.
    - injection E as <- _. unfold ws in Hw. cbn [forallb] in Hw. rewrite (punct_ink _ Hc) in Hw. discriminate.
  Qed.
  Lemma br_enum : captures ENUMERATOR L = None.
  Proof.
    destruct (N.eq_dec c 40) as [E40|N40]; [|destruct (N.eq_dec c 35) as [E35|N35]].
    - destruct (captures ENUMERATOR L) as [cs|] eqn:E; [|reflexivity]. exfalso.
      apply enum_captures_inv in E as (w' & d & idx & body & _ & _ & _ & _ & (Hw' & rest & E & Hr) & HB & _ & _).
      apply body_class_chars in HB as [Hne Hch]. destruct body as [|b body]; [congruence|].
      assert (In b L) by (rewrite E; apply in_or_app; right; apply in_or_app; right; now left).
      apply repeat_spec in H. subst b c. discriminate.
    - destruct (captures ENUMERATOR L) as [cs|] eqn:E; [|reflexivity]. exfalso.
      apply enum_captures_inv in E as (w' & d & idx & body & _ & _ & _ & _ & (Hw' & rest & E & Hr) & HB & _ & _).
      assert (G : forall x, In x (close_of d) -> x = c).
      { intros x Hx. assert (In x L) by (rewrite E; apply in_or_app; right; apply in_or_app; right; apply in_or_app; right; apply in_or_app; now left).
        now apply repeat_spec in H. }
      destruct d; specialize (G _ (or_introl eq_refl)); rewrite E35 in G; discriminate.
    - destruct br_shape as [m ->]. apply (enum_none []); auto; [reflexivity|now apply punct_ink|now apply punct_no_alnum].
  Qed.
  Lemma br_field : captures FIELD_MARKER L = None.
  Proof.
    destruct br_shape as [m ->]. apply (marker_none _ (N.eqb 58) []); auto using punct_ink; [|intros a Ha; apply chr_class in Ha; now subst| |reflexivity].
    - apply sw_cat, sw_chr. reflexivity.
    - apply N.eqb_neq. congruence.
  Qed.
  Lemma br_dots X : (forall s u, rel X s u -> s = [] \/ exists r, s = 32%N :: r) ->
    captures (Cat (Grp 1 ws0) (Cat (Lit (q "..")) X)) L = None.
  Proof.
    intros HX. destruct br_shape as [m ->]. apply captures_none. intros (u & R). apply rel_cat_inv in R as (s & R1 & R2).
    apply rel_ws0 in R1 as (w' & E & Hw'). apply rel_cat_inv in R2 as (s2 & R2 & R3). apply rel_lit in R2. subst s.
    destruct w' as [|x w'].
    - cbn [app q lit] in E. injection E as _ _ <-. apply HX in R3 as [R3|[r R3]]; [discriminate|]. injection R3 as Ec _. now rewrite Ec in Hc.
    - injection E as <- _. unfold ws in Hw'. cbn [forallb] in Hw'. rewrite (punct_ink _ Hc) in Hw'. discriminate.
  Qed.
  Lemma br_spaces X s u : rel (Cat spaces1 X) s u -> s = [] \/ exists r, s = 32%N :: r.
  Proof.
    intros R. right. apply rel_cat_inv in R as (v & R & _). unfold spaces1, Plus in R. apply rel_cat_inv in R as (v' & R & _).
    apply rel_chr in R. eauto.
  Qed.
  Lemma br_footnote : captures FOOTNOTE L = None. Proof. apply br_dots. apply br_spaces. Qed.
  Lemma br_citation : captures CITATION L = None. Proof. apply br_dots. apply br_spaces. Qed.
  Lemma br_target : captures HYPERLINK_TARGET L = None. Proof. apply br_dots. apply br_spaces. Qed.
  Lemma br_directive : captures DIRECTIVE L = None. Proof. apply br_dots. apply br_spaces. Qed.
  Lemma br_comment : captures COMMENT L = None.
  Proof.
    apply br_dots. intros s u R. apply rel_alt_inv in R as [R|R].
    - right. unfold spaces1, Plus in R. apply rel_cat_inv in R as (v & R & _). apply rel_chr in R. eauto.
    - apply rel_eot_inv in R as [-> _]. auto.
  Qed.
  Lemma br_attribution : captures ATTRIBUTION L = None \/ exists cs, captures ATTRIBUTION L = Some cs /\ cap 1 cs = Some [].
  Proof.
    destruct (captures ATTRIBUTION L) as [cs|] eqn:E; [right|auto]. exists cs. split; [reflexivity|].
    unfold ATTRIBUTION in E. cbn [Seq] in E. apply captures_ws in E as (w' & t' & u & new & E & H & R & ->).
    assert (new = []) by (eapply relc_nogrp; [|exact R]; reflexivity). subst new. cbn [app cap Nat.eqb].
    destruct w' as [|x w']; [reflexivity|]. exfalso. destruct br_shape as [m Em]. rewrite Em in E. injection E as <- _.
    unfold ws in H. cbn [forallb] in H. rewrite (punct_ink _ Hc) in H. discriminate.
  Qed.
End Bare.
