(* NumberProofs.v -- lines with a number in front: items of enumerated lists
   (used for C47). *)
From Verif Require Import Base Unicode Regex Patterns Common Converters NodeTypes Tree DocTree History Blocks Prog ParseLoop
  Inline Body Directives Parser Spec RegexProofs ConverterProofs EnumProofs BlockProofs TreeProofs DocTreeProofs HyperrefProofs InlineSpec RegexGroups InlineProofs LoopProofs
  Utf8Latex Writer WriterProofs Transforms TextProofs OpenProofs SimpleSpec LineProofs Properties7 RunProofs MarkerProofs StepProofs ParaProofs GreedyProofs.
From Coq Require Import ZifyBool ZifyNat ZifyN.

(* ---------- decimal numerals ---------- *)
Lemma acc_value u : forall a, fold_left (fun a c => (a * 10 + (c - 48))%N) (uint_to_str u) (Npos a) = Npos (Pos.of_uint_acc u a).
Proof.
  induction u; intros a; cbn [uint_to_str fold_left Pos.of_uint_acc]; [reflexivity|..];
    rewrite <- IHu; f_equal; lia.
Qed.
Lemma uint_value u : fold_left (fun a c => (a * 10 + (c - 48))%N) (uint_to_str u) 0%N = N.of_uint u.
Proof. unfold N.of_uint. induction u; cbn [uint_to_str fold_left Pos.of_uint]; [reflexivity|exact IHu|..]; rewrite <- acc_value; reflexivity. Qed.
Lemma dec_value n : decimal_value (dec n) = n.
Proof. unfold decimal_value, dec. rewrite uint_value. apply DecimalN.Unsigned.of_to. Qed.
Lemma dec_nonempty n : dec n <> [].
Proof.
  unfold dec. destruct n as [|p]; [discriminate|]. cbn [N.to_uint]. pose proof (DecimalPos.Unsigned.to_uint_nonnil p).
  destruct (Pos.to_uint p); try discriminate. congruence.
Qed.
Lemma dec_digits_range n : digits (dec n).
Proof. unfold digits. eapply Forall_impl; [|apply dec_digits]. intros c H. unfold is_ascii_digit, in_range in H. lia. Qed.

(* ---------- lines with a number ---------- *)
Definition number_line (d : EnumDelims) (s : numbering) (n : N) (j : nat) (line : str) : Prop :=
  exists l, line = pad j (enumerator d s n ++ 32%N :: l) /\ starts_text l = true /\ number_ok s n = true.
Definition number_head (c : char) : bool := N.eqb c 40 || N.eqb c 35 || is_ascii_alnum c.
Definition class_of (s : numbering) : nat := match s with Auto => 5 | Digits => 0 | Roman false => 1 | Roman true => 2 | Letters false => 3 | Letters true => 4 end.
Definition number_value (s : numbering) (next n : N) : N := match s with Auto => next | _ => n end.
Definition number_kind (s : numbering) (lk : EnumKind) : EnumKind := match s with Auto => lk | _ => kind_of s end.
Definition list_kind_of (lk : option EnumKind) : EnumKind := match lk with Some k => k | None => Arabic end.

Lemma roman_digit_chars a b c d (l : list char) : Forall (fun x => In x l) (lit (a ++ b ++ c)) -> Forall (fun x => In x l) (roman_digit a b c d).
Proof.
  assert (L : forall x y, lit (x ++ y) = lit x ++ lit y).
  { induction x as [|? x IH]; intros y; [reflexivity|]. cbn. now rewrite IH. }
  rewrite !L, !Forall_app. intros (A & B & C). unfold roman_digit.
  repeat match goal with |- context [match ?d with _ => _ end] => destruct d end; rewrite ?L, ?Forall_app; auto; constructor.
Qed.
Lemma roman_thousands_chars m d (l : list char) : Forall (fun x => In x l) (lit m) -> Forall (fun x => In x l) (roman_thousands m d).
Proof.
  assert (L : forall x y, lit (x ++ y) = lit x ++ lit y).
  { induction x as [|? x IH]; intros y; [reflexivity|]. cbn. now rewrite IH. }
  intros A. unfold roman_thousands. repeat match goal with |- context [match ?d with _ => _ end] => destruct d end; rewrite ?L, ?Forall_app; auto. constructor.
Qed.
Lemma In_cls l body : Forall (fun c => In c l) body -> forallb (cls_of l) body = true.
Proof. intros H. apply forallb_forall. rewrite Forall_forall in H. intros c Hc. unfold cls_of. apply existsb_exists. exists c. split; [now apply H|apply N.eqb_refl]. Qed.
Lemma lower_roman_class n : number_ok (Roman false) n = true -> body_class 1 (lower_roman n).
Proof.
  intros H. cbn in H. split.
  - intros E. pose proof (lower_roman_correct n ltac:(lia)) as X. rewrite E in X. change (Some 0%N = Some n) in X. injection X as X. lia.
  - apply In_cls. unfold lower_roman. rewrite !Forall_app. split; [apply roman_thousands_chars|split; [apply roman_digit_chars|split; apply roman_digit_chars]]; repeat (apply Forall_cons; [cbv; tauto|]); apply Forall_nil.
Qed.
Lemma upper_roman_class n : number_ok (Roman true) n = true -> body_class 2 (upper_roman n).
Proof.
  intros H. cbn in H. split.
  - intros E. pose proof (upper_roman_correct n ltac:(lia)) as X. rewrite E in X. change (Some 0%N = Some n) in X. injection X as X. lia.
  - apply In_cls. unfold upper_roman. rewrite !Forall_app. split; [apply roman_thousands_chars|split; [apply roman_digit_chars|split; apply roman_digit_chars]]; repeat (apply Forall_cons; [cbv; tauto|]); apply Forall_nil.
Qed.
Lemma number_class s n : number_ok s n = true -> body_class (class_of s) (number s n).
Proof.
  destruct s as [| |[|]|[|]]; cbn [class_of number].
  - reflexivity.
  - intros _. split; [apply dec_nonempty|apply dec_digits_range].
  - apply upper_roman_class.
  - apply lower_roman_class.
  - intros H. cbn [number_ok] in H. eexists. split; [reflexivity|]. unfold is_ascii_upper, in_range. lia.
  - intros H. cbn [number_ok] in H. eexists. split; [reflexivity|]. unfold is_ascii_lower, in_range. lia.
Qed.
(* the class is the first one of those that fit *)
Lemma enum_alts_rel b idx body t : body_class idx body -> rel (enum_alts b) (body ++ t) t.
Proof.
  unfold enum_alts. cbn [Alts]. destruct idx as [|[|[|[|[|[|]]]]]]; cbn [body_class].
  - intros [H1 H2]. now apply enum_alts_arabic.
  - intros [H1 H2]. apply rel_altr, rel_altl, rel_grp, rel_plus_cls. eauto.
  - intros [H1 H2]. do 2 apply rel_altr. apply rel_altl, rel_grp, rel_plus_cls. eauto.
  - intros (c & -> & H). do 3 apply rel_altr. apply rel_altl, rel_grp, rel_cls. exact H.
  - intros (c & -> & H). do 4 apply rel_altr. apply rel_altl, rel_grp, rel_cls. exact H.
  - intros ->. apply enum_alts_auto.
  - intros [].
Qed.
(* no class that is tried before fits *)
Lemma class_first s n idx : number_ok s n = true -> idx < class_of s -> ~ body_class idx (number s n).
Proof.
  intros H Hi C.
  assert (D : class_of s <> 0 -> ~ digits (number s n)).
  { intros Hs Q. pose proof (number_class s n H) as K. destruct (body_class_chars _ _ K) as [Hne _].
    apply Hs. exact (digits_class _ _ Hne Q K). }
  destruct idx as [|idx]; [destruct C as [_ C]; apply D; [lia|exact C]|].
  destruct s as [| |[|]|[|]]; cbn [class_of] in Hi; try lia; cbn [number] in *.
  - apply auto_class in C. lia.
  - assert (idx = 0) by lia. subst idx. destruct C as [Hne C]. destruct (upper_roman_class n H) as [_ K].
    destruct (upper_roman n) as [|c t]; [congruence|]. cbn [forallb] in C, K. apply andb_true_iff in C as [C _]. apply andb_true_iff in K as [K _].
    unfold cls_of in C, K. apply existsb_exists in C as (x & Hx & C). apply N.eqb_eq in C. subst x. apply existsb_exists in K as (y & Hy & K). apply N.eqb_eq in K. subst y.
    vm_compute in Hx. repeat (destruct Hx as [<-|Hx]; [vm_compute in Hy; repeat (destruct Hy as [Hy|Hy]; [discriminate Hy|]); contradiction|]). contradiction.
  - cbn [number_ok] in H. destruct idx as [|[|[|]]]; [| | |lia]; cbn [body_class] in C.
    + destruct C as [_ C]. cbn [forallb] in C. apply andb_true_iff in C as [C _]. unfold cls_of in C. apply existsb_exists in C as (x & Hx & C). apply N.eqb_eq in C.
      vm_compute in Hx. repeat (destruct Hx as [<-|Hx]; [lia|]). contradiction.
    + destruct C as [_ C]. cbn [forallb] in C. apply andb_true_iff in C as [C _]. unfold cls_of in C. apply existsb_exists in C as (x & Hx & C). apply N.eqb_eq in C.
      apply andb_true_iff in H as [_ H]. apply negb_true_iff in H. unfold roman_letter in H.
      assert (n = x - 64)%N by lia. subst n. vm_compute in Hx. repeat (destruct Hx as [<-|Hx]; [discriminate H|]). contradiction.
    + destruct C as (c & E & C). apply (f_equal (hd 0%N)) in E. cbn [hd] in E. unfold is_ascii_lower, in_range in C. lia.
  - cbn [number_ok] in H. destruct idx as [|[|]]; [| |lia]; cbn [body_class] in C.
    + destruct C as [_ C]. cbn [forallb] in C. apply andb_true_iff in C as [C _]. unfold cls_of in C. apply existsb_exists in C as (x & Hx & C). apply N.eqb_eq in C.
      apply andb_true_iff in H as [_ H]. apply negb_true_iff in H. unfold roman_letter in H.
      assert (n = x - 96)%N by lia. subst n. vm_compute in Hx. repeat (destruct Hx as [<-|Hx]; [discriminate H|]). contradiction.
    + destruct C as [_ C]. cbn [forallb] in C. apply andb_true_iff in C as [C _]. unfold cls_of in C. apply existsb_exists in C as (x & Hx & C). apply N.eqb_eq in C.
      vm_compute in Hx. repeat (destruct Hx as [<-|Hx]; [lia|]). contradiction.
Qed.
(* a continuation that wants this character *)
Definition wants {R} (cl : char) (k : @kont R) : Prop := forall i t cs x, k i t cs = Some x -> exists u, t = cl :: u.
Lemma alt_none {R} idx idx' body cl rest i cs (k : @kont R) g r : wants cl k -> alnum cl || (cl =? ch "#")%N = false ->
  body_class idx body -> (forall s t, rel r s t -> exists p, s = p ++ t /\ body_class idx' p) -> ~ body_class idx' body ->
  rmatch (Grp g r) i (body ++ cl :: rest) cs k = None.
Proof.
  intros Hk Hcl Hb Hr Hno. destruct (rmatch (Grp g r) i (body ++ cl :: rest) cs k) as [x|] eqn:E; [|reflexivity]. exfalso.
  apply rmatch_sound in E as (t & new & Rl & E). apply Hk in E as (u & ->).
  apply relc_rel, rel_grp_inv in Rl. destruct (Hr _ _ Rl) as (p & Ep & Hp).
  apply body_class_chars in Hb as [_ Hb]. pose proof Hp as Hp'. apply body_class_chars in Hp' as [_ Hp'].
  apply (class_split (fun c => alnum c || (c =? ch "#")%N)) in Ep as [-> _]; [contradiction|exact Hb|exact Hp'| |].
  - intros c v Ec. apply (f_equal (hd 0%N)) in Ec. cbn [hd] in Ec. now subst c.
  - intros c v Ec. apply (f_equal (hd 0%N)) in Ec. cbn [hd] in Ec. now subst c.
Qed.
Lemma rel_class0 s t : rel (Plus true (Cls digit)) s t -> exists p, s = p ++ t /\ body_class 0 p.
Proof. intros H. apply rel_plus_cls in H as (l & E & Hne & Hl). exists l. repeat split; auto. now apply forallb_digits. Qed.
Lemma rel_class1 s t : rel (Plus true (Cls (cls_of (q "ivxlcdm")))) s t -> exists p, s = p ++ t /\ body_class 1 p.
Proof. intros H. apply rel_plus_cls in H as (l & E & Hne & Hl). exists l. repeat split; auto. Qed.
Lemma rel_class2 s t : rel (Plus true (Cls (cls_of (q "IVXLCDM")))) s t -> exists p, s = p ++ t /\ body_class 2 p.
Proof. intros H. apply rel_plus_cls in H as (l & E & Hne & Hl). exists l. repeat split; auto. Qed.
Lemma rel_class3 s t : rel (Cls is_ascii_lower) s t -> exists p, s = p ++ t /\ body_class 3 p.
Proof. intros H. apply rel_cls_inv in H as (c & E & Hc). exists [c]. split; [exact E|]. exists c. auto. Qed.
Lemma rel_class4 s t : rel (Cls is_ascii_upper) s t -> exists p, s = p ++ t /\ body_class 4 p.
Proof. intros H. apply rel_cls_inv in H as (c & E & Hc). exists [c]. split; [exact E|]. exists c. auto. Qed.
Lemma alts_yields {R} (P : R -> Prop) b idx body cl rest i cs (k : @kont R) : wants cl k -> alnum cl || (cl =? ch "#")%N = false ->
  body_class idx body -> (forall m, m < idx -> ~ body_class m body) ->
  yields (k (i + length body) (cl :: rest) ((b + idx, (i, body)) :: cs)) P ->
  yields (rmatch (enum_alts b) i (body ++ cl :: rest) cs k) P.
Proof.
  intros Hk Hcl Hb Hno Hy. unfold enum_alts. cbn [Alts].
  assert (Pl : forall p g, forallb p body = true -> body <> [] -> p cl = false -> yields (k (i + length body) (cl :: rest) ((g, (i, body)) :: cs)) P ->
    yields (rmatch (Grp g (Plus true (Cls p))) i (body ++ cl :: rest) cs k) P).
  { intros p g Hp Hne Hc Hyy. apply grp_yields. destruct body as [|c a]; [congruence|]. cbn [forallb] in Hp. apply andb_true_iff in Hp as [Hp1 Hp2].
    cbn [app]. apply m_plus; auto; [no_more; exact Hc|]. change (c :: a ++ cl :: rest) with ((c :: a) ++ cl :: rest). rewrite took. exact Hyy. }
  assert (Cl : forall p : char -> bool, (forall c, p c = true -> alnum c = true) -> p cl = false).
  { intros p Hp. destruct (p cl) eqn:E; [|reflexivity]. apply Hp in E. rewrite E in Hcl. discriminate. }
  assert (On : forall p g c, body = [c] -> p c = true -> yields (k (i + length body) (cl :: rest) ((g, (i, body)) :: cs)) P ->
    yields (rmatch (Grp g (Cls p)) i (body ++ cl :: rest) cs k) P).
  { intros p g c -> Hp Hyy. apply grp_yields. cbn [app]. cbn [rmatch]. rewrite Hp. cbn [length] in Hyy. rewrite Nat.add_1_r in Hyy.
    replace (firstn (S i - i) (c :: cl :: rest)) with [c] by (replace (S i - i) with 1 by lia; reflexivity). exact Hyy. }
  assert (N0 : 0 < idx -> rmatch (Grp b (Plus true (Cls digit))) i (body ++ cl :: rest) cs k = None) by (intros; eapply alt_none; eauto using rel_class0).
  assert (N1 : 1 < idx -> rmatch (Grp (b + 1) (Plus true (Cls (cls_of (q "ivxlcdm"))))) i (body ++ cl :: rest) cs k = None) by (intros; eapply alt_none; eauto using rel_class1).
  assert (N2 : 2 < idx -> rmatch (Grp (b + 2) (Plus true (Cls (cls_of (q "IVXLCDM"))))) i (body ++ cl :: rest) cs k = None) by (intros; eapply alt_none; eauto using rel_class2).
  assert (N3 : 3 < idx -> rmatch (Grp (b + 3) (Cls is_ascii_lower)) i (body ++ cl :: rest) cs k = None) by (intros; eapply alt_none; eauto using rel_class3).
  assert (N4 : 4 < idx -> rmatch (Grp (b + 4) (Cls is_ascii_upper)) i (body ++ cl :: rest) cs k = None) by (intros; eapply alt_none; eauto using rel_class4).
  destruct idx as [|[|[|[|[|[|]]]]]]; cbn [body_class] in Hb.
  - apply m_alt. destruct Hb as [Hne Hd]. apply Pl; [now apply forallb_digits|exact Hne| |now rewrite Nat.add_0_r in Hy].
    apply Cl. intros c H. unfold alnum, is_ascii_alnum. change (is_ascii_digit c = true) in H. rewrite H. apply orb_true_r.
  - apply m_alt2; [apply N0; lia|]. apply m_alt. destruct Hb as [Hne Hd]. apply Pl; auto. apply Cl. intros c H. apply existsb_exists in H as (x & Hx & H). apply N.eqb_eq in H. subst x.
    vm_compute in Hx. repeat (destruct Hx as [<-|Hx]; [reflexivity|]). contradiction.
  - apply m_alt2; [apply N0; lia|]. apply m_alt2; [apply N1; lia|]. apply m_alt. destruct Hb as [Hne Hd]. apply Pl; auto. apply Cl. intros c H. apply existsb_exists in H as (x & Hx & H). apply N.eqb_eq in H. subst x.
    vm_compute in Hx. repeat (destruct Hx as [<-|Hx]; [reflexivity|]). contradiction.
  - apply m_alt2; [apply N0; lia|]. apply m_alt2; [apply N1; lia|]. apply m_alt2; [apply N2; lia|]. apply m_alt. destruct Hb as (c & Eb & Hc). now apply (On _ _ c).
  - apply m_alt2; [apply N0; lia|]. apply m_alt2; [apply N1; lia|]. apply m_alt2; [apply N2; lia|]. apply m_alt2; [apply N3; lia|]. apply m_alt. destruct Hb as (c & Eb & Hc). now apply (On _ _ c).
  - apply m_alt2; [apply N0; lia|]. apply m_alt2; [apply N1; lia|]. apply m_alt2; [apply N2; lia|]. apply m_alt2; [apply N3; lia|]. apply m_alt2; [apply N4; lia|].
    unfold Chr. apply (On _ _ 35%N); auto.
  - contradiction.
Qed.
Lemma enumerator_chars d s n : number_ok s n = true -> exists c t, enumerator d s n = c :: t /\ is_whitespace c = false /\ number_head c = true.
Proof.
  intros H. pose proof (body_class_chars _ _ (number_class s n H)) as [Hne Hc].
  unfold enumerator. destruct d; cbn [open_of lit app].
  2:{ exists 40%N. eexists. split; [reflexivity|]. split; reflexivity. }
  all: destruct (number s n) as [|c t]; [congruence|]; exists c; eexists; (split; [reflexivity|]); cbn [forallb] in Hc; apply andb_true_iff in Hc as [Hc _];
    unfold alnum in Hc; change (ch "#") with 35%N in Hc; split;
    [unfold is_ascii_alnum, is_ascii_alpha, is_ascii_lower, is_ascii_upper, is_ascii_digit, in_range, is_whitespace in *; lia|unfold number_head; lia].
Qed.

Section Number.
  Variables (d : EnumDelims) (s : numbering) (n : N) (j : nat) (l : str).
  Hypotheses (Hl : starts_text l = true) (Hn : number_ok s n = true).
  Let L := pad j (enumerator d s n ++ 32%N :: l).
  Lemma nb_head : exists c t, L = repeat 32%N j ++ c :: t /\ is_whitespace c = false /\ number_head c = true.
  Proof. destruct (enumerator_chars d s n Hn) as (c & t & E & H). exists c, (t ++ 32%N :: l). split; [|exact H]. unfold L, pad. now rewrite E. Qed.
  Lemma nb_break : captures APLUS_COL_BREAK L = None.
  Proof.
    destruct nb_head as (c & t & -> & H & Hc). apply ink_break; [apply ws_pad|exact H|]. intros ->.
    discriminate Hc.
  Qed.
  Lemma nb_blank : captures BLANK_LINE L = None.
  Proof. destruct nb_head as (c & t & -> & H & _). now apply ink_blank. Qed.
  Lemma nb_not_blank : blank L = false.
  Proof. destruct nb_head as (c & t & -> & H & _). now apply ink_not_blank. Qed.
  Lemma nb_indent : indent_of L = j.
  Proof. destruct nb_head as (c & t & -> & H & _). rewrite ink_indent; [apply repeat_length|apply ws_pad|exact H]. Qed.
  Lemma nb_text : exists cs, captures TEXT L = Some cs /\ cap 1 cs = Some (repeat 32%N j).
  Proof. destruct nb_head as (c & t & -> & H & _). apply ink_text; [apply ws_pad|exact H]. Qed.
  Lemma nb_line : captures LINE L = None.
  Proof.
    apply starts_text_inside in Hl as (a & x & b & E & Hx). unfold L, pad. rewrite E.
    replace (repeat 32%N j ++ enumerator d s n ++ 32%N :: a ++ x :: b) with ((repeat 32%N j ++ enumerator d s n ++ 32%N :: a) ++ x :: b) by (now rewrite <- !app_assoc).
    now apply starter_no_line.
  Qed.
  Lemma nb_bullet : captures BULLET L = None.
  Proof.
    destruct nb_head as (c & t & -> & H & Hc). apply (marker_none _ bullet_char); auto using ws_pad.
    - apply sw_cat, sw_grp, sw_cls.
    - intros a Ha. unfold bullet_char, cls_of in Ha. apply existsb_exists in Ha as (x & Hx & Ha). apply N.eqb_eq in Ha. subst x.
      vm_compute in Hx. repeat (destruct Hx as [<-|Hx]; [reflexivity|]). contradiction.
    - destruct (bullet_char c) eqn:Eb; [|reflexivity]. unfold bullet_char, cls_of in Eb. apply existsb_exists in Eb as (x & Hx & Eb). apply N.eqb_eq in Eb. subst x.
      vm_compute in Hx. repeat (destruct Hx as [<-|Hx]; [discriminate Hc|]). contradiction.
  Qed.
  Lemma nb_attribution : captures ATTRIBUTION L = None.
  Proof.
    destruct nb_head as (c & t & -> & H & Hc). apply (marker_none _ (fun a => N.eqb 45 a || N.eqb 0x2014 a)); auto using ws_pad.
    - apply sw_cat. cbn [Alts]. apply sw_alt; [apply sw_lit; reflexivity|apply sw_alt; [apply sw_lit; reflexivity|apply sw_chr; reflexivity]].
    - intros a Ha. apply orb_true_iff in Ha as [Ha|Ha]; apply chr_class in Ha; now subst.
    - unfold number_head, is_ascii_alnum, is_ascii_alpha, is_ascii_lower, is_ascii_upper, is_ascii_digit, in_range in Hc. lia.
  Qed.
  Let body := number s n.
  Lemma nb_enum_line : enum_line (repeat 32%N j) d body L.
  Proof.
    split.
    - pose proof (ws_pad j) as H. unfold ws in H. apply Forall_forall. rewrite forallb_forall in H. exact H.
    - exists (32%N :: l). split; [|right; eauto]. unfold L, pad, enumerator. now rewrite <- !app_assoc.
  Qed.
  Lemma nb_index : exists cs, captures ENUMERATOR L = Some cs /\ exists i, In (base_of d + class_of s, (i, body)) cs.
  Proof.
    pose proof (number_class s n Hn) as HB. fold body in HB. apply captures_yields. unfold rexec, ENUMERATOR. cbn [Seq].
    apply cat_yields, grp_yields. unfold ws0, L, pad.
    pose proof (enumerator_chars d s n Hn) as (c0 & t0 & E0 & Hws & _).
    apply m_star; [exact (ws_pad j)| |].
    { no_more. rewrite E0. exact Hws. }
    rewrite took. apply cat_yields.
    assert (K : forall T i cs, In (base_of d + class_of s, (0 + length (repeat 32%N j) + length (open_of d), body)) cs ->
      yields (rmatch (Grp 20 after) i (32%N :: l) cs (fun i0 _ cs0 => Some (i0, (0, (0, firstn i0 T)) :: cs0)))
        (fun x => exists i1, In (base_of d + class_of s, (i1, body)) (snd x))).
    { intros T i cs Hin. destruct (rmatch (Grp 20 after) i (32%N :: l) cs (fun i0 _ cs0 => Some (i0, (0, (0, firstn i0 T)) :: cs0))) as [x|] eqn:Ex.
      - exists x. split; [reflexivity|]. apply rmatch_sound in Ex as (t & new & _ & Ex). apply some_inj in Ex. subst x. eexists. cbn [snd]. right. apply in_or_app. right. exact Hin.
      - exfalso. assert (R : rel (Grp 20 after) (32%N :: l) l).
        { apply rel_grp, rel_altl. unfold spaces1, Plus. eapply rel_cat; [apply rel_chr; reflexivity|apply rel_star0]. }
        revert Ex. apply (rmatch_complete _ _ _ _ _ [32%N] l); [reflexivity|exact R|discriminate]. }
    assert (Hcl : alnum (hd 0%N (close_of d)) || (hd 0%N (close_of d) =? ch "#")%N = false) by (destruct d; reflexivity).
    assert (Hopen : number_head 40%N = true) by reflexivity.
    pose proof (body_class_chars _ _ HB) as [Hne Hch].
    assert (W : forall (cl : char) (k : @kont (nat * caps)), wants cl (fun i1 s1 cs1 => rmatch (Chr cl) i1 s1 cs1 k)).
    { intros cl k i t cs x Hx. apply rmatch_sound in Hx as (t1 & new & R & _). apply relc_chr_inv in R as [-> _]. eauto. }
    assert (Hhead : forall i cs k rest, rmatch (Chr (ch "(")) i (body ++ rest) cs k = @None (nat * caps)).
    { intros i cs k rest. destruct body as [|c t]; [congruence|]. cbn [forallb] in Hch. apply andb_true_iff in Hch as [Hch _]. cbn [rmatch Chr app].
      destruct (ch "(" =? c)%N eqn:Ec; [|reflexivity]. apply N.eqb_eq in Ec. subst c. discriminate Hch. }
    unfold enumerator in *. destruct d; cbn [open_of close_of lit app hd] in *; cbn [Alts].
    - (* period *)
      rewrite <- app_assoc. cbn [app]. fold body. apply m_alt2; [cbn [rmatch]; apply Hhead|].
      apply m_alt2.
      { destruct (rmatch _ _ _ _ _) as [x|] eqn:Ex; [|reflexivity]. exfalso. apply rmatch_sound in Ex as (t & new & R & _).
        apply relc_cat_inv in R as (v & m3 & m4 & Hb' & Hc & _). apply relc_chr_inv in Hc as [-> _].
        apply enum_alts_inv in Hb' as (idx2 & body2 & Eb & Hb' & _). apply body_class_chars in Hb' as [_ Hb'].
        apply (class_split (fun c => alnum c || (c =? ch "#")%N)) in Eb as [_ Eb]; [|exact Hch|exact Hb'| |].
        - apply (f_equal (hd 0%N)) in Eb. discriminate Eb.
        - intros c v Ec. apply (f_equal (hd 0%N)) in Ec. cbn [hd] in Ec. now subst c.
        - intros c v Ec. apply (f_equal (hd 0%N)) in Ec. cbn [hd] in Ec. now subst c. }
      apply cat_yields. apply (alts_yields _ _ (class_of s)); [apply W|exact Hcl|exact HB|intros m Hm; now apply class_first|].
      apply m_chr. apply K. cbn [length]. rewrite Nat.add_0_r. left. reflexivity.
    - apply m_alt. apply cat_yields. rewrite <- app_assoc. cbn [app]. fold body. apply m_chr. apply cat_yields.
      apply (alts_yields _ _ (class_of s)); [apply W|exact Hcl|exact HB|intros m Hm; now apply class_first|].
      apply m_chr. apply K. cbn [length]. rewrite Nat.add_1_r. left. reflexivity.
    - rewrite <- app_assoc. cbn [app]. fold body. apply m_alt2; [cbn [rmatch]; apply Hhead|]. apply m_alt.
      apply cat_yields. apply (alts_yields _ _ (class_of s)); [apply W|exact Hcl|exact HB|intros m Hm; now apply class_first|].
      apply m_chr. apply K. cbn [length]. rewrite Nat.add_0_r. left. reflexivity.
  Qed.
  Lemma nb_enum : exists cs, captures ENUMERATOR L = Some cs /\ cap 1 cs = Some (repeat 32%N j) /\
    whole cs = pad j (enumerator d s n ++ [32%N]) /\
    forall lk il item start, (item + start <= usize_max)%N -> (il = true \/ lk = None) ->
      enum_captures_to_int_kind_and_delims cs lk il false item start = Ret (Some (number_value s (item + start) n, number_kind s (list_kind_of lk), d)).
  Proof.
    pose proof (number_class s n Hn) as HB. fold body in HB. destruct nb_index as (cs & E & ii & Hin).
    exists cs. split; [exact E|].
    pose proof E as E'. apply enum_captures_inv in E' as (w' & d' & idx & body' & wh & aft & i & i' & Hl' & Hb & Hi & Ecs).
    destruct (marker_unique _ _ _ _ _ _ _ nb_enum_line Hl') as (Ew & Ed & Eb); [eauto|eauto|].
    split. { subst cs w'. destruct wh, aft. cbn [cap Nat.eqb]. do 6 (destruct idx as [|idx]; [destruct d'; reflexivity|]). lia. }
    split.
    - unfold ENUMERATOR in E. cbn [Seq] in E. apply captures_ws in E as (w & t & u & new & Et & Hw & R & Ecs2).
      apply relc_cat_inv in R as (t1 & n1 & n2 & R1 & R2 & ->).
      apply relc_grp_inv in R2 as (n3 & R2 & ->). cbn [Alts] in R1.
      assert (G : exists d2 body2 idx2, t = open_of d2 ++ body2 ++ close_of d2 ++ t1 /\ body_class idx2 body2).
      { apply relc_alt_inv in R1 as [R1|R1]; [|apply relc_alt_inv in R1 as [R1|R1]].
        - apply relc_cat_inv in R1 as (v1 & m1 & m2 & Ha & Hb' & ->). apply relc_chr_inv in Ha as [-> ->].
          apply relc_cat_inv in Hb' as (v & m3 & m4 & Hb' & Hc & ->). apply relc_chr_inv in Hc as [-> ->].
          apply enum_alts_inv in Hb' as (idx2 & body2 & -> & Hb' & _ & ->). exists Parens, body2, idx2. split; [reflexivity|exact Hb'].
        - apply relc_cat_inv in R1 as (v & m3 & m4 & Hb' & Hc & ->). apply relc_chr_inv in Hc as [-> ->].
          apply enum_alts_inv in Hb' as (idx2 & body2 & -> & Hb' & _ & ->). exists RParen, body2, idx2. split; [reflexivity|exact Hb'].
        - apply relc_cat_inv in R1 as (v & m3 & m4 & Hb' & Hc & ->). apply relc_chr_inv in Hc as [-> ->].
          apply enum_alts_inv in Hb' as (idx2 & body2 & -> & Hb' & _ & ->). exists Period, body2, idx2. split; [reflexivity|exact Hb']. }
      destruct G as (d2 & body2 & idx2 & -> & Hb2).
      assert (Hl2 : enum_line w d2 body2 L).
      { split; [apply Forall_forall; unfold ws in Hw; rewrite forallb_forall in Hw; exact Hw|]. exists t1. split; [exact Et|].
        pose proof R2 as R2'. apply after_inv in R2' as [_ R2']. exact R2'. }
      destruct (marker_unique _ _ _ _ _ _ _ nb_enum_line Hl2) as (Ew2 & Ed2 & Eb2); [eauto|eauto|].
      rewrite <- Ew2, <- Ed2, <- Eb2 in Et. unfold L, pad, enumerator in Et. apply app_inv_head in Et.
      rewrite <- !app_assoc in Et. apply app_inv_head in Et. fold body in Et. apply app_inv_head in Et. apply app_inv_head in Et. subst t1.
      pose proof Hl as Hl0. apply starts_text_inv in Hl0 as (c0 & t0 & E0 & _ & Hc0). rewrite E0 in R2.
      apply after_inv1 in R2; [|apply N.eqb_neq; intros <-; discriminate]. assert (Eu : u = l) by (etransitivity; [exact R2|symmetry; exact E0]). rewrite Ecs2, Eu. unfold whole. cbn [cap Nat.eqb].
      unfold L, pad. change (32%N :: l) with ([32%N] ++ l). rewrite !app_assoc. rewrite <- !app_assoc.
      rewrite (app_assoc (repeat 32%N j)), app_assoc. rewrite whole_firstn. now rewrite <- app_assoc.
    - intros lk il item start Hs Hil. rewrite <- Ed, <- Eb in *.
      assert (Ei : idx = class_of s).
      { rewrite Ecs in Hin. clear - Hin Hi. destruct wh, aft. destruct s as [| |[|]|[|]], d; cbn [base_of class_of] in *;
          (repeat (destruct Hin as [Hin|Hin]; [apply (f_equal fst) in Hin; cbn [fst] in Hin; lia|])); contradiction. }
      rewrite Ecs, enum_eval by exact Hi. subst idx. clear Hi Hb. unfold body in *. clear - Hn Hs Hil. destruct s as [| |[|]|[|]]; cbn [class_of class_value number number_value number_kind kind_of].
      + replace (item + start <=? usize_max)%N with true by lia. cbn [finish_enum]. do 3 f_equal. destruct Hil as [-> | ->]; cbn [negb list_kind_of]; [rewrite andb_false_r; reflexivity|].
        destruct (_ && _); reflexivity.
      + unfold parse_usize. rewrite parse_uint_digits by (first [apply dec_nonempty|apply dec_digits_range]). rewrite dec_value.
        cbn in Hn. rewrite Hn. reflexivity.
      + cbn in Hn. rewrite upper_roman_correct by lia. assert (Hn2 : (1 <= n /\ n <= 4999)%N) by lia. clear Hn. cbn [finish_enum]. destruct (_ && _) eqn:Ex; [|reflexivity]. apply andb_true_iff in Ex as [Ex _]. apply str_eqb_eq in Ex.
        pose proof (upper_roman_correct n ltac:(lia)) as X. rewrite Ex in X. destruct d; vm_compute in X; try discriminate X. injection X as <-. reflexivity.
      + cbn in Hn. rewrite lower_roman_correct by lia. assert (Hn2 : (1 <= n /\ n <= 4999)%N) by lia. clear Hn. destruct (_ && _) eqn:Ex; [|reflexivity]. apply andb_true_iff in Ex as [Ex _]. apply str_eqb_eq in Ex.
        pose proof (lower_roman_correct n ltac:(lia)) as X. rewrite Ex in X. vm_compute in X. injection X as <-. reflexivity.
      + cbn in Hn. rewrite (proj2 (alpha_spec _ n)); [reflexivity|]. split; [lia|right; reflexivity].
      + cbn in Hn. rewrite (proj2 (alpha_spec _ n)); [reflexivity|]. split; [lia|left; reflexivity].
  Qed.
End Number.

(* ---------- which transition such a line selects ---------- *)
Section Found.
  Variables (d : EnumDelims) (s : numbering) (n : N) (j : nat) (l : str).
  Hypotheses (Hl : starts_text l = true) (Hn : number_ok s n = true).
  Let L := pad j (enumerator d s n ++ 32%N :: l).
  Definition number_caps (cs : caps) : Prop :=
    cap 1 cs = Some (repeat 32%N j) /\ whole cs = pad j (enumerator d s n ++ [32%N]) /\
    forall lk il item start, (item + start <= usize_max)%N -> (il = true \/ lk = None) ->
      enum_captures_to_int_kind_and_delims cs lk il false item start = Ret (Some (number_value s (item + start) n, number_kind s (list_kind_of lk), d)).
  Lemma find_number (tbl : transition_table) : body_table tbl ->
    exists cs, find_transition L tbl = Some (body_enumerator, cs) /\ number_caps cs.
  Proof.
    intros Hb. destruct (nb_enum d s n j l Hl Hn) as (cs & E & C). exists cs. split; [|exact C].
    apply find_in_body; [exact Hb|now apply nb_blank|now apply nb_attribution|now apply nb_break|]. unfold body_rest.
    rewrite find_none by now apply nb_bullet. now apply find_some.
  Qed.
  Lemma find_list_number : exists cs, find_transition L ENUMERATED_LIST_TRANSITIONS = Some (list_enumerator, cs) /\ number_caps cs.
  Proof.
    destruct (nb_enum d s n j l Hl Hn) as (cs & E & C). exists cs. split; [|exact C].
    unfold ENUMERATED_LIST_TRANSITIONS, empty_line_entry. rewrite find_none by now apply nb_blank. now apply find_some.
  Qed.
End Found.
Lemma find_numbers_none line : captures BLANK_LINE line = None -> captures ENUMERATOR line = None -> find_transition line ENUMERATED_LIST_TRANSITIONS = None.
Proof. intros A B. unfold ENUMERATED_LIST_TRANSITIONS, empty_line_entry. cbn [find_transition]. now rewrite A, B. Qed.
(* the line after an item of a numbered list *)
Definition free_next (src : list str) (p j : nat) : Prop :=
  forall nx, nth_error src (S p) = Some nx -> blank nx = true \/ indent_of nx <> j.
Lemma free_is_item src base cur j number kind delims lk il item start : free_next src (cur_offset cur) j ->
  is_enumerated_list_item src cur base (base + j) number kind delims lk il item start = Ret true.
Proof.
  intros H. unfold is_enumerated_list_item. destruct (nth_error src (S (cur_offset cur))) as [nx|] eqn:E; [|reflexivity].
  destruct (H nx E) as [-> |Hi]; [reflexivity|]. destruct (blank nx); [reflexivity|]. cbn [orb].
  destruct (base + j <? indent_of nx + base); [reflexivity|].
  replace (indent_of nx + base =? base + j) with false; [reflexivity|]. symmetry. apply Nat.eqb_neq. lia.
Qed.
