(* MarkupProofs.v -- the inline parser on the texts of MarkupSpec.v (C48) *)
From Verif Require Import Base Unicode Common NodeTypes Tree DocTree History Regex RegexProofs RegexGroups Patterns
  Utf8Latex Prog Inline InlineSpec LoopProofs InlineProofs DirectiveProofs TextProofs Spec MarkupSpec.
From Coq Require Import ZifyBool ZifyNat ZifyN Lia.

(* ---------- markup characters before the first white space ---------- *)
Definition ink : str -> str := run_of nsp.
Definition inked (r : re) : Prop := forall s t, rel r s t -> exists p, s = p ++ t /\ forallb nsp p = true.
(* what no word of a plain text has in it: @, a colon before another character, an
   underscore before anything but a letter or digit *)
Inductive wild : str -> Prop :=
| w_at b : wild (64%N :: b)
| w_colon c b : wild (58%N :: c :: b)
| w_under b : match b with c :: _ => alnum c = false | [] => True end -> wild (95%N :: b)
| w_next c l : wild l -> wild (c :: l).
Definition inkneeds (r : re) : Prop := forall s t, rel r s t -> wild (ink s).
Lemma wild_app a b : wild b -> wild (a ++ b).
Proof. intros H. induction a as [|c a IH]; [exact H|]. now apply w_next. Qed.
Lemma ink_app p s : forallb nsp p = true -> ink (p ++ s) = p ++ ink s.
Proof. induction p as [|c p IH]; [reflexivity|]. cbn [forallb app]. intros H. apply andb_prop in H as [H1 H2]. unfold ink in *. cbn [run_of]. now rewrite H1, IH. Qed.
Lemma inked_cls p : (forall c, p c = true -> nsp c = true) -> inked (Cls p).
Proof. intros H s t R. apply rel_cls_inv in R as (c & -> & Hc). exists [c]. split; [reflexivity|]. cbn. now rewrite (H c Hc). Qed.
Lemma inked_chr c : nsp c = true -> inked (Chr c).
Proof. intros H. apply inked_cls. intros d Hd. apply N.eqb_eq in Hd. now subst. Qed.
Lemma inked_cat a b : inked a -> inked b -> inked (Cat a b).
Proof.
  intros Ha Hb s t R. apply rel_cat_inv in R as (u & R1 & R2). apply Ha in R1 as (p & -> & Hp). apply Hb in R2 as (p' & -> & Hp').
  exists (p ++ p'). split; [now rewrite app_assoc|]. rewrite forallb_app. now rewrite Hp, Hp'.
Qed.
Lemma inked_alt a b : inked a -> inked b -> inked (Alt a b).
Proof. intros Ha Hb s t R. apply rel_alt_inv in R as [R|R]; auto. Qed.
Lemma inked_grp n a : inked a -> inked (Grp n a).
Proof. intros Ha s t R. apply rel_grp_inv in R. auto. Qed.
Lemma inked_eps : inked Eps.
Proof. intros s t R. apply rel_eps_inv in R. subst. now exists []. Qed.
Lemma inked_star g a : inked a -> inked (Star g a).
Proof.
  intros Ha s t R. remember (Star g a) as r eqn:Er. induction R; try discriminate.
  - now exists [].
  - injection Er as -> ->. destruct (Ha _ _ R1) as (p & -> & Hp). destruct (IHR2 eq_refl) as (p' & -> & Hp').
    exists (p ++ p'). split; [now rewrite app_assoc|]. rewrite forallb_app. now rewrite Hp, Hp'.
Qed.
Lemma inked_plus g a : inked a -> inked (Plus g a).
Proof. intros H. apply inked_cat; [exact H|now apply inked_star]. Qed.
Lemma inked_opt a : inked a -> inked (Opt a).
Proof. intros H. apply inked_alt; [exact H|apply inked_eps]. Qed.
Lemma alnum_la c : alnum c = true -> sp c = false /\ lookahead_cls c = false.
Proof.
  intros H. assert (c < 128)%N as Hc by (clear -H; unfold alnum, is_ascii_alnum, is_ascii_alpha, is_ascii_lower, is_ascii_upper, is_ascii_digit, in_range in H; lia).
  assert (G : forallb (fun n => let c := N.of_nat n in negb (alnum c) || (negb (sp c) && negb (lookahead_cls c))) (seq 0 128) = true) by (vm_compute; reflexivity).
  rewrite forallb_forall in G. specialize (G (N.to_nat c)). rewrite N2Nat.id in G. cbn beta zeta in G.
  assert (I : In (N.to_nat c) (seq 0 128)) by (apply in_seq; lia). specialize (G I). rewrite H in G. cbn in G. apply andb_prop in G as [G1 G2].
  apply negb_true_iff in G1, G2. auto.
Qed.
Lemma la_head n s t : rel (LA n) s t -> match s with c :: _ => alnum c = false | [] => True end.
Proof.
  intros R. apply rel_grp_inv in R. cbn [Alts] in R. destruct s as [|c s]; [exact I|]. destruct (alnum c) eqn:E; [|reflexivity]. apply alnum_la in E as [E1 E2].
  apply rel_alt_inv in R as [R|R]; [apply rel_cls_inv in R as (d & E & H); injection E as <- _; congruence|].
  apply rel_alt_inv in R as [R|R]; [apply rel_cls_inv in R as (d & E & H); injection E as <- _; congruence|].
  apply rel_eot_inv in R as [R _]. discriminate R.
Qed.
Lemma ink_head (s : str) : match s with c :: _ => alnum c = false | [] => True end -> match ink s with c :: _ => alnum c = false | [] => True end.
Proof. destruct s as [|c s]; [auto|]. unfold ink. cbn [run_of]. destruct (nsp c); auto. Qed.
(* the end of a reference *)
Lemma ik_ref n m : inkneeds (Cat (Grp n ref_type_re) (LA m)).
Proof.
  intros s t R. apply rel_cat_inv in R as (u & R1 & R2). apply la_head in R2. apply rel_grp_inv in R1. unfold ref_type_re in R1. cbn [Seq] in R1.
  apply rel_cat_inv in R1 as (v & R1 & R3). apply rel_chr in R1. subst s. unfold ink. cbn [run_of]. change (nsp (ch "_")) with true. cbn iota.
  apply w_under. apply rel_opt in R3 as [R3|<-].
  - apply rel_chr in R3. subst v. reflexivity.
  - apply (ink_head v). exact R2.
Qed.
Lemma ik_cite n m : inkneeds (Cat (Grp n (Lit (q "]_"))) (LA m)).
Proof.
  intros s t R. apply rel_cat_inv in R as (u & R1 & R2). apply la_head in R2. apply rel_grp_inv, rel_lit in R1. subst s.
  unfold ink. change (q "]_" ++ u) with (93%N :: 95%N :: u). cbn [run_of]. change (nsp 93%N) with true. change (nsp 95%N) with true. cbn iota.
  apply w_next, w_under. apply (ink_head u). exact R2.
Qed.
Lemma ik_at b : inkneeds (Cat (Chr (ch "@")) b).
Proof.
  intros s t R. apply rel_cat_inv in R as (u & R1 & _). apply rel_chr in R1. subst s. unfold ink. cbn [run_of]. change (nsp (ch "@")) with true. cbn iota. apply w_at.
Qed.
Lemma ik_target n b : inkneeds (Cat (Grp n (Lit (q "_`"))) b).
Proof.
  intros s t R. apply rel_cat_inv in R as (u & R1 & _). apply rel_grp_inv, rel_lit in R1. subst s.
  unfold ink. change (q "_`" ++ u) with (95%N :: 96%N :: u). cbn [run_of]. change (nsp 95%N) with true. change (nsp 96%N) with true. cbn iota. apply w_under. reflexivity.
Qed.
Lemma ik_catl a b : inkneeds a -> inkneeds (Cat a b).
Proof. intros H s t R. apply rel_cat_inv in R as (u & R1 & R2). eauto. Qed.
Lemma ik_catr a b : inked a -> inkneeds b -> inkneeds (Cat a b).
Proof.
  intros Ha Hb s t R. apply rel_cat_inv in R as (u & R1 & R2). apply Ha in R1 as (p & -> & Hp). apply Hb in R2.
  rewrite ink_app by exact Hp. now apply wild_app.
Qed.
Lemma ik_opt a b : inkneeds a -> inkneeds b -> inkneeds (Cat (Opt a) b).
Proof.
  intros Ha Hb s t R. apply rel_cat_inv in R as (u & R1 & R2). apply rel_opt in R1 as [R1| ->]; eauto.
Qed.
Lemma ik_alt a b : inkneeds a -> inkneeds b -> inkneeds (Alt a b).
Proof. intros Ha Hb s t R. apply rel_alt_inv in R as [R|R]; eauto. Qed.
Lemma ik_grp n a : inkneeds a -> inkneeds (Grp n a).
Proof. intros Ha s t R. apply rel_grp_inv in R. eauto. Qed.
Lemma alnum_ink c : alnum c = true -> nsp c = true.
Proof. unfold alnum, is_ascii_alnum, is_ascii_alpha, is_ascii_lower, is_ascii_upper, is_ascii_digit, in_range, nsp, is_whitespace. lia. Qed.
Lemma alpha_ink c : alpha c = true -> nsp c = true.
Proof. unfold alpha, is_ascii_alpha, is_ascii_lower, is_ascii_upper, in_range, nsp, is_whitespace. lia. Qed.
Lemma digit_ink c : digit c = true -> nsp c = true.
Proof. unfold digit, is_ascii_digit, in_range, nsp, is_whitespace. lia. Qed.
Lemma cls_of_ink l c : forallb nsp l = true -> cls_of l c = true -> nsp c = true.
Proof.
  unfold cls_of. intros H E. apply existsb_exists in E as (x & Hx & E). apply N.eqb_eq in E. subst x.
  rewrite forallb_forall in H. auto.
Qed.
Lemma dash_ink c : dash_alnum c = true -> nsp c = true.
Proof. unfold dash_alnum. intros H. apply orb_true_iff in H as [H|H]; [eapply cls_of_ink; [|exact H]; reflexivity|now apply alnum_ink]. Qed.
Lemma mid_ink c : email_mid c = true -> nsp c = true.
Proof. unfold email_mid. intros H. apply orb_true_iff in H as [H|H]; [eapply cls_of_ink; [|exact H]; reflexivity|now apply alnum_ink]. Qed.
Ltac inkcls := solve [apply alnum_ink | apply dash_ink | apply mid_ink | apply alpha_ink | apply digit_ink | (intros c; apply cls_of_ink; reflexivity)
  | (intros c H; repeat (apply orb_true_iff in H as [H|H]); first [now apply alnum_ink in H|now apply digit_ink in H|eapply cls_of_ink; [|exact H]; reflexivity])].
Ltac inktac := repeat first [apply inked_chr; reflexivity | apply inked_opt | apply inked_plus | apply inked_grp | apply inked_star | apply inked_cat | apply inked_alt | apply inked_eps
  | apply inked_cls; inkcls].
Lemma footnote_ik : inkneeds (Seq (tl [LB; Grp 2 (Chr (ch "["));
       Grp 3 (Alts [Grp 4 (Plus true (Cls digit));
                    Grp 5 (Chr (ch "#"));
                    Seq [Chr (ch "#");
                         Grp 6 (Seq [Cls alpha;
                           Star true (Grp 7 (Seq [Opt (Chr (ch "-")); Plus true (Cls alnum)]))])];
                    Grp 8 (Chr (ch "*"))]);
       Grp 9 (Chr (ch "]")); Grp 10 ref_type_re; LA 11])).
Proof. cbn [tl Seq Alts]. apply ik_catr; [inktac|]. apply ik_catr; [inktac|]. apply ik_catr; [inktac|]. apply ik_ref. Qed.

(* ---------- names of URI schemes ---------- *)
(* A dot in the name of a scheme stands for any character. *)
Definition dotted (l l' : str) : Prop := Forall2 (fun x y => x = 46%N \/ x = y) l l'.
Lemma scheme_chars l : forall s t, rel (Seq (map scheme_char l)) s t -> exists l', s = l' ++ t /\ dotted l l'.
Proof.
  assert (One : forall c s t, rel (scheme_char c) s t -> exists d, s = d :: t /\ (c = 46%N \/ c = d)).
  { intros c s t R. unfold scheme_char in R. destruct (N.eqb_spec c (ch ".")) as [->|].
    - apply rel_cls_inv in R as (d & -> & _). exists d. auto.
    - apply rel_chr in R. eauto. }
  induction l as [|c l IH]; intros s t R.
  - apply rel_eps_inv in R. subst. exists []. split; [reflexivity|constructor].
  - destruct l as [|c' l].
    + apply One in R as (d & -> & H). exists [d]. split; [reflexivity|]. constructor; [exact H|constructor].
    + change (rel (Cat (scheme_char c) (Seq (map scheme_char (c' :: l)))) s t) in R.
      apply rel_cat_inv in R as (u & R1 & R2). apply One in R1 as (d & -> & H). apply IH in R2 as (l' & -> & H').
      exists (d :: l'). split; [reflexivity|]. constructor; auto.
Qed.
Definition dot_tails : list str := [lit "beep"; lit "beeps"; lit "50r"; lit "50s"].
Definition scheme_fine (x : string) : bool :=
  let l := q x in
  forallb (fun c => nsp c && negb (N.eqb c 46)) l ||
  existsb (fun b => existsb (fun a => str_eqb l (a ++ 46%N :: b)) [lit "iris"; lit "soap"; lit "xmlrpc"; lit "z39"]) dot_tails.
Lemma schemes_fine : forallb scheme_fine uri_schemes = true.
Proof. vm_compute. reflexivity. Qed.
Lemma dotted_same l l' : forallb (fun c => nsp c && negb (N.eqb c 46)) l = true -> dotted l l' -> l' = l /\ forallb nsp l = true.
Proof.
  intros H D. induction D as [|x y l l' Hx D IH]; [auto|]. cbn [forallb] in *. apply andb_prop in H as [H1 H2]. apply andb_prop in H1 as [H1 H3].
  destruct (IH H2) as [-> ->]. rewrite H1. destruct Hx as [->| ->]; [discriminate|auto].
Qed.
Lemma dotted_app a b l' : dotted (a ++ b) l' -> exists a' b', l' = a' ++ b' /\ dotted a a' /\ dotted b b'.
Proof. intros H. apply Forall2_app_inv_l in H as (a' & b' & H1 & H2 & ->). eauto. Qed.
Definition scheme_taken (s t : str) : Prop :=
  (exists p, s = p ++ t /\ forallb nsp p = true) \/
  exists p c b, s = p ++ c :: b ++ t /\ forallb nsp p = true /\ nsp c = false /\ In b dot_tails.
Lemma scheme_takes x s t : In x uri_schemes -> rel (scheme_re x) s t -> scheme_taken s t.
Proof.
  intros Hx R. pose proof schemes_fine as F. rewrite forallb_forall in F. specialize (F x Hx).
  unfold scheme_re in R. destruct (String.eqb x "whois").
  { left. assert (K : inked (Seq [Lit (q "whoi"); Plus true (Chr (ch "s"))])); [|exact (K _ _ R)]. cbn [Seq]. apply inked_cat; [|inktac].
    change (Lit (q "whoi")) with (Cat (Chr (ch "w")) (Cat (Chr (ch "h")) (Cat (Chr (ch "o")) (Chr (ch "i"))))). inktac. }
  apply scheme_chars in R as (l' & -> & D). unfold scheme_fine in F. apply orb_prop in F as [F|F].
  - destruct (dotted_same _ _ F D) as [-> H]. left. eauto.
  - apply existsb_exists in F as (b & Hb & F). apply existsb_exists in F as (a & Ha & F). apply str_eqb_eq in F. rewrite F in D.
    apply dotted_app in D as (a' & b' & -> & Da & Db). inversion Db as [|? c ? b'' _ Db']; subst.
    assert (Ea : a' = a /\ forallb nsp a = true).
    { apply dotted_same; [|exact Da]. cbn [In] in Ha. repeat (destruct Ha as [<-|Ha]; [reflexivity|]). destruct Ha. }
    assert (Eb : b'' = b /\ forallb nsp b = true).
    { apply dotted_same; [|exact Db']. unfold dot_tails in Hb. cbn [In] in Hb. repeat (destruct Hb as [<-|Hb]; [reflexivity|]). destruct Hb. }
    destruct Ea as [-> Na]. destruct Eb as [-> Nb]. destruct (nsp c) eqn:Ec.
    + left. exists (a ++ c :: b). split; [reflexivity|]. rewrite forallb_app. cbn [forallb]. apply andb_true_intro. split; [exact Na|]. apply andb_true_intro. split; [exact Ec|exact Nb].
    + right. exists a, c, b. rewrite <- app_assoc. auto.
Qed.
Lemma schemes_take s t : rel (Alts (map scheme_re uri_schemes)) s t -> scheme_taken s t.
Proof.
  assert (G : forall l, incl l uri_schemes -> rel (Alts (map scheme_re l)) s t -> scheme_taken s t); [|apply G; intros x H; exact H].
  induction l as [|x l IH]; intros Hi R.
  - apply rel_cls_inv in R as (? & _ & R). discriminate.
  - destruct l as [|y l].
    + apply (scheme_takes x); [apply Hi; now left|exact R].
    + change (rel (Alt (scheme_re x) (Alts (map scheme_re (y :: l)))) s t) in R. apply rel_alt_inv in R as [R|R].
      * apply (scheme_takes x); [apply Hi; now left|exact R].
      * apply IH; [|exact R]. intros z Hz. apply Hi. now right.
Qed.

