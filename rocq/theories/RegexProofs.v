(* RegexProofs.v -- the matcher is sound and complete for `rel`, and every
   capture is a piece of the text matched by its group. *)
From Verif Require Import Base Regex.

Lemma rel_suffix r s t : rel r s t -> exists p, s = p ++ t.
Proof.
  induction 1 as [s|p c t Hp|a b s t u _ [p1 E1] _ [p2 E2]|a b s t _ [p1 E1]|a b s t _ [p1 E1]
                 |g r s|g r s t u _ [p1 E1] _ _ [p2 E2]|n r s t _ [p1 E1]|].
  - exists []; reflexivity.
  - exists [c]; reflexivity.
  - exists (p1 ++ p2). rewrite E1, E2, app_assoc. reflexivity.
  - exists p1; exact E1.
  - exists p1; exact E1.
  - exists []; reflexivity.
  - exists (p1 ++ p2). rewrite E1, E2, app_assoc. reflexivity.
  - exists p1; exact E1.
  - exists []; reflexivity.
Qed.

Lemma rel_length r s t : rel r s t -> length t <= length s.
Proof. intros H. destruct (rel_suffix _ _ _ H) as [p ->]. rewrite app_length. lia. Qed.

Lemma relc_rel r i s t n : relc r i s t n -> rel r s t.
Proof.
  induction 1; eauto using rel_eps, rel_cls, rel_cat, rel_altl, rel_altr, rel_star0, rel_star1, rel_grp, rel_eot.
Qed.
Lemma relc_suffix r i s t n : relc r i s t n -> exists p, s = p ++ t.
Proof. intros H. eapply rel_suffix, relc_rel, H. Qed.
Lemma relc_length r i s t n : relc r i s t n -> length t <= length s.
Proof. intros H. eapply rel_length, relc_rel, H. Qed.

Lemma rmatch_sound {R} (r : re) : forall i s cs (k : kont) (x : R),
  rmatch r i s cs k = Some x ->
  exists t new, relc r i s t new /\ k (i + (length s - length t)) t (new ++ cs) = Some x.
Proof.
  induction r as [|p|a IHa b IHb|a IHa b IHb|g r IH|n r IH|]; intros i s cs k x H.
  - exists s, []. cbn in H |- *. rewrite Nat.sub_diag, Nat.add_0_r. auto using relc_eps.
  - destruct s as [|c t]; cbn in H; [discriminate|]. destruct (p c) eqn:E; [|discriminate].
    exists t, []. split; [apply relc_cls; exact E|]. cbn [length app].
    replace (i + (S (length t) - length t)) with (S i) by lia. exact H.
  - cbn [rmatch] in H. destruct (IHa _ _ _ _ _ H) as (t1 & n1 & R1 & K1).
    destruct (IHb _ _ _ _ _ K1) as (t2 & n2 & R2 & K2).
    exists t2, (n2 ++ n1). split; [eapply relc_cat; eassumption|].
    pose proof (relc_length _ _ _ _ _ R1). pose proof (relc_length _ _ _ _ _ R2).
    rewrite <- app_assoc. replace (i + (length s - length t2)) with
      (i + (length s - length t1) + (length t1 - length t2)) by lia. exact K2.
  - cbn [rmatch] in H. destruct (rmatch a i s cs k) as [y|] eqn:Ea; cbn [orelse] in H.
    + injection H as ->. destruct (IHa _ _ _ _ _ Ea) as (t1 & n1 & R1 & K1).
      exists t1, n1. auto using relc_altl.
    + destruct (IHb _ _ _ _ _ H) as (t1 & n1 & R1 & K1).
      exists t1, n1. auto using relc_altr.
  - cbn [rmatch] in H. remember (length s) as m eqn:Em in H. clear Em.
    revert i s cs x H. induction m as [|m IHm]; intros i s cs x H.
    + exists s, []. cbn in H. rewrite Nat.sub_diag, Nat.add_0_r. auto using relc_star0.
    + cbn [star_loop] in H. cbv zeta in H.
      assert (Hdone : forall y, k i s cs = Some y ->
        exists t new, relc (Star g r) i s t new /\ k (i + (length s - length t)) t (new ++ cs) = Some y).
      { intros y Hk. exists s, []. rewrite Nat.sub_diag, Nat.add_0_r. auto using relc_star0. }
      assert (Hmore : forall y, rmatch r i s cs
          (fun i1 s1 cs1 => if i <? i1 then star_loop (rmatch r) g k m i1 s1 cs1 else None) = Some y ->
        exists t new, relc (Star g r) i s t new /\ k (i + (length s - length t)) t (new ++ cs) = Some y).
      { intros y Hy. destruct (IH _ _ _ _ _ Hy) as (t1 & n1 & R1 & K1).
        destruct (Nat.ltb_spec i (i + (length s - length t1))) as [Hlt|]; [|discriminate].
        destruct (IHm _ _ _ _ K1) as (t2 & n2 & R2 & K2).
        pose proof (relc_length _ _ _ _ _ R1). pose proof (relc_length _ _ _ _ _ R2).
        exists t2, (n2 ++ n1). split.
        - eapply relc_star1; [exact R1|lia|exact R2].
        - rewrite <- app_assoc. replace (i + (length s - length t2)) with
            (i + (length s - length t1) + (length t1 - length t2)) by lia. exact K2. }
      destruct g; unfold orelse in H at 1.
      * destruct (rmatch r i s cs _) as [y|] eqn:Er; [injection H as ->; apply Hmore; reflexivity|].
        apply Hdone. exact H.
      * destruct (k i s cs) as [y|] eqn:Ek; [injection H as ->; apply Hdone; reflexivity|].
        apply Hmore. exact H.
  - cbn [rmatch] in H. destruct (IH _ _ _ _ _ H) as (t1 & n1 & R1 & K1).
    exists t1, ((n, (i, firstn (length s - length t1) s)) :: n1).
    split; [apply relc_grp; exact R1|].
    replace (i + (length s - length t1) - i) with (length s - length t1) in K1 by lia. exact K1.
  - destruct s as [|c t]; cbn in H; [|discriminate].
    exists [], []. cbn. rewrite Nat.add_0_r. auto using relc_eot.
Qed.

Lemma star_loop_complete {R} (r : re) (g : bool) (k : @kont R)
  (IH : forall i s cs (k' : @kont R) p t, s = p ++ t -> rel r s t ->
     (forall cs', k' (i + length p) t cs' <> None) -> rmatch r i s cs k' <> None) :
  forall s u, rel (Star g r) s u -> forall n i cs p, length s <= n -> s = p ++ u ->
    (forall cs', k (i + length p) u cs' <> None) -> star_loop (rmatch r) g k n i s cs <> None.
Proof.
  intros s u H. remember (Star g r) as rr eqn:Er. revert Er.
  induction H as [| | | | |g' r' s|g' r' s t u Hr _ Hlen Hst IHst| |]; intros Er; try discriminate;
    injection Er as -> ->; intros n i cs p Hn Ep Hk.
  - assert (p = []) as ->.
    { apply (f_equal (@length _)) in Ep. rewrite app_length in Ep. destruct p; [reflexivity|cbn in Ep; lia]. }
    cbn [length] in Hk. rewrite Nat.add_0_r in Hk.
    destruct n as [|n]; cbn [star_loop]; [apply Hk|]. cbv zeta. unfold orelse.
    destruct g.
    + destruct (rmatch r i s cs _); [discriminate|apply Hk].
    + destruct (k i s cs) eqn:Ek; [discriminate|]. exfalso. apply (Hk cs). exact Ek.
  - destruct n as [|n]; [lia|]. cbn [star_loop]. cbv zeta. unfold orelse.
    destruct (rel_suffix _ _ _ Hr) as [p1 Ep1].
    destruct (rel_suffix _ _ _ Hst) as [p2 Ep2].
    assert (p = p1 ++ p2) as ->.
    { rewrite Ep1, Ep2, app_assoc in Ep. apply app_inv_tail in Ep. congruence. }
    assert (Hm : rmatch r i s cs (fun i1 s1 cs1 => if i <? i1 then star_loop (rmatch r) g k n i1 s1 cs1 else None) <> None).
    { eapply IH; [exact Ep1|exact Hr|]. intros cs'.
      assert (0 < length p1). { rewrite Ep1, app_length in Hlen. lia. }
      destruct (Nat.ltb_spec i (i + length p1)); [|lia].
      eapply IHst; [reflexivity| |exact Ep2|].
      - rewrite Ep1, app_length in Hn. lia.
      - intros cs''. rewrite <- Nat.add_assoc, <- app_length. apply Hk. }
    destruct g.
    + destruct (rmatch r i s cs _); [discriminate|congruence].
    + destruct (k i s cs); [discriminate|exact Hm].
Qed.

Lemma rel_cls_inv' p s t : rel (Cls p) s t -> exists c, s = c :: t /\ p c = true.
Proof. inversion 1; subst; eauto. Qed.
Lemma rel_eps_inv' s t : rel Eps s t -> s = t.
Proof. inversion 1; subst; auto. Qed.

Lemma rmatch_complete {R} (r : re) : forall i s cs (k : @kont R) p t,
  s = p ++ t -> rel r s t -> (forall cs', k (i + length p) t cs' <> None) ->
  rmatch r i s cs k <> None.
Proof.
  induction r as [|pp|a IHa b IHb|a IHa b IHb|g r IH|n r IH|]; intros i s cs k p t E H Hk.
  - apply rel_eps_inv' in H. assert (p = []) as ->.
    { apply (f_equal (@length _)) in E. rewrite H, app_length in E. destruct p; [reflexivity|cbn in E; lia]. }
    cbn in E. rewrite H. cbn. cbn in Hk. rewrite Nat.add_0_r in Hk. apply Hk.
  - apply rel_cls_inv' in H as (c & Hs & Hc). rewrite Hs. cbn. rewrite Hc.
    assert (p = [c]) as ->.
    { rewrite Hs in E. change (c :: t) with ([c] ++ t) in E. apply app_inv_tail in E. congruence. }
    cbn in Hk. rewrite Nat.add_1_r in Hk. apply Hk.
  - inversion H as [| |? ? ? t1 ? H1 H2| | | | | |]; subst. cbn [rmatch].
    destruct (rel_suffix _ _ _ H1) as [p1 E1]. destruct (rel_suffix _ _ _ H2) as [p2 E2].
    assert (p = p1 ++ p2) as ->.
    { rewrite E2, app_assoc in E1. apply app_inv_tail in E1. exact E1. }
    eapply IHa; [exact E1|exact H1|]. intros cs'. cbv beta.
    eapply IHb; [exact E2|exact H2|]. intros cs''.
    rewrite <- Nat.add_assoc, <- app_length. apply Hk.
  - cbn [rmatch]. unfold orelse. inversion H as [| | |? ? ? ? H1|? ? ? ? H1| | | |]; subst.
    + specialize (IHa i (p ++ t) cs k p t eq_refl H1 Hk).
      destruct (rmatch a i (p ++ t) cs k); [discriminate|congruence].
    + destruct (rmatch a i (p ++ t) cs k); [discriminate|].
      eapply IHb; [reflexivity|exact H1|exact Hk].
  - cbn [rmatch]. eapply star_loop_complete; try eassumption. lia.
  - inversion H; subst. cbn [rmatch]. eapply IH; [reflexivity|eassumption|]. intros cs'. apply Hk.
  - inversion H as [| | | | | | | |Es Et]. subst s t. destruct p as [|c p]; [|discriminate].
    cbn. cbn in Hk. rewrite Nat.add_0_r in Hk. apply Hk.
Qed.

(* An anchored pattern matches exactly when it relates the text to some rest. *)
Lemma is_match_spec r s : is_match r s = true <-> exists t, rel r s t.
Proof.
  unfold is_match, rexec. split.
  - destruct (rmatch r 0 s [] _) as [x|] eqn:E; [intros _|discriminate].
    destruct (rmatch_sound _ _ _ _ _ _ E) as (t & new & H & _). exists t.
    eapply relc_rel; exact H.
  - intros [t H]. destruct (rel_suffix _ _ _ H) as [p Ep].
    destruct (rmatch r 0 s [] _) as [x|] eqn:E; [reflexivity|exfalso].
    eapply rmatch_complete in E; [exact E|exact Ep|exact H|]. discriminate.
Qed.

(* What the overall match and the captures of a successful match are. *)
Lemma rexec_sound r s n cs :
  rexec r s = Some (n, cs) ->
  exists p t new, s = p ++ t /\ n = length p /\ relc r 0 s t new /\
    cs = (0, (0, p)) :: new.
Proof.
  unfold rexec. intros E.
  destruct (rmatch_sound _ _ _ _ _ _ E) as (t & new & H & K).
  destruct (relc_suffix _ _ _ _ _ H) as [p Ep].
  cbn [plus] in K. rewrite app_nil_r in K. injection K as Kn Kc.
  assert (En : length s - length t = length p) by (subst s; rewrite app_length; lia).
  exists p, t, new. rewrite En in Kn, Kc. repeat split; auto.
  rewrite <- Kc. subst s. rewrite firstn_app, Nat.sub_diag, firstn_all. cbn. rewrite app_nil_r. reflexivity.
Qed.

Lemma captures_sound r s cs :
  captures r s = Some cs ->
  exists p t new, s = p ++ t /\ relc r 0 s t new /\ cs = (0, (0, p)) :: new.
Proof.
  unfold captures. destruct (rexec r s) as [[n cs']|] eqn:E; [|discriminate].
  intros [= ->]. destruct (rexec_sound _ _ _ _ E) as (p & t & new & H1 & _ & H2 & H3).
  exists p, t, new. auto.
Qed.

Lemma captures_none r s : captures r s = None <-> ~ exists t, rel r s t.
Proof.
  rewrite <- is_match_spec. unfold captures, is_match.
  destruct (rexec r s) as [[n cs]|]; split; congruence.
Qed.

(* ---------- inversion with captures ---------- *)
Lemma relc_cls_inv p i s t n : relc (Cls p) i s t n -> exists c, s = c :: t /\ p c = true /\ n = [].
Proof. inversion 1; subst; eauto. Qed.
Lemma relc_cat_inv a b i s u n : relc (Cat a b) i s u n ->
  exists t n1 n2, relc a i s t n1 /\ relc b (i + (length s - length t)) t u n2 /\ n = n2 ++ n1.
Proof. inversion 1; subst; eauto 8. Qed.
Lemma relc_grp_inv g r i s t n : relc (Grp g r) i s t n ->
  exists n1, relc r i s t n1 /\ n = (g, (i, firstn (length s - length t) s)) :: n1.
Proof. inversion 1; subst; eauto. Qed.
Lemma relc_alt_inv a b i s t n : relc (Alt a b) i s t n -> relc a i s t n \/ relc b i s t n.
Proof. inversion 1; subst; auto. Qed.
Lemma relc_eot_inv i s t n : relc Eot i s t n -> s = [] /\ t = [] /\ n = [].
Proof. inversion 1; subst; auto. Qed.
Lemma relc_eps_inv i s t n : relc Eps i s t n -> s = t /\ n = [].
Proof. inversion 1; subst; auto. Qed.
Lemma relc_star_cls_inv g p i s t n :
  relc (Star g (Cls p)) i s t n -> n = [] /\ exists l, s = l ++ t /\ forallb p l = true.
Proof.
  intros H. remember (Star g (Cls p)) as r eqn:Er. revert Er.
  induction H as [| | | | |g' r' i s|g' r' i s t u n1 n2 Hr _ _ _ IHst| |]; intros Er; try discriminate;
    injection Er as -> ->.
  - split; [reflexivity|]. exists []. auto.
  - apply relc_cls_inv in Hr as (c & -> & Hc & ->). destruct (IHst eq_refl) as (-> & l & -> & Hl).
    split; [reflexivity|]. exists (c :: l). cbn. rewrite Hc, Hl. auto.
Qed.
Lemma relc_plus_cls_inv g p i s t n :
  relc (Plus g (Cls p)) i s t n -> n = [] /\ exists l, s = l ++ t /\ l <> [] /\ forallb p l = true.
Proof.
  intros H. apply relc_cat_inv in H as (u & n1 & n2 & H1 & H2 & ->).
  apply relc_cls_inv in H1 as (c & -> & Hc & ->).
  apply relc_star_cls_inv in H2 as (-> & l & -> & Hl).
  split; [reflexivity|]. exists (c :: l). cbn. rewrite Hc, Hl. repeat split; auto. discriminate.
Qed.
Lemma relc_chr_inv c i s t n : relc (Chr c) i s t n -> s = c :: t /\ n = [].
Proof.
  intros H. apply relc_cls_inv in H as (d & -> & Hd & ->). apply N.eqb_eq in Hd. subst. auto.
Qed.
Lemma relc_lit_inv l i s t n : relc (Lit l) i s t n -> s = l ++ t /\ n = [].
Proof.
  revert i s n. induction l as [|c l IH]; intros i s n H.
  - cbn in H. apply relc_eps_inv in H as [-> ->]. auto.
  - destruct l as [|d l].
    + cbn [Lit] in H. apply relc_chr_inv in H. exact H.
    + cbn [Lit] in H. apply relc_cat_inv in H as (u & n1 & n2 & H1 & H2 & ->).
      apply relc_chr_inv in H1 as [-> ->]. apply IH in H2 as [-> ->]. auto.
Qed.
(* the text of a group *)
Lemma grp_text (p t : str) : firstn (length (p ++ t) - length t) (p ++ t) = p.
Proof.
  rewrite app_length, Nat.add_sub, firstn_app, Nat.sub_diag, firstn_all. cbn. apply app_nil_r.
Qed.

(* ---------- inversion lemmas for the derived constructs ---------- *)
Lemma rel_cls_inv p s t : rel (Cls p) s t -> exists c, s = c :: t /\ p c = true.
Proof. inversion 1; subst; eauto. Qed.
Lemma rel_cat_inv a b s u : rel (Cat a b) s u -> exists t, rel a s t /\ rel b t u.
Proof. inversion 1; subst; eauto. Qed.
Lemma rel_grp_inv n r s t : rel (Grp n r) s t -> rel r s t.
Proof. inversion 1; subst; assumption. Qed.
Lemma rel_alt_inv a b s t : rel (Alt a b) s t -> rel a s t \/ rel b s t.
Proof. inversion 1; subst; auto. Qed.
Lemma rel_eot_inv s t : rel Eot s t -> s = [] /\ t = [].
Proof. inversion 1; subst; auto. Qed.
Lemma rel_eps_inv s t : rel Eps s t -> s = t.
Proof. inversion 1; subst; auto. Qed.

Lemma rel_star_cls g p s t :
  rel (Star g (Cls p)) s t <-> exists l, s = l ++ t /\ forallb p l = true.
Proof.
  split.
  - intros H. remember (Star g (Cls p)) as r eqn:Er. revert Er.
    induction H as [| | | | |g' r' s|g' r' s t u Hr _ _ _ IHst| |]; intros Er; try discriminate;
      injection Er as -> ->.
    + exists []. auto.
    + apply rel_cls_inv in Hr as (c & -> & Hc). destruct (IHst eq_refl) as (l & -> & Hl).
      exists (c :: l). cbn. rewrite Hc, Hl. auto.
  - intros (l & -> & Hl). induction l as [|c l IH]; [apply rel_star0|].
    cbn in Hl. apply andb_prop in Hl as [Hc Hl]. cbn [app].
    eapply rel_star1; [apply rel_cls; exact Hc| |auto]. cbn. lia.
Qed.

Lemma rel_plus_cls g p s t :
  rel (Plus g (Cls p)) s t <-> exists l, s = l ++ t /\ l <> [] /\ forallb p l = true.
Proof.
  unfold Plus. split.
  - intros H. apply rel_cat_inv in H as (u & H1 & H2).
    apply rel_cls_inv in H1 as (c & -> & Hc). apply rel_star_cls in H2 as (l & -> & Hl).
    exists (c :: l). cbn. rewrite Hc, Hl. repeat split; auto. discriminate.
  - intros (l & -> & Hne & Hl). destruct l as [|c l]; [congruence|].
    cbn in Hl. apply andb_prop in Hl as [Hc Hl]. cbn [app].
    eapply rel_cat; [apply rel_cls; exact Hc|]. apply rel_star_cls. eauto.
Qed.

Lemma rel_chr c s t : rel (Chr c) s t <-> s = c :: t.
Proof.
  unfold Chr. split.
  - intros H. apply rel_cls_inv in H as (d & -> & Hd). apply N.eqb_eq in Hd. subst. reflexivity.
  - intros ->. apply rel_cls. apply N.eqb_refl.
Qed.

Lemma rel_lit l s t : rel (Lit l) s t <-> s = l ++ t.
Proof.
  revert s. induction l as [|c l IH]; intros s.
  - cbn. split; [intros H; apply rel_eps_inv in H; auto|intros ->; apply rel_eps].
  - destruct l as [|d l].
    + cbn [Lit app]. apply rel_chr.
    + cbn [Lit]. split.
      * intros H. apply rel_cat_inv in H as (u & H1 & H2). apply rel_chr in H1. apply IH in H2.
        subst. reflexivity.
      * intros ->. eapply rel_cat; [apply rel_chr; reflexivity|]. apply IH. reflexivity.
Qed.

Lemma rel_opt r s t : rel (Opt r) s t <-> rel r s t \/ s = t.
Proof.
  unfold Opt. split.
  - intros H. apply rel_alt_inv in H as [H|H]; [auto|]. apply rel_eps_inv in H. auto.
  - intros [H| ->]; [apply rel_altl; exact H|apply rel_altr; apply rel_eps].
Qed.

(* a pattern without groups records nothing *)
Fixpoint no_grp (r : re) : bool :=
  match r with
  | Eps | Cls _ | Eot => true
  | Cat a b | Alt a b => no_grp a && no_grp b
  | Star _ a => no_grp a
  | Grp _ _ => false
  end.
Lemma relc_nogrp r i s t n : no_grp r = true -> relc r i s t n -> n = [].
Proof.
  intros Hn H. induction H as [| |a b i s t u n1 n2 _ IH1 _ IH2|a b i s t n _ IH|a b i s t n _ IH
    | |g r i s t u n1 n2 _ IH1 _ _ IH2|n r i s t n1 _ IH|]; cbn in Hn; try reflexivity; try discriminate.
  - apply andb_prop in Hn as [Ha Hb]. rewrite IH1, IH2 by assumption. reflexivity.
  - apply andb_prop in Hn as [Ha Hb]. auto.
  - apply andb_prop in Hn as [Ha Hb]. auto.
  - rewrite IH1, IH2 by assumption. reflexivity.
Qed.

(* a group around a group-free pattern *)
Lemma relc_grp_simple g r i s t n : no_grp r = true -> relc (Grp g r) i s t n ->
  exists p, s = p ++ t /\ rel r (p ++ t) t /\ n = [(g, (i, p))].
Proof.
  intros Hn H. apply relc_grp_inv in H as (n1 & H & ->).
  destruct (relc_suffix _ _ _ _ _ H) as [p ->].
  rewrite (relc_nogrp _ _ _ _ _ Hn H). exists p. rewrite grp_text.
  repeat split. eapply relc_rel; exact H.
Qed.
