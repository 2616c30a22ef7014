(* RegexGroups.v -- what the groups of a pattern can hold, computed from the
   pattern. *)
From Verif Require Import Base Regex RegexProofs InlineSpec.
Require Import Lia.

(* the least number of characters a pattern takes up *)
Fixpoint min_len (r : re) : nat :=
  match r with
  | Eps | Eot | Star _ _ => 0
  | Cls _ => 1
  | Cat a b => min_len a + min_len b
  | Alt a b => Nat.min (min_len a) (min_len b)
  | Grp _ a => min_len a
  end.
Lemma rel_min_len r s t : rel r s t -> length t + min_len r <= length s.
Proof.
  induction 1; cbn [min_len length]; try lia.
Qed.

(* the patterns of the groups numbered g *)
Fixpoint bodies (g : nat) (r : re) : list re :=
  match r with
  | Eps | Eot | Cls _ => []
  | Cat a b | Alt a b => bodies g a ++ bodies g b
  | Star _ a => bodies g a
  | Grp n a => (if n =? g then [a] else []) ++ bodies g a
  end.
Lemma infix_suffix x p s : infix x s -> infix x (p ++ s).
Proof. intros (a & b & ->). exists (p ++ a), b. rewrite app_assoc. reflexivity. Qed.
Lemma relc_bodies r i s t new : relc r i s t new -> forall g j x, In (g, (j, x)) new ->
  infix x s /\ exists r1 u, In r1 (bodies g r) /\ rel r1 (x ++ u) u.
Proof.
  induction 1 as [| |a b i s t u n1 n2 H1 IH1 H2 IH2|a b i s t n H IH|a b i s t n H IH|g0 r i s|g0 r i s t u n1 n2 H1 IH1 Hl H2 IH2|n r i s t n1 H IH|];
    intros g j x Hin; cbn [bodies]; try (destruct Hin; fail).
  - apply in_app_or in Hin as [Hin|Hin].
    + destruct (IH2 _ _ _ Hin) as (Hi & r1 & v & ? & ?). destruct (relc_suffix _ _ _ _ _ H1) as [p ->].
      split; [now apply infix_suffix|]. exists r1, v. rewrite in_app_iff. auto.
    + destruct (IH1 _ _ _ Hin) as (Hi & r1 & v & ? & ?). split; auto. exists r1, v. rewrite in_app_iff. auto.
  - destruct (IH _ _ _ Hin) as (Hi & r1 & v & ? & ?). split; auto. exists r1, v. rewrite in_app_iff. auto.
  - destruct (IH _ _ _ Hin) as (Hi & r1 & v & ? & ?). split; auto. exists r1, v. rewrite in_app_iff. auto.
  - apply in_app_or in Hin as [Hin|Hin].
    + destruct (IH2 _ _ _ Hin) as (Hi & r1 & v & ? & ?). destruct (relc_suffix _ _ _ _ _ H1) as [p ->].
      split; [now apply infix_suffix|]. exists r1, v. auto.
    + destruct (IH1 _ _ _ Hin) as (Hi & r1 & v & ? & ?). split; eauto.
  - destruct Hin as [E|Hin].
    + injection E as -> -> <-. destruct (relc_suffix _ _ _ _ _ H) as [p ->]. rewrite grp_text.
      split; [exists [], t; auto|]. exists r, t. rewrite Nat.eqb_refl. split; [left; auto|].
      eapply relc_rel; eauto.
    + destruct (IH _ _ _ Hin) as (Hi & r1 & v & ? & ?). split; auto. exists r1, v. rewrite in_app_iff. auto.
Qed.

(* whether one of the groups gs always takes part *)
Fixpoint must (gs : list nat) (r : re) : bool :=
  match r with
  | Eps | Eot | Cls _ | Star _ _ => false
  | Cat a b => must gs a || must gs b
  | Alt a b => must gs a && must gs b
  | Grp n a => existsb (Nat.eqb n) gs || must gs a
  end.
Lemma relc_must gs r i s t new : relc r i s t new -> must gs r = true ->
  exists g j x, In g gs /\ In (g, (j, x)) new.
Proof.
  induction 1 as [| |a b i s t u n1 n2 H1 IH1 H2 IH2|a b i s t n H IH|a b i s t n H IH|g0 r i s|g0 r i s t u n1 n2 H1 IH1 Hl H2 IH2|n r i s t n1 H IH|];
    cbn [must]; intros Hm; try discriminate.
  - apply orb_prop in Hm as [Hm|Hm]; [destruct (IH1 Hm) as (g & j & x & ? & ?)|destruct (IH2 Hm) as (g & j & x & ? & ?)];
      exists g, j, x; rewrite in_app_iff; auto.
  - apply andb_prop in Hm as [Ha Hb]. auto.
  - apply andb_prop in Hm as [Ha Hb]. auto.
  - apply orb_prop in Hm as [Hm|Hm].
    + apply existsb_exists in Hm as (g & Hg & Eg). apply Nat.eqb_eq in Eg. subst g. do 3 eexists. split; [eauto|left; reflexivity].
    + destruct (IH Hm) as (g & j & x & ? & ?). exists g, j, x. split; [auto|right; auto].
Qed.
Lemma cap_in n cs x : cap n cs = Some x -> exists j, In (n, (j, x)) cs.
Proof.
  induction cs as [|[m [j t]] cs IH]; cbn; [discriminate|].
  destruct (m =? n) eqn:E.
  - apply Nat.eqb_eq in E. intros H. injection H as ->. subst. eauto.
  - intros H. destruct (IH H). eauto.
Qed.
Lemma in_cap n cs j x : In (n, (j, x)) cs -> exists y, cap n cs = Some y.
Proof.
  induction cs as [|[m [k t]] cs IH]; cbn; [tauto|].
  intros [E|E].
  - injection E as -> -> ->. rewrite Nat.eqb_refl. eauto.
  - destruct (m =? n); eauto.
Qed.

(* the same for the captures of a match *)
Lemma captures_whole r s cs : captures r s = Some cs ->
  exists t, s = whole cs ++ t /\ rel r s t /\ min_len r <= length (whole cs).
Proof.
  intros H. apply captures_sound in H as (p & t & new & -> & Hr & ->). cbn. exists t. split; auto.
  apply relc_rel in Hr. split; auto. apply rel_min_len in Hr. rewrite app_length in Hr. lia.
Qed.
Lemma captures_group r s cs g x : captures r s = Some cs -> g <> 0 -> cap g cs = Some x ->
  infix x s /\ exists r1 u, In r1 (bodies g r) /\ rel r1 (x ++ u) u.
Proof.
  intros H Hg Hc. apply captures_sound in H as (p & t & new & -> & Hr & ->).
  cbn [cap] in Hc. replace (0 =? g) with false in Hc by (symmetry; apply Nat.eqb_neq; auto).
  apply cap_in in Hc as [j Hj]. eapply relc_bodies; eauto.
Qed.
(* the least length of a group's text *)
Definition group_min (g : nat) (r : re) : option nat :=
  match map min_len (bodies g r) with [] => None | n :: l => Some (fold_left Nat.min l n) end.
Lemma fold_min_le l : forall n, fold_left Nat.min l n <= n /\ forall x, In x l -> fold_left Nat.min l n <= x.
Proof.
  induction l as [|y l IH]; intros n; cbn [fold_left].
  - split; [lia|intros x []].
  - destruct (IH (Nat.min n y)) as [H1 H2]. split; [lia|]. intros x [->|Hx]; [lia|auto].
Qed.
Lemma captures_group_min r s cs g x n : captures r s = Some cs -> g <> 0 -> cap g cs = Some x ->
  group_min g r = Some n -> n <= length x.
Proof.
  intros H Hg Hc Hm. destruct (captures_group _ _ _ _ _ H Hg Hc) as (_ & r1 & u & Hin & Hr).
  apply rel_min_len in Hr. rewrite app_length in Hr. unfold group_min in Hm.
  apply (in_map min_len) in Hin. destruct (map min_len (bodies g r)) as [|m l]; [destruct Hin|].
  injection Hm as <-. destruct (fold_min_le l m) as [Ha Hb]. destruct Hin as [->|Hin]; [lia|].
  specialize (Hb _ Hin). lia.
Qed.
Lemma captures_must gs r s cs : captures r s = Some cs -> must gs r = true -> ~ In 0 gs ->
  exists g x, In g gs /\ cap g cs = Some x.
Proof.
  intros H Hm H0. apply captures_sound in H as (p & t & new & -> & Hr & ->).
  destruct (relc_must _ _ _ _ _ _ Hr Hm) as (g & j & x & Hg & Hin).
  destruct (in_cap _ _ _ _ Hin) as [y Hy]. exists g, y. split; auto.
  cbn [cap]. destruct (0 =? g) eqn:E; auto. apply Nat.eqb_eq in E. subst. contradiction.
Qed.
Lemma captures_must1 g r s cs : captures r s = Some cs -> must [g] r = true -> g <> 0 ->
  exists x, cap g cs = Some x.
Proof.
  intros H Hm H0. destruct (captures_must [g] r s cs H Hm) as (g' & x & [<-|[]] & Hx); eauto.
  intros [?|[]]. congruence.
Qed.
(* a group that is always there has some least length *)
Lemma captures_get g r s cs n : captures r s = Some cs -> must [g] r = true -> g <> 0 -> group_min g r = Some n ->
  exists x, cap g cs = Some x /\ n <= length x /\ infix x s.
Proof.
  intros H Hm H0 Hn. destruct (captures_must1 g r s cs H Hm H0) as [x Hx]. exists x. split; auto.
  split; [eapply captures_group_min; eauto|]. eapply captures_group; eauto.
Qed.
