(* GreedyProofs.v -- what a greedy pattern matches first (used for C47). *)
From Verif Require Import Base Unicode Regex Patterns RegexProofs RegexGroups.

(* ---------- the matcher finds something that satisfies P ---------- *)
Definition yields {R} (o : option R) (P : R -> Prop) : Prop := exists x, o = Some x /\ P x.
Section Yield.
  Context {R : Type}.
  Variable P : R -> Prop.
  Lemma star_more p cs (k : @kont R) n i c t : star_loop (rmatch (Cls p)) true k (S n) i (c :: t) cs =
    if p c then orelse (star_loop (rmatch (Cls p)) true k n (S i) t cs) (fun _ => k i (c :: t) cs) else k i (c :: t) cs.
  Proof.
    change (orelse (if p c then (if i <? S i then star_loop (rmatch (Cls p)) true k n (S i) t cs else None) else None) (fun _ => k i (c :: t) cs) =
      if p c then orelse (star_loop (rmatch (Cls p)) true k n (S i) t cs) (fun _ => k i (c :: t) cs) else k i (c :: t) cs).
    replace (i <? S i) with true by (symmetry; apply Nat.ltb_lt; lia). destruct (p c); reflexivity.
  Qed.
  Lemma star_over p cs (k : @kont R) n i : star_loop (rmatch (Cls p)) true k n i [] cs = k i [] cs.
  Proof. destruct n; reflexivity. Qed.
  Lemma star_none p cs (k : @kont R) : forall n i b, (forall u v, b = u ++ v -> forallb p u = true -> k (i + length u) v cs = None) ->
    star_loop (rmatch (Cls p)) true k n i b cs = None.
  Proof.
    induction n as [|n IH]; intros i b H.
    - specialize (H [] b eq_refl eq_refl). now rewrite Nat.add_0_r in H.
    - assert (H0 : k i b cs = None) by (specialize (H [] b eq_refl eq_refl); now rewrite Nat.add_0_r in H).
      destruct b as [|c b]; [now rewrite star_over|]. rewrite star_more, H0. destruct (p c) eqn:E; [|reflexivity]. rewrite IH; [reflexivity|].
      intros u v -> Hu. specialize (H (c :: u) v eq_refl). cbn [forallb length] in H. rewrite E in H. specialize (H Hu).
      now rewrite Nat.add_succ_comm.
  Qed.
  Lemma star_to p cs (k : @kont R) b : forall a n i, length a + length b <= n -> forallb p a = true ->
    (forall u v, b = u ++ v -> u <> [] -> forallb p u = true -> k (i + length a + length u) v cs = None) ->
    yields (k (i + length a) b cs) P -> yields (star_loop (rmatch (Cls p)) true k n i (a ++ b) cs) P.
  Proof.
    induction a as [|c a IH]; intros n i Hn Ha Hno (x & Ex & HP).
    - cbn [app length] in *. rewrite Nat.add_0_r in *. destruct b as [|c b]; [rewrite star_over; exists x; auto|].
      destruct n as [|n]; [exists x; auto|]. rewrite star_more. destruct (p c) eqn:E; [|exists x; auto].
      rewrite star_none; [exists x; auto|].
      intros u v -> Hu. specialize (Hno (c :: u) v eq_refl ltac:(discriminate)). cbn [forallb length] in Hno. rewrite E in Hno.
      rewrite Nat.add_succ_comm. now apply Hno.
    - cbn [forallb] in Ha. apply andb_true_iff in Ha as [Hc Ha]. cbn [length] in *. destruct n as [|n]; [lia|]. cbn [app]. rewrite star_more, Hc.
      destruct (IH n (S i) ltac:(lia) Ha) as (y & Ey & HPy).
      + intros u v E Hu Hp. rewrite <- (Hno u v E Hu Hp). f_equal. lia.
      + exists x. split; [|exact HP]. rewrite <- Ex. f_equal. lia.
      + exists y. rewrite Ey. auto.
  Qed.
  Lemma m_star p a b i cs (k : @kont R) : forallb p a = true ->
    (forall u v, b = u ++ v -> u <> [] -> forallb p u = true -> k (i + length a + length u) v cs = None) ->
    yields (k (i + length a) b cs) P -> yields (rmatch (Star true (Cls p)) i (a ++ b) cs k) P.
  Proof. intros Ha Hno Hy. cbn [rmatch]. apply star_to; auto. rewrite app_length. lia. Qed.
  Lemma m_plus p c a b i cs (k : @kont R) : p c = true -> forallb p a = true ->
    (forall u v, b = u ++ v -> u <> [] -> forallb p u = true -> k (i + length (c :: a) + length u) v cs = None) ->
    yields (k (i + length (c :: a)) b cs) P -> yields (rmatch (Plus true (Cls p)) i (c :: a ++ b) cs k) P.
  Proof.
    intros Hc Ha Hno Hy. unfold Plus.
    change (yields (match c :: a ++ b with c0 :: t => if p c0 then rmatch (Star true (Cls p)) (S i) t cs k else None | [] => None end) P).
    cbv iota. rewrite Hc. cbn [length] in *. rewrite <- Nat.add_succ_comm in Hno, Hy. now apply m_star.
  Qed.
  Definition not_at (p : char -> bool) (s : str) : Prop := match s with [] => True | c :: _ => p c = false end.
  Lemma stops p (b : str) : not_at p b -> forall u v : list char, b = u ++ v -> u <> [] -> forallb p u = true -> False.
  Proof. intros H [|c u] v -> Hu Hp; [congruence|]. cbn in H, Hp. rewrite H in Hp. discriminate. Qed.
  Lemma m_chr c t i cs (k : @kont R) : yields (k (S i) t cs) P -> yields (rmatch (Chr c) i (c :: t) cs k) P.
  Proof. intros H. cbn [rmatch Chr]. now rewrite N.eqb_refl. Qed.
  Lemma m_alt r1 r2 i s cs (k : @kont R) : yields (rmatch r1 i s cs k) P -> yields (rmatch (Alt r1 r2) i s cs k) P.
  Proof. intros (x & E & H). exists x. cbn [rmatch]. now rewrite E. Qed.
  Lemma m_alt2 r1 r2 i s cs (k : @kont R) : rmatch r1 i s cs k = None -> yields (rmatch r2 i s cs k) P -> yields (rmatch (Alt r1 r2) i s cs k) P.
  Proof. intros E H. cbn [rmatch]. now rewrite E. Qed.
End Yield.
Ltac no_more := let u := fresh in let v := fresh in let E := fresh in let Hu := fresh in let Hp := fresh in
  intros u v E Hu Hp; exfalso; revert u v E Hu Hp; apply stops.
Lemma took (a b : str) i : firstn (i + length a - i) (a ++ b) = a.
Proof. replace (i + length a - i) with (length a) by lia. rewrite firstn_app, Nat.sub_diag, firstn_O, app_nil_r. apply firstn_all. Qed.
Lemma took_all (a : str) i : firstn (i + length a - i) a = a.
Proof. replace (i + length a - i) with (length a) by lia. apply firstn_all. Qed.
Lemma cat_yields {R} (P : R -> Prop) a b i s cs k : yields (rmatch a i s cs (fun i1 s1 cs1 => rmatch b i1 s1 cs1 k)) P -> yields (rmatch (Cat a b) i s cs k) P.
Proof. exact (fun H => H). Qed.
Lemma grp_yields {R} (P : R -> Prop) n r i s cs k : yields (rmatch r i s cs (fun i1 s1 cs1 => k i1 s1 ((n, (i, firstn (i1 - i) s)) :: cs1))) P -> yields (rmatch (Grp n r) i s cs k) P.
Proof. exact (fun H => H). Qed.
Lemma captures_yields r s (P : caps -> Prop) : yields (rexec r s) (fun x => P (snd x)) -> exists cs, captures r s = Some cs /\ P cs.
Proof. intros ([n cs] & E & H). exists cs. unfold captures. rewrite E. auto. Qed.

