(* ExerciseProofs.v -- the arguments of exercises (C51). *)
From Verif Require Import Base Unicode Regex Patterns Common Prog Inline Body Directives RegexProofs RegexGroups InlineProofs ExerciseSpec.

Definition head_run (p : char -> bool) (s : str) : str := match s with c :: _ => if p c then [c] else [] | [] => [] end.
Definition with_group (n i : nat) (t : str) (cs : caps) : caps := match t with [] => cs | _ => (n, (i, t)) :: cs end.
Definition total {R} (k : @kont R) : Prop := forall i s cs, k i s cs <> None.
Lemma opt_plus {R} n p i s cs (k : @kont R) : total k ->
  rmatch (Opt (Grp n (Plus true (Cls p)))) i s cs k =
  k (i + length (run_of p s)) (skipn (length (run_of p s)) s) (with_group n i (run_of p s) cs).
Proof.
  intros Hk. unfold Opt.
  change (orelse (rmatch (Plus true (Cls p)) i s cs (fun i1 s1 cs1 => k i1 s1 ((n, (i, firstn (i1 - i) s)) :: cs1))) (fun _ => k i s cs) =
    k (i + length (run_of p s)) (skipn (length (run_of p s)) s) (with_group n i (run_of p s) cs)).
  destruct s as [|c s]; [cbn; now rewrite Nat.add_0_r|]. destruct (p c) eqn:E.
  - rewrite plus_rmatch; [|intros ? ? ?; apply Hk|exact E].
    replace (i + length (run_of p (c :: s)) - i) with (length (run_of p (c :: s))) by lia. rewrite run_of_prefix.
    assert (Er : run_of p (c :: s) <> []) by (cbn; rewrite E; discriminate).
    destruct (run_of p (c :: s)) as [|a l] eqn:El; [congruence|]. cbn [with_group]. destruct (k _ _ _) eqn:Ek; [reflexivity|]. exfalso. eapply Hk. exact Ek.
  - cbn [run_of]. rewrite E. cbn [length skipn with_group]. rewrite Nat.add_0_r. unfold Plus. cbn [rmatch]. rewrite E. reflexivity.
Qed.
Lemma opt_one {R} n p i s cs (k : @kont R) : total k ->
  rmatch (Opt (Grp n (Cls p))) i s cs k =
  k (i + length (head_run p s)) (skipn (length (head_run p s)) s) (with_group n i (head_run p s) cs).
Proof.
  intros Hk. unfold Opt. cbn [rmatch]. destruct s as [|c s]; [cbn; now rewrite Nat.add_0_r|]. cbn [head_run]. destruct (p c) eqn:E.
  - replace (S i - i) with 1 by lia. cbn [firstn length skipn with_group]. rewrite Nat.add_1_r. destruct (k _ _ _) eqn:Ek; [reflexivity|]. exfalso. eapply Hk. exact Ek.
  - cbn [orelse length skipn with_group]. now rewrite Nat.add_0_r.
Qed.
Lemma star_all {R} p i s cs (k : @kont R) : total k ->
  rmatch (Star true (Cls p)) i s cs k = k (i + length (run_of p s)) (skipn (length (run_of p s)) s) cs.
Proof. intros Hk. cbn [rmatch]. apply star_greedy; [exact Hk|lia]. Qed.
Definition parts_of (s : str) : str * str * str :=
  let key := run_of alnum s in let s1 := skipn (length key) s in
  let s2 := skipn (length (run_of (N.eqb 32) s1)) s1 in
  let grade := head_run is_ascii_upper s2 in let s3 := skipn (length grade) s2 in
  (key, grade, run_of digit s3).
Lemma exercise_args_eq s : exercise_args s = parts_of s.
Proof.
  unfold exercise_args, captures, rexec, EXERCISE_ARGS, spaces0, space, Chr. cbn [Seq].
  unfold parts_of. set (key := run_of alnum s). set (s1 := skipn (length key) s). set (gap := run_of (N.eqb 32) s1). set (s2 := skipn (length gap) s1).
  set (grade := head_run is_ascii_upper s2). set (s3 := skipn (length grade) s2). set (points := run_of digit s3).
  match goal with |- context [rmatch (Cat ?a (Cat ?b (Cat ?c ?d))) 0 s [] ?k] => set (K := k);
    assert (E : rmatch (Cat a (Cat b (Cat c d))) 0 s [] K = K (length key + length gap + length grade + length points) (skipn (length points) s3)
      (with_group 3 (length key + length gap + length grade) points (with_group 2 (length key + length gap) grade (with_group 1 0 key [])))) end.
  { assert (T0 : total K) by (intros ? ? ?; discriminate).
    assert (T1 : total (fun i1 s1 cs1 => rmatch (Opt (Grp 3 (Plus true (Cls digit)))) i1 s1 cs1 K)) by (intros ? ? ?; rewrite opt_plus by exact T0; apply T0).
    assert (T2 : total (fun i1 s1 cs1 => rmatch (Cat (Opt (Grp 2 (Cls is_ascii_upper))) (Opt (Grp 3 (Plus true (Cls digit))))) i1 s1 cs1 K)).
    { intros ? ? ?. change (rmatch (Opt (Grp 2 (Cls is_ascii_upper))) i s0 cs (fun i1 s1 cs1 => rmatch (Opt (Grp 3 (Plus true (Cls digit)))) i1 s1 cs1 K) <> None).
      rewrite opt_one by exact T1. apply T1. }
    assert (T3 : total (fun i1 s1 cs1 => rmatch (Cat (Star true (Cls (N.eqb 32))) (Cat (Opt (Grp 2 (Cls is_ascii_upper))) (Opt (Grp 3 (Plus true (Cls digit)))))) i1 s1 cs1 K)).
    { intros ? ? ?. match goal with |- rmatch (Cat _ ?b) _ _ _ _ <> None => change (rmatch (Star true (Cls (N.eqb 32))) i s0 cs (fun i1 s1 cs1 => rmatch b i1 s1 cs1 K) <> None) end.
      rewrite star_all by exact T2. apply T2. }
    match goal with |- rmatch (Cat ?a ?b) _ _ _ _ = _ => change (rmatch a 0 s [] (fun i1 s1 cs1 => rmatch b i1 s1 cs1 K) = 
      K (length key + length gap + length grade + length points) (skipn (length points) s3)
      (with_group 3 (length key + length gap + length grade) points (with_group 2 (length key + length gap) grade (with_group 1 0 key [])))) end.
    rewrite (opt_plus 1 alnum 0 s [] _ T3). fold key s1. cbn [Nat.add].
    match goal with |- rmatch (Cat ?a ?b) ?i ?t ?cs _ = _ => change (rmatch (Cat a b) i t cs K) with (rmatch a i t cs (fun i1 s1 cs1 => rmatch b i1 s1 cs1 K)) end.
    rewrite (star_all (N.eqb 32) _ s1 _ _ T2). fold gap s2.
    match goal with |- rmatch (Cat ?a ?b) ?i ?t ?cs _ = _ => change (rmatch (Cat a b) i t cs K) with (rmatch a i t cs (fun i1 s1 cs1 => rmatch b i1 s1 cs1 K)) end.
    rewrite (opt_one 2 is_ascii_upper _ s2 _ _ T1). fold grade s3. rewrite (opt_plus 3 digit _ s3 _ _ T0). reflexivity. }
  rewrite E. unfold K. unfold opt_cap.
  destruct key as [|k0 key], grade as [|g0 grade], points as [|p0 points]; reflexivity.
Qed.
Lemma run_of_decomp p s : s = run_of p s ++ skipn (length (run_of p s)) s.
Proof. rewrite <- (run_of_prefix p s) at 1. symmetry. rewrite run_of_prefix. rewrite <- (run_of_prefix p s) at 1. apply firstn_skipn. Qed.
Lemma run_of_stop p s : not_before p (skipn (length (run_of p s)) s).
Proof. destruct (skipn (length (run_of p s)) s) as [|c t] eqn:E; [exact I|]. exact (run_of_stops p s c t E). Qed.
Lemma run_of_forall p s : forallb p (run_of p s) = true.
Proof. apply forallb_forall. intros c. apply run_of_all. Qed.
Lemma run_of_max p a b : forallb p a = true -> not_before p b -> run_of p (a ++ b) = a.
Proof.
  induction a as [|c a IH]; cbn [app forallb]; intros H Hb.
  - destruct b as [|c b]; [reflexivity|]. cbn. cbn in Hb. now rewrite Hb.
  - apply andb_true_iff in H as [Hc H]. cbn [run_of]. rewrite Hc. f_equal. auto.
Qed.
Theorem exercise_args_spec s key grade points : exercise_args s = (key, grade, points) <-> exercise_parts s key grade points.
Proof.
  rewrite exercise_args_eq. unfold parts_of. split.
  - intros H. injection H as <- <- <-. set (key := run_of alnum s). set (s1 := skipn (length key) s). set (gap := run_of (N.eqb 32) s1). set (s2 := skipn (length gap) s1).
    set (grade := head_run is_ascii_upper s2). set (s3 := skipn (length grade) s2). set (points := run_of digit s3). set (rest := skipn (length points) s3).
    assert (E3 : s3 = points ++ rest) by apply run_of_decomp.
    assert (E2 : s2 = grade ++ s3) by (unfold s3, grade, head_run; destruct s2 as [|c t]; [reflexivity|]; destruct (is_ascii_upper c); reflexivity).
    assert (E1 : s1 = gap ++ s2) by apply run_of_decomp.
    exists gap, rest. rewrite <- E3, <- E2, <- E1. split; [apply run_of_decomp|]. split; [apply run_of_forall|]. split; [apply run_of_stop|].
    split; [apply run_of_forall|]. split; [apply run_of_stop|]. split; [|split; [apply run_of_forall|apply run_of_stop]].
    unfold grade, head_run in *. destruct s2 as [|c t]; [left; split; [reflexivity|]; cbn [app] in E2; now rewrite <- E2|]. destruct (is_ascii_upper c) eqn:Eu; [right; eauto|left].
    split; [reflexivity|]. cbn [app] in E2. rewrite <- E2. exact Eu.
  - intros (gap & rest & -> & Hk & Hs & Hg & Hgs & Hgr & Hp & Hr).
    rewrite (run_of_max alnum key _ Hk Hs). rewrite skipn_app, skipn_all, Nat.sub_diag. cbn [skipn app].
    rewrite (run_of_max (N.eqb 32) gap _ Hg Hgs). rewrite skipn_app, skipn_all, Nat.sub_diag. cbn [skipn app].
    assert (E : head_run is_ascii_upper (grade ++ points ++ rest) = grade).
    { destruct Hgr as [[-> Hn]|(c & -> & Hc)]; cbn [app]; unfold head_run; [|now rewrite Hc]. destruct (points ++ rest); [reflexivity|]. cbn in Hn. now rewrite Hn. }
    rewrite E. rewrite skipn_app, skipn_all, Nat.sub_diag. cbn [skipn app]. now rewrite (run_of_max digit points rest Hp Hr).
Qed.
