(* TextProofs.v -- proofs about the text functions of Base.v and Common.v *)
From Verif Require Import Base Unicode Common Spec.

Lemma str_eqb_spec a b : reflect (a = b) (str_eqb a b).
Proof.
  revert b. induction a as [|x a IH]; destruct b as [|y b]; cbn; try (constructor; congruence).
  destruct (N.eqb_spec x y) as [->|Hn]; cbn.
  - destruct (IH b) as [->|Hn]; constructor; congruence.
  - constructor. congruence.
Qed.
Lemma str_eqb_eq a b : str_eqb a b = true <-> a = b.
Proof. destruct (str_eqb_spec a b); split; congruence. Qed.
Lemma str_eqb_refl a : str_eqb a a = true.
Proof. apply str_eqb_eq. reflexivity. Qed.
Lemma str_mem_In x l : str_mem x l = true <-> In x l.
Proof.
  unfold str_mem. rewrite existsb_exists. split.
  - intros (y & Hy & E). apply str_eqb_eq in E. congruence.
  - intros H. exists x. split; [exact H|apply str_eqb_refl].
Qed.

(* ---------- decimal numerals ---------- *)
Lemma uint_to_str_inj a b : uint_to_str a = uint_to_str b -> a = b.
Proof. revert b. induction a; destruct b; cbn; intros H; try congruence; f_equal; auto; apply IHa; congruence. Qed.
Lemma dec_inj a b : dec a = dec b -> a = b.
Proof. unfold dec. intros H. apply uint_to_str_inj in H. apply DecimalN.Unsigned.to_uint_inj. exact H. Qed.
Lemma dec_digits n : Forall (fun c => is_ascii_digit c = true) (dec n).
Proof. unfold dec. induction (N.to_uint n); cbn; repeat constructor; auto. Qed.
Lemma dec_nat_inj a b : dec_nat a = dec_nat b -> a = b.
Proof. unfold dec_nat. intros H. apply dec_inj in H. lia. Qed.

(* ---------- splitting into lines ---------- *)
Lemma strip_cr_drop cur t :
  ~ In newline cur ->
  drop_cr (rev cur ++ newline :: t) = strip_cr cur ++ newline :: drop_cr t.
Proof.
  (* prove via: drop_cr on a newline-free prefix p followed by newline *)
  assert (G : forall p, ~ In newline p ->
     drop_cr (p ++ newline :: t) = strip_cr (rev p) ++ newline :: drop_cr t).
  { induction p as [|c p IH]; intros Hn.
    - cbn [rev strip_cr app]. destruct t; cbn; reflexivity.
    - assert (Hc : c <> newline) by (intros ->; apply Hn; left; reflexivity).
      assert (Hp : ~ In newline p) by (intros Hi; apply Hn; right; exact Hi).
      specialize (IH Hp). destruct p as [|d p].
      + cbn [app rev]. cbn [drop_cr app] in IH |- *. unfold newline at 1. rewrite N.eqb_refl, andb_true_r.
        destruct (N.eqb_spec c 13) as [->|Hc13].
        * cbn [strip_cr app]. cbn [N.eqb Pos.eqb rev app]. exact IH.
        * cbn [strip_cr]. destruct (N.eqb_spec c 13); [congruence|]. cbn [rev app].
          f_equal. exact IH.
      + cbn [app]. cbn [app] in IH. cbn [drop_cr]. cbn [drop_cr] in IH.
        assert (Hd : d <> newline) by (intros ->; apply Hp; left; reflexivity).
        replace (d =? 10)%N with false by (symmetry; apply N.eqb_neq; exact Hd).
        rewrite andb_false_r. rewrite IH.
        cbn [rev].
        assert (Hne : rev p ++ [d] <> []) by (destruct (rev p); discriminate).
        destruct (rev p ++ [d]) as [|e r] eqn:Er; [congruence|].
        cbn [app strip_cr]. destruct (e =? 13)%N; cbn [rev]; rewrite ?rev_app_distr; reflexivity. }
  intros Hn. specialize (G (rev cur)). rewrite rev_involutive in G. apply G.
  intros Hi. apply Hn. apply in_rev. exact Hi.
Qed.

Lemma drop_cr_clean s : ~ In newline s -> drop_cr s = s.
Proof.
  induction s as [|c s IH]; intros Hn; [reflexivity|].
  assert (Hs : ~ In newline s) by (intros Hi; apply Hn; right; exact Hi).
  specialize (IH Hs). cbn [drop_cr]. destruct s as [|d s]; [reflexivity|].
  assert (Hd : d <> newline) by (intros ->; apply Hs; left; reflexivity).
  replace (d =? 10)%N with false by (symmetry; apply N.eqb_neq; exact Hd).
  rewrite andb_false_r, IH. reflexivity.
Qed.

Lemma lines_aux_nonempty s : forall cur, cur <> [] -> lines_aux s cur <> [].
Proof.
  induction s as [|c s IH]; intros cur Hc; cbn.
  - destruct cur; [congruence|discriminate].
  - destruct (N.eqb c newline); [discriminate|]. apply IH. discriminate.
Qed.

Lemma lines_aux_join s : forall cur, ~ In newline cur ->
  exists fin, (fin = [] \/ fin = [newline]) /\
    drop_cr (rev cur ++ s) = join [newline] (lines_aux s cur) ++ fin.
Proof.
  induction s as [|c s IH]; intros cur Hcur; cbn [lines_aux].
  - rewrite app_nil_r. exists []. split; [auto|].
    rewrite drop_cr_clean by (intros Hi; apply Hcur; apply in_rev; exact Hi).
    destruct cur as [|d cur]; [reflexivity|]. cbn [join]. rewrite app_nil_r. reflexivity.
  - destruct (N.eqb_spec c newline) as [->|Hc].
    + rewrite strip_cr_drop by exact Hcur.
      destruct (IH [] (fun H => H)) as (fin & Hfin & E). cbn [rev app] in E. rewrite E.
      destruct (lines_aux s []) as [|l ls] eqn:El.
      * cbn [join app]. cbn in E. destruct Hfin as [-> | ->].
        -- exists [newline]. split; auto.
        -- (* lines_aux s [] = [] forces s = [] *)
           destruct s as [|d s]; [cbn in E; discriminate|].
           cbn in El. destruct (N.eqb d newline); [discriminate|].
           exfalso. revert El. apply lines_aux_nonempty. discriminate.
      * exists fin. split; [exact Hfin|]. cbn [join]. destruct ls; rewrite <- !app_assoc; reflexivity.
    + destruct (IH (c :: cur)) as (fin & Hfin & E).
      { intros [Hi|Hi]; [congruence|auto]. }
      exists fin. split; [exact Hfin|]. rewrite <- E. cbn [rev]. rewrite <- app_assoc. reflexivity.
Qed.

Lemma lines_join s :
  exists fin, (fin = [] \/ fin = [newline]) /\ drop_cr s = join [newline] (lines s) ++ fin.
Proof. exact (lines_aux_join s [] (fun H => H)). Qed.

Lemma lines_no_newline s l : In l (lines s) -> ~ In newline l.
Proof.
  unfold lines. assert (G : forall cur, ~ In newline cur -> In l (lines_aux s cur) -> ~ In newline l).
  { induction s as [|c s IH]; intros cur Hc Hl; cbn in Hl.
    - destruct cur as [|d cur]; [contradiction|]. destruct Hl as [<-|[]].
      intros Hi. apply Hc. apply in_rev. exact Hi.
    - destruct (N.eqb_spec c newline) as [->|Hn].
      + destruct Hl as [<-|Hl]; [|eapply IH; [|exact Hl]; intros []].
        intros Hi. apply Hc. destruct cur as [|d cur]; [contradiction|].
        cbn [strip_cr] in Hi. destruct (N.eqb d 13); apply in_rev in Hi.
        * right; exact Hi.
        * exact Hi.
      + eapply IH; [|exact Hl]. intros [Hi|Hi]; [congruence|auto]. }
  apply G. intros [].
Qed.

(* ---------- strip_indent ---------- *)
Lemma strip_loop_some s n r :
  strip_loop s n = Ret (Some r) <-> exists p, s = p ++ r /\ length p = n /\ all_ws p.
Proof.
  revert s. induction n as [|n IH]; intros s; cbn.
  - split.
    + intros [= ->]. exists []. repeat split. constructor.
    + intros (p & -> & Hl & _). destruct p; [reflexivity|discriminate].
  - destruct s as [|c s].
    + split; [discriminate|]. intros (p & E & Hl & _). destruct p; [discriminate|]. discriminate.
    + destruct (is_whitespace c) eqn:Ec; cbn [negb].
      * rewrite IH. split.
        -- intros (p & -> & Hl & Hp). exists (c :: p). cbn. repeat split; [lia|]. constructor; auto.
        -- intros (p & E & Hl & Hp). destruct p as [|d p]; [discriminate|].
           injection E as -> ->. inversion Hp; subst. exists p. repeat split; auto.
      * split; [discriminate|]. intros (p & E & Hl & Hp).
        destruct p as [|d p]; [discriminate|]. injection E as -> ->. inversion Hp. congruence.
Qed.

Lemma strip_loop_none s n :
  strip_loop s n = Ret None <->
  exists p c t, s = p ++ c :: t /\ length p < n /\ all_ws p /\ is_whitespace c = false.
Proof.
  revert s. induction n as [|n IH]; intros s; cbn.
  - split; [discriminate|]. intros (p & c & t & _ & Hl & _). lia.
  - destruct s as [|c s].
    + split; [discriminate|]. intros (p & d & t & E & _). destruct p; discriminate.
    + destruct (is_whitespace c) eqn:Ec; cbn [negb].
      * rewrite IH. split.
        -- intros (p & d & t & -> & Hl & Hp & Hd). exists (c :: p), d, t. cbn.
           repeat split; auto; [lia|]. constructor; auto.
        -- intros (p & d & t & E & Hl & Hp & Hd). destruct p as [|e p].
           ++ injection E as -> ->. congruence.
           ++ injection E as -> ->. inversion Hp; subst. exists p, d, t. cbn in Hl. repeat split; auto. lia.
      * split; [intros _|reflexivity]. exists [], c, s. cbn. repeat split; auto; [lia|constructor].
Qed.

Lemma strip_loop_panic s n : strip_loop s n = Panic <-> all_ws s /\ length s < n.
Proof.
  revert s. induction n as [|n IH]; intros s; cbn.
  - split; [discriminate|]. lia.
  - destruct s as [|c s].
    + split; [intros _|reflexivity]. split; [constructor|cbn; lia].
    + destruct (is_whitespace c) eqn:Ec; cbn [negb].
      * rewrite IH. cbn [length]. split.
        -- intros [H Hl]. split; [constructor; auto|lia].
        -- intros [H Hl]. inversion H; subst. split; [assumption|lia].
      * split; [discriminate|]. intros [H _]. inversion H. congruence.
Qed.

Lemma strip_loop_no_fuel s n : strip_loop s n <> OutOfFuel.
Proof.
  revert s. induction n as [|n IH]; intros s; cbn; [discriminate|].
  destruct s; [discriminate|]. destruct (is_whitespace c); cbn; [apply IH|discriminate].
Qed.

(* ---------- options ---------- *)
Definition flag (name : string) (args : list str) : bool := str_mem (lit name) args.

Lemma options_fold args : forall o,
  let r := fold_left option_step args o in
  print_full_document r = print_full_document o || flag "--full-doc" args /\
  generate_class_file r = generate_class_file o || flag "--aplus-cls" args.
Proof.
  induction args as [|a args IH]; intros o; cbn [fold_left].
  - cbn. rewrite !orb_false_r. auto.
  - destruct (IH (option_step o a)) as [H1 H2]. cbv zeta. rewrite H1, H2.
    unfold flag, str_mem. cbn [existsb]. unfold option_step.
    assert (Hs : forall x y, str_eqb x y = str_eqb y x).
    { intros x y. destruct (str_eqb_spec x y), (str_eqb_spec y x); congruence. }
    rewrite !(Hs (lit _) a).
    destruct (str_eqb_spec a (lit "--to-stdout")) as [->|_]; [cbn; auto|].
    destruct (str_eqb_spec a (lit "--to-file")) as [->|_]; [cbn; auto|].
    destruct (str_eqb_spec a (lit "--full-doc")) as [->|_]; [cbn; rewrite orb_true_r; auto|].
    destruct (str_eqb_spec a (lit "--aplus-cls")) as [->|_]; cbn; rewrite ?orb_true_r; auto.
Qed.

Lemma fold_stream_skip args : forall o,
  Forall (fun a => a <> lit "--to-stdout" /\ a <> lit "--to-file") args ->
  output_stream (fold_left option_step args o) = output_stream o.
Proof.
  induction args as [|a args IH]; intros o H; [reflexivity|].
  inversion H as [|? ? [H1 H2] H3]; subst. cbn [fold_left]. rewrite IH by assumption.
  unfold option_step.
  destruct (str_eqb_spec a (lit "--to-stdout")); [congruence|].
  destruct (str_eqb_spec a (lit "--to-file")); [congruence|].
  destruct (str_eqb a (lit "--full-doc")); [reflexivity|].
  destruct (str_eqb a (lit "--aplus-cls")); reflexivity.
Qed.

Lemma options_stream_none args :
  Forall (fun a => a <> lit "--to-stdout" /\ a <> lit "--to-file") args ->
  output_stream (options_new args) = StdOut.
Proof. intros H. unfold options_new. rewrite fold_stream_skip by exact H. reflexivity. Qed.

Lemma options_stream_last before choice after :
  (choice = lit "--to-stdout" \/ choice = lit "--to-file") ->
  Forall (fun a => a <> lit "--to-stdout" /\ a <> lit "--to-file") after ->
  output_stream (options_new (before ++ choice :: after)) =
  if str_eqb choice (lit "--to-file") then ToFile else StdOut.
Proof.
  intros Hc H. unfold options_new. rewrite fold_left_app. cbn [fold_left].
  rewrite fold_stream_skip by exact H. unfold option_step.
  destruct Hc as [-> | ->]; reflexivity.
Qed.

Lemma options_unknown before x after :
  x <> lit "--to-stdout" -> x <> lit "--to-file" -> x <> lit "--full-doc" -> x <> lit "--aplus-cls" ->
  options_new (before ++ x :: after) = options_new (before ++ after).
Proof.
  intros H1 H2 H3 H4. unfold options_new. rewrite !fold_left_app. cbn [fold_left]. f_equal.
  unfold option_step.
  destruct (str_eqb_spec x (lit "--to-stdout")); [congruence|].
  destruct (str_eqb_spec x (lit "--to-file")); [congruence|].
  destruct (str_eqb_spec x (lit "--full-doc")); [congruence|].
  destruct (str_eqb_spec x (lit "--aplus-cls")); [congruence|]. reflexivity.
Qed.
