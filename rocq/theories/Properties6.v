(* Properties6.v -- reading blocks of lines (C24, C25). *)
From Verif Require Import Base Common TextProofs NodeTypes Blocks BlockSpec BlockProofs.

(* ---------- C24 ---------- *)
(* What a read line has to do with its source line: a blank line becomes the
   empty line, another line loses its indentation or is kept as it is. *)
Definition line_kept (remove : bool) (l t : str) : Prop :=
  if blank l then t = []
  else if remove then dedented (indent_of l) l t /\ indent_of t = 0 else t = l.

Lemma indent_trim_start l : indent_of (trim_start l) = 0.
Proof.
  induction l as [|c l IH]; cbn; auto. destruct (is_whitespace c) eqn:E; auto. cbn. now rewrite E.
Qed.
Lemma tb_line_kept remove l : line_kept remove l (tb_line remove l).
Proof.
  unfold line_kept, tb_line. destruct (blank l); auto. destruct remove; auto.
  split; [|apply indent_trim_start].
  destruct (trim_start_split l) as (w & Hw & Hl & Hn). exists w. auto.
Qed.
Lemma nth_firstn_skipn {A} (src : list A) start n i :
  i < n -> nth_error (firstn n (skipn start src)) i = nth_error src (start + i).
Proof.
  revert start. induction src as [|s src IH]; intros start H.
  - rewrite skipn_nil, firstn_nil. now destruct i, (start + _).
  - destruct start; cbn [skipn Nat.add].
    + clear IH. revert n H. generalize (s :: src). induction i; intros [|x ls] [|n] H; cbn; auto; try lia.
      apply IHi. lia.
    + cbn. apply IH; auto.
Qed.
Lemma Forall2_map_r {A B} (R : A -> B -> Prop) f l : (forall x, R x (f x)) -> Forall2 R l (map f l).
Proof. induction l; cbn; auto. Qed.

Theorem C24_maximal_run src start ia remove al ub tb :
  read_text_block src start ia remove al ub = Ret tb ->
  maximal_run (ends_text_block ia al ub) src start 0 (tb_offset tb) /\
  length (tb_lines tb) = tb_offset tb /\
  Forall2 (line_kept remove) (firstn (tb_offset tb) (skipn start src)) (tb_lines tb).
Proof.
  unfold read_text_block. destruct (checked_sub (length src) start) eqn:E; try discriminate.
  cbn [obind]. intros H. apply Ret_inj in H. subst tb. cbn [tb_offset tb_lines].
  apply checked_sub_ret in E as [E _].
  destruct (text_block_loop_spec src ia remove al ub _ start eq_refl E) as (k & HM & ->).
  rewrite map_length, firstn_length, skipn_length.
  replace (Nat.min k (length src - start)) with k by (destruct HM; lia).
  repeat split; auto; try apply HM. apply Forall2_map_r. apply tb_line_kept.
Qed.

(* Reading fails in no other way than by starting past the end of the source. *)
Theorem C24_defined src start ia remove al ub :
  (exists tb, read_text_block src start ia remove al ub = Ret tb) <-> start <= length src.
Proof.
  unfold read_text_block, checked_sub. destruct (start <=? length src) eqn:E; cbn [obind].
  - apply Nat.leb_le in E. split; eauto.
  - apply Nat.leb_gt in E. split; [intros [? H]; discriminate|lia].
Qed.

(* The property's own case: indentation allowed, no alignment, until the next
   blank line.  The block is the run of non-blank lines. *)
Theorem C24_until_blank src start tb :
  read_text_block src start true false None true = Ret tb ->
  maximal_run (fun l => blank l = true) src start 0 (tb_offset tb) /\
  tb_lines tb = firstn (tb_offset tb) (skipn start src).
Proof.
  intros H. destruct (C24_maximal_run _ _ _ _ _ _ _ H) as ((M1 & M2 & M3 & M4) & Hl & HF).
  assert (Q : forall l, ends_text_block true None true l <-> blank l = true).
  { intros l. unfold ends_text_block. destruct (blank l); split; auto; try discriminate.
    intros [[? _]|(a & ? & _)]; discriminate. }
  split.
  - repeat split; auto. { intros i l Hi Hn. rewrite <- Q. eauto. }
    destruct M4 as [M4|(l & Hn & M4)]; auto. right. exists l. rewrite <- Q. auto.
  - set (n := tb_offset tb) in *. clearbody n. clear H Hl Q M4.
    assert (Hb : forall l, In l (firstn n (skipn start src)) -> blank l = false).
    { intros l Hin. apply In_nth_error in Hin as [i Hi].
      assert (Hlt : i < n).
      { assert (i < length (firstn n (skipn start src))) by (apply nth_error_Some; congruence).
        rewrite firstn_length in H. lia. }
      assert (Hn : nth_error src (start + i) = Some l).
      { rewrite <- Hi. symmetry. now apply nth_firstn_skipn. }
      specialize (M3 i l ltac:(lia) Hn). unfold ends_text_block in M3.
      destruct (blank l); auto. exfalso; apply M3; auto. }
    revert Hb. generalize (firstn n (skipn start src)) as ls, (tb_lines tb), HF. clear.
    induction 1 as [|l t ls ts H HF IH]; intros Hb; auto.
    f_equal; [|apply IH; intros; apply Hb; right; auto].
    unfold line_kept in H. rewrite (Hb l) in H by (left; auto). auto.
Qed.

Example C24_demo :
  exists tb, read_text_block (map lit ["x"; "one"; "  two"; " "; "three"]%string) 1 true true None true
    = Ret tb /\ tb_lines tb = map lit ["one"; "two"]%string /\ tb_offset tb = 2.
Proof. eexists. split; [vm_compute; reflexivity|]. split; vm_compute; reflexivity. Qed.

(* ---------- C25 ---------- *)
(* Which lines are read: the maximal run from the start line.  When the indent
   of the first line is given, that line is taken whatever it looks like. *)
Theorem C25_maximal_run src start ub strip bi fi fa b :
  read_indented_block src start ub strip bi fi fa = Ret (Some b) ->
  maximal_run (ends_indented_block ub bi fa) src start (free_lines (first_given bi fi)) (ib_offset b) /\
  length (ib_lines b) = ib_offset b.
Proof.
  intros H. apply read_indented_block_spec in H.
  destruct H as (taken & Hn & Ht & HM & Hmin & Hbf & HL).
  split; [exact HM|]. rewrite HL, <- Hn. destruct strip; auto.
  destruct (first_given bi fi), taken; cbn; rewrite ?map_length; auto.
Qed.

(* What is removed from them: from every line but a first line with an indent
   of its own, the same number of characters, all white space; the text and the
   relative indentation stay.  Without stripping, lines are kept as they are. *)
Theorem C25_dedented src start ub strip bi fi fa b i l :
  read_indented_block src start ub strip bi fi fa = Ret (Some b) ->
  i < ib_offset b -> nth_error src (start + i) = Some l ->
  exists t, nth_error (ib_lines b) i = Some t /\
    if strip then
      match i, first_given bi fi with
      | 0, Some f => t = skipn f l
      | _, _ => dedented (ib_min_indent b) l t /\
                (blank l = false -> indent_of l = ib_min_indent b + indent_of t)
      end
    else t = l.
Proof.
  intros H Hi Hl. apply read_indented_block_spec in H.
  destruct H as (taken & Hn & Ht & HM & Hmin & Hbf & HL).
  assert (Htk : nth_error taken i = Some l).
  { rewrite Ht, <- Hl. now apply nth_firstn_skipn. }
  rewrite HL. destruct strip; [|exists l; auto].
  assert (Hgen : (i <> 0 \/ first_given bi fi = None) ->
     dedented (ib_min_indent b) l (skipn (ib_min_indent b) l) /\
     (blank l = false -> indent_of l = ib_min_indent b + indent_of (skipn (ib_min_indent b) l))).
  { intros Hc. unfold free_lines in *. set (free := match first_given bi fi with Some _ => 1 | None => 0 end) in *.
    destruct (blank l) eqn:Eb.
    { split; [now apply dedent_blank|discriminate]. }
    assert (Hfi : free <= i) by (subst free; destruct (first_given bi fi); [destruct Hc; [lia|discriminate]|lia]).
    assert (Hns : ~ ends_indented_block ub bi fa l) by (destruct HM as (_ & _ & M & _); apply (M i); auto).
    assert (Hmi : ib_min_indent b <= indent_of l).
    { unfold ends_indented_block in Hns. rewrite Eb in Hns. unfold min_ok in Hmin.
      destruct bi as [bb|].
      - apply some_inj in Hmin. rewrite Hmin.
        destruct fa; destruct (le_lt_dec bb (indent_of l)); auto; exfalso; apply Hns; right; exists bb; split; auto; lia.
      - destruct Hmin as (Hm & _). apply Hm; [|intros Hz; apply Hns; left; auto].
        apply nth_error_In with (n := i - free). rewrite <- Htk. clear - Hfi.
        replace i with (free + (i - free)) at 2 by lia. generalize (i - free). clear.
        intros j. revert taken. induction free; intros [|t taken]; cbn; auto. now destruct j. }
    split; [now apply dedent_skip|]. intros _. rewrite indent_skip by auto. lia. }
  unfold strip_block. destruct (first_given bi fi) as [f|] eqn:Ef.
  - destruct taken as [|t0 taken]; [destruct i; discriminate|]. destruct i; cbn in Htk |- *.
    + apply some_inj in Htk. subst t0. eauto.
    + exists (skipn (ib_min_indent b) l). split; [now apply map_nth_error|]. apply Hgen. lia.
  - exists (skipn (ib_min_indent b) l). split; [now apply map_nth_error|].
    destruct i; apply Hgen; auto.
Qed.

(* The number of characters removed: the block's own indentation if given, else
   the indentation of one of the lines read. *)
Theorem C25_indent src start ub strip bi fi fa b :
  read_indented_block src start ub strip bi fi fa = Ret (Some b) ->
  match bi with
  | Some n => ib_min_indent b = n
  | None => exists i l, free_lines fi <= i < ib_offset b /\ nth_error src (start + i) = Some l /\
                        indent_of l = ib_min_indent b
  end.
Proof.
  intros H. apply read_indented_block_spec in H.
  destruct H as (taken & Hn & Ht & HM & Hmin & Hbf & HL). unfold min_ok in Hmin.
  destruct bi as [n|]; [now apply some_inj in Hmin|].
  destruct Hmin as (_ & [Hm|(l & Hin & Hm)] & _); [discriminate|].
  assert (Efg : first_given None fi = fi) by (now destruct fi). rewrite Efg in *.
  apply In_nth_error in Hin as [j Hj].
  assert (Hj' : nth_error taken (free_lines fi + j) = Some l).
  { rewrite <- Hj. generalize (free_lines fi). clear. intros k. revert taken.
    induction k; intros [|t taken]; cbn; auto. now destruct j. }
  exists (free_lines fi + j), l.
  assert (free_lines fi + j < length taken) by (apply nth_error_Some; congruence).
  split; [lia|]. split; auto.
  rewrite Ht in Hj'. rewrite <- Hj'. symmetry. apply nth_firstn_skipn. lia.
Qed.

(* When the call gives a block, when it reports an empty source, when it
   panics. *)
Theorem C25_defined src start ub strip bi fi fa :
  (read_indented_block src start ub strip bi fi fa = Ret None <-> src = []) /\
  (forall n, bi = Some n ->
     (exists b, read_indented_block src start ub strip bi fi fa = Ret (Some b)) <-> start < length src).
Proof.
  split.
  - split; [|intros ->; reflexivity]. unfold read_indented_block. destruct src as [|s src]; auto.
    destruct (checked_sub _ _); cbn [obind]; try discriminate.
    rewrite first_given_eq. destruct (first_given bi fi) as [f|].
    + destruct (nth_error (s :: src) start); cbn [unwrap obind]; try discriminate.
      destruct (indented_loop _ _ _ _ _ _) as [[ls [m|]] bf]; cbn [obind unwrap]; discriminate.
    + destruct (indented_loop _ _ _ _ _ _) as [[ls [m|]] bf]; cbn [obind unwrap]; discriminate.
  - intros n ->. split.
    + intros [b H]. apply read_indented_block_spec in H.
      destruct H as (taken & _ & _ & (HM & Hf & _) & _). destruct fi; cbn in Hf; lia.
    + intros Hs. unfold read_indented_block. destruct src as [|s src0] eqn:Es; [cbn in Hs; lia|].
      rewrite <- Es in *. clear Es. unfold checked_sub. replace (start <=? length src) with true by (symmetry; apply Nat.leb_le; lia).
      cbn [obind].
      assert (Hf : exists f, match fi with Some _ => fi | None => Some n end = Some f) by (destruct fi; eauto).
      destruct Hf as [f ->]. destruct (nth_error src start) as [l|] eqn:El; [|apply nth_error_None in El; lia].
      cbn [unwrap obind]. destruct (indented_loop _ _ _ _ _ _) as [[ls m] bf] eqn:EL. cbn [obind].
      replace (S start) with (start + 1) in EL by lia.
      destruct (indented_loop_run src ub (Some n) fa start _ 1 (Some l) (Some n) ls m bf eq_refl) as (k & _ & _ & _ & Hmin & _); auto; try lia.
      { cbn. rewrite Nat.add_0_r, El. auto. }
      cbn in Hmin. subst m. cbn [unwrap obind]. eauto.
Qed.

(* Whether the block was followed by a blank line (or the end). *)
Theorem C25_blank_finish src start ub strip bi fi fa b :
  read_indented_block src start ub strip bi fi fa = Ret (Some b) ->
  ib_blank_finish b = true <->
  start + ib_offset b = length src \/
  (exists l, nth_error src (start + ib_offset b) = Some l /\ blank l = true) \/
  (0 < ib_offset b /\ exists l, nth_error src (start + ib_offset b - 1) = Some l /\ blank l = true).
Proof.
  intros H. apply read_indented_block_spec in H.
  destruct H as (taken & Hn & Ht & HM & Hmin & Hbf & HL). rewrite Hbf.
  destruct HM as (M1 & M2 & M3 & M4).
  destruct (nth_error src (start + ib_offset b)) as [l|] eqn:E.
  - assert (start + ib_offset b < length src) by (apply nth_error_Some; congruence).
    destruct (blank l) eqn:Eb.
    + split; auto. intros _. right; left. eauto.
    + unfold prev_blank. destruct (ib_offset b) as [|k].
      * split; [discriminate|]. intros [Q|[(l' & [= <-] & Q)|(Q & _)]]; try lia; congruence.
      * replace (start + S k - 1) with (start + k) by lia. split.
        -- intros Q. right; right. split; [lia|]. destruct (nth_error src (start + k)); try discriminate. eauto.
        -- intros [Q|[(l' & [= <-] & Q)|(_ & l' & -> & Q)]]; try lia; try congruence.
  - apply nth_error_None in E. split; auto. intros _. left. lia.
Qed.

Example C25_demo :
  exists b, read_indented_block (map lit ["* item"; "  more"; ""; "    deep"; " out"]%string)
      0 false true (Some 2) (Some 2) false = Ret (Some b) /\
    ib_lines b = map lit ["item"; "more"; ""; "  deep"]%string /\ ib_offset b = 4 /\ ib_blank_finish b = false.
Proof. eexists. split; [vm_compute; reflexivity|]. repeat split; vm_compute; reflexivity. Qed.
