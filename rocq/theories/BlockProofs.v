(* BlockProofs.v -- lemmas about the block reading functions. *)
From Verif Require Import Base Common TextProofs NodeTypes Blocks BlockSpec.

Lemma skipn_nth {A} (l : list A) n x : nth_error l n = Some x -> skipn n l = x :: skipn (S n) l.
Proof. revert l; induction n; destruct l; cbn; intros H; try discriminate; [now inversion H|now apply IHn]. Qed.
Lemma skipn_nil_inv {A} (l : list A) n : skipn n l = [] -> length l <= n.
Proof. revert l; induction n; destruct l; cbn; intros H; try discriminate; try lia. apply IHn in H. lia. Qed.
Lemma skipn_cons {A} (l : list A) n x t : skipn n l = x :: t -> nth_error l n = Some x /\ skipn (S n) l = t.
Proof. revert l; induction n; destruct l; cbn; intros H; try discriminate; [now inversion H|now apply IHn in H]. Qed.

Lemma checked_sub_ret a b n : checked_sub a b = Ret n -> b <= a /\ n = a - b.
Proof. unfold checked_sub. destruct (b <=? a) eqn:E; intros H; inversion H. apply Nat.leb_le in E. lia. Qed.

Lemma Ret_inj {A} (a b : A) : Ret a = Ret b -> a = b.
Proof. now intros [=]. Qed.
Lemma some_inj {A} (a b : A) : Some a = Some b -> a = b.
Proof. now intros [=]. Qed.

(* ---------- read_text_block ---------- *)
Definition tb_line (remove : bool) (l : str) : str :=
  if blank l then [] else if remove then trim_start l else l.

Lemma trim_start_blank l : blank l = true -> trim_start l = [].
Proof. induction l; cbn; auto. intros H; apply andb_prop in H as [H1 H2]. rewrite H1; auto. Qed.
Lemma trim_blank l : blank l = true -> trim l = [].
Proof. intros H. unfold trim. rewrite trim_start_blank; auto. Qed.

Lemma text_block_loop_spec src ia ri al ub : forall n start,
  length (skipn start src) = n -> start <= length src ->
  exists k, maximal_run (ends_text_block ia al ub) src start 0 k /\
    text_block_loop (skipn start src) ia ri al ub = map (tb_line ri) (firstn k (skipn start src)).
Proof.
  induction n as [|n IH]; intros start Hn Hs; destruct (skipn start src) as [|l rest] eqn:E; try discriminate.
  - exists 0. apply skipn_nil_inv in E. repeat split; cbn; lia || (left; lia) || auto.
  - clear Hs. destruct (skipn_cons _ _ _ _ E) as [Hl Hr].
    assert (Hlt : start < length src) by (apply nth_error_Some; congruence).
    assert (Hstop : ends_text_block ia al ub l ->
       maximal_run (ends_text_block ia al ub) src start 0 0).
    { intros St. repeat split; try lia. right. exists l. rewrite Nat.add_0_r; auto. }
    assert (Hgo : ~ ends_text_block ia al ub l -> forall x, x = tb_line ri l ->
       exists k, maximal_run (ends_text_block ia al ub) src start 0 k /\
       x :: text_block_loop rest ia ri al ub = map (tb_line ri) (firstn k (l :: rest))).
    { intros St x ->. specialize (IH (S start)). rewrite Hr in IH. cbn in Hn.
      destruct IH as (k & (M1 & M2 & M3 & M4) & Hk); try lia.
      exists (S k). split.
      - repeat split; try lia.
        + intros i l' Hi Hl'. destruct i.
          * rewrite Nat.add_0_r in Hl'. congruence.
          * apply (M3 i); try lia. now replace (S start + i) with (start + S i) by lia.
        + replace (start + S k) with (S start + k) by lia. auto.
      - cbn [firstn map]. now rewrite Hk. }
    cbn [text_block_loop]. unfold ends_text_block in Hstop, Hgo.
    destruct (blank l) eqn:Eb.
    + destruct ub.
      * exists 0. split; auto.
      * apply Hgo; [intros; discriminate|]. unfold tb_line. rewrite Eb. now apply trim_blank.
    + destruct (negb ia && (0 <? indent_of l)) eqn:E1.
      { exists 0. split; auto. apply Hstop. left. apply andb_prop in E1 as [Ha Hb].
        apply Nat.ltb_lt in Hb. destruct ia; split; try discriminate; lia. }
      destruct (match al with Some a => negb (a =? indent_of l) | None => false end) eqn:E2.
      { exists 0. split; auto. apply Hstop. right. destruct al; try discriminate.
        exists n0. split; auto. apply negb_true_iff, Nat.eqb_neq in E2. lia. }
      apply Hgo.
      * intros [[-> H]|(a & -> & H)].
        -- cbn [negb andb] in E1. apply Nat.ltb_ge in E1. lia.
        -- apply negb_false_iff, Nat.eqb_eq in E2. lia.
      * unfold tb_line. now rewrite Eb.
Qed.

Lemma trim_start_split l : exists w, Forall (fun c => is_whitespace c = true) w /\ l = w ++ trim_start l /\ length w = indent_of l.
Proof.
  induction l as [|c l IH]; cbn.
  - exists []. auto.
  - destruct (is_whitespace c) eqn:E.
    + destruct IH as (w & Hw & Hl & Hn). exists (c :: w). cbn. rewrite <- Hl. auto.
    + exists []. auto.
Qed.

(* ---------- read_indented_block ---------- *)
Definition min_ok (block_indent : option nat) (minimal m : option nat) (ls : list str) : Prop :=
  match block_indent with
  | Some _ => m = minimal
  | None =>
      match m with
      | None => minimal = None /\ ls = []
      | Some m =>
          (forall l, In l ls -> indent_of l <> 0 -> m <= indent_of l) /\
          (minimal = Some m \/ exists l, In l ls /\ indent_of l = m) /\
          (forall m0, minimal = Some m0 -> m <= m0)
      end
  end.

Definition prev_blank (src : list str) (start n : nat) : bool :=
  match n with
  | 0 => false
  | S n' => match nth_error src (start + n') with Some p => blank p | None => false end
  end.

Lemma ends_dec ub bi fa l :
  ends_indented_block ub bi fa l <->
  (negb (blank l) && ((indent_of l <? 1) ||
      match bi with Some b => if fa then negb (indent_of l =? b) else indent_of l <? b | None => false end)
   || (blank l && ub)) = true.
Proof.
  unfold ends_indented_block. destruct (blank l); cbn [negb andb orb].
  - tauto.
  - rewrite orb_false_r, orb_true_iff, Nat.ltb_lt. destruct bi as [b|].
    + destruct fa; [rewrite negb_true_iff, Nat.eqb_neq|rewrite Nat.ltb_lt]; split; intros [H|H]; try lia.
      all: try (destruct H as (b' & [= <-] & H); right; lia).
      all: try (left; lia); right; exists b; auto.
    + split; intros [H|H]; try lia; try discriminate. destruct H as (b' & H & _); discriminate.
Qed.


(* The loop started d lines after the start line. *)
Lemma indented_loop_run src ub bi fa start : forall n d prev minimal ls m bf,
  length (skipn (start + d) src) = n -> start + d <= length src ->
  match prev with Some p => blank p | None => false end = prev_blank src start d ->
  indented_loop (skipn (start + d) src) prev ub bi fa minimal = (ls, m, bf) ->
  exists k, ls = firstn k (skipn (start + d) src) /\ length ls = k /\
    maximal_run (ends_indented_block ub bi fa) src start d (d + k) /\
    min_ok bi minimal m ls /\
    bf = (match nth_error src (start + (d + k)) with
          | None => true
          | Some l => if blank l then true else prev_blank src start (d + k)
          end).
Proof.
  induction n as [|n IH]; intros d prev minimal ls m bf Hn Hs Hp HL;
    destruct (skipn (start + d) src) as [|l rest] eqn:E; try discriminate.
  - cbn in HL. inversion HL; subst. exists 0. rewrite Nat.add_0_r.
    apply skipn_nil_inv in E. split; [auto|]. split; [auto|]. split; [|split].
    + split; [lia|]. split; [lia|]. split; [lia|]. left; lia.
    + unfold min_ok. destruct bi; auto. destruct m; auto. split; [intros l []|]. split; [auto|].
      now intros m0 [= ->].
    + destruct (nth_error src (start + d)) eqn:Q; auto.
      assert (nth_error src (start + d) <> None) by congruence. apply nth_error_Some in H. lia.
  - destruct (skipn_cons _ _ _ _ E) as [Hl Hr].
    assert (Hlt : start + d < length src) by (apply nth_error_Some; congruence).
    cbn [indented_loop] in HL.
    set (mis := match bi with
        | Some b => if fa then negb (indent_of l =? b) else indent_of l <? b
        | None => false end) in *.
    assert (Hstop : ends_indented_block ub bi fa l ->
       maximal_run (ends_indented_block ub bi fa) src start d (d + 0)).
    { intros St. rewrite Nat.add_0_r. repeat split; try lia. right. exists l. auto. }
    assert (Hmin0 : min_ok bi minimal minimal []).
    { unfold min_ok. destruct bi; auto. destruct minimal; auto. split; [intros l' []|]. split; [auto|].
      now intros m0 [= ->]. }
    destruct (negb (blank l) && ((indent_of l <? 1) || mis)) eqn:E1.
    { inversion HL; subst. exists 0. split; [auto|]. split; [auto|]. split.
      - apply Hstop. apply ends_dec. fold mis. rewrite E1. auto.
      - split; auto. rewrite Nat.add_0_r, Hl.
        apply andb_prop in E1 as [E1 _]. apply negb_true_iff in E1. rewrite E1. auto. }
    destruct (blank l && ub) eqn:E2.
    { inversion HL; subst. exists 0. split; [auto|]. split; [auto|]. split.
      - apply Hstop. apply ends_dec. rewrite E2. apply orb_true_r.
      - split; auto. rewrite Nat.add_0_r, Hl.
        apply andb_prop in E2 as [E2 _]. rewrite E2. auto. }
    assert (Hns : ~ ends_indented_block ub bi fa l).
    { rewrite ends_dec. fold mis. rewrite E1, E2. cbn. discriminate. }
    match type of HL with context [indented_loop rest (Some l) ub bi fa ?mm] => set (min' := mm) in * end.
    destruct (indented_loop rest (Some l) ub bi fa min') as [[ls' m'] bf'] eqn:EL.
    inversion HL; subst ls m bf. clear HL.
    specialize (IH (S d) (Some l) min' ls' m' bf').
    replace (start + S d) with (S (start + d)) in IH by lia. rewrite Hr in IH.
    cbn in Hn. destruct IH as (k & Hls & Hlen & (M1 & M2 & M3 & M4) & Hmin & Hbf); try lia; auto.
    { cbn. now rewrite Hl. }
    exists (S k). cbn [firstn length]. rewrite <- Hls, Hlen.
    replace (d + S k) with (S d + k) by lia.
    split; [auto|]. split; [auto|]. split; [|split; [|exact Hbf]].
    + repeat split; try lia; auto. intros i l' Hi Hl'.
      destruct (Nat.eq_dec i d) as [->|Ne]; [congruence|]. apply (M3 i); auto; lia.
    + unfold min_ok in *. subst min'. destruct bi as [b|]; auto.
      destruct m' as [m'|].
      * destruct Hmin as (Ha & Hb & Hc). repeat split.
        -- intros l' [<-|Hin] Hz; auto. destruct minimal as [m0|].
           ++ destruct (0 <? indent_of l) eqn:Q.
              ** specialize (Hc _ eq_refl). lia.
              ** apply Nat.ltb_ge in Q. lia.
           ++ apply Hc; auto.
        -- destruct Hb as [Hb|(l' & Hin & Hb)]; [|right; exists l'; split; [right; auto|auto]].
           destruct minimal as [m0|].
           ++ destruct (0 <? indent_of l) eqn:Q.
              ** inversion Hb. destruct (Nat.min_dec m0 (indent_of l)) as [Q'|Q']; rewrite Q'; auto.
                 right. exists l. split; [left|]; auto.
              ** auto.
           ++ inversion Hb. right. exists l. split; [left|]; auto.
        -- intros m0 ->. destruct (0 <? indent_of l) eqn:Q.
           ++ specialize (Hc _ eq_refl). lia.
           ++ apply Hc; auto.
      * destruct Hmin as [Hmin _]. exfalso. destruct minimal; [destruct (0 <? indent_of l)|]; discriminate.
Qed.

Lemma dedent_skip n l : n <= indent_of l -> dedented n l (skipn n l).
Proof.
  intros H. exists (firstn n l). split.
  - revert n H. induction l as [|c l IH]; intros [|n] H; cbn in *; auto.
    destruct (is_whitespace c) eqn:E; [|lia]. constructor; auto. apply IH. lia.
  - left. split; [now rewrite firstn_skipn|]. rewrite firstn_length.
    enough (indent_of l <= length l) by lia. clear. induction l as [|c l]; cbn; auto. destruct (is_whitespace c); lia.
Qed.
Lemma dedent_blank n l : blank l = true -> dedented n l (skipn n l).
Proof.
  intros H. assert (Hf : Forall (fun c => is_whitespace c = true) l).
  { apply Forall_forall. apply forallb_forall. exact H. }
  destruct (le_lt_dec n (length l)) as [Hn|Hn].
  - exists (firstn n l). split.
    + rewrite <- (firstn_skipn n l) in Hf. now apply Forall_app in Hf.
    + left. split; [now rewrite firstn_skipn|]. rewrite firstn_length. lia.
  - exists l. split; auto. right. split; auto. split; [apply skipn_all2; lia|lia].
Qed.
Lemma indent_skip n l : n <= indent_of l -> indent_of (skipn n l) = indent_of l - n.
Proof.
  revert n. induction l as [|c l IH]; intros [|n] H; cbn in *; auto.
  - destruct (is_whitespace c); lia.
  - destruct (is_whitespace c); cbn in *; [|lia]. apply IH. lia.
Qed.

Lemma first_given_eq bi fi :
  match bi with Some x => match fi with Some _ => fi | None => Some x end | None => fi end = first_given bi fi.
Proof. destruct bi, fi; auto. Qed.

(* Everything about a successful read. *)
Lemma read_indented_block_spec src start ub strip bi fi fa b :
  read_indented_block src start ub strip bi fi fa = Ret (Some b) ->
  exists taken, length taken = ib_offset b /\
    taken = firstn (ib_offset b) (skipn start src) /\
    maximal_run (ends_indented_block ub bi fa) src start (free_lines (first_given bi fi)) (ib_offset b) /\
    min_ok bi bi (Some (ib_min_indent b)) (skipn (free_lines (first_given bi fi)) taken) /\
    ib_blank_finish b =
      (match nth_error src (start + ib_offset b) with
       | None => true
       | Some l => if blank l then true else prev_blank src start (ib_offset b)
       end) /\
    ib_lines b = if strip then strip_block (first_given bi fi) (ib_min_indent b) taken else taken.
Proof.
  intros H. unfold read_indented_block in H. destruct src as [|s0 src0]; [discriminate|].
  set (src := s0 :: src0) in *. clearbody src. clear s0 src0.
  destruct (checked_sub (length src) start) eqn:Ec; try discriminate. cbn [obind] in H.
  apply checked_sub_ret in Ec as [Hs _]. rewrite first_given_eq in H.
  destruct (first_given bi fi) as [f|] eqn:Efi.
  - destruct (nth_error src start) as [line|] eqn:El; [|discriminate]. cbn [unwrap obind] in H.
    assert (Hlt : start < length src) by (apply nth_error_Some; congruence).
    destruct (indented_loop (skipn (S start) src) (Some line) ub bi fa bi) as [[ls m] bf] eqn:EL.
    cbn [obind] in H.
    replace (S start) with (start + 1) in EL by lia.
    destruct (indented_loop_run src ub bi fa start _ 1 (Some line) bi ls m bf eq_refl) as (k & Hls & Hlen & HM & Hmin & Hbf); auto; try lia.
    { cbn. rewrite Nat.add_0_r, El. auto. }
    destruct m as [m|]; [|discriminate]. cbn [unwrap obind] in H. apply Ret_inj, some_inj in H; subst b.
    cbn [ib_offset ib_lines ib_min_indent ib_blank_finish].
    assert (HL : length (if strip then strip_block (Some f) m (line :: ls) else line :: ls) = 1 + k) by
      (destruct strip; cbn; rewrite ?map_length; f_equal; exact Hlen).
    rewrite HL. exists (line :: ls). cbn [free_lines]. split; [cbn; f_equal; exact Hlen|].
    rewrite (skipn_nth _ _ _ El). replace (S start) with (start + 1) by lia.
    cbn [firstn Nat.add]. rewrite <- Hls. repeat (split; [auto|]). auto.
  - destruct (indented_loop (skipn start src) None ub bi fa bi) as [[ls m] bf] eqn:EL.
    cbn [obind] in H. replace start with (start + 0) in EL by lia.
    destruct (indented_loop_run src ub bi fa start _ 0 None bi ls m bf eq_refl) as (k & Hls & Hlen & HM & Hmin & Hbf); auto; try lia.
    destruct m as [m|]; [|discriminate]. cbn [unwrap obind] in H. apply Ret_inj, some_inj in H; subst b.
    cbn [ib_offset ib_lines ib_min_indent ib_blank_finish].
    assert (HL : length (if strip then strip_block None m ls else ls) = 0 + k) by
      (destruct strip; cbn; rewrite ?map_length; exact Hlen).
    rewrite HL. exists ls. cbn [free_lines]. split; [cbn; lia|]. rewrite Nat.add_0_r in Hls.
    repeat (split; [auto|]). auto.
Qed.
