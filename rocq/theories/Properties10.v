(* Properties10.v -- C26, C27: directive arguments and options *)
From Verif Require Import Base Unicode Regex Patterns TextProofs HyperrefProofs Common NodeTypes Tree DocTree Spec Prog BlockProofs Body Directives DirectiveSpec DirectiveProofs.
Require Import Lia.
Lemma forall2_len {A B} (R : A -> B -> Prop) a b : Forall2 R a b -> length a = length b.
Proof. induction 1; cbn; auto. Qed.

(* ===== C26 ===== *)
(* Scanning always returns, leaves the document alone, takes a run of lines and
   moves the cursor past exactly those.  The line after the run is not an argument
   line, so the run is as long as it can be. *)
Theorem C26_arguments (call : parse_call) (src : list str) (body first : nat) (empty_after_marker : bool) (d : DocTree) (c : LineCursor) :
  let start := cur_offset c + (if empty_after_marker then 1 else 0) in
  exists (args : list str) (c' : LineCursor) (lines tail : list str),
    pexec call (scan_arguments src body first empty_after_marker) d c = Ret (args, d, c') /\
    skipn start src = lines ++ tail /\ length args = length lines /\
    cur_offset c' = start + length lines /\ cur_baseline c' = cur_baseline c /\
    (if empty_after_marker
     then Forall2 (argument_line body) lines args /\
          match tail with [] => True | l :: _ => forall text, ~ argument_line body l text end
     else match lines, args with
          | l :: ls, a :: more => marker_argument first l a /\ Forall2 (argument_line body) ls more /\
              match tail with [] => True | l :: _ => forall text, ~ argument_line body l text end
          | _, _ => lines = [] /\ match tail with [] => True | l :: _ => forall text, ~ marker_argument first l text end
          end).
Proof.
  intros start. set (c1 := cur_add c (if empty_after_marker then 1 else 0)).
  assert (Es : cur_offset c1 = start) by (unfold c1, start; destruct c, empty_after_marker; cbn; lia).
  set (args := argument_lines (skipn start src) body first (negb empty_after_marker)).
  assert (Eb : cur_baseline c1 = cur_baseline c) by (unfold c1; destruct c, empty_after_marker; reflexivity).
  exists args, (cur_add c1 (length args)).
  assert (EP : pexec call (scan_arguments src body first empty_after_marker) d c = Ret (args, d, cur_add c1 (length args))).
  { unfold scan_arguments, advance, get_cursor. cbn [pbind pexec]. fold c1. rewrite Es. reflexivity. }
  assert (EC : forall n, cur_offset (cur_add c1 n) = start + n /\ cur_baseline (cur_add c1 n) = cur_baseline c).
  { intros n. rewrite <- Es, <- Eb. destruct c1. cbn. auto. }
  destruct empty_after_marker.
  - destruct (argument_lines_below (skipn start src) body first) as (lines & tail & E & F & T).
    exists lines, tail. split; [exact EP|]. split; [exact E|].
    assert (EL : length args = length lines) by (symmetry; eapply forall2_len; exact F).
    split; [exact EL|]. rewrite EL. split; [apply EC|]. split; [apply EC|]. auto.
  - subst args. cbn [negb] in *. destruct (skipn start src) as [|l rest] eqn:Er.
    { exists [], []. split; [exact EP|]. split; [reflexivity|]. split; [reflexivity|]. split; [apply EC|]. split; [apply EC|]. auto. }
    cbn [argument_lines negb andb] in *.
    destruct (blank (skipn first l) || is_match FIELD_MARKER (skipn first l)) eqn:Eo.
    + exists [], (l :: rest). split; [exact EP|]. split; [reflexivity|]. split; [reflexivity|]. split; [apply EC|]. split; [apply EC|].
      split; auto. intros text (marker & (-> & Hl) & H1 & H2).
      rewrite <- Hl, skipn_app, Nat.sub_diag, skipn_all in Eo. cbn [app skipn] in Eo.
      apply orb_prop in Eo as [Eo|Eo]; [apply H1; now apply blank_ws|apply H2; now apply option_like_match].
    + apply orb_false_elim in Eo as [E1 E2].
      destruct (argument_lines_below rest body first) as (lines & tail & E & F & T).
      exists (l :: lines), tail. split; [exact EP|]. split; [cbn; now f_equal|].
      assert (EL : length (argument_lines rest body first false) = length lines) by (symmetry; eapply forall2_len; exact F).
      cbn [length]. rewrite EL. split; [reflexivity|]. split; [apply EC|]. split; [apply EC|]. split; [|auto].
      exists (firstn first l). split; [split; [now rewrite firstn_skipn|]|].
      * apply firstn_length_le. destruct (le_lt_dec first (length l)) as [H|H]; auto. rewrite skipn_all2 in E1 by lia. discriminate.
      * split; [rewrite <- blank_ws; congruence|rewrite <- option_like_match; congruence].
Qed.
(* nothing is read exactly when there is no argument line *)
Corollary C26_none (call : parse_call) (src : list str) (body first : nat) (empty_after_marker : bool) (d : DocTree) (c : LineCursor) (args : list str) d' c' :
  pexec call (scan_arguments src body first empty_after_marker) d c = Ret (args, d', c') ->
  (args = [] <-> forall l, nth_error src (cur_offset c + (if empty_after_marker then 1 else 0)) = Some l ->
     forall text, ~ (if empty_after_marker then argument_line body l text else marker_argument first l text)).
Proof.
  intros H. destruct (C26_arguments call src body first empty_after_marker d c) as (args' & c2 & lines & tail & E & Es & El & _ & _ & S).
  rewrite H in E. apply Ret_inj in E. injection E as <- -> <-.
  set (start := cur_offset c + (if empty_after_marker then 1 else 0)) in *.
  assert (HN : forall l, nth_error src start = Some l <-> exists t, skipn start src = l :: t).
  { clear. intros l. revert src. induction start as [|n IH]; intros [|x src]; cbn [nth_error skipn].
    - split; [discriminate|intros (t & E); discriminate].
    - split; [intros [= ->]; eauto|intros (t & [= -> _]); reflexivity].
    - split; [discriminate|intros (t & E); discriminate].
    - apply IH. }
  destruct lines as [|l0 lines].
  - assert (args = []) by (destruct args; auto; discriminate). subst args. split; auto. intros _ l Hl. apply HN in Hl as (t & Hl).
    rewrite Es in Hl. cbn [app] in Hl. subst tail. destruct empty_after_marker; [apply S|apply S].
  - split; [intros ->; discriminate|]. intros HA. exfalso. destruct args as [|a args]; [discriminate|].
    assert (Hl : nth_error src start = Some l0) by (apply HN; rewrite Es; cbn; eauto).
    apply (HA l0 Hl a). destruct empty_after_marker; [destruct S as [F _]; inversion F; auto|apply S].
Qed.
Definition image_src : list str := map lit
  [".. image:: a/b"; "   c.png"; "   :width: 10"; "   :alt: one: two"; "   :width:  20 "; ""; "text"]%string.
Example C26_ex : pexec (fun _ _ _ _ _ => Panic) (scan_arguments image_src 3 11 false) new_doctree (MkCursor 0 0)
  = Ret ([lit "a/b"; lit "c.png"], new_doctree, MkCursor 2 0).
Proof. vm_compute. reflexivity. Qed.
Print Assumptions C26_arguments.

(* ===== C27 ===== *)
(* Scanning options takes the longest run of option lines at the given indent; the
   value of every name is the one set last; the cursor ends up after the run, and
   also after the blank line that ends it, if there were any options. *)
Theorem C27_options (call : parse_call) (src : list str) (body : nat) (d : DocTree) (c : LineCursor) :
  exists (m : option_map) (c' : LineCursor) (lines : list str) (kvs : list (str * str)) (tail : list str),
    pexec call (scan_options src body) d c = Ret (m, d, c') /\
    skipn (cur_offset c) src = lines ++ tail /\
    Forall2 (fun l kv => sets_option body l (fst kv) (snd kv)) lines kvs /\
    match tail with [] => True | l :: _ => all_ws l \/ forall k v, ~ sets_option body l k v end /\
    (forall k, map_get m k = last_value k kvs None) /\ (m = [] <-> lines = []) /\
    cur_baseline c' = cur_baseline c /\
    cur_offset c' = cur_offset c + length lines +
      match lines, tail with _ :: _, l :: _ => if blank l then 1 else 0 | _, _ => 0 end.
Proof.
  destruct (option_lines_spec body (skipn (cur_offset c) src)) as (lines & tail & E & F & T & B).
  destruct (option_lines (skipn (cur_offset c) src) body) as [kvs bl] eqn:Eo. cbn [fst snd] in *.
  assert (EL : length kvs = length lines) by (symmetry; eapply forall2_len; exact F).
  assert (EC : forall c n, cur_offset (cur_add c n) = cur_offset c + n /\ cur_baseline (cur_add c n) = cur_baseline c).
  { intros c0 n. destruct c0. auto. }
  destruct kvs as [|kv kvs].
  - destruct lines as [|? ?]; [|discriminate]. exists [], (cur_add c 0), [], [], tail. split.
    { unfold scan_options, advance, get_cursor. cbn [pbind pexec]. rewrite Eo. reflexivity. }
    repeat split; auto; apply EC.
  - destruct lines as [|l lines]; [discriminate|].
    exists (insert_all (kv :: kvs)), (cur_add (cur_add c (length (kv :: kvs))) (if bl then 1 else 0)), (l :: lines), (kv :: kvs), tail.
    split. { unfold scan_options, advance, get_cursor. cbn [pbind pexec]. rewrite Eo. reflexivity. }
    split; [exact E|]. split; [exact F|]. split; [exact T|]. split; [intros k; apply insert_all_spec|]. split.
    { split; [|discriminate]. intros H. exfalso. destruct kv as [k v]. pose proof (insert_all_spec k ((k, v) :: kvs)) as H2.
      rewrite H in H2. cbn [map_get last_value] in H2. rewrite (proj2 (str_eqb_eq k k) eq_refl) in H2. revert H2. clear.
      generalize v. induction kvs as [|[k' v'] kvs IH]; intros w; cbn [last_value]; [discriminate|]. destruct (str_eqb k k'); apply IH. }
    split; [rewrite !(proj2 (EC _ _)); reflexivity|].
    rewrite (proj1 (EC _ _)), (proj1 (EC _ _)), EL. f_equal.
    destruct tail as [|t tail]; [destruct bl; auto; destruct (proj1 B eq_refl) as (? & ? & ? & _); discriminate|].
    destruct (blank t) eqn:Eb.
    + rewrite (proj2 B); auto. exists t, tail. split; auto. now apply blank_ws.
    + destruct bl; auto. destruct (proj1 B eq_refl) as (t' & tail' & [= <- <-] & H). apply blank_ws in H. congruence.
Qed.
(* the ordinary case in one line: an option written once, with a plain name, is
   read as written *)
Corollary C27_one_option (call : parse_call) (src : list str) (body : nat) (d : DocTree) (c : LineCursor) w name rest line m d' c' :
  nth_error src (cur_offset c) = Some line -> option_syntax w name rest line -> ~ In 58%N name -> length w = body ->
  (forall l, nth_error src (S (cur_offset c)) = Some l -> all_ws l) ->
  pexec call (scan_options src body) d c = Ret (m, d', c') ->
  exists v, trimmed rest v /\ forall k, map_get m k = if str_eqb k name then Some v else None.
Proof.
  intros Hl Hs Hc Hw Hn HP. destruct (C27_options call src body d c) as (m2 & c2 & lines & kvs & tail & E & Es & F & T & M & _).
  rewrite HP in E. apply Ret_inj in E. injection E as <- -> <-.
  assert (Hsk : exists t, skipn (cur_offset c) src = line :: t /\ forall l u, t = l :: u -> all_ws l).
  { revert Hl Hn. clear. generalize (cur_offset c) as n. intros n. revert src. induction n as [|n IH]; intros [|x src]; cbn [nth_error skipn]; try discriminate.
    - intros [= ->] H. exists src. split; auto. intros l u ->. apply H. reflexivity.
    - apply IH. }
  destruct Hsk as (t & Et & Ht). rewrite Et in Es.
  assert (HS : exists k v, sets_option body line k v).
  { destruct (marker_captures _ _ _ _ Hs Hc) as (cs & a & b & E & C1 & C2 & _).
    exists (trim (Inline.opt_cap 2 cs)), (trim (skipn (length (whole cs)) line)). apply marker_sets; auto.
    unfold Inline.opt_cap. rewrite C1. auto. }
  destruct HS as (k0 & v0 & HS).
  assert (Hnb : ~ all_ws line).
  { intros H. destruct Hs as (-> & _). unfold all_ws in H. rewrite !Forall_app in H. destruct H as (_ & H & _).
    inversion H; subst. discriminate. }
  destruct lines as [|l lines].
  { cbn in Es. subst tail. destruct T as [T|T]; [contradiction|]. exfalso. eapply T; eauto. }
  cbn [app] in Es. injection Es as <- Es. inversion F as [|? [k v] ? kvs' F1 F2 E1 E2]; subst. cbn [fst snd] in *.
  assert (lines = []).
  { destruct lines as [|l2 lines]; auto. exfalso. inversion F2 as [|? [k2 v2] ? ? F3 _ E1 E2]; subst. cbn [fst snd] in *.
    assert (W : all_ws l2) by (eapply Ht; reflexivity). destruct F3 as (w2 & n2 & r2 & (-> & _) & _).
    unfold all_ws in W. rewrite !Forall_app in W. destruct W as (_ & W & _). inversion W; subst. discriminate. }
  subst lines. inversion F2; subst. destruct F1 as (w2 & n2 & r2 & S2 & _ & Tk & Tv & U).
  destruct (U _ _ _ Hs Hc) as [-> ->]. exists v. split; auto. intros k1. rewrite M. cbn [last_value].
  replace k with n2; auto. apply trimmed_unique with n2; auto. exists [], []. rewrite app_nil_r. cbn [app].
  destruct S2 as (_ & _ & (A & B & _) & _).
  split; [reflexivity|]. split; [constructor|]. split; [constructor|]. right. split; [exact A|exact B].
Qed.
Example C27_ex : exists m, pexec (fun _ _ _ _ _ => Panic) (scan_options image_src 3) new_doctree (MkCursor 2 0)
  = Ret (m, new_doctree, MkCursor 6 0) /\ map_get m (lit "width") = Some (lit "20") /\
    map_get m (lit "alt") = Some (lit "one: two") /\ map_get m (lit "height") = None.
Proof. eexists. split; [vm_compute; reflexivity|]. split; [vm_compute; reflexivity|]. split; vm_compute; reflexivity. Qed.
Print Assumptions C27_options.
