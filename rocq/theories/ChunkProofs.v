(* ChunkProofs.v -- the inline parser on texts with markup (C48) *)
From Verif Require Import Base Unicode Common NodeTypes Tree DocTree History Regex RegexProofs RegexGroups Patterns
  Utf8Latex Prog Inline InlineSpec LoopProofs InlineProofs DirectiveProofs TextProofs Spec MarkupSpec MarkupProofs SpanProofs.
From Coq Require Import ZifyBool ZifyNat ZifyN Lia.

(* ---------- patterns passed over ---------- *)
Definition away (l : str) (c : char) (s : str) : Prop := ~ In c l /\ (lookbehind_cls c = false \/ heads_off l s).
Lemma pass_strong c s : away [42%N] c s -> captures STRONG_EMPH (c :: s) = None.
Proof. intros [H1 H2]. apply (lb_none _ [42%N]); auto. apply b_cat, b_grp, b_lit. now left. Qed.
Lemma pass_emph c s : away [42%N] c s -> captures EMPH (c :: s) = None.
Proof. intros [H1 H2]. apply (lb_none _ [42%N]); auto. apply b_cat, b_grp, b_lit. now left. Qed.
Lemma pass_literal c s : away [96%N] c s -> captures LITERAL (c :: s) = None.
Proof. intros [H1 H2]. apply (lb_none _ [96%N]); auto. apply b_cat, b_grp, b_lit. now left. Qed.
Lemma pass_target c s : away [95%N] c s -> captures INLINE_TARGET (c :: s) = None.
Proof. intros [H1 H2]. apply (lb_none _ [95%N]); auto. apply b_cat, b_grp, b_lit. now left. Qed.
Lemma pass_phrase c s : away [96%N] c s -> captures PHRASE_REF (c :: s) = None.
Proof. intros [H1 H2]. apply (lb_none _ [96%N]); auto. apply b_cat, b_grp, b_chr. now left. Qed.
Lemma pass_text c s : away [58%N; 96%N] c s -> captures INTERPRETED_TEXT (c :: s) = None.
Proof. intros [H1 H2]. apply (lb_none _ [58%N; 96%N]); auto. apply b_opt; [apply b_grp, b_cat, b_chr; now left|apply b_cat, b_grp, b_chr; right; now left]. Qed.
Lemma pass_note c s : away [91%N] c s -> captures FOOTNOTE_REF (c :: s) = None.
Proof. intros [H1 H2]. apply (lb_none _ [91%N]); auto. apply b_cat, b_grp, b_chr. now left. Qed.
Lemma pass_cite c s : away [91%N] c s -> captures CITATION_REF (c :: s) = None.
Proof. intros [H1 H2]. apply (lb_none _ [91%N]); auto. apply b_cat, b_grp, b_chr. now left. Qed.
Lemma pass_link c s : alnum c = false -> lookbehind_cls c = false -> captures SIMPLE_REF (c :: s) = None.
Proof.
  intros H1 H2. apply captures_none. intros [t R]. unfold SIMPLE_REF in R. cbn [Seq] in R. apply rel_cat_inv in R as (u & R1 & R2).
  apply rel_opt in R1 as [R1|<-].
  - apply rel_grp_inv, rel_cls_inv in R1 as (x & E & Hx). injection E as <- _. congruence.
  - apply rel_cat_inv in R2 as (v & R2 & _). apply rel_grp_inv, rel_cat_inv in R2 as (w & R2 & _). apply plus_begins in R2 as (x & s' & E & Hx). injection E as <- _. congruence.
Qed.
(* a doubled delimiter that is not doubled *)
Lemma pass_double a b c d s : lit a = [c; c] -> lookbehind_cls c = false -> d <> c -> captures (simple_inline a b) (c :: d :: s) = None.
Proof.
  intros Ea Hl Hd. apply captures_none. intros [t R]. unfold simple_inline in R. cbn [Seq] in R. change (q a) with (lit a) in R. rewrite Ea in R.
  apply rel_cat_inv in R as (u & R1 & R2). apply rel_opt in R1 as [R1|<-].
  - apply rel_grp_inv, rel_cls_inv in R1 as (x & E & Hx). injection E as <- _. congruence.
  - apply rel_cat_inv in R2 as (v & R2 & _). apply rel_grp_inv, rel_lit in R2. injection R2 as R2. congruence.
Qed.

(* ---------- a word is not markup ---------- *)
(* nothing that could end the name of a scheme *)
Definition boundary (u : str) : Prop := match u with [] => True | c :: _ => is_whitespace c = true end.
Definition beepless (r : str) : Prop := forall b u, In b dot_tails -> r = b ++ lit ":" ++ u -> boundary u.
Definition word_end (rest : str) : Prop := rest = [] \/ exists c r, rest = c :: r /\ is_whitespace c = true /\ beepless r.
Lemma word_ink w rest : forallb nsp w = true -> word_end rest -> ink (w ++ rest) = w.
Proof.
  intros H E. rewrite ink_app by exact H. destruct E as [->|(c & r & -> & Hc & _)]; cbn; [apply app_nil_r|].
  unfold ink. cbn [run_of]. unfold nsp at 1. rewrite Hc. cbn. apply app_nil_r.
Qed.
Lemma boundary_no u c v : boundary u -> u = c :: v -> nsp c = true -> False.
Proof. intros H -> Hc. cbn in H. unfold nsp in Hc. rewrite H in Hc. discriminate. Qed.
Lemma inked_then a b : inked a -> (forall s t, rel b s t -> exists c s', s = c :: s' /\ nsp c = true) -> forall s t, rel (Cat a b) s t -> exists c s', s = c :: s' /\ nsp c = true.
Proof.
  intros Ha Hb s t R. apply rel_cat_inv in R as (u & R1 & R2). apply Ha in R1 as (p & -> & Hp). apply Hb in R2 as (c & s' & -> & Hc).
  destruct p as [|d p]; cbn [app]; [now exists c, s'|]. cbn [forallb] in Hp. apply andb_prop in Hp as [Hp _]. now exists d, (p ++ c :: s').
Qed.
Definition tame (w : str) : Prop := ~ wild w.
Lemma tame_tail c w : tame (c :: w) -> tame w.
Proof. intros H G. apply H. now apply w_next. Qed.
Lemma word_uri w rest t : forallb nsp w = true -> tame w -> word_end rest ->
  ~ rel (Seq (tl [Opt (Grp 1 (Alt (Cls sp)
              (Cls (fun c => cls_of (dquote :: q "-:/'<([{") c || cat_Ps c || cat_Pi c
                             || cat_Pf c || cat_Pd c || cat_Po c))));
       Grp 2 (Alt
         (Grp 3 (Seq
            [Grp 4 (Alts (map scheme_re uri_schemes)); Chr (ch ":");
             Opt (Grp 5 (Seq
               [Opt (Grp 6 (Seq [Chr (ch "/"); Opt (Chr (ch "/"))]));
                Opt (Seq [Grp 7 (Seq [Plus true (Cls alnum); sep_runs "." alnum]); Chr (ch "@")]);
                Grp 8 (Alt (Seq [Plus true (Cls alnum); sep_runs "-.+" alnum])
                           (Seq [d13; Seq [Chr (ch "."); d13]; Seq [Chr (ch "."); d13];
                                 Seq [Chr (ch "."); d13]]));
                Opt (Seq [Chr (ch ":"); Grp 9 (Plus true (Cls digit))])]));
             Grp 10 (Seq [Opt (Chr (ch "/")); Star true (Cls path_cls);
                          Star true (Seq [Chr (ch "/"); Plus true (Cls path_cls)]);
                          Opt (Chr (ch "/"))]);
             Cls uri_suffix;
             Opt (Seq [Chr (ch "?");
                       Grp 11 (Seq [Plus true (Cls (fun c => cls_of (q "=&") c || alnum c));
                                    Cls uri_suffix])]);
             Opt (Seq [Chr (ch "#");
                       Grp 12 (Seq [Plus true (Cls alnum); Cls uri_suffix])])]))
         (Grp 13 (Seq
            [Plus true (Cls dash_alnum);
             Star true (Seq [Chr (ch "."); Plus true (Cls email_mid)]);
             Chr (ch "@"); Plus true (Cls dash_alnum); sep_runs ".-" alnum])));
       Grp 14 (Alts [Cls sp; Cls lookahead_all; Eot])])) (w ++ rest) t.
Proof.
  intros Hw Hp He R. cbn [tl Seq] in R. apply rel_cat_inv in R as (u & R & _). apply rel_grp_inv, rel_alt_inv in R as [R|R]; apply rel_grp_inv in R.
  - apply rel_cat_inv in R as (v & R1 & R2). apply rel_grp_inv, schemes_take in R1.
    apply rel_cat_inv in R2 as (v' & R2 & R3). apply rel_chr in R2. subst v. change (ch ":") with 58%N in R1.
    assert (Hnext : exists c s', v' = c :: s' /\ nsp c = true).
    { assert (Hpath : inked (Cls path_cls)).
      { apply inked_cls. intros c Hc. unfold path_cls in Hc. apply orb_prop in Hc as [Hc|Hc]; [now apply alnum_ink|eapply cls_of_ink; [|exact Hc]; reflexivity]. }
      revert R3. apply inked_then; [unfold sep_runs, d13; cbn [Seq]; inktac|]. apply inked_then; [cbn [Seq]; inktac; exact Hpath|].
      intros s0 t0 R. apply rel_cat_inv in R as (y & R & _). apply rel_cls_inv in R as (c & -> & Hc). exists c, y. split; [reflexivity|].
      unfold uri_suffix in Hc. apply orb_prop in Hc as [Hc|Hc]; [eapply cls_of_ink; [|exact Hc]; reflexivity|now apply alnum_ink]. }
    destruct Hnext as (n & v'' & -> & Hn).
    destruct R1 as [(p & E & Hp')|(p & c & b & E & Hp' & Hc & Hb)].
    + pose proof (word_ink w rest Hw He) as Ei. rewrite E, ink_app in Ei by exact Hp'. unfold ink in Ei. cbn [run_of] in Ei.
      change (nsp 58%N) with true in Ei. cbn iota in Ei. rewrite Hn in Ei. apply Hp. rewrite <- Ei. apply wild_app, w_colon.
    + pose proof (word_ink w rest Hw He) as Ei. rewrite E, ink_app in Ei by exact Hp'. unfold ink in Ei. cbn [run_of] in Ei.
      rewrite Hc, app_nil_r in Ei. subst p. apply app_inv_head in E. destruct He as [->|(c' & r & -> & _ & Hr)]; [discriminate|].
      apply (f_equal (@tl char)) in E. cbn [tl] in E. specialize (Hr b (n :: v'') Hb E). exact (boundary_no _ _ _ Hr eq_refl Hn).
  - assert (K : inkneeds (Cat (Plus true (Cls dash_alnum)) (Cat (Star true (Cat (Chr (ch ".")) (Plus true (Cls email_mid)))) (Cat (Chr (ch "@")) (Cat (Plus true (Cls dash_alnum)) (sep_runs ".-" alnum)))))).
    { apply ik_catr; [inktac|]. apply ik_catr; [inktac|]. apply ik_at. }
    apply K in R. rewrite word_ink in R by auto. exact (Hp R).
Qed.
Lemma word_none p body w rest : inkneeds body -> w <> [] -> forallb nsp w = true -> tame w -> word_end rest ->
  captures (Cat (Opt (Grp 1 (Cls p))) body) (w ++ rest) = None.
Proof.
  intros K Hn Hw Hp He. apply captures_none. intros [t R]. apply rel_cat_inv in R as (u & R1 & R2). apply K in R2.
  apply rel_opt in R1 as [R1|E].
  - apply rel_grp_inv, rel_cls_inv in R1 as (c & E & _). destruct w as [|c' w]; [congruence|].
    apply (f_equal (@tl char)) in E. cbn [app tl] in E. subst u. cbn [forallb] in Hw. apply andb_prop in Hw as [_ Hw].
    rewrite word_ink in R2; auto. exact (tame_tail _ _ Hp R2).
  - subst u. rewrite word_ink in R2; auto.
Qed.
Lemma word_no_uri w rest : w <> [] -> forallb nsp w = true -> tame w -> word_end rest -> captures URI (w ++ rest) = None.
Proof.
  intros Hn Hw Hp He. apply captures_none. intros [t R]. unfold URI in R. cbn [Seq] in R.
  apply rel_cat_inv in R as (u & R1 & R2). apply rel_opt in R1 as [R1|E].
  - assert (E : exists c, w ++ rest = c :: u).
    { apply rel_grp_inv, rel_alt_inv in R1 as [R1|R1]; apply rel_cls_inv in R1 as (c & E & _); eauto. }
    destruct E as [c E]. destruct w as [|c' w]; [congruence|].
    apply (f_equal (@tl char)) in E. cbn [app tl] in E. subst u. cbn [forallb] in Hw. apply andb_prop in Hw as [_ Hw].
    apply (word_uri w rest t); auto. exact (tame_tail _ _ Hp).
  - subst u. exact (word_uri w rest t Hw Hp He R2).
Qed.
(* a word does not start with markup *)
Definition unmarked (w : str) : Prop :=
  match w with c :: t => ~ In c (lit "*`|") /\ match t with d :: _ => ~ In d (lit "*`|") | [] => True end | [] => True end.
Lemma word_away l c w rest : incl l (lit "*`|") -> unmarked (c :: w) -> word_end rest -> away l c (w ++ rest).
Proof.
  intros Hl [H1 H2] He. split; [intros Hin; apply H1, Hl, Hin|right]. destruct w as [|d w].
  - cbn [app]. destruct He as [->|(x & r & -> & Hx & _)]; [exact I|]. intros Hin. apply Hl in Hin. cbn [lit In] in Hin.
    repeat (destruct Hin as [<-|Hin]; [discriminate Hx|]). destruct Hin.
  - intros Hin. apply H2, Hl, Hin.
Qed.
Lemma word_role w rest : w <> [] -> forallb nsp w = true -> tame w -> unmarked w -> word_end rest -> captures INTERPRETED_TEXT (w ++ rest) = None.
Proof.
  intros Hn Hw Ht Hu He. apply captures_none. intros [t R]. unfold INTERPRETED_TEXT in R. cbn [Seq] in R. apply rel_cat_inv in R as (u & R1 & R2).
  assert (Q : forall w', forallb nsp w' = true -> tame w' -> heads_off [96%N] (w' ++ rest) -> u <> w' ++ rest).
  { intros w' Hw' Ht' Ho ->. apply rel_cat_inv in R2 as (v & R2 & R3). apply rel_opt in R2 as [R2|<-].
    - apply rel_grp_inv, rel_cat_inv in R2 as (x & R2 & R4). apply rel_chr in R2. apply rel_cat_inv in R4 as (y & R4 & _). apply rel_grp_inv in R4.
      assert (Hx : exists c s', x = c :: s' /\ nsp c = true).
      { unfold role_re in R4. apply rel_alt_inv in R4 as [R4|R4]; [|cbn [Seq] in R4; apply rel_cat_inv in R4 as (z & R4 & _)]; apply rel_cls_inv in R4 as (c & -> & Hc); eauto. }
      destruct Hx as (c & s' & -> & Hc). pose proof (word_ink w' rest Hw' He) as Ei. rewrite R2 in Ei. unfold ink in Ei. cbn [run_of] in Ei.
      change (nsp (ch ":")) with true in Ei. cbn iota in Ei. rewrite Hc in Ei. apply Ht'. rewrite <- Ei. apply w_colon.
    - apply rel_cat_inv in R3 as (x & R3 & _). apply rel_grp_inv, rel_chr in R3. rewrite R3 in Ho. apply Ho. now left. }
  destruct w as [|c w]; [congruence|]. apply rel_opt in R1 as [R1|<-].
  - apply rel_grp_inv, rel_cls_inv in R1 as (d & E & _). apply (f_equal (@tl char)) in E. cbn [app tl] in E. cbn [forallb] in Hw. apply andb_prop in Hw as [_ Hw].
    refine (Q w Hw (tame_tail _ _ Ht) _ (eq_sym E)). destruct (word_away [96%N] c w rest) as [_ [H|H]]; auto.
    { intros x [<-|[]]. right. now left. } { destruct w as [|d' w].
      - cbn [app]. destruct He as [->|(x & r & -> & Hx & _)]; [exact I|]. intros [<-|[]]. discriminate Hx.
      - destruct Hu as [_ Hu]. intros [<-|[]]. apply Hu. right. now left. }
  - refine (Q (c :: w) Hw Ht _ eq_refl). destruct Hu as [Hu _]. intros [<-|[]]. apply Hu. right. now left.
Qed.
Lemma word_markup w rest r f : In (r, f) (removelast (tl inline_table)) -> w <> [] -> forallb nsp w = true -> tame w -> unmarked w -> word_end rest ->
  captures r (w ++ rest) = None.
Proof.
  intros Hin Hn Hw Ht Hu He.
  assert (A : forall l, incl l (lit "*`|") -> exists c s, w ++ rest = c :: s /\ away l c s).
  { intros l Hl. destruct w as [|c w]; [congruence|]. exists c, (w ++ rest). split; [reflexivity|]. now apply word_away. }
  assert (A1 : forall x, In x (lit "*`|") -> exists c s, w ++ rest = c :: s /\ away [x] c s).
  { intros x Hx. apply A. intros y [<-|[]]. exact Hx. }
  cbn [In tl removelast inline_table] in Hin.
  repeat (destruct Hin as [E|Hin]; [apply (f_equal fst) in E; cbn [fst] in E; subst r|]); [..|destruct Hin].
  - destruct (A1 42%N) as (c & s & -> & Ha); [now left|]. now apply pass_strong.
  - destruct (A1 42%N) as (c & s & -> & Ha); [now left|]. now apply pass_emph.
  - destruct (A1 96%N) as (c & s & -> & Ha); [right; now left|]. now apply pass_literal.
  - apply word_none; auto. apply ik_target.
  - destruct (A1 96%N) as (c & s & -> & Ha); [right; now left|]. now apply pass_phrase.
  - now apply word_role.
  - apply word_none; auto. exact footnote_ik.
  - apply word_none; auto. apply ik_catr; [inktac|]. apply ik_catr; [inktac|]. apply ik_cite.
  - apply word_none; auto. apply ik_catr; [inktac|]. apply ik_ref.
  - destruct (A1 124%N) as (c & s & -> & [H1 H2]); [right; right; now left|]. apply (lb_none _ [124%N]); auto. apply b_cat, b_grp, b_chr. now left.
  - now apply word_no_uri.
Qed.
Lemma run_of_stop p w rest : forallb p w = true -> (rest = [] \/ exists c r, rest = c :: r /\ p c = false) -> run_of p (w ++ rest) = w.
Proof.
  intros H. induction w as [|c w IH]; cbn [forallb app run_of] in *; intros He.
  - destruct He as [->|(c & r & -> & Hc)]; cbn [run_of]; [reflexivity|now rewrite Hc].
  - apply andb_prop in H as [H1 H2]. rewrite H1. f_equal. auto.
Qed.
(* a word, and white space *)
Lemma step_word doc w rest : w <> [] -> forallb nsp w = true -> tame w -> unmarked w -> word_end rest ->
  match_inline_str doc (w ++ rest) = PRet (Some ([plain_node (false, w)], length w)).
Proof.
  intros Hn Hw Hp Hu He. unfold match_inline_str. destruct w as [|c w]; [congruence|]. cbn [app].
  change inline_table with ((INLINE_WHITESPACE, inline_whitespace) :: removelast (tl inline_table) ++ [(INLINE_TEXT, inline_text)]).
  cbn [match_inline]. rewrite no_whitespace.
  2:{ cbn [forallb] in Hw. apply andb_prop in Hw as [Hw _]. unfold nsp in Hw. now apply negb_true_iff in Hw. }
  rewrite match_skip. 2:{ intros r f Hin. exact (word_markup (c :: w) rest r f Hin Hn Hw Hp Hu He). }
  cbn [match_inline]. destruct (plus_grp_captures nsp c (w ++ rest)) as (cs & Hc & Hx). { cbn [forallb] in Hw. now apply andb_prop in Hw. }
  unfold INLINE_TEXT. rewrite Hc. unfold inline_text. rewrite Hx. cbn [pbind].
  change (c :: w ++ rest) with ((c :: w) ++ rest). rewrite run_of_stop; auto.
  destruct He as [->|(d & r & -> & Hd & _)]; [now left|right]. exists d, r. split; auto. unfold nsp. now rewrite Hd.
Qed.
Lemma step_white doc w rest : w <> [] -> forallb sp w = true -> (rest = [] \/ exists c r, rest = c :: r /\ sp c = false) ->
  match_inline_str doc (w ++ rest) = PRet (Some ([plain_node (true, w)], length w)).
Proof.
  intros Hn Hw He. unfold match_inline_str. destruct w as [|c w]; [congruence|]. cbn [app].
  unfold inline_table. cbn [match_inline]. rewrite whitespace_captures.
  2:{ cbn [forallb] in Hw. now apply andb_prop in Hw. }
  unfold inline_whitespace, whole. cbn [cap Nat.eqb pbind]. change (c :: w ++ rest) with ((c :: w) ++ rest).
  rewrite run_of_stop; auto.
Qed.

(* ---------- one step at each piece of markup ---------- *)
Lemma quotation_none x : quotation_matches [] x = false.
Proof.
  unfold quotation_matches. apply orb_false_iff. split; apply not_true_is_false; intros H; apply existsb_exists in H as (y & _ & H); discriminate.
Qed.
Lemma get_cap_some n cs x : cap n cs = Some x -> get_cap n cs = PRet x.
Proof. unfold get_cap. intros ->. reflexivity. Qed.
Lemma trim_key key : forallb is_ascii_alnum key = true -> trim key = key.
Proof.
  intros H. assert (W : forall k, forallb is_ascii_alnum k = true -> trim_start k = k).
  { intros k Hk. destruct k as [|c k]; [reflexivity|]. cbn [forallb] in Hk. apply andb_prop in Hk as [Hk _]. apply alnum_ink in Hk. unfold nsp in Hk. apply negb_true_iff in Hk.
    cbn [trim_start]. now rewrite Hk. }
  unfold trim, trim_end. rewrite (W key H).
  rewrite W; [apply rev_involutive|]. rewrite forallb_forall in *. intros x Hx. apply H. now apply in_rev.
Qed.
Lemma role_node_means r t : role_name_ok r = true -> role_node r t = Ret (role_means r t).
Proof.
  unfold role_name_ok. intros H. apply andb_prop in H as [H H2]. apply andb_prop in H as [_ H1]. apply negb_true_iff in H1, H2.
  unfold role_node, role_means, is_role. cbn [existsb]. rewrite !orb_false_r, H1, H2. cbn [orb].
  repeat match goal with |- context [str_eqb r (lit ?x)] => let E := fresh in destruct (str_eqb r (lit x)) eqn:E; [apply str_eqb_eq in E; subst r; reflexivity|] end.
  reflexivity.
Qed.
Ltac len := cbn [chunk_source]; rewrite ?app_length; cbn [length lit]; cbn; lia.
Ltac aw := split; [let H := fresh in intros H; cbn in H; repeat destruct H as [H|H]; discriminate H + (destruct H)|left; reflexivity].
Lemma first_in d t : inside d t = true -> exists c r, t = c :: r /\ c <> d /\ sp c = false.
Proof.
  intros H. pose proof H as H'. apply inside_spec in H as (Hd & _ & _). destruct t as [|c t]; [discriminate H'|]. exists c, t. split; [reflexivity|]. split.
  - intros ->. apply Hd. now left.
  - unfold inside in H'. apply andb_prop in H' as [H' _]. apply andb_prop in H' as [H' _]. apply andb_prop in H' as [_ H']. now apply negb_true_iff in H'.
Qed.
Definition steps_to (s : str) (ns : list TreeNodeType) (n : nat) : Prop := forall doc, match_inline_str doc s = PRet (Some (ns, n)).
Lemma step_emph t rest : inside 42%N t = true -> closes rest -> steps_to (lit "*" ++ t ++ lit "*" ++ rest) (chunk_nodes (Emph t)) (length (chunk_source (Emph t))).
Proof.
  intros Ht Hr doc. destruct (first_in _ _ Ht) as (c & r & E & Hc & _).
  destruct (simple_captures "*" "*" (lit "*") 42%N [] t rest eq_refl eq_refl Ht Hr eq_refl) as (cs & Hcs & H1 & H2 & H3 & H4).
  unfold match_inline_str. change (lit "*" ++ t ++ [42%N] ++ rest) with (42%N :: t ++ 42%N :: rest) in Hcs. change (lit "*" ++ t ++ lit "*" ++ rest) with (42%N :: t ++ 42%N :: rest).
  unfold inline_table. cbn [match_inline]. rewrite no_whitespace by reflexivity.
  assert (N1 : captures STRONG_EMPH (42%N :: t ++ 42%N :: rest) = None). { rewrite E. cbn [app]. apply pass_double; auto. }
  rewrite N1. unfold EMPH. rewrite Hcs. unfold paired_delimiter. rewrite H1, !(get_cap_some _ _ _ H2), !(get_cap_some _ _ _ H3), !(get_cap_some _ _ _ H4). cbn [pbind].
  rewrite quotation_none. cbn [nonempty app chunk_nodes pbind]. do 3 f_equal. len.
Qed.
Lemma step_strong t rest : inside 42%N t = true -> closes rest -> steps_to (lit "**" ++ t ++ lit "**" ++ rest) (chunk_nodes (Strong t)) (length (chunk_source (Strong t))).
Proof.
  intros Ht Hr doc.
  destruct (simple_captures "**" "**" (lit "**") 42%N [42%N] t rest eq_refl eq_refl Ht Hr eq_refl) as (cs & Hcs & H1 & H2 & H3 & H4).
  unfold match_inline_str. change (lit "**" ++ t ++ [42%N; 42%N] ++ rest) with (42%N :: 42%N :: t ++ 42%N :: 42%N :: rest) in Hcs. change (lit "**" ++ t ++ lit "**" ++ rest) with (42%N :: 42%N :: t ++ 42%N :: 42%N :: rest).
  unfold inline_table. cbn [match_inline]. rewrite no_whitespace by reflexivity.
  unfold STRONG_EMPH. rewrite Hcs. unfold paired_delimiter. rewrite H1, !(get_cap_some _ _ _ H2), !(get_cap_some _ _ _ H3), !(get_cap_some _ _ _ H4). cbn [pbind].
  rewrite quotation_none. cbn [nonempty app chunk_nodes pbind]. do 3 f_equal. len.
Qed.
Lemma step_verb t rest : inside 96%N t = true -> closes rest -> steps_to (lit "``" ++ t ++ lit "``" ++ rest) (chunk_nodes (Verb t)) (length (chunk_source (Verb t))).
Proof.
  intros Ht Hr doc.
  destruct (simple_captures "``" "``" (lit "``") 96%N [96%N] t rest eq_refl eq_refl Ht Hr eq_refl) as (cs & Hcs & H1 & H2 & H3 & H4).
  unfold match_inline_str. change (lit "``" ++ t ++ [96%N; 96%N] ++ rest) with (96%N :: 96%N :: t ++ 96%N :: 96%N :: rest) in Hcs. change (lit "``" ++ t ++ lit "``" ++ rest) with (96%N :: 96%N :: t ++ 96%N :: 96%N :: rest).
  unfold inline_table. cbn [match_inline]. rewrite no_whitespace, pass_strong, pass_emph by (reflexivity || aw).
  unfold LITERAL. rewrite Hcs. unfold paired_delimiter. rewrite H1, !(get_cap_some _ _ _ H2), !(get_cap_some _ _ _ H3), !(get_cap_some _ _ _ H4). cbn [pbind].
  rewrite quotation_none. cbn [nonempty app chunk_nodes pbind]. do 3 f_equal. len.
Qed.
Lemma step_cited t rest : inside 96%N t = true -> closes rest -> has_ref_end rest = false ->
  steps_to (lit "`" ++ t ++ lit "`" ++ rest) (chunk_nodes (Cited t)) (length (chunk_source (Cited t))).
Proof.
  intros Ht Hr Hf doc. destruct (first_in _ _ Ht) as (c & r & E & Hc & _).
  destruct (cited_captures t rest Ht Hr) as (cs & Hcs & H1 & H2 & H3 & H4 & H5 & H6 & H7 & H8).
  unfold match_inline_str. change (lit "`" ++ t ++ lit "`" ++ rest) with (96%N :: t ++ 96%N :: rest) in *.
  unfold inline_table. cbn [match_inline]. rewrite no_whitespace, pass_strong, pass_emph by (reflexivity || aw).
  assert (N1 : captures LITERAL (96%N :: t ++ 96%N :: rest) = None). { rewrite E. cbn [app]. apply pass_double; auto. }
  rewrite N1, pass_target by aw.
  rewrite no_phrase. 2:{ right. apply ref_end_inside; auto. apply inside_spec in Ht. apply Ht. } 2:{ now left. }
  rewrite Hcs. unfold interpreted_text. rewrite H1, H2, H3, H7, H8, (get_cap_some _ _ _ H4), (get_cap_some _ _ _ H5), (get_cap_some _ _ _ H6). cbn [pbind nonempty andb negb].
  rewrite quotation_none. cbn [chunk_nodes pbind]. do 3 f_equal. len.
Qed.

Lemma step_role r t rest : role_name_ok r = true -> inside 96%N t = true -> closes rest ->
  steps_to (lit ":" ++ r ++ lit ":`" ++ t ++ lit "`" ++ rest) (chunk_nodes (Role r t)) (length (chunk_source (Role r t))).
Proof.
  intros Hn Ht Hr doc. destruct (role_captures r t rest Hn Ht Hr) as (cs & Hcs & H1 & H2 & H3 & H4 & H5 & H6 & H7 & H8).
  destruct (role_chars r Hn) as [Hne Hch]. destruct r as [|c r]; [congruence|].
  assert (Hc : c <> 58%N /\ c <> 96%N /\ c <> 42%N /\ c <> 95%N) by (specialize (Hch c (or_introl eq_refl)); apply role_char_fine in Hch; tauto).
  assert (A : forall l s, ~ In 58%N l -> incl l [42; 96; 95]%N -> away l 58%N (c :: s)).
  { intros l s H Hi. split; [exact H|right]. cbn. intros Hin. apply Hi in Hin. cbn in Hin. intuition congruence. }
  assert (I : forall x, In x [42; 96; 95]%N -> incl [x] [42; 96; 95]%N) by (intros x Hx y [<-|[]]; exact Hx).
  unfold match_inline_str. change (lit ":" ++ (c :: r) ++ lit ":`" ++ t ++ lit "`" ++ rest) with (58%N :: c :: r ++ lit ":`" ++ t ++ lit "`" ++ rest) in *.
  unfold inline_table. cbn [match_inline]. rewrite no_whitespace by reflexivity.
  rewrite pass_strong by (apply A; [intros [H|[]]; discriminate|apply I; cbn; auto]).
  rewrite pass_emph by (apply A; [intros [H|[]]; discriminate|apply I; cbn; auto]).
  rewrite pass_literal by (apply A; [intros [H|[]]; discriminate|apply I; cbn; auto]).
  rewrite pass_target by (apply A; [intros [H|[]]; discriminate|apply I; cbn; auto]).
  rewrite pass_phrase by (apply A; [intros [H|[]]; discriminate|apply I; cbn; auto]).
  rewrite Hcs. unfold interpreted_text. rewrite H1, H2, H3, H7, H8, (get_cap_some _ _ _ H4), (get_cap_some _ _ _ H5), (get_cap_some _ _ _ H6). cbn [pbind].
  rewrite quotation_none, !andb_false_r. cbn [nonempty andb]. rewrite role_node_means by exact Hn. cbn [lift pbind chunk_nodes]. do 3 f_equal. len.
Qed.
Lemma step_after r t rest : role_name_ok r = true -> inside 96%N t = true -> closes rest -> has_ref_end rest = false ->
  steps_to (lit "`" ++ t ++ lit "`:" ++ r ++ lit ":" ++ rest) (chunk_nodes (RoleAfter t r)) (length (chunk_source (RoleAfter t r))).
Proof.
  intros Hn Ht Hr Hf doc. destruct (first_in _ _ Ht) as (c & u & E & Hc & _).
  destruct (after_captures r t rest Hn Ht Hr) as (cs & Hcs & H1 & H2 & H3 & H4 & H5 & H6 & H7 & H8).
  destruct (role_chars r Hn) as [Hne Hch].
  unfold match_inline_str. change (lit "`" ++ t ++ lit "`:" ++ r ++ lit ":" ++ rest) with (96%N :: t ++ 96%N :: 58%N :: r ++ 58%N :: rest) in *.
  unfold inline_table. cbn [match_inline]. rewrite no_whitespace, pass_strong, pass_emph by (reflexivity || aw).
  assert (N1 : captures LITERAL (96%N :: t ++ 96%N :: 58%N :: r ++ 58%N :: rest) = None). { rewrite E. cbn [app]. apply pass_double; auto. }
  rewrite N1, pass_target by aw.
  rewrite no_phrase. 3:{ now left. }
  2:{ right. apply ref_end_prefix; [apply inside_spec in Ht; apply Ht|].
      assert (R : has_ref_end (58%N :: r ++ 58%N :: rest) = false).
      { change (58%N :: r ++ 58%N :: rest) with ([58%N] ++ r ++ [58%N] ++ rest). apply ref_end_prefix; [|apply ref_end_prefix; [|apply ref_end_prefix; [|exact Hf]]].
        - intros [H|[]]. discriminate.
        - intros Hin. apply Hch, role_char_fine in Hin. intuition.
        - intros [H|[]]. discriminate. }
      exact R. }
  rewrite Hcs. unfold interpreted_text. rewrite H1, H2, H3, H7, H8, (get_cap_some _ _ _ H4), (get_cap_some _ _ _ H5), (get_cap_some _ _ _ H6). cbn [pbind].
  rewrite quotation_none. cbn [nonempty andb negb]. destruct r as [|x r]; [congruence|]. cbn [nonempty]. rewrite role_node_means by exact Hn. cbn [lift pbind chunk_nodes]. apply (f_equal (fun n => PRet (Some ([role_means (x :: r) t], n)))). len.
Qed.
Lemma step_phrase t rest : inside 96%N t = true -> ~ In 60%N t -> closes rest ->
  steps_to (lit "`" ++ t ++ lit "`_" ++ rest) (chunk_nodes (Phrase t)) (length (chunk_source (Phrase t))).
Proof.
  intros Ht Hl Hr doc. destruct (first_in _ _ Ht) as (c & r & E & Hc & _).
  destruct (phrase_captures t rest Ht Hl Hr) as (cs & Hcs & H1 & H2 & H3 & H5 & H6 & H7).
  unfold match_inline_str. change (lit "`" ++ t ++ lit "`_" ++ rest) with (96%N :: t ++ 96%N :: 95%N :: rest) in *.
  unfold inline_table. cbn [match_inline]. rewrite no_whitespace, pass_strong, pass_emph by (reflexivity || aw).
  assert (N1 : captures LITERAL (96%N :: t ++ 96%N :: 95%N :: rest) = None). { rewrite E. cbn [app]. apply pass_double; auto. }
  rewrite N1, pass_target by aw. rewrite Hcs. unfold phrase_ref. rewrite H1, H5, (get_cap_some _ _ _ H2), (get_cap_some _ _ _ H3), (get_cap_some _ _ _ H7), (get_cap_some _ _ _ H6).
  cbn [pbind nonempty]. rewrite quotation_none. cbn [str_eqb]. change (str_eqb (lit "_") (lit "__")) with false. change (str_eqb (lit "_") (lit "_")) with true.
  cbn [pbind chunk_nodes]. do 3 f_equal. len.
Qed.
Lemma key_away key c w l : key = c :: w -> alnum c = true -> forall s, ~ In 91%N l -> incl l (lit "[]*`:_|#") -> away l 91%N (key ++ s).
Proof.
  intros -> Hc s H Hi. split; [exact H|right]. cbn. intros Hin. apply Hi in Hin. destruct (alnum_fine c Hc) as [Hf _]. auto.
Qed.
Ltac inc := let x := fresh in intros x Hx; cbn in Hx; repeat (destruct Hx as [<-|Hx]; [cbn; auto 20|]); destruct Hx.
Ltac noin := let H := fresh in intros H; cbn in H; repeat (destruct H as [H|H]; [discriminate H|]); destruct H.
Lemma step_note n rest : n <> [] -> forallb is_ascii_digit n = true -> closes rest ->
  steps_to (lit "[" ++ n ++ lit "]_" ++ rest) (chunk_nodes (Note n)) (length (chunk_source (Note n))).
Proof.
  intros Hn Hd Hr doc. destruct (note_captures n rest Hn Hd Hr) as (cs & Hcs & H1 & H2 & H3 & H4 & H9 & H10).
  destruct n as [|c w] eqn:En; [congruence|]. rewrite <- En in *. assert (Hc : alnum c = true).
  { rewrite En in Hd. cbn [forallb] in Hd. apply andb_prop in Hd as [Hd _]. unfold alnum, is_ascii_alnum. rewrite Hd. apply orb_true_r. }
  unfold match_inline_str. change (lit "[" ++ n ++ lit "]_" ++ rest) with (91%N :: n ++ 93%N :: 95%N :: rest) in *.
  unfold inline_table. cbn [match_inline]. rewrite no_whitespace by reflexivity.
  rewrite pass_strong, pass_emph, pass_literal, pass_target, pass_phrase, pass_text by (eapply key_away; [exact En|exact Hc|noin|inc]).
  rewrite Hcs. unfold footnote_ref. rewrite H1, H4, (get_cap_some _ _ _ H2), (get_cap_some _ _ _ H3), (get_cap_some _ _ _ H10), (get_cap_some _ _ _ H9). cbn [pbind].
  assert (Hne : nonempty n = true) by (rewrite En; reflexivity). rewrite Hne. cbn [pbind nonempty app chunk_nodes]. do 3 f_equal. len.
Qed.
Lemma step_cite key rest : name_ok key = true -> forallb is_ascii_digit key = false -> closes rest ->
  steps_to (lit "[" ++ key ++ lit "]_" ++ rest) (chunk_nodes (Cite key)) (length (chunk_source (Cite key))).
Proof.
  intros Hn Hd Hr doc. destruct (cite_captures key rest Hn Hr) as (cs & Hcs & H1 & H2 & H3 & H4). pose proof (cite_no_note key rest Hn Hd) as Hno.
  destruct (key_spec key Hn) as (c & w & Ek & Hc & Hw).
  unfold match_inline_str. change (lit "[" ++ key ++ lit "]_" ++ rest) with (91%N :: key ++ 93%N :: 95%N :: rest) in *.
  unfold inline_table. cbn [match_inline]. rewrite no_whitespace by reflexivity.
  rewrite pass_strong, pass_emph, pass_literal, pass_target, pass_phrase, pass_text by (eapply key_away; [exact Ek|exact Hc|noin|inc]).
  rewrite Hno, Hcs. unfold citation_ref. rewrite H1, (get_cap_some _ _ _ H2), (get_cap_some _ _ _ H3), (get_cap_some _ _ _ H4). cbn [pbind nonempty andb].
  rewrite trim_key. 2:{ rewrite Ek. cbn [forallb]. apply andb_true_intro. auto. } cbn [app chunk_nodes pbind]. do 3 f_equal. len.
Qed.
Lemma step_link name rest : name_ok name = true -> closes rest -> steps_to (name ++ lit "_" ++ rest) (chunk_nodes (Link name)) (length (chunk_source (Link name))).
Proof.
  intros Hn Hr doc. destruct (link_captures name rest Hn Hr) as (cs & Hcs & H1 & H2 & H3). destruct (key_spec name Hn) as (c & w & Ek & Hc & Hw).
  destruct (alnum_fine c Hc) as (Hf & Hs & Hl).
  unfold match_inline_str. rewrite Ek in *. cbn [app] in *.
  assert (A : forall l s, incl l (lit "[]*`:_|#") -> away l c s). { intros l s Hi. split; [intros Hin; apply Hi in Hin; auto|now left]. }
  unfold inline_table. cbn [match_inline]. rewrite no_whitespace by exact Hs.
  rewrite pass_strong, pass_emph, pass_literal, pass_target, pass_phrase, pass_text, pass_note, pass_cite by (apply A; inc).
  rewrite Hcs. unfold simple_ref. rewrite H1, (get_cap_some _ _ _ H2), (get_cap_some _ _ _ H3). cbn [pbind nonempty]. unfold ref_label.
  change (str_eqb (lit "_") (lit "__")) with false. change (str_eqb (lit "_") (lit "_")) with true. cbn [pbind chunk_nodes]. do 3 f_equal. len.
Qed.
Lemma step_subst t rest : inside 124%N t = true -> closes rest -> steps_to (lit "|" ++ t ++ lit "|" ++ rest) (chunk_nodes (Subst t)) (length (chunk_source (Subst t))).
Proof.
  intros Ht Hr doc. destruct (subst_captures t rest Ht Hr) as (cs & Hcs & H1 & H2 & H3 & H4 & H5).
  unfold match_inline_str. change (lit "|" ++ t ++ lit "|" ++ rest) with (124%N :: t ++ 124%N :: rest) in *.
  unfold inline_table. cbn [match_inline]. rewrite no_whitespace by reflexivity.
  rewrite pass_strong, pass_emph, pass_literal, pass_target, pass_phrase, pass_text, pass_note, pass_cite by aw. rewrite pass_link by reflexivity.
  rewrite Hcs. unfold substitution_ref. rewrite H1, H5, (get_cap_some _ _ _ H2), (get_cap_some _ _ _ H3), (get_cap_some _ _ _ H4). cbn [pbind nonempty].
  rewrite quotation_none. cbn [pbind chunk_nodes]. do 3 f_equal. len.
Qed.

(* ---------- the loop ---------- *)
Definition reads (s : str) (ns : list TreeNodeType) : Prop := forall fuel doc call d c, length s < fuel -> exists pieces,
  pexec call (inline_loop fuel doc s) d c = Ret ((pieces, []), d, cur_add c (newlines s)) /\ flat_map snd pieces = ns.
Lemma reads_nil : reads [] [].
Proof.
  intros fuel doc call d c Hf. destruct fuel as [|f]; [cbn in Hf; lia|]. exists []. split; [|reflexivity]. cbn. do 2 f_equal. destruct c. unfold cur_add. cbn. now rewrite Nat.add_0_r.
Qed.
Lemma reads_step w rest ns ns' : w <> [] -> steps_to (w ++ rest) ns (length w) -> reads rest ns' -> reads (w ++ rest) (ns ++ ns').
Proof.
  intros Hw Hs Hr fuel doc call d c Hf. destruct fuel as [|f]; [lia|]. rewrite app_length in Hf. assert (1 <= length w) by (destruct w; [congruence|cbn; lia]).
  destruct (Hr f doc call d (cur_add c (newlines w)) ltac:(lia)) as (pieces & E & En).
  exists ((w, ns) :: pieces). split; [|cbn [flat_map snd]; now rewrite En].
  cbn [inline_loop]. rewrite (Hs doc). cbn [pbind]. rewrite firstn_len by reflexivity. cbn [advance pbind pexec]. rewrite pexec_bind.
  rewrite skipn_app, Nat.sub_diag, skipn_all. cbn [app skipn]. rewrite E. cbn [obind pexec].
  do 2 f_equal. unfold cur_add. cbn [cur_offset cur_baseline]. f_equal. rewrite newlines_app. lia.
Qed.

(* plain text *)
Lemma runs_head c t : exists w l, runs_of (c :: t) = (is_whitespace c, c :: w) :: l.
Proof.
  cbn [runs_of]. destruct (runs_of t) as [|[b w] l]; [eauto|]. destruct (Bool.eqb b (is_whitespace c)) eqn:E; [|eauto]. apply Bool.eqb_prop in E. subst b. eauto.
Qed.
Lemma runs_run b w s : w <> [] -> forallb (fun c => Bool.eqb b (is_whitespace c)) w = true -> (s = [] \/ exists c t, s = c :: t /\ is_whitespace c <> b) ->
  runs_of (w ++ s) = (b, w) :: runs_of s.
Proof.
  intros Hne Hw Hs. induction w as [|c w IH]; [congruence|]. cbn [forallb] in Hw. apply andb_prop in Hw as [Hc Hw]. apply Bool.eqb_prop in Hc.
  destruct w as [|c' w].
  - cbn [app runs_of]. destruct Hs as [->|(d & t & -> & Hd)]; cbn [runs_of]; [now subst b|].
    destruct (runs_head d t) as (w & l & E). cbn [runs_of] in E. rewrite E. destruct (Bool.eqb _ (is_whitespace c)) eqn:E'; [|now subst b].
    apply Bool.eqb_prop in E'. congruence.
  - change ((c :: c' :: w) ++ s) with (c :: (c' :: w) ++ s). cbn [runs_of]. change (c' :: w ++ s) with ((c' :: w) ++ s).
    assert (E : runs_of ((c' :: w) ++ s) = (b, c' :: w) :: runs_of s) by (apply IH; [discriminate|exact Hw]).
    cbn [app runs_of] in E |- *. rewrite E. rewrite <- Hc, Bool.eqb_reflx. reflexivity.
Qed.
Lemma span_run (s : str) : s <> [] -> exists b w t, s = w ++ t /\ w <> [] /\ forallb (fun c => Bool.eqb b (is_whitespace c)) w = true /\
  (t = [] \/ exists c u, t = c :: u /\ is_whitespace c <> b).
Proof.
  induction s as [|c s IH]; [congruence|]. intros _. destruct s as [|c' s].
  - exists (is_whitespace c), [c], []. repeat split; auto; [discriminate|]. cbn. now rewrite Bool.eqb_reflx.
  - destruct IH as (b & w & t & E & Hw & Hb & Ht); [discriminate|]. destruct (Bool.eqb b (is_whitespace c)) eqn:Ec.
    + exists b, (c :: w), t. rewrite E. repeat split; auto; [discriminate|]. cbn [forallb]. now rewrite Ec.
    + exists (is_whitespace c), [c], (c' :: s). split; [reflexivity|]. split; [discriminate|]. split; [cbn; now rewrite Bool.eqb_reflx|].
      right. exists c', s. split; [reflexivity|]. destruct w as [|x w]; [congruence|]. cbn [app] in E. injection E as -> _. cbn [forallb] in Hb. apply andb_prop in Hb as [Hb _].
      apply Bool.eqb_prop in Hb. rewrite <- Hb. intros ->. rewrite Bool.eqb_reflx in Ec. discriminate.
Qed.
(* what may stand after plain text *)
Definition text_end (s rest : str) : Prop := rest = [] \/ (ends_white s = true /\ (exists c r, rest = c :: r /\ is_whitespace c = false) /\ beepless rest).
Lemma last_app (w t : str) x : t <> [] -> last (w ++ t) x = last t x.
Proof. intros H. induction w as [|c w IH]; [reflexivity|]. cbn [app last]. destruct (w ++ t) eqn:E; [apply app_eq_nil in E as [_ E]; congruence|exact IH]. Qed.
Lemma text_end_tail w t rest : t <> [] -> text_end (w ++ t) rest -> text_end t rest.
Proof. intros H [E|(H1 & H2)]; [left; exact E|right]. split; [|exact H2]. unfold ends_white in *. now rewrite last_app in H1. Qed.
Lemma plain_chars s : no_markup_chars s = true -> plain s.
Proof.
  unfold no_markup_chars. intros H c Hc Hm. rewrite forallb_forall in H. apply H in Hc. apply negb_true_iff in Hc.
  assert (existsb (N.eqb c) markup_chars = true); [|congruence]. apply existsb_exists. exists c. split; [exact Hm|apply N.eqb_refl].
Qed.
Lemma tail_no_colon b : In b dot_tails -> forallb nsp b = true /\ ~ In 58%N b /\ b <> [].
Proof. unfold dot_tails. intros H. cbn [In] in H. repeat (destruct H as [<-|H]; [repeat split; [intros H'; cbn in H'; intuition discriminate|discriminate]|]). destruct H. Qed.
Lemma app_cut (a b x y : str) : a ++ b = x ++ y -> exists z, (a = x ++ z /\ y = z ++ b) \/ (x = a ++ z /\ b = z ++ y).
Proof.
  revert x. induction a as [|c a IH]; intros x E.
  - exists x. right. auto.
  - destruct x as [|d x].
    + exists (c :: a). left. auto.
    + injection E as -> E. destruct (IH x E) as (z & [[-> ->]|[-> ->]]); exists z; [left|right]; auto.
Qed.
Lemma plain_cons n c t : plain_text n (c :: t) = true -> exists m, plain_text m t = true.
Proof. cbn [plain_text]. destruct (is_whitespace c); [eauto|]. intros H. apply andb_prop in H as [_ H]. eauto. Qed.
Lemma colon_next a : forall n z, plain_text n (a ++ 58%N :: z) = true -> boundary z.
Proof.
  induction a as [|c a IH]; intros n z H.
  - cbn [app plain_text] in H. change (is_whitespace 58%N) with false in H. cbn iota in H. do 2 (apply andb_prop in H as [H _]). apply andb_prop in H as [_ H]. cbn in H.
    destruct z as [|d z]; [exact I|exact H].
  - cbn [app] in H. apply plain_cons in H as (m & H). eauto.
Qed.
Lemma text_beepless n s rest : plain_text n s = true -> text_end s rest -> s <> [] -> beepless (s ++ rest).
Proof.
  intros Hp He Hs b u Hb E. destruct (tail_no_colon b Hb) as (Hbn & Hbc & Hbe).
  apply app_cut in E as (z & [[Es Er]|[Es Er]]).
  - destruct z as [|x z].
    + rewrite app_nil_r in Es. subst s. cbn [app] in Er. destruct He as [->|(H1 & (c & r & -> & Hc) & _)]; [discriminate Er|].
      unfold ends_white in H1. destruct (exists_last Hs) as (m & y & ->). rewrite last_last in H1. rewrite forallb_app in Hbn. apply andb_prop in Hbn as [_ Hbn].
      cbn in Hbn. unfold nsp in Hbn. rewrite H1 in Hbn. discriminate.
    + cbn [lit app] in Er. apply (f_equal (@tl char)) in Er as Er'. cbn [tl app] in Er'. apply (f_equal (hd 0%N)) in Er. cbn [hd app] in Er. rewrite <- Er in Es. subst u.
      rewrite Es in Hp. apply colon_next in Hp. destruct z as [|d z]; [|exact Hp]. cbn [app]. destruct He as [->|(H1 & _)]; [exact I|].
      unfold ends_white in H1. change (0 + 2 * (1 + 2 * (0 + 2 * (1 + 2 * (1 + 2 * (1 + 2 * (0 + 2 * (0 + 2 * 0))))))))%N with 58%N in Es. rewrite Es, last_last in H1. discriminate H1.
  - destruct z as [|x z].
    + rewrite app_nil_r in Es. subst b. destruct He as [->|(H1 & (c & r & -> & Hc) & _)]; [discriminate Er|].
      unfold ends_white in H1. destruct (exists_last Hs) as (m & y & ->). rewrite last_last in H1. rewrite forallb_app in Hbn. apply andb_prop in Hbn as [_ Hbn].
      cbn in Hbn. unfold nsp in Hbn. rewrite H1 in Hbn. discriminate.
    + subst b. destruct He as [->|(H1 & _)]; [discriminate Er|].
      unfold ends_white in H1. destruct (exists_last Hs) as (m & y & ->). rewrite last_last in H1. rewrite forallb_app in Hbn. apply andb_prop in Hbn as [Hbn _].
      rewrite forallb_app in Hbn. apply andb_prop in Hbn as [_ Hbn]. cbn in Hbn. unfold nsp in Hbn. rewrite H1 in Hbn. discriminate.
Qed.
Lemma plain_suffix a : forall n t, plain_text n (a ++ t) = true -> exists m, plain_text m t = true.
Proof. induction a as [|c a IH]; intros n t H; [eauto|]. cbn [app] in H. apply plain_cons in H as (m & H). eauto. Qed.
Lemma run_tail b w t : forallb (fun c => Bool.eqb b (is_whitespace c)) w = true -> (t = [] \/ exists c u, t = c :: u /\ is_whitespace c <> b) ->
  plain_text 0 (w ++ t) = true -> plain_text 0 t = true.
Proof.
  intros Hw Ht. assert (G : forall n, (b = true -> n = 0) -> plain_text n (w ++ t) = true -> plain_text 0 t = true); [|apply (G 0); auto].
  induction w as [|c w IH]; intros n Hn H; cbn [app forallb] in *.
  - destruct Ht as [->|(c & u & -> & Hc)]; [reflexivity|]. destruct b.
    + rewrite (Hn eq_refl) in H. exact H.
    + cbn [plain_text] in *. destruct (is_whitespace c); [exact H|congruence].
  - apply andb_prop in Hw as [Hc Hw]. apply Bool.eqb_prop in Hc. cbn [plain_text] in H. rewrite <- Hc in H. destruct b.
    + apply (IH Hw 0); auto.
    + apply andb_prop in H as [_ H]. eapply (IH Hw (S n)); [discriminate|exact H].
Qed.
(* the first word of a plain text *)
Lemma run_word w t : plain_text 0 (w ++ t) = true -> forallb nsp w = true -> boundary t -> tame w /\ unmarked w.
Proof.
  intros H Hw Ht. split.
  - assert (G : forall n, plain_text n (w ++ t) = true -> tame w); [|eapply G; exact H]. clear H. induction w as [|c w IH]; intros n H Hx; [inversion Hx|].
    cbn [forallb] in Hw. apply andb_prop in Hw as [Hc Hw]. cbn [app plain_text] in H. unfold nsp in Hc. apply negb_true_iff in Hc. rewrite Hc in H.
    apply andb_prop in H as [H H5]. apply andb_prop in H as [H H4]. apply andb_prop in H as [H H3]. apply andb_prop in H as [_ H2].
    remember (c :: w) as l eqn:El. destruct Hx as [b|d b|b Hb|d l' Hx]; try (apply (f_equal (hd 0%N)) in El as E1; cbn [hd] in E1; apply (f_equal (@tl char)) in El; cbn [tl] in El; subst c).
    + discriminate H2.
    + subst w. cbn in H3. cbn [forallb] in Hw. apply andb_prop in Hw as [Hw _]. unfold nsp in Hw. rewrite H3 in Hw. discriminate.
    + subst b. destruct w as [|d w]; cbn [app] in H4.
      * destruct t as [|d t]; [discriminate H4|]. cbn in H4. cbn in Ht. apply alnum_ink in H4. unfold nsp in H4. rewrite Ht in H4. discriminate.
      * cbn in H4. unfold alnum in Hb. congruence.
    + subst l'. exact (IH Hw _ H5 Hx).
  - destruct w as [|c w]; [exact I|]. cbn [app plain_text forallb] in *. apply andb_prop in Hw as [Hc Hw]. unfold nsp in Hc. apply negb_true_iff in Hc. rewrite Hc in H.
    assert (Q : forall x n, negb (existsb (N.eqb x) (lit "*`|") && (n <=? 1)) = true -> n <= 1 -> ~ In x (lit "*`|")).
    { intros x n Hx Hn Hin. apply negb_true_iff in Hx. assert (E : existsb (N.eqb x) (lit "*`|") = true) by (apply existsb_exists; exists x; split; [exact Hin|apply N.eqb_refl]).
      rewrite E in Hx. cbn [andb] in Hx. apply Nat.leb_gt in Hx. lia. }
    apply andb_prop in H as [H H5]. do 3 (apply andb_prop in H as [H _]). split; [eapply Q; [exact H|lia]|]. destruct w as [|d w]; [exact I|].
    cbn [forallb] in Hw. apply andb_prop in Hw as [Hd _]. unfold nsp in Hd. apply negb_true_iff in Hd. cbn [app plain_text] in H5. rewrite Hd in H5.
    do 4 (apply andb_prop in H5 as [H5 _]). eapply Q; [exact H5|lia].
Qed.
Lemma reads_text n : forall s rest ns, length s <= n -> plain_text 0 s = true -> text_end s rest -> reads rest ns -> reads (s ++ rest) (map plain_node (runs_of s) ++ ns).
Proof.
  induction n as [|n IH]; intros s rest ns Hn Hm He Hr.
  - destruct s; [exact Hr|cbn in Hn; lia].
  - destruct s as [|c0 s0]; [exact Hr|]. destruct (span_run (c0 :: s0)) as (b & w & t & E & Hw & Hb & Ht); [discriminate|]. rewrite E in *. clear E c0 s0.
    rewrite (runs_run b w t Hw Hb Ht). cbn [map app]. rewrite <- app_assoc.
    change (plain_node (b, w) :: map plain_node (runs_of t) ++ ns) with ([plain_node (b, w)] ++ map plain_node (runs_of t) ++ ns).
    assert (Hlen : length t <= n). { rewrite app_length in Hn. destruct w; [congruence|]. cbn [length] in Hn. lia. }
    assert (Hrt : reads (t ++ rest) (map plain_node (runs_of t) ++ ns)).
    { destruct t as [|c u]; [exact Hr|]. apply IH; auto; [|eapply text_end_tail; [discriminate|exact He]]. eapply run_tail; [exact Hb|exact Ht|exact Hm]. }
    apply reads_step; [exact Hw| |exact Hrt]. intros doc. destruct b.
    + apply step_white; [exact Hw| |].
      * rewrite forallb_forall in *. intros x Hx. apply Hb in Hx. apply Bool.eqb_prop in Hx. symmetry. exact Hx.
      * destruct Ht as [->|(c & u & -> & Hc)].
        -- cbn [app]. destruct He as [->|(_ & (c & r & -> & Hc) & _)]; [now left|right]. exists c, r. auto.
        -- right. exists c, (u ++ rest). split; [reflexivity|]. unfold sp. destruct (is_whitespace c); congruence.
    + destruct (run_word w t) as [Hm1 Hm2]; [exact Hm|rewrite forallb_forall in *; intros x Hx; apply Hb in Hx; apply Bool.eqb_prop in Hx; unfold nsp; now rewrite <- Hx|
        destruct Ht as [->|(c & u & -> & Hc)]; [exact I|]; cbn; destruct (is_whitespace c); congruence|].
      apply step_word; [exact Hw| |exact Hm1|exact Hm2|].
      * rewrite forallb_forall in *. intros x Hx. apply Hb in Hx. apply Bool.eqb_prop in Hx. unfold nsp. now rewrite <- Hx.
      * destruct Ht as [->|(c & u & -> & Hc)].
        -- cbn [app]. rewrite app_nil_r in He. destruct He as [->|(H1 & _)]; [now left|exfalso].
           unfold ends_white in H1. destruct (exists_last Hw) as (m & y & ->). rewrite last_last in H1. rewrite forallb_app in Hb. apply andb_prop in Hb as [_ Hb].
           cbn in Hb. rewrite H1 in Hb. discriminate.
        -- right. exists c, (u ++ rest). split; [reflexivity|]. split; [destruct (is_whitespace c); congruence|].
           destruct u as [|c' u].
           ++ cbn [app]. destruct He as [->|(_ & _ & H)]; [intros b' u' Hb' E; destruct (tail_no_colon b' Hb') as (_ & _ & Hne); destruct b'; [congruence|discriminate E]|exact H].
           ++ destruct (plain_suffix (w ++ [c]) 0 (c' :: u)) as (m & Hm'); [rewrite <- app_assoc; exact Hm|].
              apply (text_beepless m); [exact Hm'|eapply text_end_tail with (w := w ++ [c]); [discriminate|rewrite <- app_assoc; exact He]|discriminate].
Qed.

(* ---------- texts ---------- *)
Definition is_span (c : chunk) : bool := match c with Txt _ => false | _ => true end.
Lemma ok_span fresh c l : is_span c = true -> chunks_ok fresh (c :: l) = true ->
  fresh = true /\ chunk_ok c = true /\ followed l = true /\ chunks_ok false l = true /\
  match c with Cited _ | RoleAfter _ _ => has_ref_end (chunks_source l) = false | _ => True end.
Proof.
  intros Hs H. destruct c; try discriminate Hs; cbn [chunks_ok] in H; apply andb_prop in H as [H H4]; apply andb_prop in H as [H H3]; apply andb_prop in H as [H H2];
    apply andb_prop in H as [H0 H1]; repeat split; auto; now apply negb_true_iff.
Qed.
Lemma followed_closes l : followed l = true -> closes (chunks_source l).
Proof.
  destruct l as [|c l]; [now left|]. destruct c; try discriminate. destruct s as [|x s]; [discriminate|]. cbn [followed]. intros H. right. exists x, (s ++ chunks_source l). split; [reflexivity|exact H].
Qed.
Lemma nonwhite_ok c : is_span c = true -> chunk_ok c = true -> exists x r, chunk_source c = x :: r /\ is_whitespace x = false.
Proof.
  intros Hs H. destruct c; try discriminate Hs; cbn [chunk_source chunk_ok] in *; try (do 2 eexists; split; [reflexivity|reflexivity]).
  destruct (key_spec name H) as (c & w & -> & Hc & _). do 2 eexists. split; [reflexivity|]. now apply alnum_fine.
Qed.
Lemma no_colon_link name b x u : forallb alnum name = true -> forallb alnum b = true -> name ++ 95%N :: x <> b ++ 58%N :: u.
Proof.
  revert b. induction name as [|c name IH]; intros b Hn Hb E; destruct b as [|d b]; cbn [app] in E; injection E as E1 E2; try discriminate.
  - subst d. discriminate Hb.
  - subst c. discriminate Hn.
  - cbn [forallb] in *. apply andb_prop in Hn as [_ Hn]. apply andb_prop in Hb as [_ Hb]. eapply IH; eauto.
Qed.
Lemma span_beepless c rest : is_span c = true -> chunk_ok c = true -> beepless (chunk_source c ++ rest).
Proof.
  intros Hs H b u Hb E. assert (Hb' : forallb alnum b = true /\ exists x t, b = x :: t /\ (x = 98%N \/ x = 53%N)).
  { unfold dot_tails in Hb. cbn [In] in Hb. repeat (destruct Hb as [<-|Hb]; [split; [reflexivity|]; do 2 eexists; split; [reflexivity|cbn; auto]|]). destruct Hb. }
  destruct Hb' as (Hb1 & x & t & -> & Hx).
  destruct c; try discriminate Hs; cbn [chunk_source chunk_ok] in *; try (cbn [app] in E; injection E as E _; destruct Hx; subst; discriminate).
  rewrite <- app_assoc in E. exfalso. revert E. apply (no_colon_link name (x :: t)); [|exact Hb1].
  destruct (key_spec name H) as (c & w & -> & Hc & Hw). cbn [forallb]. apply andb_true_intro. auto.
Qed.
Lemma chunks_read l : forall fresh, chunks_ok fresh l = true -> reads (chunks_source l) (flat_map chunk_nodes l).
Proof.
  induction l as [|c l IH]; intros fresh H; [apply reads_nil|]. destruct (is_span c) eqn:Hs.
  - destruct (ok_span fresh c l Hs H) as (_ & Hc & Hf & Hl & Hx). apply followed_closes in Hf. specialize (IH false Hl).
    unfold chunks_source. cbn [flat_map]. fold (chunks_source l). apply reads_step; [| |exact IH].
    { destruct (nonwhite_ok c Hs Hc) as (x & r & E & _). rewrite E. discriminate. }
    destruct c; try discriminate Hs; cbn [chunk_source chunk_ok] in *; rewrite <- ?app_assoc.
    + now apply step_emph.
    + now apply step_strong.
    + now apply step_verb.
    + now apply step_cited.
    + apply andb_prop in Hc as [Hc1 Hc2]. now apply step_role.
    + apply andb_prop in Hc as [Hc1 Hc2]. now apply step_after.
    + now apply step_link.
    + apply andb_prop in Hc as [Hc1 Hc2]. apply step_phrase; auto. intros Hin. apply negb_true_iff in Hc2.
      assert (existsb (N.eqb 60%N) t = true); [|congruence]. apply existsb_exists. exists 60%N. split; [exact Hin|reflexivity].
    + apply andb_prop in Hc as [Hc1 Hc2]. apply step_cite; auto. now apply negb_true_iff.
    + apply andb_prop in Hc as [Hc1 Hc2]. apply step_note; auto. destruct number; discriminate.
    + now apply step_subst.
  - destruct c; try discriminate Hs. cbn [chunks_ok chunk_ok] in H. apply andb_prop in H as [H H3]. apply andb_prop in H as [H H2]. apply andb_prop in H as [_ H1].
    unfold chunks_source. cbn [flat_map chunk_nodes chunk_source]. fold (chunks_source l). apply (reads_text (length s)); [lia|exact H1| |eapply IH; exact H3].
    destruct l as [|c l]; [now left|right]. destruct (is_span c) eqn:Hc; [|destruct c; discriminate].
    destruct (ok_span _ c l Hc H3) as (Hw & Hok & _). split; [exact Hw|]. split; [|apply span_beepless; auto].
    destruct (nonwhite_ok c Hc Hok) as (x & r & E & Hx). exists x, (r ++ chunks_source l). split; [|exact Hx]. unfold chunks_source. cbn [flat_map]. now rewrite E.
Qed.
Lemma inline_parse_chunks l fresh doc call d c : chunks_ok fresh l = true ->
  pexec call (inline_parse doc (chunks_source l)) d c = Ret (flat_map chunk_nodes l, d, cur_add c (newlines (chunks_source l))).
Proof.
  intros H. destruct (chunks_read l fresh H (S (length (chunks_source l))) doc call d c ltac:(lia)) as (pieces & E & En).
  unfold inline_parse, inline_pieces. rewrite pexec_bind, E. cbn [obind pexec]. now rewrite En.
Qed.
