(* SpanProofs.v -- the inline patterns on the markup of MarkupSpec.v (C48) *)
From Verif Require Import Base Unicode Common NodeTypes Tree DocTree History Regex RegexProofs RegexGroups Patterns
  Utf8Latex Prog Inline InlineSpec LoopProofs InlineProofs DirectiveProofs TextProofs Spec MarkupSpec MarkupProofs.
From Coq Require Import ZifyBool ZifyNat ZifyN Lia.

(* ---------- patterns that do not match ---------- *)
Lemma rmatch_none {R} r i s cs (k : @kont R) : (forall t, ~ rel r s t) -> rmatch r i s cs k = None.
Proof.
  intros H. destruct (rmatch r i s cs k) as [x|] eqn:E; [|reflexivity]. apply rmatch_sound in E as (t & new & R1 & _).
  exfalso. exact (H t (relc_rel _ _ _ _ _ R1)).
Qed.
Definition begins (r : re) (l : str) : Prop := forall s t, rel r s t -> exists c s', s = c :: s' /\ In c l.
Lemma b_chr c l : In c l -> begins (Chr c) l.
Proof. intros H s t R. apply rel_chr in R. eauto. Qed.
Lemma b_lit c x l : In c l -> begins (Lit (c :: x)) l.
Proof. intros H s t R. apply rel_lit in R. cbn [app] in R. eauto. Qed.
Lemma b_cat a b l : begins a l -> begins (Cat a b) l.
Proof. intros H s t R. apply rel_cat_inv in R as (u & R & _). eauto. Qed.
Lemma b_grp n a l : begins a l -> begins (Grp n a) l.
Proof. intros H s t R. apply rel_grp_inv in R. eauto. Qed.
Lemma b_opt a b l : begins a l -> begins b l -> begins (Cat (Opt a) b) l.
Proof. intros H H' s t R. apply rel_cat_inv in R as (u & R1 & R2). apply rel_opt in R1 as [R1| ->]; eauto. Qed.
Definition heads_off (l s : str) : Prop := match s with [] => True | c :: _ => ~ In c l end.
Lemma begins_no r l s t : begins r l -> heads_off l s -> ~ rel r s t.
Proof. intros H Ho R. apply H in R as (c & s' & -> & Hc). exact (Ho Hc). Qed.
Lemma lb_none r l c s : begins r l -> ~ In c l -> (lookbehind_cls c = false \/ heads_off l s) -> captures (Cat LB r) (c :: s) = None.
Proof.
  intros H Hc Ho. apply captures_none. intros [t R]. apply rel_cat_inv in R as (u & R1 & R2). apply rel_opt in R1 as [R1|<-].
  - apply rel_grp_inv, rel_cls_inv in R1 as (c' & E & Hl). injection E as <- <-. destruct Ho as [Ho|Ho]; [congruence|].
    exact (begins_no _ _ _ _ H Ho R2).
  - exact (begins_no r l (c :: s) t H Hc R2).
Qed.
(* the optional character before markup takes no part *)
Lemma lb_pass {R} r i a s cs (k : @kont R) : lookbehind_cls a = false \/ (forall t, ~ rel r s t) ->
  rmatch (Cat LB r) i (a :: s) cs k = rmatch r i (a :: s) cs k.
Proof.
  intros H. rewrite rmatch_cat. unfold LB, Opt. rewrite rmatch_alt, rmatch_grp, rmatch_cls. destruct (lookbehind_cls a) eqn:E; [|reflexivity].
  destruct H as [H|H]; [congruence|]. rewrite (rmatch_none r) by exact H. reflexivity.
Qed.
Lemma rmatch_lit {R} l : forall i s cs (k : @kont R), rmatch (Lit l) i (l ++ s) cs k = k (i + length l) s cs.
Proof.
  induction l as [|c l IH]; intros i s cs k; [cbn; now rewrite Nat.add_0_r|]. destruct l as [|c' l].
  - cbn [Lit app]. rewrite rmatch_chr. cbn [length]. f_equal. lia.
  - change (Lit (c :: c' :: l)) with (Cat (Chr c) (Lit (c' :: l))). cbn [app]. rewrite rmatch_cat, rmatch_chr. change (c' :: l ++ s) with ((c' :: l) ++ s).
    rewrite IH. cbn [length]. f_equal. lia.
Qed.
Lemma rmatch_lit_no {R} d l i c s cs (k : @kont R) : c <> d -> rmatch (Lit (d :: l)) i (c :: s) cs k = None.
Proof. intros H. destruct l; cbn [Lit]; [|rewrite rmatch_cat]; apply rmatch_chr_no; congruence. Qed.
(* a lazy text up to the first place where what follows succeeds *)
Lemma between {R} p0 pm p1 c m z d i cs (k : @kont R) x :
  forallb pm m = true -> p0 c = true -> p1 z = true ->
  (forall a y b cs', c :: m ++ [z] = a ++ y :: b -> a <> [] -> k (i + length a) (y :: b ++ d) cs' = None) ->
  k (i + length (c :: m ++ [z])) d cs = Some x ->
  rmatch (Alt (Cls p1) (Seq [Cls p0; Star false (Cls pm); Cls p1])) i ((c :: m ++ [z]) ++ d) cs k = Some x.
Proof.
  intros Hm Hc Hz Hk Hx. rewrite rmatch_alt. cbn [app Seq]. rewrite rmatch_cls.
  assert (E : (if p1 c then k (S i) ((m ++ [z]) ++ d) cs else None) = None).
  { destruct (p1 c); [|reflexivity]. destruct m as [|y m].
    - pose proof (Hk [c] z [] cs eq_refl ltac:(discriminate)) as H. cbn [length app] in *. rewrite <- H. f_equal. lia.
    - pose proof (Hk [c] y (m ++ [z]) cs eq_refl ltac:(discriminate)) as H. cbn [length app] in *. rewrite <- H. f_equal. lia. }
  rewrite E. cbn [orelse]. rewrite rmatch_cat, rmatch_cls, Hc, rmatch_cat, rmatch_star. rewrite <- app_assoc. cbn [app].
  apply star_lazy; auto.
  - rewrite rmatch_cls, Hz. rewrite <- Hx. f_equal. cbn [length]. rewrite app_length. cbn [length]. lia.
  - intros a y b ->. rewrite rmatch_cls. destruct (p1 y); [|reflexivity].
    destruct b as [|y' b].
    + pose proof (Hk (c :: a ++ [y]) z [] cs) as H. cbn [length app] in *. rewrite app_length in H. cbn [length] in H.
      rewrite <- H; [|rewrite <- !app_assoc; reflexivity|discriminate]. f_equal. lia.
    + pose proof (Hk (c :: a ++ [y]) y' (b ++ [z]) cs) as H. cbn [length app] in *. rewrite app_length in H. cbn [length] in H.
      rewrite <- app_assoc in H. cbn [app] in H. rewrite <- H; [|rewrite <- !app_assoc; reflexivity|discriminate]. f_equal; [lia|]. now rewrite <- app_assoc.
Qed.
Lemma between1 {R} p0 pm p1 z d i cs (k : @kont R) x : p1 z = true -> k (S i) d cs = Some x ->
  rmatch (Alt (Cls p1) (Seq [Cls p0; Star false (Cls pm); Cls p1])) i (z :: d) cs k = Some x.
Proof. intros H Hx. rewrite rmatch_alt, rmatch_cls, H, Hx. reflexivity. Qed.
Lemma ends_split (t : str) : t <> [] -> (exists z, t = [z]) \/ exists c m z, t = c :: m ++ [z].
Proof.
  intros H. destruct t as [|c t]; [congruence|]. destruct t as [|c' t]; [left; eauto|right].
  destruct (exists_last (l := c' :: t)) as (m & z & E); [discriminate|]. rewrite E. eauto.
Qed.
Lemma last_snoc (c : char) m z x : last (c :: m ++ [z]) x = z.
Proof. change (c :: m ++ [z]) with ((c :: m) ++ [z]). apply last_last. Qed.
Lemma inside_spec d t : inside d t = true -> ~ In d t /\ ~ In newline t /\
  ((exists z, t = [z] /\ nsp z = true /\ nsp_nbs z = true) \/ exists c m z, t = c :: m ++ [z] /\ nsp c = true /\ nsp_nbs z = true).
Proof.
  unfold inside. intros H. apply andb_prop in H as [H H5]. apply andb_prop in H as [H H4]. apply andb_prop in H as [H H3]. apply andb_prop in H as [H1 H2].
  assert (N1 : forall x, negb (existsb (N.eqb x) t) = true -> ~ In x t).
  { intros x E Hx. apply negb_true_iff in E. assert (existsb (N.eqb x) t = true); [|congruence]. apply existsb_exists. exists x. split; auto. apply N.eqb_refl. }
  split; [auto|]. split; [apply N1; exact H2|]. destruct t as [|c t]; [discriminate|].
  assert (Hn : nsp_nbs (last_char (c :: t)) = true). { unfold nsp_nbs, nsp. rewrite H4. cbn [andb]. exact H5. }
  destruct (ends_split (c :: t)) as [[z E]|(c' & m & z & E)]; [discriminate| |].
  - left. exists z. injection E as -> ->. split; [reflexivity|]. split; [exact H3|exact Hn].
  - right. injection E as <- E. exists c, m, z. rewrite E in *. unfold last_char in Hn. rewrite last_snoc in Hn. split; [reflexivity|]. split; [exact H3|exact Hn].
Qed.
Lemma content_match {R} t d rest i cs (k : @kont R) x : inside d t = true ->
  (forall j a y b cs', t = a ++ y :: b -> a <> [] -> k j (y :: b ++ rest) cs' = None) ->
  k (i + length t) rest cs = Some x -> rmatch content_re i (t ++ rest) cs k = Some x.
Proof.
  intros H Hk Hx. apply inside_spec in H as (_ & _ & [(z & -> & _ & Hz)|(c & m & z & -> & Hc & Hz)]).
  - apply between1; auto. rewrite <- Hx. f_equal. cbn [length]. lia.
  - apply between; [apply forallb_forall; reflexivity|exact Hc|exact Hz|intros; eapply Hk; eauto|exact Hx].
Qed.
(* what follows markup *)
Definition closes (rest : str) : Prop := rest = [] \/ exists c r, rest = c :: r /\ closing c = true.
Lemma closing_la c : closing c = true -> sp c = true \/ lookahead_cls c = true.
Proof.
  unfold closing. intros H. apply orb_prop in H as [H|H]; [left; exact H|right]. apply existsb_exists in H as (x & Hx & E). apply N.eqb_eq in E. subst x.
  cbn [In lit] in Hx. revert Hx. cbn. intros Hx. repeat (destruct Hx as [<-|Hx]; [reflexivity|]). destruct Hx.
Qed.
Lemma la_ok {R} n rest i cs (k : @kont R) : closes rest -> (forall i s cs, k i s cs <> None) ->
  exists i' s' y, rmatch (LA n) i rest cs k = k i' s' ((n, y) :: cs).
Proof.
  intros H Hk. unfold LA. cbn [Alts]. rewrite rmatch_grp. destruct H as [->|(c & r & -> & Hc)].
  - do 3 eexists. rewrite !rmatch_alt, !rmatch_cls_nil. cbn [orelse]. rewrite rmatch_eot. reflexivity.
  - rewrite !rmatch_alt, !rmatch_cls. destruct (sp c) eqn:Es.
    + destruct (k (S i) r _) eqn:E; [|exfalso; eapply Hk; exact E]. do 3 eexists. cbn [orelse]. symmetry. exact E.
    + destruct (closing_la c Hc) as [Hl|Hl]; [congruence|]. cbn [orelse]. rewrite Hl.
      destruct (k (S i) r _) eqn:E; [|exfalso; eapply Hk; exact E]. do 3 eexists. cbn [orelse]. symmetry. exact E.
Qed.
Lemma span_text (a b : str) i n : n = i + length a -> firstn (n - i) (a ++ b) = a.
Proof. intros ->. apply firstn_len. lia. Qed.
Definition fin_k (s : str) : @kont (nat * caps) := fun i _ cs => Some (i, (0, (0, firstn i s)) :: cs).
Lemma fin_k_some s i s' cs : fin_k s i s' cs <> None.
Proof. discriminate. Qed.
Lemma captures_eq r s n cs : rmatch r 0 s [] (fin_k s) = Some (n, cs) -> captures r s = Some cs.
Proof. intros H. unfold captures. assert (E : rexec r s = Some (n, cs)) by exact H. now rewrite E. Qed.
Lemma la_fin n rest i cs s : closes rest -> exists i' y, rmatch (LA n) i rest cs (fin_k s) = Some (i', (0, (0, firstn i' s)) :: (n, y) :: cs).
Proof. intros H. destruct (la_ok n rest i cs (fin_k s) H (fin_k_some s)) as (i' & s' & y & E). rewrite E. unfold fin_k. eauto. Qed.

(* ---------- the simple patterns ---------- *)
Lemma simple_captures a b st d fin t rest : lit a = st -> lit b = d :: fin -> inside d t = true -> closes rest ->
  match st with c :: _ => lookbehind_cls c = false | [] => False end ->
  exists cs, captures (simple_inline a b) (st ++ t ++ (d :: fin) ++ rest) = Some cs /\
    opt_cap 1 cs = [] /\ cap 2 cs = Some st /\ cap 3 cs = Some t /\ cap 4 cs = Some (d :: fin).
Proof.
  intros Ea Eb Ht Hr Hst. unfold simple_inline. change (q a) with (lit a). change (q b) with (lit b). rewrite Ea, Eb. cbn [Seq].
  destruct st as [|c st]; [contradiction|]. set (s := (c :: st) ++ _).
  assert (E : exists n i1 y, rmatch (Cat LB (Cat (Grp 2 (Lit (c :: st))) (Cat (Grp 3 content_re) (Cat (Grp 4 (Lit (d :: fin))) (LA 5))))) 0 s [] (fin_k s) =
    Some (n, (0, (0, firstn n s)) :: (5, y) :: (4, (i1, d :: fin)) :: (3, (length (c :: st), t)) :: (2, (0, c :: st)) :: [])).
  { destruct (la_fin 5 rest (length (c :: st) + length t + length (d :: fin)) ((4, (length (c :: st) + length t, d :: fin)) :: (3, (length (c :: st), t)) :: (2, (0, c :: st)) :: []) s Hr) as (n & y & E).
    exists n, (length (c :: st) + length t), y. subst s. cbn [app]. rewrite lb_pass by (now left).
    rewrite rmatch_cat, rmatch_grp. change (c :: st ++ t ++ d :: fin ++ rest) with ((c :: st) ++ t ++ (d :: fin) ++ rest). rewrite rmatch_lit, rmatch_cat, rmatch_grp.
    rewrite span_text by reflexivity. cbn [Nat.add].
    apply (content_match t d); auto.
    - intros j a' y' b' cs' Et _. rewrite rmatch_cat, rmatch_grp. apply rmatch_lit_no. intros ->. apply inside_spec in Ht as (Hd & _). apply Hd. rewrite Et. apply in_or_app. right. now left.
    - rewrite span_text by reflexivity. rewrite rmatch_cat, rmatch_grp, rmatch_lit. rewrite span_text by reflexivity. exact E. }
  destruct E as (n & i1 & [y1 y2] & E). eexists. split; [eapply captures_eq; exact E|]. repeat split.
Qed.

(* ---------- interpreted text ---------- *)
Lemma opt_off {R} (r : re) i s cs (k : @kont R) : (forall t, ~ rel r s t) -> rmatch (Opt r) i s cs k = k i s cs.
Proof. intros H. unfold Opt. rewrite rmatch_alt, (rmatch_none r) by exact H. reflexivity. Qed.
Lemma closing_not c d : closing d = false -> closing c = true -> c <> d.
Proof. intros H1 H2 ->. congruence. Qed.
Lemma closes_off l rest : forallb (fun c => negb (closing c)) l = true -> closes rest -> heads_off l rest.
Proof.
  intros H [->|(c & r & -> & Hc)]; [exact I|]. cbn. intros Hin. rewrite forallb_forall in H. apply H in Hin. rewrite Hc in Hin. discriminate.
Qed.
Definition back_role_re : re := Grp 7 (Seq [Chr (ch ":"); Grp 8 role_re; Chr (ch ":")]).
Definition front_role_re : re := Grp 2 (Seq [Chr (ch ":"); Grp 3 role_re; Chr (ch ":")]).
Definition quoted_re : re := Seq [Grp 4 (Chr (ch "`")); Grp 5 content_re; Grp 6 (Chr (ch "`")); Opt back_role_re; LA 9].
Lemma quoted_match t rest i cs s : inside 96%N t = true -> closes rest ->
  exists n y j1 j2 j3, rmatch quoted_re i (96%N :: t ++ 96%N :: rest) cs (fin_k s) =
    Some (n, (0, (0, firstn n s)) :: (9, y) :: (6, (j1, lit "`")) :: (5, (j2, t)) :: (4, (j3, lit "`")) :: cs).
Proof.
  intros Ht Hr. change (ch "`") with 96%N. unfold quoted_re. cbn [Seq].
  destruct (la_fin 9 rest (S (S i + length t)) ((6, (S i + length t, lit "`")) :: (5, (S i, t)) :: (4, (i, lit "`")) :: cs) s Hr) as (n & y & E).
  exists n, y, (S i + length t), (S i), i. rewrite rmatch_cat, rmatch_grp. change (ch "`") with 96%N. rewrite rmatch_chr.
  replace (S i - i) with 1 by lia. cbn [firstn]. rewrite rmatch_cat, rmatch_grp. apply (content_match t 96%N); auto.
  - intros j a' y' b' cs' Et _. rewrite rmatch_cat, rmatch_grp. apply rmatch_chr_no. intros <-. apply inside_spec in Ht as (Hd & _). apply Hd. rewrite Et. apply in_or_app. right. now left.
  - rewrite span_text by reflexivity. rewrite rmatch_cat, rmatch_grp, rmatch_chr. replace (S (S i + length t) - (S i + length t)) with 1 by lia. cbn [firstn].
    rewrite rmatch_cat, opt_off; [exact E|]. intros u. apply (begins_no _ [58%N]); [apply b_grp, b_cat, b_chr; now left|].
    apply closes_off; [reflexivity|exact Hr].
Qed.
Lemma cited_captures t rest : inside 96%N t = true -> closes rest ->
  exists cs, captures INTERPRETED_TEXT (lit "`" ++ t ++ lit "`" ++ rest) = Some cs /\
    opt_cap 1 cs = [] /\ opt_cap 2 cs = [] /\ opt_cap 3 cs = [] /\ cap 4 cs = Some (lit "`") /\ cap 5 cs = Some t /\ cap 6 cs = Some (lit "`") /\
    opt_cap 7 cs = [] /\ opt_cap 8 cs = [].
Proof.
  intros Ht Hr. set (s := lit "`" ++ _). destruct (quoted_match t rest 0 [] s Ht Hr) as (n & [y1 y2] & j1 & j2 & j3 & E).
  eexists. split.
  - eapply captures_eq. unfold INTERPRETED_TEXT. change (Seq _) with (Cat LB (Cat (Opt front_role_re) quoted_re)).
    subst s. change (lit "`" ++ t ++ lit "`" ++ rest) with (96%N :: t ++ 96%N :: rest) at 1. rewrite lb_pass by (now left). rewrite rmatch_cat, opt_off; [exact E|].
    intros u. apply (begins_no _ [58%N]); [apply b_grp, b_cat, b_chr; now left|]. intros [H|[]]. discriminate.
  - repeat split.
Qed.
Lemma role_chars r : role_name_ok r = true -> r <> [] /\ (forall c, In c r -> is_ascii_alnum c = true \/ c = 45%N).
Proof.
  unfold role_name_ok. intros H. apply andb_prop in H as [H _]. apply andb_prop in H as [H _]. destruct r as [|c r]; [discriminate|]. split; [discriminate|].
  apply andb_prop in H as [H1 H2]. intros x [<-|Hx]; [auto|]. rewrite forallb_forall in H2. apply H2, orb_prop in Hx as [Hx|Hx]; [auto|]. apply N.eqb_eq in Hx. auto.
Qed.
Lemma role_char_fine c : is_ascii_alnum c = true \/ c = 45%N -> nsp c = true /\ dot c = true /\ c <> 58%N /\ c <> 96%N /\ c <> 42%N /\ c <> 95%N.
Proof.
  intros [H| ->]; [|repeat split; discriminate]. split; [now apply alnum_ink|].
  unfold is_ascii_alnum, is_ascii_alpha, is_ascii_lower, is_ascii_upper, is_ascii_digit, in_range in H. unfold dot, newline. lia.
Qed.
Lemma role_match {R} r rest i cs (k : @kont R) x : r <> [] -> (forall c, In c r -> is_ascii_alnum c = true \/ c = 45%N) ->
  (forall j a y b cs', r = a ++ y :: b -> a <> [] -> k j (y :: b ++ rest) cs' = None) ->
  k (i + length r) rest cs = Some x -> rmatch role_re i (r ++ rest) cs k = Some x.
Proof.
  intros Hne Hn Hno Hk. unfold role_re. destruct (ends_split r Hne) as [[z ->]|(c & m & z & ->)].
  - cbn [app]. apply between1.
    + apply (role_char_fine z), Hn. now left.
    + rewrite <- Hk. f_equal. cbn [length]. lia.
  - apply between; [| | | |exact Hk].
    + apply forallb_forall. intros y Hy. apply (role_char_fine y), Hn. right. apply in_or_app. now left.
    + apply (role_char_fine c), Hn. now left.
    + apply (role_char_fine z), Hn. right. apply in_or_app. right. now left.
    + intros. eapply Hno; eauto.
Qed.
Lemma role_captures r t rest : role_name_ok r = true -> inside 96%N t = true -> closes rest ->
  exists cs, captures INTERPRETED_TEXT (lit ":" ++ r ++ lit ":`" ++ t ++ lit "`" ++ rest) = Some cs /\
    opt_cap 1 cs = [] /\ opt_cap 2 cs = lit ":" ++ r ++ lit ":" /\ opt_cap 3 cs = r /\ cap 4 cs = Some (lit "`") /\ cap 5 cs = Some t /\ cap 6 cs = Some (lit "`") /\
    opt_cap 7 cs = [] /\ opt_cap 8 cs = [].
Proof.
  intros Hn Ht Hr. apply role_chars in Hn as [Hne Hn]. set (s := lit ":" ++ _).
  destruct (quoted_match t rest (S (1 + length r)) [(2, (0, lit ":" ++ r ++ lit ":")); (3, (1, r))] s Ht Hr) as (n & [y1 y2] & j1 & j2 & j3 & E).
  eexists. split.
  - eapply captures_eq. unfold INTERPRETED_TEXT. change (Seq _) with (Cat LB (Cat (Opt front_role_re) quoted_re)).
    replace s with (58%N :: r ++ 58%N :: 96%N :: t ++ 96%N :: rest) at 1 by reflexivity. rewrite lb_pass.
    2:{ right. intros u. apply (begins_no _ [58%N; 96%N]).
        - apply b_opt; [apply b_grp, b_cat, b_chr; now left|apply b_cat, b_grp, b_chr; right; now left].
        - destruct r as [|c r]; [congruence|]. cbn. specialize (Hn c (or_introl eq_refl)). apply role_char_fine in Hn. intuition. }
    rewrite rmatch_cat. unfold Opt at 1. rewrite rmatch_alt. unfold front_role_re. cbn [Seq]. rewrite rmatch_grp, rmatch_cat. change (ch ":") with 58%N. rewrite rmatch_chr.
    rewrite rmatch_cat, rmatch_grp. erewrite role_match; [reflexivity|exact Hne|exact Hn| |].
    + intros j a y b cs' Er _. cbv beta. apply rmatch_chr_no. intros <-. destruct (role_char_fine 58%N) as (_ & _ & H & _); [|congruence]. apply Hn. rewrite Er. apply in_or_app. right. now left.
    + cbv beta. rewrite rmatch_chr. rewrite span_text by reflexivity. rewrite Nat.sub_0_r.
      match goal with |- rmatch _ _ _ [(2, (0, ?x)); _] _ = _ => assert (F : x = lit ":" ++ r ++ lit ":"); [|rewrite F; exact E] end.
      change (58%N :: r ++ 58%N :: 96%N :: t ++ 96%N :: rest) with (lit ":" ++ r ++ lit ":" ++ 96%N :: t ++ 96%N :: rest).
      replace (lit ":" ++ r ++ lit ":" ++ 96%N :: t ++ 96%N :: rest) with ((lit ":" ++ r ++ lit ":") ++ 96%N :: t ++ 96%N :: rest) by (now rewrite <- !app_assoc). apply firstn_len. rewrite !app_length. cbn [length lit]. cbn. lia.
  - repeat split.
Qed.
Lemma after_captures r t rest : role_name_ok r = true -> inside 96%N t = true -> closes rest ->
  exists cs, captures INTERPRETED_TEXT (lit "`" ++ t ++ lit "`:" ++ r ++ lit ":" ++ rest) = Some cs /\
    opt_cap 1 cs = [] /\ opt_cap 2 cs = [] /\ opt_cap 3 cs = [] /\ cap 4 cs = Some (lit "`") /\ cap 5 cs = Some t /\ cap 6 cs = Some (lit "`") /\
    opt_cap 7 cs = lit ":" ++ r ++ lit ":" /\ opt_cap 8 cs = r.
Proof.
  intros Hn Ht Hr. apply role_chars in Hn as [Hne Hn]. set (s := lit "`" ++ _).
  pose (i7 := S (1 + length t)).
  destruct (la_fin 9 rest (S (S i7 + length r)) ((7, (i7, lit ":" ++ r ++ lit ":")) :: (8, (S i7, r)) :: (6, (1 + length t, lit "`")) :: (5, (1, t)) :: (4, (0, lit "`")) :: []) s Hr) as (n & [y1 y2] & E).
  eexists. split.
  - eapply captures_eq. unfold INTERPRETED_TEXT. change (Seq _) with (Cat LB (Cat (Opt front_role_re) quoted_re)).
    replace s with (96%N :: t ++ 96%N :: 58%N :: r ++ 58%N :: rest) at 1 by reflexivity. rewrite lb_pass by (now left). rewrite rmatch_cat, opt_off.
    2:{ intros u. apply (begins_no _ [58%N]); [apply b_grp, b_cat, b_chr; now left|]. intros [H|[]]. discriminate. }
    unfold quoted_re. cbn [Seq]. rewrite rmatch_cat, rmatch_grp. change (ch "`") with 96%N. rewrite rmatch_chr. cbn [Nat.sub firstn].
    rewrite rmatch_cat, rmatch_grp. apply (content_match t 96%N); auto.
    + intros j a' y' b' cs' Et _. rewrite rmatch_cat, rmatch_grp. apply rmatch_chr_no. intros <-. apply inside_spec in Ht as (Hd & _). apply Hd. rewrite Et. apply in_or_app. right. now left.
    + rewrite span_text by reflexivity. rewrite rmatch_cat, rmatch_grp, rmatch_chr. replace (S (1 + length t) - (1 + length t)) with 1 by lia. cbn [firstn].
      rewrite rmatch_cat. unfold Opt at 1. rewrite rmatch_alt. unfold back_role_re. cbn [Seq]. rewrite rmatch_grp, rmatch_cat. change (ch ":") with 58%N. rewrite rmatch_chr.
      rewrite rmatch_cat, rmatch_grp. erewrite role_match; [reflexivity|exact Hne|exact Hn| |].
      * intros j a y b cs' Er _. cbv beta. apply rmatch_chr_no. intros <-. destruct (role_char_fine 58%N) as (_ & _ & H & _); [|congruence]. apply Hn. rewrite Er. apply in_or_app. right. now left.
      * cbv beta. rewrite rmatch_chr. rewrite span_text by reflexivity.
        match goal with |- rmatch _ _ _ ((7, (_, ?x)) :: _) _ = _ => assert (F : x = lit ":" ++ r ++ lit ":"); [|rewrite F; exact E] end.
        change (58%N :: r ++ 58%N :: rest) with (lit ":" ++ r ++ lit ":" ++ rest).
        replace (lit ":" ++ r ++ lit ":" ++ rest) with ((lit ":" ++ r ++ lit ":") ++ rest) by (now rewrite <- !app_assoc). apply firstn_len. rewrite !app_length. change (length (lit ":")) with 1. lia.
  - repeat split.
Qed.
(* ---------- references ---------- *)
Lemma ref_end_prefix p x : ~ In 96%N p -> has_ref_end x = false -> has_ref_end (p ++ x) = false.
Proof.
  intros H Hx. induction p as [|c p IH]; [exact Hx|]. cbn [app]. assert (IH' : has_ref_end (p ++ x) = false) by (apply IH; intros Hin; apply H; now right).
  destruct (p ++ x) as [|d l]; [reflexivity|]. change (has_ref_end (c :: d :: l)) with ((N.eqb c 96%N && N.eqb d 95%N) || has_ref_end (d :: l)). rewrite IH'.
  destruct (N.eqb_spec c 96%N) as [->|]; [|reflexivity]. exfalso. apply H. now left.
Qed.
Lemma ref_end_app p x : has_ref_end (p ++ 96%N :: 95%N :: x) = true.
Proof.
  induction p as [|c p IH]; [reflexivity|]. cbn [app]. destruct (p ++ 96%N :: 95%N :: x) as [|d l] eqn:E; [destruct p; discriminate|].
  cbn [has_ref_end]. cbn [has_ref_end] in IH. rewrite IH. apply orb_true_r.
Qed.
Lemma ref_end_inside t rest : ~ In 96%N t -> closes rest -> has_ref_end rest = false -> has_ref_end (t ++ 96%N :: rest) = false.
Proof.
  intros Ht Hr Hf. induction t as [|c t IH].
  - cbn [app]. destruct rest as [|d r]; [reflexivity|]. change (has_ref_end (96%N :: d :: r)) with ((N.eqb 96 96 && N.eqb d 95%N) || has_ref_end (d :: r)).
    rewrite Hf. destruct Hr as [Hr|(c & r' & E & Hc)]; [discriminate|]. injection E as -> ->.
    destruct (N.eqb_spec c 95%N) as [->|]; [discriminate Hc|reflexivity].
  - cbn [app]. destruct (t ++ 96%N :: rest) as [|d l] eqn:E; [destruct t; discriminate|].
    change (has_ref_end (c :: d :: l)) with ((N.eqb c 96%N && N.eqb d 95%N) || has_ref_end (d :: l)). rewrite IH.
    + destruct (N.eqb_spec c 96%N) as [->|]; [|reflexivity]. exfalso. apply Ht. now left.
    + intros H. apply Ht. now right.
Qed.
Definition embedded_re : re := Grp 4 (Seq [Plus true (Cls sp); Chr (ch "<"); Grp 5 content_re; Chr (ch ">")]).
Definition phrase_end_re : re := Seq [Opt embedded_re; Grp 6 (Chr (ch "`")); Grp 7 ref_type_re; LA 8].
Lemma phrase_end_rel s t : rel phrase_end_re s t -> exists p x, s = p ++ 96%N :: 95%N :: x.
Proof.
  unfold phrase_end_re. cbn [Seq]. intros R. apply rel_cat_inv in R as (u & R1 & R2). destruct (rel_suffix _ _ _ R1) as [p ->].
  apply rel_cat_inv in R2 as (v & R2 & R3). apply rel_grp_inv, rel_chr in R2. subst u. apply rel_cat_inv in R3 as (w & R3 & _).
  apply rel_grp_inv in R3. unfold ref_type_re in R3. cbn [Seq] in R3. apply rel_cat_inv in R3 as (z & R3 & _). apply rel_chr in R3. subst v. exists p, z. reflexivity.
Qed.
Lemma no_phrase c s : c <> 96%N \/ has_ref_end s = false -> lookbehind_cls c = false \/ heads_off [96%N] s -> captures PHRASE_REF (c :: s) = None.
Proof.
  intros H Hl. apply captures_none. intros [t R]. unfold PHRASE_REF in R. change (Seq _) with (Cat LB (Cat (Grp 2 (Chr (ch "`"))) (Cat (Grp 3 content_re) phrase_end_re))) in R.
  assert (K : forall s t, rel (Cat (Grp 2 (Chr (ch "`"))) (Cat (Grp 3 content_re) phrase_end_re)) s t -> exists s', s = 96%N :: s' /\ has_ref_end s' = true).
  { clear. intros s t R. apply rel_cat_inv in R as (u & R1 & R2). apply rel_grp_inv, rel_chr in R1. exists u. split; [exact R1|].
    apply rel_cat_inv in R2 as (v & R2 & R3). destruct (rel_suffix _ _ _ R2) as [p ->]. apply phrase_end_rel in R3 as (p' & x & ->). rewrite app_assoc. apply ref_end_app. }
  apply rel_cat_inv in R as (u & R1 & R2). apply K in R2 as (s' & -> & Hs). apply rel_opt in R1 as [R1|E].
  - apply rel_grp_inv, rel_cls_inv in R1 as (c' & E & Hc). injection E as <- ->. destruct Hl as [Hl|Hl]; [congruence|]. apply Hl. now left.
  - injection E as -> ->. destruct H as [H|H]; congruence.
Qed.
Lemma white_run (l v tb w : str) : l ++ 60%N :: v = tb ++ 96%N :: w -> forallb sp l = true -> In 60%N tb.
Proof.
  revert l. induction tb as [|c tb IH]; intros l E Hl.
  - destruct l as [|x l]; [discriminate E|]. injection E as -> _. discriminate Hl.
  - destruct l as [|x l]; cbn [app] in E; injection E as E1 E2; [left; auto|]. right. cbn [forallb] in Hl. apply andb_prop in Hl as [_ Hl]. eauto.
Qed.
Lemma no_embedded tb w t : ~ In 60%N tb -> ~ rel embedded_re (tb ++ 96%N :: w) t.
Proof.
  intros H R. unfold embedded_re in R. cbn [Seq] in R. apply rel_grp_inv, rel_cat_inv in R as (u & R1 & R2). apply rel_plus_cls in R1 as (l & E & _ & Hl).
  apply rel_cat_inv in R2 as (v & R2 & _). apply rel_chr in R2. subst u. symmetry in E. apply white_run in E; auto.
Qed.
Lemma ref_type_once {R} rest i cs (k : @kont R) : closes rest -> rmatch ref_type_re i (95%N :: rest) cs k = k (S i) rest cs.
Proof.
  intros H. unfold ref_type_re. cbn [Seq]. rewrite rmatch_cat. change (ch "_") with 95%N. rewrite rmatch_chr. apply opt_off.
  intros t. apply (begins_no _ [95%N]); [apply b_chr; now left|]. apply closes_off; [reflexivity|exact H].
Qed.
Lemma phrase_captures t rest : inside 96%N t = true -> ~ In 60%N t -> closes rest ->
  exists cs, captures PHRASE_REF (lit "`" ++ t ++ lit "`_" ++ rest) = Some cs /\
    opt_cap 1 cs = [] /\ cap 2 cs = Some (lit "`") /\ cap 3 cs = Some t /\ opt_cap 5 cs = [] /\ cap 6 cs = Some (lit "`") /\ cap 7 cs = Some (lit "_").
Proof.
  intros Ht Hl Hr. set (s := lit "`" ++ _).
  destruct (la_fin 8 rest (S (S (1 + length t))) [(7, (S (1 + length t), lit "_")); (6, (1 + length t, lit "`")); (3, (1, t)); (2, (0, lit "`"))] s Hr) as (n & [y1 y2] & E).
  eexists. split.
  - eapply captures_eq. unfold PHRASE_REF. change (Seq _) with (Cat LB (Cat (Grp 2 (Chr (ch "`"))) (Cat (Grp 3 content_re) phrase_end_re))).
    replace s with (96%N :: t ++ 96%N :: 95%N :: rest) at 1 by reflexivity. rewrite lb_pass by (now left).
    rewrite rmatch_cat, rmatch_grp. change (ch "`") with 96%N. rewrite rmatch_chr, rmatch_cat, rmatch_grp.
    eapply (content_match t 96%N); auto.
    + intros j a y b cs' Et _. apply rmatch_none. intros u R. unfold phrase_end_re in R. cbn [Seq] in R.
      apply rel_cat_inv in R as (v & R1 & R2). apply rel_opt in R1 as [R1|<-].
      * change (y :: b ++ 96%N :: 95%N :: rest) with ((y :: b) ++ 96%N :: 95%N :: rest) in R1. apply no_embedded in R1; auto.
        intros Hi. apply Hl. rewrite Et. apply in_or_app. now right.
      * apply rel_cat_inv in R2 as (v & R2 & _). apply rel_grp_inv, rel_chr in R2. injection R2 as -> _.
        apply inside_spec in Ht as (Hd & _). apply Hd. rewrite Et. apply in_or_app. right. now left.
    + cbv beta. rewrite span_text by reflexivity. unfold phrase_end_re. cbn [Seq]. rewrite rmatch_cat, opt_off.
      2:{ intros u. apply (no_embedded []). auto. }
      rewrite rmatch_cat, rmatch_grp. change (ch "`") with 96%N. rewrite rmatch_chr, rmatch_cat, rmatch_grp, ref_type_once by exact Hr.
      replace (S (1 + length t) - (1 + length t)) with 1 by lia. replace (S (S (1 + length t)) - S (1 + length t)) with 1 by lia. exact E.
  - repeat split.
Qed.
Lemma star_off {R} (r : re) i s cs (k : @kont R) : (forall t, ~ rel r s t) -> rmatch (Star true r) i s cs k = k i s cs.
Proof.
  intros H. rewrite rmatch_star. destruct (length s); cbn [star_loop]; [reflexivity|]. rewrite (rmatch_none r) by exact H. reflexivity.
Qed.
Lemma plus_greedy {R} p c w s i cs (k : @kont R) x : p c = true -> forallb p w = true -> (forall d t, s = d :: t -> p d = false) ->
  k (i + length (c :: w)) s cs = Some x -> rmatch (Plus true (Cls p)) i ((c :: w) ++ s) cs k = Some x.
Proof.
  intros Hc Hw Hs Hk. unfold Plus. rewrite rmatch_cat. cbn [app]. rewrite rmatch_cls, Hc, rmatch_star. apply star_greedy; auto.
  rewrite <- Hk. f_equal. cbn [length]. lia.
Qed.
Lemma note_captures n rest : n <> [] -> forallb is_ascii_digit n = true -> closes rest ->
  exists cs, captures FOOTNOTE_REF (lit "[" ++ n ++ lit "]_" ++ rest) = Some cs /\
    opt_cap 1 cs = [] /\ cap 2 cs = Some (lit "[") /\ cap 3 cs = Some n /\ opt_cap 4 cs = n /\ cap 9 cs = Some (lit "]") /\ cap 10 cs = Some (lit "_").
Proof.
  intros Hn Hd Hr. destruct n as [|c w]; [congruence|]. set (n := c :: w) in *. set (s := lit "[" ++ _).
  destruct (la_fin 11 rest (S (S (1 + length n))) [(10, (S (1 + length n), lit "_")); (9, (1 + length n, lit "]")); (3, (1, n)); (4, (1, n)); (2, (0, lit "["))] s Hr) as (m & [y1 y2] & E).
  assert (Hc : is_ascii_digit c = true) by (cbn [forallb n] in Hd; now apply andb_prop in Hd).
  eexists. split.
  - eapply captures_eq. unfold FOOTNOTE_REF. cbn [Seq Alts].
    replace s with (91%N :: n ++ 93%N :: 95%N :: rest) at 1 by reflexivity. rewrite lb_pass.
    2:{ right. intros u. apply (begins_no _ [91%N]); [apply b_cat, b_grp, b_chr; now left|]. cbn. intros [<-|[]]. discriminate Hc. }
    rewrite rmatch_cat, rmatch_grp. change (ch "[") with 91%N. rewrite rmatch_chr, rmatch_cat, rmatch_grp, rmatch_alt, rmatch_grp.
    unfold n at 1. erewrite plus_greedy; [reflexivity|exact Hc| | |].
    + cbn [forallb n] in Hd. now apply andb_prop in Hd.
    + intros d t' E'. injection E' as <- _. reflexivity.
    + cbv beta. fold n. rewrite span_text by reflexivity. rewrite rmatch_cat, rmatch_grp. change (ch "]") with 93%N. rewrite rmatch_chr, rmatch_cat, rmatch_grp, ref_type_once by exact Hr.
      replace (S (1 + length n) - (1 + length n)) with 1 by lia. replace (S (S (1 + length n)) - S (1 + length n)) with 1 by lia. exact E.
  - repeat split.
Qed.
Lemma digit_run (l v key w : str) : l ++ 93%N :: v = key ++ 93%N :: w -> forallb digit l = true -> forallb is_ascii_alnum key = true -> l = key.
Proof.
  revert key. induction l as [|x l IH]; intros key E Hl Hk; destruct key as [|y key]; cbn [app] in E; auto; injection E as E1 E2.
  - subst y. discriminate Hk.
  - subst x. discriminate Hl.
  - subst y. cbn [forallb] in *. apply andb_prop in Hl as [_ Hl]. apply andb_prop in Hk as [_ Hk]. f_equal. eauto.
Qed.
Lemma key_spec key : name_ok key = true -> exists c w, key = c :: w /\ alnum c = true /\ forallb alnum w = true.
Proof. unfold name_ok. destruct key as [|c w]; [discriminate|]. cbn [forallb]. intros H. apply andb_prop in H as [H1 H2]. exists c, w. auto. Qed.
Lemma alnum_fine c : alnum c = true -> ~ In c (lit "[]*`:_|#") /\ sp c = false /\ lookbehind_cls c = false.
Proof.
  intros H. split; [|split].
  - intros Hin. cbn in Hin. repeat (destruct Hin as [<-|Hin]; [discriminate H|]). destruct Hin.
  - unfold sp. apply alnum_ink in H. unfold nsp in H. now apply negb_true_iff in H.
  - unfold alnum, is_ascii_alnum, is_ascii_alpha, is_ascii_lower, is_ascii_upper, is_ascii_digit, in_range in H.
    assert (Hb : (48 <= c <= 122)%N) by lia. assert (F : forallb (fun c => negb (alnum c) || negb (lookbehind_cls c)) (map N.of_nat (seq 48 75)) = true) by (vm_compute; reflexivity).
    rewrite forallb_forall in F. specialize (F c). rewrite in_map_iff in F. destruct (lookbehind_cls c) eqn:El; [|reflexivity]. exfalso.
    assert (negb (alnum c) || negb true = true); [|assert (alnum c = true) by (unfold alnum, is_ascii_alnum, is_ascii_alpha, is_ascii_lower, is_ascii_upper, is_ascii_digit, in_range; lia); destruct (alnum c); discriminate].
    apply F. exists (N.to_nat c). split; [apply N2Nat.id|]. apply in_seq. lia.
Qed.
Lemma cite_no_note key rest : name_ok key = true -> forallb is_ascii_digit key = false ->
  captures FOOTNOTE_REF (lit "[" ++ key ++ lit "]_" ++ rest) = None.
Proof.
  intros Hk Hd. destruct (key_spec key Hk) as (c & w & Ek & Hc & Hw). apply captures_none. intros [t R].
  unfold FOOTNOTE_REF in R. cbn [Seq Alts] in R. change (lit "[" ++ key ++ lit "]_" ++ rest) with (91%N :: key ++ 93%N :: 95%N :: rest) in R.
  destruct (alnum_fine c Hc) as (Hf & _). apply rel_cat_inv in R as (u & R1 & R2). apply rel_cat_inv in R2 as (v & R2 & R3). apply rel_grp_inv, rel_chr in R2. subst u.
  apply rel_opt in R1 as [R1|E].
  { apply rel_grp_inv, rel_cls_inv in R1 as (x & E & _). subst key. injection E as _ E _. apply Hf. rewrite E. cbn. auto. }
  injection E as E. subst v. apply rel_cat_inv in R3 as (u & R3 & R4). apply rel_cat_inv in R4 as (v & R4 & _). apply rel_grp_inv, rel_chr in R4. subst u.
  assert (Nh : forall x u, key ++ 93%N :: 95%N :: rest = x :: u -> In x (lit "[]*`:_|#") -> False).
  { intros x u E Hx. subst key. injection E as -> _. auto. }
  apply rel_grp_inv, rel_alt_inv in R3 as [R3|R3].
  { apply rel_grp_inv, rel_plus_cls in R3 as (l & E & _ & Hl). symmetry in E. apply digit_run in E; [|exact Hl|subst key; cbn [forallb]; apply andb_true_intro; auto].
    subst l. change digit with is_ascii_digit in Hl. congruence. }
  apply rel_alt_inv in R3 as [R3|R3].
  { apply rel_grp_inv, rel_chr in R3. eapply Nh; [exact R3|]. cbn. auto 20. }
  apply rel_alt_inv in R3 as [R3|R3].
  { apply rel_cat_inv in R3 as (u & R3 & _). apply rel_chr in R3. eapply Nh; [exact R3|]. cbn. auto 20. }
  apply rel_grp_inv, rel_chr in R3. eapply Nh; [exact R3|]. cbn. auto 20.
Qed.
Lemma plus_begins p g s t : rel (Plus g (Cls p)) s t -> exists c s', s = c :: s' /\ p c = true.
Proof. intros R. apply rel_cat_inv in R as (u & R & _). apply rel_cls_inv in R as (c & -> & Hc). eauto. Qed.
Lemma cite_captures key rest : name_ok key = true -> closes rest ->
  exists cs, captures CITATION_REF (lit "[" ++ key ++ lit "]_" ++ rest) = Some cs /\
    opt_cap 1 cs = [] /\ cap 2 cs = Some (lit "[") /\ cap 3 cs = Some key /\ cap 4 cs = Some (lit "]_").
Proof.
  intros Hk Hr. destruct (key_spec key Hk) as (c & w & Ek & Hc & Hw). set (s := lit "[" ++ _).
  destruct (la_fin 5 rest (1 + length key + 2) [(4, (1 + length key, lit "]_")); (3, (1, key)); (2, (0, lit "["))] s Hr) as (n & [y1 y2] & E).
  eexists. split.
  - eapply captures_eq. unfold CITATION_REF. cbn [Seq].
    replace s with (91%N :: key ++ 93%N :: 95%N :: rest) at 1 by reflexivity. rewrite lb_pass.
    2:{ right. intros u. apply (begins_no _ [91%N]); [apply b_cat, b_grp, b_chr; now left|]. subst key. cbn. destruct (alnum_fine c Hc) as (Hf & _). intros [<-|[]]. apply Hf. cbn. auto. }
    rewrite rmatch_cat, rmatch_grp. change (ch "[") with 91%N. rewrite rmatch_chr, rmatch_cat, rmatch_grp, rmatch_cat.
    rewrite Ek at 1. cbn [app]. rewrite rmatch_cls, Hc, rmatch_cat, rmatch_star. eapply star_greedy; auto.
    + rewrite star_off.
      * replace (2 + length w) with (1 + length key) by (subst key; cbn [length]; lia). rewrite span_text by reflexivity.
        rewrite rmatch_cat, rmatch_grp. change (93%N :: 95%N :: rest) with (lit "]_" ++ rest). change (q "]_") with (lit "]_"). rewrite rmatch_lit.
        rewrite span_text by reflexivity. exact E.
      * intros u R. apply rel_cat_inv in R as (v & R1 & R2). apply plus_begins in R2 as (d & s' & -> & Hd). apply rel_opt in R1 as [R1|R1].
        -- apply rel_cls_inv in R1 as (x & R1 & Hx). injection R1 as <- _. discriminate Hx.
        -- injection R1 as <- _. discriminate Hd.
    + intros d t' E'. injection E' as <- _. reflexivity.
  - repeat split.
Qed.
Lemma link_captures name rest : name_ok name = true -> closes rest ->
  exists cs, captures SIMPLE_REF (name ++ lit "_" ++ rest) = Some cs /\ opt_cap 1 cs = [] /\ cap 2 cs = Some name /\ cap 3 cs = Some (lit "_").
Proof.
  intros Hk Hr. destruct (key_spec name Hk) as (c & w & Ek & Hc & Hw). set (s := name ++ _).
  destruct (la_fin 4 rest (S (length name)) [(3, (length name, lit "_")); (2, (0, name))] s Hr) as (n & [y1 y2] & E).
  eexists. split.
  - eapply captures_eq. unfold SIMPLE_REF. cbn [Seq]. replace s with (c :: w ++ 95%N :: rest) at 1 by (subst s name; reflexivity).
    rewrite lb_pass by (left; now apply alnum_fine). rewrite rmatch_cat, rmatch_grp, rmatch_cat. change (c :: w ++ 95%N :: rest) with ((c :: w) ++ 95%N :: rest).
    eapply plus_greedy; auto.
    + intros d t' E'. injection E' as <- _. reflexivity.
    + unfold sep_runs. rewrite star_off.
      * rewrite <- Ek. rewrite span_text by reflexivity. rewrite rmatch_cat, rmatch_grp, ref_type_once by exact Hr. cbn [Nat.add].
        replace (S (length name) - length name) with 1 by lia. exact E.
      * intros u R. cbn [Seq] in R. apply rel_cat_inv in R as (v & R1 & R2). apply rel_cls_inv in R1 as (x & R1 & _). injection R1 as _ <-.
        apply plus_begins in R2 as (d & s' & E' & Hd). destruct Hr as [Hr|(c' & r & Hr & Hc')]; [congruence|]. assert (d = c') by congruence. subst d.
        unfold closing in Hc'. apply orb_prop in Hc' as [Hc'|Hc'].
        -- apply alnum_ink in Hd. unfold nsp in Hd. rewrite Hc' in Hd. discriminate.
        -- apply existsb_exists in Hc' as (x' & Hx & Ex). apply N.eqb_eq in Ex. subst x'. cbn in Hx. repeat (destruct Hx as [<-|Hx]; [discriminate Hd|]). destruct Hx.
  - repeat split.
Qed.
Lemma subst_captures t rest : inside 124%N t = true -> closes rest ->
  exists cs, captures SUBSTITUTION_REF (lit "|" ++ t ++ lit "|" ++ rest) = Some cs /\
    opt_cap 1 cs = [] /\ cap 2 cs = Some (lit "|") /\ cap 3 cs = Some t /\ cap 4 cs = Some (lit "|") /\ opt_cap 5 cs = [].
Proof.
  intros Ht Hr. set (s := lit "|" ++ _).
  destruct (la_fin 6 rest (S (1 + length t)) [(4, (1 + length t, lit "|")); (3, (1, t)); (2, (0, lit "|"))] s Hr) as (n & [y1 y2] & E).
  eexists. split.
  - eapply captures_eq. unfold SUBSTITUTION_REF. cbn [Seq]. replace s with (124%N :: t ++ 124%N :: rest) at 1 by reflexivity.
    rewrite lb_pass by (now left). rewrite rmatch_cat, rmatch_grp. change (ch "|") with 124%N. rewrite rmatch_chr, rmatch_cat, rmatch_grp.
    eapply (content_match t 124%N); auto.
    + intros j a y b cs' Et _. rewrite rmatch_cat, rmatch_grp. apply rmatch_chr_no. intros <-. apply inside_spec in Ht as (Hd & _). apply Hd. rewrite Et. apply in_or_app. right. now left.
    + rewrite span_text by reflexivity. rewrite rmatch_cat, rmatch_grp, rmatch_chr, rmatch_cat, opt_off.
      * replace (S (1 + length t) - (1 + length t)) with 1 by lia. exact E.
      * intros u. apply (begins_no _ [95%N]); [apply b_grp, b_cat, b_chr; now left|]. apply closes_off; [reflexivity|exact Hr].
  - repeat split.
Qed.
