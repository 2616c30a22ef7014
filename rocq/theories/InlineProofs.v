(* InlineProofs.v -- facts about the inline parser of Inline.v. *)
From Verif Require Import Base Common NodeTypes Tree DocTree History Regex RegexProofs RegexGroups Patterns
  Utf8Latex Prog Inline InlineSpec LoopProofs.
Require Import Lia.

(* the nodes inline parsing makes *)
Definition is_inline (x : TreeNodeType) : bool :=
  match x with
  | NText _ | NWhiteSpace _ | NEmphasis _ | NStrongEmphasis _ | NLiteral _ | NMath _ None None
  | NReference _ _ | NSubscript _ | NSuperscript _ | NTitleReference _ _ | NInterpretedText _ _
  | NFootnoteReference _ _ _ | NCitationReference _ _ | NSubstitutionReference _ _ => true
  | _ => false
  end.

(* A program without nested parsers that touches only labels: it finishes with a
   result satisfying Q, and if strict it does not panic either. *)
Definition label_op (o : dop) : bool := match o with DLabel _ | DAnonRef | DAnonTarget => true | _ => false end.
Fixpoint runs {A} (strict : bool) (Q : A -> DocTree -> LineCursor -> Prop) (p : prog A)
    (d : DocTree) (c : LineCursor) : Prop :=
  match p with
  | PRet a => Q a d c
  | PPanic => strict = false
  | PFuel => False
  | PGet k => runs strict Q (k d c) d c
  | PDoc o k => label_op o = true /\ (strict = true -> dop_exec o d <> Panic) /\
      forall a d', dop_exec o d = Ret (a, d') -> runs strict Q (k a) d' c
  | PAdvance m k => runs strict Q k d (cur_add c m)
  | PParse _ _ _ _ _ => False
  end.
Lemma runs_bind {A B} b (P : A -> DocTree -> LineCursor -> Prop) (Q : B -> DocTree -> LineCursor -> Prop)
  (p : prog A) (f : A -> prog B) d c :
  runs b P p d c -> (forall a d c, P a d c -> runs b Q (f a) d c) -> runs b Q (pbind p f) d c.
Proof.
  intros H HF. revert d c H. induction p; cbn [runs pbind]; intros d c HS; auto; try tauto.
  destruct HS as (H1 & H2 & H3). repeat split; auto.
Qed.
Lemma runs_mono {A} b (P Q : A -> DocTree -> LineCursor -> Prop) (p : prog A) d c :
  runs b P p d c -> (forall a d c, P a d c -> Q a d c) -> runs b Q p d c.
Proof.
  intros H HF. revert d c H. induction p; cbn [runs]; intros d c HS; auto.
  destruct HS as (H1 & H2 & H3). repeat split; auto.
Qed.
Lemma runs_safe {A} b Q (p : prog A) n d c : runs b Q p d c -> safe n Q p d c.
Proof.
  revert d c. induction p; cbn [runs safe]; intros d c HS; auto; try tauto.
  destruct HS as (H1 & H2 & H3). split; [destruct o; try discriminate; exact I|auto].
Qed.
Lemma runs_exec {A} b Q call (p : prog A) d c : runs b Q p d c ->
  (exists a d' c', pexec call p d c = Ret (a, d', c') /\ Q a d' c') \/
  (b = false /\ pexec call p d c = Panic).
Proof.
  revert d c. induction p; cbn [runs pexec]; intros d c HS; auto; try tauto.
  - left. eauto.
  - destruct HS as (H1 & H2 & H3). pose proof (dop_exec_fuel o d).
    destruct (dop_exec o d) as [[a d']| |] eqn:E; cbn [obind].
    + apply H. auto.
    + right. split; auto. destruct b; auto. exfalso. now apply H2.
    + congruence.
Qed.

Definition anon_count (d : DocTree) : N := n_of_anon_references (hyperref d).
Definition fn_ok (d : DocTree) (c : LineCursor) (x : list TreeNodeType * nat) (d' : DocTree) (c' : LineCursor) : Prop :=
  1 <= snd x /\ forallb is_inline (fst x) = true /\ c' = c /\ (anon_count d' <= anon_count d + 1)%N.
Lemma fn_ok_ret d c d' c' nodes n : 1 <= n -> forallb is_inline nodes = true -> c' = c ->
  (anon_count d' <= anon_count d + 1)%N -> fn_ok d c (nodes, n) d' c'.
Proof. unfold fn_ok. auto. Qed.

(* what a strict run may assume *)
Definition may_run (strict : bool) (s : str) (d : DocTree) : Prop :=
  strict = true -> ~ infix (lit "PEP") s /\ ~ infix (lit "pep-reference") s /\
    (anon_count d + 1 <= u32_max)%N.

Ltac grp H g x Hx Hn :=
  let Hm := fresh in
  match type of H with captures ?r ?s = Some ?cs =>
    let n := eval vm_compute in (group_min g r) in
    match n with Some ?k =>
      assert (Hm : must [g] r = true) by (vm_compute; reflexivity);
      let Hk := fresh in
      assert (Hk : group_min g r = Some k) by (vm_compute; reflexivity);
      destruct (captures_get g r s cs k H Hm ltac:(discriminate) Hk) as (x & Hx & Hn & _);
      clear Hm Hk; unfold get_cap; rewrite ?Hx; cbn [unwrap lift pbind]
    end
  end.
Lemma opt_cap_some g cs x : cap g cs = Some x -> opt_cap g cs = x.
Proof. unfold opt_cap. now intros ->. Qed.
Lemma nonempty_len s : nonempty s = true -> 1 <= length s.
Proof. destruct s; cbn; [discriminate|lia]. Qed.
Lemma nonempty_len' s : 1 <= length s -> nonempty s = true.
Proof. destruct s; cbn; [lia|auto]. Qed.

Lemma ref_type_text u x : rel ref_type_re (x ++ u) u -> x = lit "_" \/ x = lit "__".
Proof.
  intros H. unfold ref_type_re in H. cbn [Seq] in H. apply rel_cat_inv in H as (t & H1 & H2).
  apply rel_chr in H1. apply rel_opt in H2 as [H2| ->].
  - apply rel_chr in H2. subst t. right. apply (app_inv_tail u). exact H1.
  - left. apply (app_inv_tail u). exact H1.
Qed.
Lemma ref_type_cap r g s cs x : captures r s = Some cs -> g <> 0 -> bodies g r = [ref_type_re] ->
  cap g cs = Some x -> x = lit "_" \/ x = lit "__".
Proof.
  intros H Hg Hb Hx. destruct (captures_group _ _ _ _ _ H Hg Hx) as (_ & r1 & u & Hin & Hr).
  rewrite Hb in Hin. destruct Hin as [<-|[]]. eapply ref_type_text; eauto.
Qed.

Lemma anon_ref_exec d a d' : dop_exec DAnonRef d = Ret (a, d') ->
  (exists l, a = AStr l) /\ (anon_count d' <= anon_count d + 1)%N.
Proof.
  cbn [dop_exec]. unfold next_anon_reference_label, anon_count. destruct (u32_add _ _) as [n| |] eqn:E; cbn [obind]; try discriminate.
  unfold u32_add in E. destruct (_ <=? _)%N; try discriminate. apply BlockProofs.Ret_inj in E. subst n.
  intros H. apply BlockProofs.Ret_inj in H. injection H as <- <-. split; eauto. cbn. lia.
Qed.
Lemma anon_ref_total d : (anon_count d + 1 <= u32_max)%N -> dop_exec DAnonRef d <> Panic.
Proof.
  intros H. cbn [dop_exec]. unfold next_anon_reference_label, u32_add. unfold anon_count in H.
  apply N.leb_le in H. rewrite H. discriminate.
Qed.
Lemma label_of_runs b d c (Q : str -> DocTree -> LineCursor -> Prop) :
  (b = true -> (anon_count d + 1 <= u32_max)%N) ->
  (forall l d', (anon_count d' <= anon_count d + 1)%N -> Q l d' c) -> runs b Q (label_of DAnonRef) d c.
Proof.
  intros Hb HQ. cbn [label_of runs]. split; [reflexivity|]. split; [intros E; apply anon_ref_total; auto|].
  intros a d' E. apply anon_ref_exec in E as [[l ->] E]. cbn [runs]. auto.
Qed.

Lemma runs_label b (doc : bool) content d c (Q : str -> DocTree -> LineCursor -> Prop) ref_type :
  (b = true -> (anon_count d + 1 <= u32_max)%N) -> ref_type = lit "_" \/ ref_type = lit "__" ->
  (forall l d', (anon_count d' <= anon_count d + 1)%N -> Q l d' c) ->
  runs b Q (ref_label doc ref_type content) d c.
Proof.
  intros Hb Ht HQ. unfold ref_label. destruct Ht as [-> | ->]; cbn [str_eqb].
  - change (str_eqb (lit "_") (lit "__")) with false. change (str_eqb (lit "_") (lit "_")) with true.
    cbn [runs]. apply HQ. lia.
  - change (str_eqb (lit "__") (lit "__")) with true. destruct doc; [apply label_of_runs; auto|].
    cbn [runs]. apply HQ. lia.
Qed.


Ltac leaf := cbn [runs]; apply fn_ok_ret; [|try reflexivity|reflexivity|try solve [auto; lia]].
Ltac paired H :=
  intros H; cbv beta delta [paired_delimiter inline_target];
  let x := fresh "x" in let Hx := fresh "Hx" in let Hn := fresh "Hn" in grp H 2 x Hx Hn;
  let y := fresh "y" in let Hy := fresh "Hy" in let Hm := fresh "Hm" in grp H 3 y Hy Hm;
  let z := fresh "z" in let Hz := fresh "Hz" in let Hk := fresh "Hk" in grp H 4 z Hz Hk;
  cbv zeta.
Lemma strong_ok b doc s cs d c : captures STRONG_EMPH s = Some cs ->
  runs b (fn_ok d c) (paired_delimiter NStrongEmphasis doc cs) d c.
Proof. paired H. destruct (quotation_matches _ _); leaf; try lia. destruct (nonempty _); reflexivity. Qed.
Lemma emph_ok b doc s cs d c : captures EMPH s = Some cs ->
  runs b (fn_ok d c) (paired_delimiter NEmphasis doc cs) d c.
Proof. paired H. destruct (quotation_matches _ _); leaf; try lia. destruct (nonempty _); reflexivity. Qed.
Lemma literal_ok b doc s cs d c : captures LITERAL s = Some cs ->
  runs b (fn_ok d c) (paired_delimiter NLiteral doc cs) d c.
Proof. paired H. destruct (quotation_matches _ _); leaf; try lia. destruct (nonempty _); reflexivity. Qed.
Lemma target_ok b doc s cs d c : captures INLINE_TARGET s = Some cs ->
  runs b (fn_ok d c) (inline_target doc cs) d c.
Proof.
  paired H. destruct doc; cbn [pbind].
  - cbn [doc_op pbind runs]. split; [reflexivity|]. split; [discriminate|]. intros a d' E.
    cbn [dop_exec] in E. apply BlockProofs.Ret_inj in E. injection E as <- <-. leaf; [lia|destruct (nonempty _); reflexivity|].
    unfold anon_count. cbn. lia.
  - leaf; [lia|]. destruct (nonempty _); reflexivity.
Qed.
Lemma whitespace_ok b doc s cs d c : captures INLINE_WHITESPACE s = Some cs ->
  runs b (fn_ok d c) (inline_whitespace doc cs) d c.
Proof. intros H. leaf. apply captures_whole in H as (t & _ & _ & H). exact H. Qed.
Lemma text_ok b doc s cs d c : captures INLINE_TEXT s = Some cs ->
  runs b (fn_ok d c) (inline_text doc cs) d c.
Proof. intros H. leaf. apply captures_whole in H as (t & _ & _ & H). exact H. Qed.

Lemma is_role_in role names : is_role role names = true -> exists n, In n names /\ role = lit n.
Proof.
  unfold is_role. intros H. apply existsb_exists in H as (n & Hn & E). exists n. split; auto.
  now apply TextProofs.str_eqb_eq.
Qed.
Lemma role_node_spec strict role content d c s (Q : TreeNodeType -> DocTree -> LineCursor -> Prop) :
  may_run strict s d -> infix role s -> (forall x, is_inline x = true -> Q x d c) ->
  runs strict Q (lift (role_node role content)) d c.
Proof.
  intros HM Hi HQ. unfold role_node.
  repeat match goal with |- context [if is_role role ?l then _ else _] =>
    let E := fresh "E" in destruct (is_role role l) eqn:E; [try (cbn [lift runs]; apply HQ; reflexivity)|] end;
    [|cbn [lift runs]; apply HQ; reflexivity].
  unfold checked_sub. destruct (length content <=? 4); cbn [obind lift runs]; [apply HQ; reflexivity|].
  destruct strict; auto. exfalso. destruct (HM eq_refl) as (H1 & H2 & _).
  apply is_role_in in E2 as (n & Hn & ->). destruct Hn as [<-|[<-|[]]]; auto.
Qed.
Lemma interpreted_ok b doc s cs d c : captures INTERPRETED_TEXT s = Some cs -> may_run b s d ->
  runs b (fn_ok d c) (interpreted_text doc cs) d c.
Proof.
  intros H HM. unfold interpreted_text.
  grp H 4 x Hx Hn. grp H 5 y Hy Hm. grp H 6 z Hz Hk. cbv zeta.
  destruct (nonempty (opt_cap 2 cs) && _); [leaf; lia|].
  destruct (nonempty (opt_cap 2 cs) && _); [leaf; lia|].
  destruct (negb _ && _); [leaf; lia|].
  destruct (nonempty (opt_cap 1 cs)) eqn:E1; [leaf; apply nonempty_len in E1; lia|].
  assert (HI : forall g, g <> 0 -> nonempty (opt_cap g cs) = true -> infix (opt_cap g cs) s).
  { intros g Hg Hne. unfold opt_cap in *. destruct (cap g cs) eqn:E; [|discriminate].
    eapply captures_group; eauto. }
  destruct (nonempty (opt_cap 3 cs)) eqn:E3.
  { eapply runs_bind with (P := fun x d' c' => is_inline x = true /\ d' = d /\ c' = c).
    - eapply role_node_spec; eauto.
    - intros a d' c' (Ha & -> & ->). leaf; [lia|cbn [app forallb]; now rewrite Ha]. }
  destruct (nonempty (opt_cap 8 cs)) eqn:E8.
  { eapply runs_bind with (P := fun x d' c' => is_inline x = true /\ d' = d /\ c' = c).
    - eapply role_node_spec; eauto.
    - intros a d' c' (Ha & -> & ->). leaf; [lia|cbn [app forallb]; now rewrite Ha]. }
  leaf; lia.
Qed.
Lemma may_room b s d : may_run b s d -> b = true -> (anon_count d + 1 <= u32_max)%N.
Proof. intros H E. apply H. exact E. Qed.
Lemma simple_ref_ok b doc s cs d c : captures SIMPLE_REF s = Some cs -> may_run b s d ->
  runs b (fn_ok d c) (simple_ref doc cs) d c.
Proof.
  intros H HM. unfold simple_ref. grp H 2 x Hx Hn. grp H 3 y Hy Hm.
  destruct (nonempty (opt_cap 1 cs)) eqn:E1; [leaf; apply nonempty_len in E1; lia|].
  eapply runs_bind with (P := fun _ d' c' => (anon_count d' <= anon_count d + 1)%N /\ c' = c).
  - apply runs_label; [eapply may_room; eauto| |auto]. exact (ref_type_cap SIMPLE_REF 3 _ _ _ H ltac:(discriminate) eq_refl ltac:(eassumption)).
  - intros l d' c' (Ha & ->). leaf; try lia; auto.
Qed.
Lemma phrase_ref_ok b doc s cs d c : captures PHRASE_REF s = Some cs -> may_run b s d ->
  runs b (fn_ok d c) (phrase_ref doc cs) d c.
Proof.
  intros H HM. unfold phrase_ref. grp H 2 x Hx Hn. grp H 3 y Hy Hm. grp H 7 w Hw Hj. grp H 6 z Hz Hk. cbv zeta.
  destruct (quotation_matches _ _); [leaf; lia|].
  destruct (nonempty (opt_cap 1 cs)) eqn:E1; [leaf; apply nonempty_len in E1; lia|].
  assert (Hw' : w = lit "_" \/ w = lit "__") by (exact (ref_type_cap PHRASE_REF 7 _ _ _ H ltac:(discriminate) eq_refl ltac:(eassumption))).
  apply captures_whole in H as (t & _ & _ & Hlen).
  eapply runs_bind with (P := fun _ d' c' => (anon_count d' <= anon_count d + 1)%N /\ c' = c).
  - destruct Hw' as [-> | ->].
    + change (str_eqb (lit "_") (lit "__")) with false. change (str_eqb (lit "_") (lit "_")) with true.
      cbn [runs]. split; [lia|auto].
    + change (str_eqb (lit "__") (lit "__")) with true. destruct doc.
      * eapply runs_bind; [apply label_of_runs with (Q := fun _ d' c' => (anon_count d' <= anon_count d + 1)%N /\ c' = c)|]; auto.
        -- eapply may_room; eauto.
      * cbn [pbind runs]. split; [lia|auto].
  - intros l d' c' (Ha & ->). leaf.
    destruct (nonempty (opt_cap 5 cs)); [|lia]. eapply Nat.le_trans; [|exact Hlen]. vm_compute. lia.
Qed.
Lemma footnote_ref_ok b doc s cs d c : captures FOOTNOTE_REF s = Some cs ->
  runs b (fn_ok d c) (footnote_ref doc cs) d c.
Proof.
  intros H. unfold footnote_ref. grp H 3 x Hx Hn. grp H 2 y Hy Hm. grp H 10 z Hz Hk. grp H 9 w Hw Hj. cbv zeta.
  destruct (captures_must [4; 5; 6; 8] _ _ _ H) as (g & v & Hg & Hv); [vm_compute; reflexivity|intros [?|[?|[?|[?|[]]]]]; discriminate|].
  assert (Hne : nonempty (opt_cap g cs) = true).
  { apply nonempty_len'. rewrite (opt_cap_some _ _ _ Hv).
    destruct Hg as [<-|[<-|[<-|[<-|[]]]]]; (eapply captures_group_min; [exact H| |exact Hv|vm_compute; reflexivity]; discriminate). }
  eapply runs_bind with (P := fun x d' c' => is_inline x = true /\ d' = d /\ c' = c).
  - destruct (nonempty (opt_cap 4 cs)) eqn:E4; [cbn; auto|].
    destruct (nonempty (opt_cap 5 cs)) eqn:E5; [cbn; auto|].
    destruct (nonempty (opt_cap 6 cs)) eqn:E6; [cbn; auto|].
    destruct (nonempty (opt_cap 8 cs)) eqn:E8; [cbn; auto|].
    destruct Hg as [<-|[<-|[<-|[<-|[]]]]]; congruence.
  - intros a d' c' (Ha & -> & ->). leaf; [lia|]. destruct (nonempty (opt_cap 1 cs)); cbn [app forallb]; now rewrite Ha.
Qed.
Lemma citation_ref_ok b doc s cs d c : captures CITATION_REF s = Some cs ->
  runs b (fn_ok d c) (citation_ref doc cs) d c.
Proof.
  intros H. unfold citation_ref. grp H 2 y Hy Hm. grp H 3 x Hx Hn. grp H 4 z Hz Hk. cbv zeta.
  destruct (nonempty _ && _); leaf; try lia. destruct (nonempty _); reflexivity.
Qed.
Lemma substitution_ref_ok b doc s cs d c : captures SUBSTITUTION_REF s = Some cs -> may_run b s d ->
  runs b (fn_ok d c) (substitution_ref doc cs) d c.
Proof.
  intros H HM. unfold substitution_ref. grp H 2 y Hy Hm. grp H 3 x Hx Hn. grp H 4 z Hz Hk. cbv zeta.
  destruct (quotation_matches _ _); [leaf; lia|].
  destruct (nonempty (opt_cap 1 cs)) eqn:E1; [leaf; apply nonempty_len in E1; lia|].
  eapply runs_bind with (P := fun _ d' c' => (anon_count d' <= anon_count d + 1)%N /\ c' = c).
  - destruct (nonempty (opt_cap 5 cs)) eqn:E5; [|cbn; split; [lia|auto]].
    unfold opt_cap in E5 |- *. destruct (cap 5 cs) as [w|] eqn:Hw; [|discriminate].
    eapply runs_bind with (P := fun _ d' c' => (anon_count d' <= anon_count d + 1)%N /\ c' = c).
    + apply runs_label; [eapply may_room; eauto| |auto]. exact (ref_type_cap SUBSTITUTION_REF 5 _ _ _ H ltac:(discriminate) eq_refl ltac:(eassumption)).
    + intros l d' c' Ha. cbn [runs]. auto.
  - intros l d' c' (Ha & ->). leaf; try lia; auto.
Qed.
Lemma uri_ok b doc s cs d c : captures URI s = Some cs ->
  runs b (fn_ok d c) (inline_uri doc cs) d c.
Proof.
  intros H. unfold inline_uri. grp H 2 y Hy Hm. cbv zeta.
  destruct (nonempty (opt_cap 1 cs)) eqn:E1; [leaf; apply nonempty_len in E1; lia|].
  destruct (captures_must [4; 13] _ _ _ H) as (g & v & Hg & Hv); [vm_compute; reflexivity|intros [?|[?|[]]]; discriminate|].
  assert (Hne : nonempty (opt_cap g cs) = true).
  { apply nonempty_len'. rewrite (opt_cap_some _ _ _ Hv).
    destruct Hg as [<-|[<-|[]]];
      (match goal with |- 1 <= _ => idtac end; eapply Nat.le_trans; [|eapply captures_group_min; [exact H| |exact Hv|vm_compute; reflexivity]; discriminate]; lia). }
  destruct (nonempty (opt_cap 4 cs)) eqn:E4; cbn [negb].
  { leaf; [lia|]. destruct (negb _); reflexivity. }
  destruct (nonempty (opt_cap 13 cs)) eqn:E13; cbn [negb].
  { leaf. lia. }
  destruct Hg as [<-|[<-|[]]]; congruence.
Qed.

Lemma table_ok b doc s d c r f cs : In (r, f) inline_table -> captures r s = Some cs -> may_run b s d ->
  runs b (fn_ok d c) (f doc cs) d c.
Proof.
  intros Hin H HM. cbn [In inline_table] in Hin.
  repeat (destruct Hin as [E|Hin]; [injection E as <- <-|]); [..|destruct Hin];
    first [eapply whitespace_ok; eassumption | eapply strong_ok; eassumption | eapply emph_ok; eassumption
          |eapply literal_ok; eassumption | eapply target_ok; eassumption | eapply phrase_ref_ok; eassumption
          |eapply interpreted_ok; eassumption | eapply footnote_ref_ok; eassumption | eapply citation_ref_ok; eassumption
          |eapply simple_ref_ok; eassumption | eapply substitution_ref_ok; eassumption | eapply uri_ok; eassumption
          |eapply text_ok; eassumption].
Qed.

(* ---------- the loop ---------- *)
Lemma match_inline_ok b doc s d c tbl : may_run b s d -> incl tbl inline_table ->
  runs b (fun o d' c' => match o with
            | Some x => fn_ok d c x d' c'
            | None => d' = d /\ c' = c /\ forall r f, In (r, f) tbl -> captures r s = None
            end) (match_inline tbl doc s) d c.
Proof.
  intros HM. induction tbl as [|[r f] tbl IH]; intros HI; cbn [match_inline].
  - cbn [runs]. repeat split; auto. intros r f [].
  - destruct (captures r s) as [cs|] eqn:E.
    + eapply runs_bind; [eapply (table_ok b doc s d c r f); eauto; apply HI; left; reflexivity|].
      intros a d' c' Ha. cbn [runs]. exact Ha.
    + eapply runs_mono; [apply IH; intros x Hx; apply HI; right; exact Hx|].
      intros [x|] d' c' H; [exact H|]. destruct H as (? & ? & H). repeat split; auto.
      intros r' f' [E'|Hin]; [injection E' as <- <-; auto|eauto].
Qed.
Lemma table_matches c s : ~ (captures INLINE_WHITESPACE (c :: s) = None /\ captures INLINE_TEXT (c :: s) = None).
Proof.
  intros [H1 H2]. apply captures_none in H1. apply captures_none in H2.
  destruct (sp c) eqn:E.
  - apply H1. exists s. apply rel_plus_cls. exists [c]. cbn. rewrite E. repeat split; auto; discriminate.
  - apply H2. exists s. apply rel_grp. apply rel_plus_cls. exists [c]. cbn.
    unfold nsp. unfold sp in E. rewrite E. repeat split; auto; discriminate.
Qed.
Lemma match_inline_str_ok b doc s d c : may_run b s d ->
  runs b (fun o d' c' => match o with
            | Some x => s <> [] /\ fn_ok d c x d' c'
            | None => s = [] /\ d' = d /\ c' = c
            end) (match_inline_str doc s) d c.
Proof.
  intros HM. unfold match_inline_str. destruct s as [|ch s]; [cbn; auto|].
  eapply runs_mono; [apply (match_inline_ok b doc (ch :: s) d c inline_table HM); apply incl_refl|].
  intros [x|] d' c' H; [split; [discriminate|exact H]|]. exfalso. destruct H as (_ & _ & H).
  apply (table_matches ch s). split; [apply (H _ inline_whitespace); left; reflexivity|].
  apply (H _ inline_text). do 12 right. left. reflexivity.
Qed.

Lemma newlines_app a b : newlines (a ++ b) = newlines a + newlines b.
Proof. unfold newlines. rewrite filter_app, app_length. reflexivity. Qed.
Lemma infix_skipn x n s : infix x (skipn n s) -> infix x s.
Proof. intros H. rewrite <- (firstn_skipn n s). now apply infix_suffix. Qed.

(* what the loop leaves *)
Definition loop_result (s : str) (c : LineCursor) (x : list (str * list TreeNodeType) * str)
    (c' : LineCursor) : Prop :=
  snd x = [] /\ concat (map fst (fst x)) = s /\ c' = cur_add c (newlines s) /\
  Forall (fun p => fst p <> [] /\ forallb is_inline (snd p) = true) (fst x).
Lemma inline_loop_ok b doc : forall fuel s d c, length s < fuel ->
  (b = true -> ~ infix (lit "PEP") s /\ ~ infix (lit "pep-reference") s /\
     (anon_count d + N.of_nat (length s) <= u32_max)%N) ->
  runs b (fun x d' c' => loop_result s c x c') (inline_loop fuel doc s) d c.
Proof.
  induction fuel as [|f IH]; intros s d c Hf HM; [lia|]. cbn [inline_loop].
  destruct s as [|ch s'].
  { cbn. unfold loop_result. cbn. repeat split; auto. destruct c. unfold cur_add. cbn. now rewrite Nat.add_0_r. }
  set (s := ch :: s') in *.
  eapply runs_bind; [apply (match_inline_str_ok b)|].
  - intros E. destruct (HM E) as (H1 & H2 & H3). repeat split; auto.
    subst s. cbn [length] in H3. lia.
  - intros [[nodes off]|] d1 c1; [|intros [H _]; discriminate].
    intros [_ (Ho & Hn & -> & Hd)]. cbn [fst snd] in *. cbn [advance pbind runs].
    assert (Hl : length (skipn off s) + 1 <= length s) by (rewrite skipn_length; subst s; cbn [length]; lia).
    eapply runs_bind; [apply IH|].
    + lia.
    + intros E. destruct (HM E) as (H1 & H2 & H3). repeat split.
      * intros H. apply H1. eapply infix_skipn; eauto.
      * intros H. apply H2. eapply infix_skipn; eauto.
      * lia.
    + intros [pieces rest] d2 c2 (H1 & H2 & H3 & H4). cbn [fst snd] in *. cbn [runs].
      unfold loop_result. cbn [fst snd map concat]. repeat split; auto.
      * rewrite H2. apply firstn_skipn.
      * subst c2. unfold cur_add. cbn [cur_offset cur_baseline]. f_equal.
        rewrite <- (firstn_skipn off s) at 3. rewrite newlines_app. lia.
      * constructor; auto. cbn [fst snd]. split; auto. subst s. destruct off; [lia|]. cbn. discriminate.
Qed.
Lemma inline_pieces_ok b doc s d c :
  (b = true -> ~ infix (lit "PEP") s /\ ~ infix (lit "pep-reference") s /\
     (anon_count d + N.of_nat (length s) <= u32_max)%N) ->
  runs b (fun x d' c' => loop_result s c x c') (inline_pieces doc s) d c.
Proof. intros H. apply inline_loop_ok; auto. Qed.
Lemma forallb_flat (ps : list (str * list TreeNodeType)) :
  Forall (fun p => fst p <> [] /\ forallb is_inline (snd p) = true) ps -> forallb is_inline (flat_map snd ps) = true.
Proof.
  induction 1 as [|[a l] ps [_ H] _ IH]; cbn [flat_map]; auto. rewrite forallb_app. cbn [snd] in *. now rewrite H, IH.
Qed.
Lemma inline_parse_ok b doc s d c :
  (b = true -> ~ infix (lit "PEP") s /\ ~ infix (lit "pep-reference") s /\
     (anon_count d + N.of_nat (length s) <= u32_max)%N) ->
  runs b (fun nodes d' c' => forallb is_inline nodes = true /\ c' = cur_add c (newlines s)) (inline_parse doc s) d c.
Proof.
  intros H. unfold inline_parse. eapply runs_bind; [apply (inline_pieces_ok b); auto|].
  intros [ps rest] d' c' (H1 & H2 & H3 & H4). cbn [runs]. split; [now apply forallb_flat|auto].
Qed.

(* ---------- text without markup ---------- *)
(* every match of r contains a character of the class bad *)
Inductive needs (bad : char -> bool) : re -> Prop :=
| n_cls p : (forall c, p c = true -> bad c = true) -> needs bad (Cls p)
| n_catl a b : needs bad a -> needs bad (Cat a b)
| n_catr a b : needs bad b -> needs bad (Cat a b)
| n_alt a b : needs bad a -> needs bad b -> needs bad (Alt a b)
| n_grp n a : needs bad a -> needs bad (Grp n a).
Lemma existsb_suffix {A} (f : A -> bool) p t : existsb f t = true -> existsb f (p ++ t) = true.
Proof. intros H. rewrite existsb_app, H. apply orb_true_r. Qed.
Lemma needs_rel bad r : needs bad r -> forall s t, rel r s t -> existsb bad s = true.
Proof.
  induction 1 as [p Hp|a b _ IH|a b _ IH|a b _ IH1 _ IH2|n a _ IH]; intros s t H.
  - apply rel_cls_inv in H as (c & -> & Hc). cbn. now rewrite (Hp _ Hc).
  - apply rel_cat_inv in H as (u & H1 & H2). eauto.
  - apply rel_cat_inv in H as (u & H1 & H2). apply IH in H2. destruct (rel_suffix _ _ _ H1) as [p ->].
    now apply existsb_suffix.
  - apply rel_alt_inv in H as [H|H]; eauto.
  - apply rel_grp_inv in H. eauto.
Qed.
Lemma n_chr bad c : bad c = true -> needs bad (Chr c).
Proof. intros H. apply n_cls. intros d Hd. apply N.eqb_eq in Hd. now subst. Qed.

Definition bad (c : char) : bool := existsb (N.eqb c) markup_chars.
Lemma plain_bad s : plain s -> existsb bad s = false.
Proof.
  intros H. apply not_true_is_false. intros E. apply existsb_exists in E as (c & Hc & Hb).
  unfold bad in Hb. apply existsb_exists in Hb as (x & Hx & E). apply N.eqb_eq in E. subst x. exact (H c Hc Hx).
Qed.
Lemma no_markup r s : needs bad r -> plain s -> captures r s = None.
Proof.
  intros Hr Hp. apply captures_none. intros [t Ht]. apply (needs_rel _ _ Hr) in Ht.
  rewrite plain_bad in Ht; auto. discriminate.
Qed.
Ltac chr_need := apply n_chr; vm_compute; reflexivity.
Lemma lit_need l c : In c l -> bad c = true -> needs bad (Lit l).
Proof.
  induction l as [|a l IH]; intros H Hb; [destruct H|]. destruct l as [|a' l].
  - destruct H as [->|[]]. cbn. now apply n_chr.
  - change (needs bad (Cat (Chr a) (Lit (a' :: l)))). destruct H as [->|H]; [apply n_catl, n_chr; auto|apply n_catr, IH; auto].
Qed.
Lemma ref_type_need : needs bad ref_type_re.
Proof. apply n_catl. chr_need. Qed.
Lemma simple_need a b : bad (hd 0%N (lit a)) = true -> lit a <> [] -> needs bad (simple_inline a b).
Proof.
  intros H Hn. unfold simple_inline. cbn [Seq]. apply n_catr, n_catl, n_grp. change Patterns.q with lit.
  destruct (lit a) as [|c l]; [congruence|]. apply (lit_need _ c); [left; reflexivity|auto].
Qed.
Lemma markup_needs r f : In (r, f) inline_table -> r <> INLINE_WHITESPACE -> r <> INLINE_TEXT -> needs bad r.
Proof.
  intros Hin Hw Ht. cbn [In inline_table] in Hin.
  repeat (destruct Hin as [E|Hin]; [injection E as <- <-|]); [congruence| | | | | | | | | | | |congruence|destruct Hin];
    clear; try (apply simple_need; [reflexivity|discriminate]).
  - unfold PHRASE_REF. cbn [Seq]. apply n_catr, n_catl, n_grp. chr_need.
  - unfold INTERPRETED_TEXT. cbn [Seq]. apply n_catr, n_catr, n_catl, n_grp. chr_need.
  - unfold FOOTNOTE_REF. cbn [Seq]. apply n_catr, n_catr, n_catr, n_catr, n_catl, n_grp, ref_type_need.
  - unfold CITATION_REF. cbn [Seq]. apply n_catr, n_catr, n_catr, n_catl, n_grp. apply n_catr. chr_need.
  - unfold SIMPLE_REF. cbn [Seq]. apply n_catr, n_catr, n_catl, n_grp, ref_type_need.
  - unfold SUBSTITUTION_REF. cbn [Seq]. apply n_catr, n_catl, n_grp. chr_need.
  - unfold URI. cbn [Seq]. apply n_catr, n_catl, n_grp. apply n_alt.
    + apply n_grp, n_catr, n_catl. chr_need.
    + apply n_grp, n_catr, n_catr, n_catl. chr_need.
Qed.

(* greedy runs of a class *)
Fixpoint run_of (p : char -> bool) (s : str) : str :=
  match s with c :: t => if p c then c :: run_of p t else [] | [] => [] end.
Lemma run_of_len p s : length (run_of p s) <= length s.
Proof. induction s as [|c s IH]; cbn; auto. destruct (p c); cbn; lia. Qed.
Lemma run_of_prefix p s : firstn (length (run_of p s)) s = run_of p s.
Proof. induction s as [|c s IH]; cbn; auto. destruct (p c); cbn; auto. now rewrite IH. Qed.
Lemma run_of_all p s c : In c (run_of p s) -> p c = true.
Proof.
  induction s as [|x s IH]; cbn; [tauto|]. destruct (p x) eqn:E; cbn; [|tauto]. intros [<-|H]; auto.
Qed.
Lemma run_of_stops p s c t : skipn (length (run_of p s)) s = c :: t -> p c = false.
Proof.
  induction s as [|x s IH]; cbn; [discriminate|]. destruct (p x) eqn:E; cbn; auto.
  intros H. injection H as <- <-. auto.
Qed.
Lemma star_greedy {R} p (k : @kont R) : (forall i s cs, k i s cs <> None) -> forall n i s cs, length s <= n ->
  star_loop (rmatch (Cls p)) true k n i s cs =
  k (i + length (run_of p s)) (skipn (length (run_of p s)) s) cs.
Proof.
  intros Hk. induction n as [|n IH]; intros i s cs Hn.
  - destruct s; [|cbn in Hn; lia]. cbn. now rewrite Nat.add_0_r.
  - cbn [star_loop rmatch]. destruct s as [|c s]; [cbn; now rewrite Nat.add_0_r|].
    cbn [run_of]. destruct (p c); cbn [orelse length skipn]; [|now rewrite Nat.add_0_r].
    replace (i <? S i) with true by (symmetry; apply Nat.ltb_lt; lia).
    rewrite IH by (cbn in Hn; lia). replace (S i + length (run_of p s)) with (i + S (length (run_of p s))) by lia.
    destruct (k _ _ _) eqn:E; [reflexivity|]. exfalso. eapply Hk. exact E.
Qed.
Lemma plus_rmatch {R} p c s i cs (k : @kont R) : (forall i s cs, k i s cs <> None) -> p c = true ->
  rmatch (Plus true (Cls p)) i (c :: s) cs k =
  k (i + length (run_of p (c :: s))) (skipn (length (run_of p (c :: s))) (c :: s)) cs.
Proof.
  intros Hk Hp. transitivity (if p c then star_loop (rmatch (Cls p)) true k (length s) (S i) s cs else None).
  { reflexivity. }
  rewrite Hp, star_greedy by auto. cbn [run_of]. rewrite Hp. cbn [length skipn].
  f_equal. lia.
Qed.
Lemma plus_captures p c s : p c = true ->
  captures (Plus true (Cls p)) (c :: s) = Some [(0, (0, run_of p (c :: s)))].
Proof.
  intros Hp. unfold captures, rexec. rewrite plus_rmatch by (discriminate || auto).
  cbn [Nat.add]. now rewrite run_of_prefix.
Qed.
Lemma plus_grp_captures p c s : p c = true -> exists cs,
  captures (Grp 1 (Plus true (Cls p))) (c :: s) = Some cs /\ whole cs = run_of p (c :: s).
Proof.
  intros Hp. eexists. split; [unfold captures, rexec|].
  { transitivity (match rmatch (Plus true (Cls p)) 0 (c :: s) [] (fun i1 s1 cs1 => Some (i1, (0, (0, firstn i1 (c :: s))) :: (1, (0, firstn (i1 - 0) (c :: s))) :: cs1)) with
    | Some (_, cs) => Some cs | None => None end); [reflexivity|].
    rewrite plus_rmatch by (discriminate || auto). reflexivity. }
  unfold whole. cbn [cap Nat.eqb Nat.add]. apply run_of_prefix.
Qed.

Lemma match_skip tbl doc s rest : (forall r f, In (r, f) tbl -> captures r s = None) ->
  match_inline (tbl ++ rest) doc s = match_inline rest doc s.
Proof.
  induction tbl as [|[r f] tbl IH]; intros H; cbn [app match_inline]; auto.
  rewrite (H r f) by (left; auto). apply IH. intros; eapply H; right; eauto.
Qed.

Definition segment (x : bool * str) : str * list TreeNodeType := (snd x, [plain_node x]).

Lemma whitespace_captures c s : sp c = true -> captures INLINE_WHITESPACE (c :: s) = Some [(0, (0, run_of sp (c :: s)))].
Proof. apply plus_captures. Qed.
Lemma no_whitespace c s : sp c = false -> captures INLINE_WHITESPACE (c :: s) = None.
Proof.
  intros H. apply captures_none. intros [t Ht]. apply rel_plus_cls in Ht as (l & E & Hl & Ha).
  destruct l as [|x l]; [congruence|]. injection E as <- ->. cbn in Ha. rewrite H in Ha. discriminate.
Qed.
Lemma plain_skipn n s : plain s -> plain (skipn n s).
Proof. intros H c Hc. apply H. rewrite <- (firstn_skipn n s). apply in_or_app. auto. Qed.

Lemma plain_match doc c s : plain (c :: s) ->
  match_inline_str doc (c :: s) =
  PRet (Some ([plain_node (sp c, run_of (fun x => Bool.eqb (sp x) (sp c)) (c :: s))],
              length (run_of (fun x => Bool.eqb (sp x) (sp c)) (c :: s)))).
Proof.
  intros HP. unfold match_inline_str.
  assert (HR : forall p q t, (forall x, p x = q x) -> run_of p t = run_of q t).
  { intros p q t E. induction t as [|x t IH]; cbn; auto. rewrite E, IH. auto. }
  destruct (sp c) eqn:E.
  - unfold inline_table. cbn [match_inline]. rewrite whitespace_captures by auto.
    unfold inline_whitespace, whole. cbn [cap Nat.eqb pbind].
    rewrite (HR (fun x => Bool.eqb (sp x) true) sp). { reflexivity. } intros x. destruct (sp x); reflexivity.
  - unfold inline_table.
    match goal with |- match_inline (?w :: ?l) _ _ = _ => change (w :: l) with
      ((firstn 12 (w :: l)) ++ [(INLINE_TEXT, inline_text)]) end.
    rewrite match_skip.
    + cbn [match_inline]. destruct (plus_grp_captures nsp c s) as (cs & Hc & Hw).
      { unfold nsp. unfold sp in E. now rewrite E. }
      unfold INLINE_TEXT. rewrite Hc. unfold inline_text. rewrite Hw. cbn [pbind].
      reflexivity.
    + intros r f Hin. cbn [firstn] in Hin. destruct Hin as [Eq|Hin].
      * injection Eq as <- <-. now apply no_whitespace.
      * apply no_markup; auto. clear HR. cbn [In] in Hin.
        repeat (destruct Hin as [Eq|Hin]; [injection Eq as <- <-|]); [..|destruct Hin];
          (eapply markup_needs; [unfold inline_table; repeat (first [left; reflexivity|right])|discriminate|discriminate]).
Qed.

Lemma pexec_bind {A B} call (p : prog A) (f : A -> prog B) : forall d c,
  pexec call (pbind p f) d c = (let! (a, d', c') := pexec call p d c in pexec call (f a) d' c').
Proof.
  induction p as [a| | |k IH|o k IH|n k IH|src bi bl st k IH]; intros d c; cbn [pbind pexec]; auto.
  - destruct (dop_exec o d) as [[x d1]| |]; cbn [obind]; auto.
  - destruct (call src bi bl st d) as [[x d1]| |]; cbn [obind]; auto.
Qed.
Lemma plain_loop doc call : forall fuel s d c, length s < fuel -> plain s -> exists segs,
  Forall piece_ok segs /\ alternates segs /\ concat (map snd segs) = s /\
  match segs, s with (b, _) :: _, x :: _ => b = sp x | _, _ => True end /\
  pexec call (inline_loop fuel doc s) d c = Ret ((map segment segs, []), d, cur_add c (newlines s)).
Proof.
  induction fuel as [|f IH]; intros s d c Hf HP; [lia|]. cbn [inline_loop].
  destruct s as [|x s'].
  { exists []. cbn. repeat split; auto. destruct c. unfold cur_add. cbn. now rewrite Nat.add_0_r. }
  rewrite plain_match by auto. cbn [pbind].
  set (w := run_of _ _). set (s := x :: s').
  assert (Hw : w <> []). { subst w. cbn [run_of]. rewrite Bool.eqb_reflx. discriminate. }
  assert (Hpre : firstn (length w) s = w) by apply run_of_prefix.
  cbn [advance pbind pexec]. rewrite pexec_bind, Hpre.
  destruct (IH (skipn (length w) s) d (cur_add c (newlines w))) as (segs & Ha & Hb & Hc & Hd & He).
  { rewrite skipn_length. subst s. cbn [length] in *. destruct w; [congruence|cbn [length]; lia]. }
  { now apply plain_skipn. }
  rewrite He. cbn [obind pexec]. exists ((sp x, w) :: segs). split; [|split; [|split; [|split]]].
  - constructor; auto. split; auto. cbn [snd fst]. intros ch Hch. apply run_of_all in Hch.
    now apply Bool.eqb_prop in Hch.
  - destruct segs as [|[b w'] segs]; cbn [alternates]; auto. split; auto. intros E.
    destruct (skipn (length w) s) as [|y t] eqn:Es.
    + apply Forall_inv in Ha. destruct Ha as [Ha _]. cbn [map concat snd] in Hc. cbn in Ha. destruct w'; [congruence|discriminate].
    + apply run_of_stops in Es. rewrite Hd, <- E in *. rewrite Bool.eqb_reflx in Es. discriminate.
  - cbn [map concat snd]. rewrite Hc. rewrite <- Hpre at 1. apply firstn_skipn.
  - reflexivity.
  - cbn [map segment snd]. do 2 f_equal. unfold cur_add. cbn [cur_offset cur_baseline]. f_equal.
    rewrite <- (firstn_skipn (length w) s) at 2. rewrite newlines_app, Hpre. lia.
Qed.
