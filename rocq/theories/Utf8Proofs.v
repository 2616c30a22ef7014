(* Utf8Proofs.v -- proofs about the character converters (C30-C32). *)
From Verif Require Import Base Utf8Latex TexSpec TextProofs.
Local Open Scope N_scope.

Lemma escape_table c : last_insert text_map c = escape_of c.
Proof.
  unfold text_map, escape_of, tex_special. cbn [last_insert existsb lit].
  change (N_of_ascii "#") with 35. change (ch "\") with 92. change (ch "^") with 94.
  change (ch "_") with 95. change (ch "~") with 126. change (ch "$") with 36.
  change (ch "{") with 123. change (ch "}") with 125. change (ch "#") with 35.
  change (ch "&") with 38. change (ch "%") with 37.
  vm_compute (N_of_ascii _).
  repeat match goal with
         | |- context [?a =? ?b] => destruct (N.eqb_spec a b); [subst; reflexivity|]
         end.
  cbn. repeat match goal with
         | |- context [c =? ?b] => destruct (N.eqb_spec c b); [subst; try congruence|]
         end.
  all: try congruence. reflexivity.
Qed.

Lemma text_piece_eq c rest : text_piece c rest =
  match escape_of c with Some e => e ++ space_before rest | None => [c] end.
Proof. unfold text_piece. rewrite escape_table. reflexivity. Qed.

(* induction along the escapes of a text *)
Lemma unescape_ind (P : str -> Prop) :
  P [] -> P [ch "\"] ->
  (forall d t, P t -> P (ch "\" :: d :: t)) ->
  (forall c t, c <> ch "\" -> P t -> P (c :: t)) ->
  forall s, P s.
Proof.
  intros H0 H1 H2 H3 s.
  enough (P s /\ forall c, P (c :: s)) by tauto.
  induction s as [|a s [IH1 IH2]].
  - split; [exact H0|]. intro c. destruct (N.eq_dec c (ch "\")); [subst; exact H1|apply H3; assumption].
  - split; [apply IH2|]. intro c.
    destruct (N.eq_dec c (ch "\")); [subst; apply H2; exact IH1|apply H3; [assumption|apply IH2]].
Qed.

Lemma text_escape d t : unicode_text_to_latex (ch "\" :: d :: t) = text_piece d t ++ unicode_text_to_latex t.
Proof. reflexivity. Qed.
Lemma text_plain c t : c <> ch "\" ->
  unicode_text_to_latex (c :: t) = text_piece c t ++ unicode_text_to_latex t.
Proof. intro H. cbn [unicode_text_to_latex]. destruct (N.eqb_spec c (ch "\")); [contradiction|reflexivity]. Qed.
Lemma unesc_plain c t : c <> ch "\" -> unescaped (c :: t) = (c, t) :: unescaped t.
Proof. intro H. cbn [unescaped]. destruct (N.eqb_spec c (ch "\")); [contradiction|reflexivity]. Qed.

Lemma space_before_cases r : space_before r = [] \/ space_before r = [32].
Proof. unfold space_before. destruct r as [|c r]; [auto|]. destruct (_ || _); auto. Qed.

Lemma piece_written c r : written_as c (text_piece c r).
Proof.
  rewrite text_piece_eq. destruct (escape_of c) as [e|] eqn:E; [|apply wa_plain; exact E].
  destruct (space_before_cases r) as [-> | ->]; [rewrite app_nil_r; apply wa_escape; exact E|
    apply wa_escape_sp; exact E].
Qed.

Lemma text_pieces s : exists ps, unicode_text_to_latex s = concat ps /\ Forall2 written_as (plain_text s) ps.
Proof.
  unfold plain_text. induction s as [| |d t [ps [E F]]|c t Hc [ps [E F]]] using unescape_ind.
  - exists []. split; constructor.
  - exists [lit "\textbackslash"]. split; [reflexivity|]. cbn. constructor; [|constructor].
    apply wa_escape. reflexivity.
  - exists (text_piece d t :: ps). rewrite text_escape, E. split; [reflexivity|].
    cbn. constructor; [apply piece_written|exact F].
  - exists (text_piece c t :: ps). rewrite text_plain, unesc_plain, E by exact Hc. split; [reflexivity|].
    cbn. constructor; [apply piece_written|exact F].
Qed.

(* the first character written for a rest of text *)
Definition head_ok (p : char -> bool) (s : str) : Prop :=
  match s with c :: _ => p c = true | [] => True end.

Lemma escape_head c e : escape_of c = Some e -> exists t, e = ch "\" :: t.
Proof.
  unfold escape_of. destruct (c =? ch "\"); [intros [= <-]; eexists; reflexivity|].
  destruct (c =? ch "^"); [intros [= <-]; eexists; reflexivity|].
  destruct (tex_special c); [intros [= <-]; eexists; reflexivity|discriminate].
Qed.

Lemma text_head p s : (forall c, p c = true -> escape_of c <> None -> p (ch "\") = true) ->
  head_ok (fun c => p c && negb (c =? ch "\")) s -> head_ok p (unicode_text_to_latex s).
Proof.
  destruct s as [|c t]; [reflexivity|]. cbn [head_ok]. intros Hp H. apply andb_true_iff in H as [H1 H2].
  apply negb_true_iff, N.eqb_neq in H2. rewrite text_plain by exact H2. rewrite text_piece_eq.
  destruct (escape_of c) as [e|] eqn:E; [|exact H1].
  destruct (escape_head _ _ E) as [t' ->]. cbn. apply (Hp c); congruence.
Qed.

(* a reading mode after a command word behaves as ordinary text when the next
   character is neither a letter nor a blank *)
Lemma tokens_name n s : head_ok (fun c => negb (tex_letter c) && negb (tex_blank c)) s ->
  tokens (Name n) s = Tword (rev n) :: tokens Plain s.
Proof.
  destruct s as [|c t]; [reflexivity|]. cbn [head_ok]. intro H. apply andb_true_iff in H as [H1 H2].
  apply negb_true_iff in H1, H2. cbn [tokens]. rewrite H1, H2. reflexivity.
Qed.
Lemma tokens_skip s : head_ok (fun c => negb (tex_blank c)) s -> tokens Skip s = tokens Plain s.
Proof.
  destruct s as [|c t]; [reflexivity|]. cbn [head_ok]. intro H. apply negb_true_iff in H.
  cbn [tokens]. rewrite H. reflexivity.
Qed.

Lemma tokens_letters w : forall n s, forallb tex_letter w = true ->
  tokens (Name n) (w ++ s) = tokens (Name (rev w ++ n)) s.
Proof.
  induction w as [|c w IH]; intros n s H; [reflexivity|]. cbn [forallb] in H. apply andb_true_iff in H as [H1 H2].
  cbn [app tokens]. rewrite H1, IH by exact H2. cbn [rev]. rewrite <- app_assoc. reflexivity.
Qed.
Lemma tokens_word w s : w <> [] -> forallb tex_letter w = true ->
  tokens Plain (ch "\" :: w ++ s) = tokens (Name (rev w)) s.
Proof.
  destruct w as [|c w]; [contradiction|]. intros _ H. cbn [forallb] in H. apply andb_true_iff in H as [H1 H2].
  change (ch "\" :: (c :: w) ++ s) with (ch "\" :: c :: (w ++ s)). cbn [tokens].
  rewrite N.eqb_refl, H1. rewrite tokens_letters by exact H2. reflexivity.
Qed.

(* the condition under which LaTeX reads the text back: for every character of
   the text, with the source text after it *)
Definition reads_back (p : char * str) : Prop :=
  let (c, next) := p in
  match next with
  | [] => c <> ch "~"
  | n :: _ =>
      c <> ch "~" /\
      (In c (lit "#$%&_{}") -> tex_letter n = false) /\
      (In c (lit "\^") -> is_whitespace n = false /\ n <> ch "\")
  end.

Lemma letter_facts n : tex_letter n = true ->
  is_whitespace n = false /\ n <> ch "\" /\ escape_of n = None /\ tex_blank n = false.
Proof.
  unfold tex_letter, is_ascii_alpha, is_ascii_lower, is_ascii_upper, in_range.
  rewrite orb_true_iff, !andb_true_iff, !N.leb_le. intro H.
  assert (E : forall k, (k < 65 \/ 90 < k < 97 \/ 122 < k) -> n =? k = false).
  { intros k Hk. apply N.eqb_neq. lia. }
  assert (L1 : forall k, 122 < k -> k <=? n = false) by (intros; apply N.leb_gt; lia).
  assert (L2 : forall k, k < 65 -> n <=? k = false) by (intros; apply N.leb_gt; lia).
  repeat split.
  - unfold is_whitespace. rewrite !E by lia. rewrite L2 by lia. rewrite (L1 0x2000) by lia.
    rewrite andb_false_r. reflexivity.
  - intros ->. change (ch "\") with 92 in H. lia.
  - unfold escape_of, tex_special. cbn [lit existsb].
    change (ch "\") with 92. change (ch "^") with 94.
    vm_compute (N_of_ascii _).
    rewrite !E by lia. reflexivity.
  - unfold tex_blank. rewrite !E by lia. reflexivity.
Qed.

Lemma space_before_letter n r : tex_letter n = true -> space_before (n :: r) = [32].
Proof.
  intro H. destruct (letter_facts n H) as [W [B [_ _]]]. unfold space_before.
  rewrite W. apply N.eqb_neq in B. rewrite B. unfold tex_letter in H. rewrite H. reflexivity.
Qed.
Lemma space_before_other n r : tex_letter n = false -> space_before (n :: r) = [].
Proof. intro H. unfold space_before. unfold tex_letter in H. rewrite H. rewrite orb_true_r. reflexivity. Qed.

Lemma blank_ws n : is_whitespace n = false -> tex_blank n = false.
Proof.
  intro H. unfold tex_blank. destruct (n =? 32) eqn:A; [apply N.eqb_eq in A; subst; discriminate H|].
  destruct (n =? 9) eqn:B; [apply N.eqb_eq in B; subst; discriminate H|].
  destruct (n =? 10) eqn:C; [apply N.eqb_eq in C; subst; discriminate H|]. reflexivity.
Qed.

Lemma word_piece w next rest : w <> [] -> forallb tex_letter w = true ->
  (match next with [] => True | n :: _ => is_whitespace n = false /\ n <> ch "\" end) ->
  rest = unicode_text_to_latex next ->
  tokens Plain (ch "\" :: w ++ space_before next ++ rest) = Tword w :: tokens Plain rest.
Proof.
  intros Hw Hl Hn ->. rewrite tokens_word by assumption.
  destruct next as [|n r].
  - cbn. rewrite rev_involutive. reflexivity.
  - destruct Hn as [W B]. destruct (tex_letter n) eqn:L.
    + rewrite space_before_letter by exact L. destruct (letter_facts n L) as [_ [_ [E Bl]]].
      rewrite text_plain by exact B. rewrite text_piece_eq, E. cbn [app].
      change (tokens (Name (rev w)) (32 :: ?x)) with (Tword (rev (rev w)) :: tokens Skip x).
      rewrite rev_involutive, tokens_skip; [reflexivity|]. cbn. rewrite Bl. reflexivity.
    + rewrite space_before_other by exact L. cbn [app]. rewrite tokens_name, rev_involutive; [reflexivity|].
      apply text_head; [intros; reflexivity|]. cbn [head_ok]. rewrite L, blank_ws by exact W.
      apply N.eqb_neq in B. rewrite B. reflexivity.
Qed.

Lemma typeset_plain c : escape_of c = None -> tex_special c = false /\ c <> ch "\".
Proof.
  unfold escape_of. destruct (c =? ch "\") eqn:A; [discriminate|]. destruct (c =? ch "^"); [discriminate|].
  destruct (tex_special c); [discriminate|]. intros _. split; [reflexivity|]. apply N.eqb_neq. exact A.
Qed.

Lemma special_in c : tex_special c = true -> c <> ch "\" -> c <> ch "^" -> c <> ch "~" -> In c (lit "#$%&_{}").
Proof.
  unfold tex_special. rewrite existsb_exists. intros [x [Hx E]] A B C. apply N.eqb_eq in E. subst x.
  cbn [lit In] in *.
  repeat (destruct Hx as [<-|Hx]; [first [tauto | exfalso; apply A; reflexivity | exfalso; apply B; reflexivity | exfalso; apply C; reflexivity]|]).
  contradiction.
Qed.

Lemma reads_piece c next : reads_back (c, next) ->
  exists k, typeset k = Some c /\
    tokens Plain (text_piece c next ++ unicode_text_to_latex next) = k :: tokens Plain (unicode_text_to_latex next).
Proof.
  intro H. rewrite text_piece_eq.
  destruct (escape_of c) as [e|] eqn:E.
  - unfold escape_of in E. destruct (N.eqb_spec c (ch "\")) as [->|N1].
    { injection E as <-. exists (Tword (lit "textbackslash")). split; [reflexivity|].
      rewrite <- app_assoc. apply (word_piece (lit "textbackslash") next); [discriminate|reflexivity| |reflexivity].
      unfold reads_back in H. destruct next as [|n r]; [exact I|]. destruct H as [_ [_ H]]. apply H. left. reflexivity. }
    destruct (N.eqb_spec c (ch "^")) as [->|N2].
    { injection E as <-. exists (Tword (lit "textasciicircum")). split; [reflexivity|].
      rewrite <- app_assoc. apply (word_piece (lit "textasciicircum") next); [discriminate|reflexivity| |reflexivity].
      unfold reads_back in H. destruct next as [|n r]; [exact I|]. destruct H as [_ [_ H]]. apply H. right. left. reflexivity. }
    destruct (tex_special c) eqn:S; [|discriminate]. injection E as <-.
    assert (C : c <> ch "~") by (unfold reads_back in H; destruct next; tauto).
    pose proof (special_in c S N1 N2 C) as I.
    assert (Sp : space_before next = []).
    { unfold reads_back in H. destruct next as [|n r]; [reflexivity|]. destruct H as [_ [H _]].
      apply space_before_other, H, I. }
    exists (Tsym c). rewrite Sp, app_nil_r. split.
    + unfold typeset. replace (existsb (N.eqb c) (lit "#$%&_{}")) with true; [reflexivity|].
      symmetry. apply existsb_exists. exists c. split; [exact I|apply N.eqb_refl].
    + assert (L : tex_letter c = false /\ (c =? 32) = false).
      { clear -I. cbn [lit In] in I.
        repeat destruct I as [<-|I]; try (split; reflexivity). contradiction. }
      cbn [app]. change (tokens Plain (ch "\" :: c :: ?x)) with (tokens Slash (c :: x)).
      cbn [tokens]. destruct L as [-> ->]. reflexivity.
  - destruct (typeset_plain c E) as [S N1]. exists (Tchar c). split; [unfold typeset; rewrite S; reflexivity|].
    cbn [app tokens]. apply N.eqb_neq in N1. rewrite N1. reflexivity.
Qed.

Lemma text_reads_back s : Forall reads_back (unescaped s) ->
  tex_reads (unicode_text_to_latex s) = Some (plain_text s).
Proof.
  unfold tex_reads, plain_text.
  induction s as [| |d t IH|c t Hc IH] using unescape_ind; intro H.
  - reflexivity.
  - vm_compute. reflexivity.
  - change (unescaped (ch "\" :: d :: t)) with ((d, t) :: unescaped t) in *. inversion H as [|? ? H1 H2]; subst.
    rewrite text_escape. destruct (reads_piece d t H1) as [k [K ->]]. cbn [map all_some fst]. rewrite K, IH by exact H2. reflexivity.
  - rewrite unesc_plain in * by exact Hc. inversion H as [|? ? H1 H2]; subst.
    rewrite text_plain by exact Hc. destruct (reads_piece c t H1) as [k [K ->]]. cbn [map all_some fst]. rewrite K, IH by exact H2. reflexivity.
Qed.

(* ---------- math ---------- *)
Definition math1 (c : char) : str :=
  match last_insert math_map c with Some l => l | None => [c] end.
Lemma math_cons c t : unicode_math_to_latex (c :: t) = math1 c ++ unicode_math_to_latex t.
Proof. reflexivity. Qed.
Lemma math_app a b : unicode_math_to_latex (a ++ b) = unicode_math_to_latex a ++ unicode_math_to_latex b.
Proof.
  induction a as [|c a IH]; [reflexivity|]. rewrite <- app_comm_cons, !math_cons, IH, app_assoc. reflexivity.
Qed.
Lemma math_one c : unicode_math_to_latex [c] = math1 c.
Proof. rewrite math_cons. apply app_nil_r. Qed.

Lemma last_insert_in m c l : last_insert m c = Some l -> exists v, In (c, v) m /\ l = lit v.
Proof.
  induction m as [|[k v] m IH]; [discriminate|]. cbn [last_insert].
  destruct (last_insert m c) as [r|].
  - intros [= ->]. destruct (IH eq_refl) as [w [H E]]. exists w. split; [right; exact H|exact E].
  - destruct (N.eqb_spec k c) as [->|]; [|discriminate]. intros [= <-]. exists v. split; [left; reflexivity|reflexivity].
Qed.

(* checking every entry of the table that is in force *)
Lemma table_check (p : char -> str -> bool) :
  forallb (fun kv => match last_insert math_map (fst kv) with Some l => p (fst kv) l | None => false end) math_map = true ->
  forall c l, last_insert math_map c = Some l -> p c l = true.
Proof.
  intros H c l E. destruct (last_insert_in _ _ _ E) as [v [I _]].
  rewrite forallb_forall in H. specialize (H _ I). cbn [fst] in H. rewrite E in H. exact H.
Qed.

Definition ascii (c : char) : bool := c <? 128.
Lemma math1_cases c : math1 c = [c] \/
  (math1 c <> [] /\ forallb ascii (math1 c) = true /\ (In c (lit "#$%~") \/ 128 <= c)).
Proof.
  unfold math1. destruct (last_insert math_map c) as [l|] eqn:E; [|left; reflexivity]. right.
  apply (table_check (fun c l => negb (str_eqb l []) && forallb ascii l &&
    (existsb (N.eqb c) (lit "#$%~") || (128 <=? c)))) in E; [|vm_compute; reflexivity].
  apply andb_true_iff in E as [E E3]. apply andb_true_iff in E as [E1 E2]. split; [|split; [exact E2|]].
  - intros ->. discriminate E1.
  - apply orb_true_iff in E3 as [E3|E3]; [left|right; apply N.leb_le; exact E3].
    apply existsb_exists in E3 as [x [H Ex]]. apply N.eqb_eq in Ex. subst x. exact H.
Qed.

Lemma math_ascii s : Forall (fun c => c < 128 /\ ~ In c (lit "#$%~")) s -> unicode_math_to_latex s = s.
Proof.
  induction 1 as [|c s [H1 H2] _ IH]; [reflexivity|]. rewrite math_cons, IH.
  destruct (math1_cases c) as [->|[_ [_ [H|H]]]]; [reflexivity|contradiction|lia].
Qed.

Lemma math_pieces s : exists ps, unicode_math_to_latex s = concat ps /\
  Forall2 (fun c p => p = [c] \/ p <> [] /\ Forall (fun x => x < 128) p /\ (In c (lit "#$%~") \/ 128 <= c)) s ps.
Proof.
  induction s as [|c s [ps [E F]]]; [exists []; split; constructor|].
  exists (math1 c :: ps). rewrite math_cons, E. split; [reflexivity|]. constructor; [|exact F].
  destruct (math1_cases c) as [->|[H1 [H2 H3]]]; [left; reflexivity|right].
  split; [exact H1|split; [|exact H3]]. rewrite forallb_forall in H2. apply Forall_forall.
  intros x Hx. apply N.ltb_lt. apply H2. exact Hx.
Qed.

Lemma raw_depth_app a b d : raw_depth (a ++ b) d =
  match raw_depth a d with Some d' => raw_depth b d' | None => None end.
Proof.
  revert d. induction a as [|c a IH]; intro d; [reflexivity|]. cbn [app raw_depth].
  destruct (c =? ch "{"); [apply IH|]. destruct (c =? ch "}"); [|apply IH]. destruct d; [reflexivity|apply IH].
Qed.
Lemma raw_depth_shift s k : forall d e, raw_depth s d = Some e -> raw_depth s (d + k)%nat = Some (e + k)%nat.
Proof.
  induction s as [|c s IH]; intros d e; cbn [raw_depth]; [intros [= ->]; reflexivity|].
  destruct (c =? ch "{"); [intro H; exact (IH (S d) e H)|].
  destruct (c =? ch "}"); [|apply IH]. destruct d; [discriminate|]. apply IH.
Qed.
Lemma math_braces s : forall d, raw_depth (unicode_math_to_latex s) d = raw_depth s d.
Proof.
  induction s as [|c s IH]; intro d; [reflexivity|].
  rewrite math_cons, raw_depth_app. change (c :: s) with ([c] ++ s). rewrite (raw_depth_app [c]).
  assert (E : raw_depth (math1 c) d = raw_depth [c] d).
  { unfold math1. destruct (last_insert math_map c) as [l|] eqn:E; [|reflexivity].
    apply (table_check (fun c l => match raw_depth l 0 with Some O => negb (c =? ch "{") && negb (c =? ch "}") | _ => false end)) in E; [|vm_compute; reflexivity].
    destruct (raw_depth l 0) as [[|?]|] eqn:D; try discriminate.
    apply andb_true_iff in E as [E1 E2]. apply negb_true_iff in E1, E2.
    cbn [raw_depth]. rewrite E1, E2. exact (raw_depth_shift l d 0 0 D). }
  rewrite E. destruct (raw_depth [c] d); [apply IH|reflexivity].
Qed.

(* every listed character and the one other character with the same image *)
Definition collisions : list char :=
  [8764; 126; 8901; 183; 593; 945; 65; 913; 914; 66; 916; 8710; 69; 917; 90; 918; 72; 919;
   920; 1012; 73; 921; 922; 75; 924; 77; 925; 78; 79; 927; 80; 929; 932; 84; 978; 933; 88;
   935; 936; 8486; 111; 959; 8714; 1013; 8192; 8195; 8196; 8197; 8198; 8199; 8200; 8201;
   8202; 45; 8208; 8210; 8211; 8212; 8213; 8722; 8729; 8226; 8260; 47; 8314; 8330; 8315;
   8331; 8332; 8316; 8317; 8333; 8334; 8318; 104; 8462; 58; 8758].
Definition memN (c : char) (l : list char) : bool := existsb (N.eqb c) l.
Lemma memN_In c l : memN c l = true <-> In c l.
Proof.
  unfold memN. rewrite existsb_exists. split.
  - intros [x [H E]]. apply N.eqb_eq in E. subst. exact H.
  - intro H. exists c. split; [exact H|apply N.eqb_refl].
Qed.
Lemma collisions_ok :
  forallb (fun kv => forallb (fun kw => match last_insert math_map (fst kv), last_insert math_map (fst kw) with
     | Some l, Some l' => (fst kv =? fst kw) || negb (str_eqb l l') || (memN (fst kv) collisions && memN (fst kw) collisions)
     | _, _ => false end) math_map) math_map = true.
Proof. vm_compute. reflexivity. Qed.
Lemma collisions_single c l x : last_insert math_map c = Some l -> l = [x] -> In c collisions /\ In x collisions.
Proof.
  intros E ->. apply (table_check (fun c l => match l with [x] => memN c collisions && memN x collisions | _ => true end)) in E; [|vm_compute; reflexivity].
  apply andb_true_iff in E as [A B]. split; apply memN_In; assumption.
Qed.
Lemma math_distinct c d : c <> d -> math1 c = math1 d -> In c collisions /\ In d collisions.
Proof.
  intros N. unfold math1. destruct (last_insert math_map c) as [l|] eqn:E, (last_insert math_map d) as [l'|] eqn:E'.
  - intros ->. destruct (last_insert_in _ _ _ E) as [v [I _]]. destruct (last_insert_in _ _ _ E') as [v' [I' _]].
    pose proof collisions_ok as H. rewrite forallb_forall in H. specialize (H _ I). rewrite forallb_forall in H.
    specialize (H _ I'). cbn [fst] in H. rewrite E, E' in H. apply N.eqb_neq in N. rewrite N in H.
    rewrite str_eqb_refl in H. cbn [negb orb] in H. apply andb_true_iff in H as [A B]. split; apply memN_In; assumption.
  - intro H. exact (collisions_single c l d E H).
  - intro H. symmetry in H. destruct (collisions_single d l' c E' H). tauto.
  - congruence.
Qed.

Lemma occurs_app e sp a : forall odd b, exists odd', occurs e sp odd (a ++ b) = occurs e sp odd a || occurs e sp odd' b.
Proof.
  induction a as [|c a IH]; intros odd b; [exists odd; reflexivity|]. cbn [app occurs].
  destruct (c =? ch "\"); [apply IH|]. destruct (IH false b) as [o E]. exists o. rewrite E, orb_assoc. reflexivity.
Qed.
(* the parity of trailing backslashes *)
Fixpoint parity (odd : bool) (s : str) : bool :=
  match s with [] => odd | c :: t => parity (if c =? ch "\" then negb odd else false) t end.
Lemma occurs_parity e sp a : forall odd b, occurs e sp odd (a ++ b) = occurs e sp odd a || occurs e sp (parity odd a) b.
Proof.
  induction a as [|c a IH]; intros odd b; [reflexivity|]. cbn [app occurs parity].
  destruct (c =? ch "\"); [apply IH|]. rewrite IH, orb_assoc. reflexivity.
Qed.
Lemma math_specials s : forall odd, occurs true (lit "#$%") odd s = false ->
  occurs false (lit "#$%") odd (unicode_math_to_latex s) = false.
Proof.
  induction s as [|c s IH]; intros odd H; [reflexivity|].
  rewrite math_cons, occurs_parity. cbn [occurs] in H.
  destruct (last_insert math_map c) as [l|] eqn:E.
  - assert (M : math1 c = l) by (unfold math1; rewrite E; reflexivity). rewrite M.
    apply (table_check (fun c l => negb (c =? ch "\") && negb (parity true l) && negb (parity false l) &&
      negb (occurs false (lit "#$%") false l) &&
      (existsb (N.eqb c) (lit "#$%") || negb (occurs false (lit "#$%") true l)))) in E; [|vm_compute; reflexivity].
    repeat apply andb_true_iff in E as [E ?]. repeat match goal with H : negb _ = true |- _ => apply negb_true_iff in H end.
    rewrite E in H. apply orb_false_iff in H as [HA HB].
    assert (P : parity odd l = false) by (destruct odd; assumption). rewrite P, (IH false HB), orb_false_r.
    destruct odd; [|assumption]. cbn [Bool.eqb andb] in HA.
    match goal with H : _ || _ = true |- _ => rewrite HA in H; cbn [orb] in H; apply negb_true_iff in H; exact H end.
  - assert (M : math1 c = [c]) by (unfold math1; rewrite E; reflexivity). rewrite M.
    cbn [occurs parity]. destruct (c =? ch "\") eqn:B.
    + cbn [orb]. apply IH. exact H.
    + apply orb_false_iff in H as [H1 H2]. rewrite (IH false H2), orb_false_r, orb_false_r.
      assert (S : existsb (N.eqb c) (lit "#$%") = false).
      { apply not_true_iff_false. intro S. apply existsb_exists in S as [x [S X]]. apply N.eqb_eq in X. subst x.
        cbn [lit In] in S. repeat (destruct S as [<-|S]; [vm_compute in E; discriminate E|]). contradiction. }
      rewrite S, andb_false_r. reflexivity.
Qed.

(* commands and what follows them *)
Lemma tokens_plain_char c s : c <> ch "\" -> tokens Plain (c :: s) = Tchar c :: tokens Plain s.
Proof. intro H. cbn [tokens]. apply N.eqb_neq in H. rewrite H. reflexivity. Qed.

(* where the reader stands after a piece of text *)
Fixpoint mode_after (m : tmode) (s : str) : tmode :=
  match s with
  | [] => m
  | c :: t =>
      let ordinary := if c =? ch "\" then Slash else Plain in
      mode_after (match m with
                  | Plain => ordinary
                  | Skip => if tex_blank c then Skip else ordinary
                  | Slash => if tex_letter c then Name [c] else if c =? 32 then Skip else Plain
                  | Name n => if tex_letter c then Name (c :: n) else if tex_blank c then Skip else ordinary
                  end) t
  end.
Definition done (m : tmode) : Prop := match m with Slash => False | _ => True end.
Lemma tokens_split a : forall m b, done (mode_after m a) ->
  head_ok (fun c => negb (tex_letter c) && negb (tex_blank c)) b ->
  tokens m (a ++ b) = tokens m a ++ tokens Plain b.
Proof.
  induction a as [|c a IH]; intros m b D H.
  - cbn [app]. cbn [mode_after] in D. destruct m as [| |n|]; [reflexivity|destruct D| |].
    + rewrite tokens_name by exact H. reflexivity.
    + rewrite tokens_skip; [reflexivity|]. destruct b as [|x b]; [exact I|]. cbn [head_ok] in *.
      apply andb_true_iff in H as [_ H]. exact H.
  - cbn [app mode_after] in *. cbn [tokens].
    destruct m as [| |n|]; cbn [mode_after] in D;
    repeat match goal with
           | D : context [if ?b then _ else _] |- _ => destruct b
           | |- context [if ?b then _ else _] => destruct b
           end; cbn [app]; rewrite IH by assumption; reflexivity.
Qed.
Lemma math1_mode c : c <> ch "\" -> done (mode_after Plain (math1 c)).
Proof.
  intro H. unfold math1. destruct (last_insert math_map c) as [l|] eqn:E.
  - apply (table_check (fun c l => match mode_after Plain l with Slash => false | _ => true end)) in E; [|vm_compute; reflexivity].
    destruct (mode_after Plain l); [exact I|discriminate|exact I|exact I].
  - cbn [mode_after]. apply N.eqb_neq in H. rewrite H. exact I.
Qed.
