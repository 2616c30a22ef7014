(* Properties21.v -- C58: which items of numbered lists belong together *)
From Coq Require Import Permutation Lia.
From Verif Require Import Base Unicode Regex Patterns Common Converters NodeTypes Tree DocTree History Blocks Prog ParseLoop
  Inline Body Directives Parser Spec InlineSpec Utf8Latex Writer WriterSpec Transforms SimpleSpec MarkupSpec Properties12 Properties14.

(* an item: its delimiters, the style of its number, the number, its text and the
   empty lines after the first one *)
Record entry := MkEntry { e_delims : EnumDelims; e_style : numbering; e_number : N; e_text : text; e_gap : nat }.
Definition entry_source (e : entry) : list str :=
  numbered_lines 0 (enumerator (e_delims e) (e_style e) (e_number e)) (text_lines (e_text e)) ++ repeat [] (S (e_gap e)).
(* a number in digits, a Roman number up to 4999, or a letter that is not a Roman digit *)
Definition entry_ok (e : entry) : Prop :=
  e_style e <> Auto /\ number_ok (e_style e) (e_number e) = true /\ (e_number e < usize_max)%N /\ para_ok (e_text e) = true.
(* the second one goes on where the first one ends *)
Definition follows (a b : entry) : Prop := e_delims b = e_delims a /\ e_style b = e_style a /\ e_number b = N.succ (e_number a).
Definition follows_dec (a b : entry) : {follows a b} + {~ follows a b}.
Proof.
  assert (D : forall x y : EnumDelims, {x = y} + {x <> y}) by decide equality.
  assert (S : forall x y : numbering, {x = y} + {x <> y}) by (repeat decide equality).
  unfold follows. destruct (D (e_delims b) (e_delims a)); [|right; tauto]. destruct (S (e_style b) (e_style a)); [|right; tauto].
  destruct (N.eq_dec (e_number b) (N.succ (e_number a))); [left|right]; tauto.
Defined.
(* one environment for every run of items that follow each other *)
Definition list_begin : str := lit "\begin{enumerate}" ++ nl1.
Definition list_end : str := lit "\end{enumerate}" ++ nl2.
Fixpoint after_item (e : entry) (l : list entry) : str :=
  match l with
  | [] => list_end
  | e2 :: l => (if follows_dec e e2 then [] else list_end ++ list_begin) ++ lit "\item " ++ para_latex (e_text e2) ++ after_item e2 l
  end.
Definition lists_latex (l : list entry) : str :=
  match l with [] => [] | e :: l => list_begin ++ lit "\item " ++ para_latex (e_text e) ++ after_item e l end.

(* ---------- the document it is ---------- *)
Definition single (e : entry) (d : document) : document :=
  (Block (Numbered (e_delims e) (e_style e) (e_number e) (ICons (e_text e) 0 BNil INil)), S (e_gap e)) :: d.
Fixpoint grouped (l : list entry) : document :=
  match l with
  | [] => []
  | e :: l' =>
      match l' with
      | [] => single e []
      | e2 :: _ =>
          if follows_dec e e2 then
            match grouped l' with
            | (Block (Numbered d s n its), g) :: rest => (Block (Numbered d s (e_number e) (ICons (e_text e) (S (e_gap e)) BNil its)), g) :: rest
            | other => other
            end
          else single e (grouped l')
      end
  end.
Lemma grouped_head e l : exists its g rest, grouped (e :: l) = (Block (Numbered (e_delims e) (e_style e) (e_number e) its), g) :: rest.
Proof.
  revert e. induction l as [|e2 l IH]; intros e; [unfold grouped, single; eauto|].
  change (grouped (e :: e2 :: l)) with (if follows_dec e e2 then match grouped (e2 :: l) with
            | (Block (Numbered d s n its), g) :: rest => (Block (Numbered d s (e_number e) (ICons (e_text e) (S (e_gap e)) BNil its)), g) :: rest
            | other => other end else single e (grouped (e2 :: l))).
  destruct (follows_dec e e2) as [(F1 & F2 & F3)|F]; [|unfold single; eauto].
  destruct (IH e2) as (its & g & rest & ->). rewrite F1, F2. eauto.
Qed.
(* the two ways to go on *)
Lemma grouped_cons e e2 l its g rest : grouped (e2 :: l) = (Block (Numbered (e_delims e2) (e_style e2) (e_number e2) its), g) :: rest ->
  (follows e e2 /\ grouped (e :: e2 :: l) = (Block (Numbered (e_delims e) (e_style e) (e_number e) (ICons (e_text e) (S (e_gap e)) BNil its)), g) :: rest) \/
  (~ follows e e2 /\ grouped (e :: e2 :: l) = single e (grouped (e2 :: l))).
Proof.
  intros E. change (grouped (e :: e2 :: l)) with (if follows_dec e e2 then match grouped (e2 :: l) with
            | (Block (Numbered d s n its), g) :: rest => (Block (Numbered d s (e_number e) (ICons (e_text e) (S (e_gap e)) BNil its)), g) :: rest
            | other => other end else single e (grouped (e2 :: l))).
  destruct (follows_dec e e2) as [F|F]; [left|right]; (split; [exact F|]); [|reflexivity]. rewrite E. destruct F as (F1 & F2 & _). now rewrite F1, F2.
Qed.
Lemma grouped_source l : document_source (grouped l) = flat_map entry_source l.
Proof.
  induction l as [|e l IH]; [reflexivity|].
  assert (Single : forall d, document_source (single e d) = entry_source e ++ document_source d).
  { intros d. unfold document_source, single. cbn [flat_map fst snd element_source source numbered_source blocks_source]. cbv zeta. cbn [repeat app].
    rewrite !app_nil_r. reflexivity. }
  destruct l as [|e2 l].
  - change (grouped [e]) with (single e []). rewrite Single. reflexivity.
  - destruct (grouped_head e2 l) as (its & g & rest & Eg). destruct (grouped_cons e e2 l its g rest Eg) as [(F & ->)|(F & ->)].
    + rewrite Eg in IH. change (flat_map entry_source (e :: e2 :: l)) with (entry_source e ++ flat_map entry_source (e2 :: l)). rewrite <- IH.
      unfold document_source. cbn [flat_map fst snd element_source source numbered_source blocks_source]. cbv zeta. destruct F as (F1 & F2 & F3).
      rewrite F1, F2, F3. cbn [app]. unfold entry_source. rewrite <- !app_assoc. reflexivity.
    + rewrite Single, IH. reflexivity.
Qed.
Lemma grouped_latex l : forall seen, elements_latex seen (grouped l) = lists_latex l.
Proof.
  induction l as [|e l IH]; intros seen; [reflexivity|].
  assert (Single : forall d, elements_latex seen (single e d) = list_begin ++ lit "\item " ++ para_latex (e_text e) ++ list_end ++ elements_latex seen d).
  { intros d. unfold single. cbn [elements_latex element_latex latex items_latex blocks_latex style_of]. rewrite !app_nil_r.
    unfold list_begin, list_end. cbn [app]. rewrite <- !app_assoc. reflexivity. }
  destruct l as [|e2 l].
  - change (grouped [e]) with (single e []). rewrite Single. cbn [elements_latex lists_latex after_item]. now rewrite app_nil_r.
  - destruct (grouped_head e2 l) as (its & g & rest & Eg). specialize (IH seen).
    destruct (grouped_cons e e2 l its g rest Eg) as [(F & ->)|(F & ->)]; cbn [lists_latex after_item];
      (destruct (follows_dec e e2) as [F'|F']; [|]); try contradiction.
    + rewrite Eg in IH. cbn [elements_latex element_latex latex items_latex blocks_latex style_of lists_latex] in IH |- *.
      rewrite !app_nil_r in *. unfold list_begin in *. cbn [app]. rewrite <- !app_assoc in IH |- *. do 2 apply app_inv_head in IH.
      rewrite <- IH. cbn [app]. rewrite <- ?app_assoc. reflexivity.
    + rewrite Single, IH. cbn [lists_latex]. rewrite <- !app_assoc. reflexivity.
Qed.
Definition list_tag (e : entry) : block := Numbered (e_delims e) (e_style e) (e_number e) INil.
Lemma may_follow_any prev d s n its its' : may_follow prev (Numbered d s n its) = may_follow prev (Numbered d s n its').
Proof. destruct prev; reflexivity. Qed.
Lemma number_kinds a b : a <> Auto -> b <> Auto -> same_kind (kind_of a) (kind_of b) = true -> a = b.
Proof. destruct a as [| |[|]|[|]], b as [| |[|]|[|]]; cbn; congruence. Qed.
Lemma grouped_ok l : Forall entry_ok l -> forall prev gap0, match l with [] => True | e :: _ => may_follow prev (list_tag e) = true end ->
  elements_ok prev gap0 (grouped l) = true /\ document_depth (grouped l) <= 2 /\ styles (grouped l) = [] /\
  match grouped l with (Block (Numbered _ _ n its), _) :: _ => (n + count its <= usize_max)%N | _ => True end.
Proof.
  induction l as [|e l IH]; intros HF prev gap0 Hm; [repeat split; cbn; lia|].
  apply Forall_cons_iff in HF as [(Ha & Hn & Hu & Hp) HF]. specialize (IH HF).
  assert (Hs : match e_style e with Auto => (e_number e =? 1)%N | _ => true end = true) by (destruct (e_style e); congruence).
  assert (Single : forall d, (forall g, elements_ok (TNumbers (e_delims e) (kind_of (e_style e)) (N.succ (e_number e))) g d = true) -> document_depth d <= 2 -> styles d = [] ->
    elements_ok prev gap0 (single e d) = true /\ document_depth (single e d) <= 2 /\ styles (single e d) = [] /\
    match single e d with (Block (Numbered _ _ n its), _) :: _ => (n + count its <= usize_max)%N | _ => True end).
  { intros d H1 H2 H3. unfold single. split; [|split; [unfold document_depth in *; cbn [fold_right fst element_depth depth items_depth blocks_depth]; lia|split; [exact H3|cbn [count]; lia]]].
    cbn [elements_ok element_ok block_ok is_inil items_ok items_boxless blocks_boxless spaced numbers_ok count is_bnil blocks_ok is_title style_of element_tag tag_of negb andb orb].
    rewrite Hp, Hn, Hs. replace (e_number e + N.succ 0)%N with (N.succ (e_number e)) by lia.
    replace (N.succ (e_number e) <=? usize_max)%N with true by (symmetry; apply N.leb_le; lia). rewrite H1.
    rewrite (may_follow_any _ _ _ _ _ INil). unfold list_tag in Hm. rewrite Hm. cbn [andb orb Nat.leb]. destruct d; reflexivity. }
  destruct l as [|e2 l].
  - change (grouped [e]) with (single e []). apply Single; [reflexivity|cbn; lia|reflexivity].
  - destruct (grouped_head e2 l) as (its & g & rest & Eg). destruct (grouped_cons e e2 l its g rest Eg) as [((F1 & F2 & F3) & ->)|(F & ->)].
    + rewrite Eg in IH. destruct (IH TNone gap0 eq_refl) as (H1 & H2 & H3 & H4).
      rewrite F1, F2, F3 in H1.
      cbn [elements_ok element_ok block_ok is_title style_of element_tag tag_of may_follow count items_ok items_boxless blocks_boxless spaced numbers_ok is_inil negb andb orb is_bnil blocks_ok] in H1 |- *.
      apply andb_true_iff in H1 as [H1 H5]. apply andb_true_iff in H1 as [H1 H6]. rewrite andb_true_r in H1.
      apply andb_true_iff in H1 as [H1 H7]. apply andb_true_iff in H1 as [H1 _]. apply andb_true_iff in H1 as [H1 H8]. apply andb_true_iff in H1 as [H1 H9]. apply andb_true_iff in H1 as [H1 H10].
      apply andb_true_iff in H1 as [H11 H12].
      rewrite Hp, Hn, Hs, H12, H10, H8. apply N.leb_le in H7.
      assert (Hsp : match its with INil => true | _ => ((1 <=? S (e_gap e)) || (2 <=? length (text_lines (e_text e)))) && spaced its end = true) by (destruct its; [reflexivity|exact H9]).
      rewrite Hsp. replace (e_number e + N.succ (count its))%N with (N.succ (e_number e) + count its)%N by (clear; lia).
      replace (N.succ (e_number e) + count its <=? usize_max)%N with true by (symmetry; apply N.leb_le; exact H7).
      rewrite (may_follow_any _ _ _ _ _ INil). unfold list_tag in Hm. rewrite Hm, H6, H5.
      split; [reflexivity|]. split; [|split; [exact H3|clear -H7; lia]].
      unfold document_depth in *. cbn [fold_right fst element_depth depth items_depth blocks_depth] in *. clear -H2. lia.
    + assert (N0 : may_follow (TNumbers (e_delims e) (kind_of (e_style e)) (N.succ (e_number e))) (list_tag e2) = true).
      { cbn [list_tag may_follow]. apply negb_true_iff. destruct (goes_on _ _ _ _ _ _) eqn:G; [|reflexivity]. exfalso. apply F.
        apply Forall_cons_iff in HF as [(Ha2 & _) _]. unfold goes_on in G. apply andb_true_iff in G as [G1 G2].
        assert (G3 : same_kind (kind_of (e_style e)) (kind_of (e_style e2)) = true /\ e_number e2 = N.succ (e_number e)).
        { destruct (e_style e2); [congruence|..]; apply andb_true_iff in G2 as [G2 G3]; apply N.eqb_eq in G3; auto. }
        destruct G3 as [G3 G4]. repeat split; [|symmetry; now apply number_kinds|exact G4]. destruct (e_delims e), (e_delims e2); try discriminate; reflexivity. }
      destruct (IH TNone gap0 ltac:(cbn; reflexivity)) as (_ & H2 & H3 & _). apply Single; [|exact H2|exact H3]. intros g'. now apply IH.
Qed.

(* Any items one after another, numbered in any styles: the result is read to
   its end, the items are written in order, and one list ends and another begins
   exactly where an item does not follow the one before. *)
Theorem C58_groups_partial ord o l : (forall l, Permutation (ord l) l) -> l <> [] -> Forall entry_ok l ->
  exists states out, translated ord o (flat_map entry_source l) (REOF states) out /\
    concat out = (if print_full_document o then lit "\documentclass{aplus}" ++ nl1 ++ lit "\begin{document}" ++ nl2 else []) ++
      lists_latex l ++ (if print_full_document o then lit "\end{document}" ++ nl1 else []).
Proof.
  intros Hord Hne HF. assert (H : simple (grouped l) = true).
  { destruct (grouped_ok l HF TNone 0) as (H1 & H2 & H3 & _); [destruct l; reflexivity|]. unfold simple. rewrite H1, H3.
    destruct l as [|e l]; [congruence|]. destruct (grouped_head e l) as (its & g & rest & Eg). rewrite Eg in *. cbn [andb].
    apply Nat.leb_le. cbn [uniq length]. lia. }
  destruct (C47_simple_documents ord o _ Hord H) as (states & out & Ht & E). exists states, out.
  rewrite grouped_source in Ht. split; [exact Ht|]. rewrite E. unfold document_latex. now rewrite grouped_latex.
Qed.
(* The same anywhere in a document as in C47: a numbered list is one environment
   with its items, and with nested blocks in them. *)
Theorem C58_one_list_partial ord o d1 dl s first its gap d2 : (forall l, Permutation (ord l) l) ->
  simple (d1 ++ (Block (Numbered dl s first its), gap) :: d2) = true ->
  exists states out before after, translated ord o (document_source (d1 ++ (Block (Numbered dl s first its), gap) :: d2)) (REOF states) out /\
    concat out = before ++ elements_latex [] d1 ++ list_begin ++ items_latex its ++ list_end ++ elements_latex (styles d1) d2 ++ after.
Proof.
  intros Hord H. destruct (C47_simple_documents ord o _ Hord H) as (states & out & Ht & E).
  exists states, out, (if print_full_document o then lit "\documentclass{aplus}" ++ nl1 ++ lit "\begin{document}" ++ nl2 else []),
    (if print_full_document o then lit "\end{document}" ++ nl1 else []).
  split; [exact Ht|]. rewrite E. unfold document_latex. rewrite elements_latex_app. cbn [elements_latex element_latex latex style_of app].
  unfold list_begin, list_end. rewrite app_nil_r, <- !app_assoc. reflexivity.
Qed.

(* The third item of an alphabetical list begins a new one: c is read as 100; h
   and i do not go together either.  Items on adjacent lines are a paragraph.  The
   number of the first item and the style are written nowhere.  Any word of
   Roman digits and a point is a number, and so are initials.  A number that does
   not fit ends the translation, and an item without text spoils the next. *)
Definition two_items : str := list_begin ++ lit "\item x" ++ nl2 ++ lit "\item y" ++ nl2 ++ list_end.
Definition one_item (t : string) : str := list_begin ++ lit "\item " ++ lit t ++ nl2 ++ list_end.
Theorem C58_numbering_refuted :
  run_on ["a. x"; ""; "b. y"; ""; "c. z"]%string = Some (true, two_items ++ one_item "z") /\
  run_on ["h. x"; ""; "i. y"]%string = Some (true, one_item "x" ++ one_item "y") /\
  run_on ["1. x"; "2. y"; "3. z"]%string = Some (true, lit "1. x" ++ nl1 ++ lit "2. y" ++ nl1 ++ lit "3. z" ++ nl2) /\
  run_on ["1. x"; ""; "2. y"]%string = Some (true, two_items) /\
  run_on ["(vii) x"; ""; "(viii) y"]%string = Some (true, two_items) /\
  run_on ["mix. x"; ""; "A. Einstein was here."]%string = Some (true, one_item "x" ++ one_item "Einstein was here.") /\
  run_on ["99999999999999999999. x"]%string = Some (false, []) /\
  run_on ["1."; ""; "2. y"]%string = Some (true, list_begin ++ lit "\item \item y" ++ nl2 ++ list_end).
Proof.
  split; [vm_compute; reflexivity|]. split; [vm_compute; reflexivity|]. split; [vm_compute; reflexivity|]. split; [vm_compute; reflexivity|].
  split; [vm_compute; reflexivity|]. split; [vm_compute; reflexivity|]. split; vm_compute; reflexivity.
Qed.

Definition agenda : list entry :=
  [MkEntry Period Digits 3%N [Txt (lit "three")] 0; MkEntry Period Digits 4%N [Txt (lit "four" ++ nl1 ++ lit "and more")] 1;
   MkEntry RParen Digits 5%N [Txt (lit "five")] 0; MkEntry RParen (Roman false) 6%N [Txt (lit "six")] 0; MkEntry RParen (Roman false) 7%N [Txt (lit "seven")] 0;
   MkEntry RParen (Roman false) 9%N [Txt (lit "nine")] 0; MkEntry Parens (Letters true) 1%N [Txt (lit "one")] 0; MkEntry Parens (Letters true) 2%N [Txt (lit "two")] 0].
Example C58_ex : Forall entry_ok agenda /\
  flat_map entry_source agenda =
    [lit "3. three"; []; lit "4. four"; lit "   and more"; []; []; lit "5) five"; []; lit "vi) six"; []; lit "vii) seven"; []; lit "ix) nine"; []; lit "(A) one"; []; lit "(B) two"; []] /\
  lists_latex agenda =
    list_begin ++ lit "\item three" ++ nl2 ++ lit "\item four" ++ nl1 ++ lit "and more" ++ nl2 ++ list_end ++
    one_item "five" ++ list_begin ++ lit "\item six" ++ nl2 ++ lit "\item seven" ++ nl2 ++ list_end ++ one_item "nine" ++
    list_begin ++ lit "\item one" ++ nl2 ++ lit "\item two" ++ nl2 ++ list_end /\
  run_on ["3. three"; ""; "4. four"; "   and more"; ""; ""; "5) five"; ""; "vi) six"; ""; "vii) seven"; ""; "ix) nine"; ""; "(A) one"; ""; "(B) two"; ""]%string =
    Some (true, lists_latex agenda) /\
  simple [(Block (Bullets 42%N (ICons [Txt (lit "plan")] 1 (BCons (Numbered Period (Roman true) 39%N (ICons [Txt (lit "sell")] 1 BNil (ICons [Txt (lit "buy")] 0 BNil INil))) 0 BNil) INil)), 0)] = true.
Proof.
  split. { repeat (apply Forall_cons; [split; [discriminate|]; split; [vm_compute; reflexivity|]; split; [vm_compute; reflexivity|vm_compute; reflexivity]|]). constructor. }
  split; [vm_compute; reflexivity|]. split; [vm_compute; reflexivity|]. split; vm_compute; reflexivity.
Qed.
Print Assumptions C58_groups_partial.
Print Assumptions C58_one_list_partial.
Print Assumptions C58_numbering_refuted.
