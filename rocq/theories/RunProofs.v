(* RunProofs.v -- runs of the parser's main loop on given lines (used for C47). *)
From Verif Require Import Base Unicode Regex Patterns Common Converters NodeTypes Tree DocTree History Blocks Prog ParseLoop
  Inline Body Directives Parser Spec RegexProofs BlockProofs TreeProofs DocTreeProofs HyperrefProofs InlineSpec RegexGroups InlineProofs LoopProofs
  Utf8Latex Writer WriterProofs Transforms OpenProofs SimpleSpec LineProofs Properties7.

(* ---------- more about single lines ---------- *)
Lemma ink_text w c t : ws w -> is_whitespace c = false -> exists cs, captures TEXT (w ++ c :: t) = Some cs /\ cap 1 cs = Some w.
Proof.
  intros Hw Hc. destruct (captures_some TEXT (w ++ c :: t) t) as [cs E].
  { unfold TEXT. cbn [Seq]. apply rel_cat with (c :: t); [apply rel_grp, rel_star_cls; exists w; split; [reflexivity|exact Hw]|].
    apply rel_cls. unfold nsp. now rewrite Hc. }
  exists cs. split; [exact E|]. apply captures_ws in E as (w' & t' & u & new & E & H & R & ->).
  apply relc_cls_inv in R as (d & -> & Hd & ->). unfold nsp in Hd. apply negb_true_iff in Hd.
  apply ws_head in E as (<- & _ & _); auto.
Qed.
Lemma line_nonempty s cs : captures LINE s = Some cs -> s <> [].
Proof. intros H. now apply line_chars in H. Qed.
Lemma nil_line : captures LINE [] = None.
Proof. destruct (captures LINE []) eqn:E; [|reflexivity]. now apply line_nonempty in E. Qed.
Lemma nil_text : captures TEXT [] = None.
Proof. vm_compute. reflexivity. Qed.

(* ---------- which transition a line selects ---------- *)
Definition body_table (tbl : transition_table) : Prop := tbl = BODY_TRANSITIONS \/ tbl = BLOCK_QUOTE_TRANSITIONS \/ tbl = APLUS_MULTICOL_TRANSITIONS.
Lemma ink_break w c t : ws w -> is_whitespace c = false -> c <> 58%N -> captures APLUS_COL_BREAK (w ++ c :: t) = None.
Proof.
  intros Hw Hc Hn. apply captures_none. intros (u & R). unfold APLUS_COL_BREAK in R. cbn [Seq] in R. apply rel_cat_inv in R as (s & R1 & R2).
  apply rel_grp_inv in R1. apply rel_plus_cls in R1 as (w' & E & _ & H). apply rel_lit in R2.
  change (q "::newcol" ++ u) with (58%N :: q ":newcol" ++ u) in R2. subst s. apply ws_head in E as (_ & E & _); auto.
Qed.
Ltac found := cbn [find_transition]; reflexivity.
Lemma find_some r (t : transition) tbl line cs : captures r line = Some cs -> find_transition line ((r, t) :: tbl) = Some (t, cs).
Proof. intros H. cbn [find_transition]. now rewrite H. Qed.
Lemma find_none r (t : transition) tbl line : captures r line = None -> find_transition line ((r, t) :: tbl) = find_transition line tbl.
Proof. intros H. cbn [find_transition]. now rewrite H. Qed.
Lemma find_in_body (tbl : transition_table) line t cs : body_table tbl -> captures BLANK_LINE line = None ->
  captures ATTRIBUTION line = None -> captures APLUS_COL_BREAK line = None -> find_transition line body_rest = Some (t, cs) -> find_transition line tbl = Some (t, cs).
Proof.
  intros [-> | [-> | ->]] B A C H; unfold BODY_TRANSITIONS, BLOCK_QUOTE_TRANSITIONS, APLUS_MULTICOL_TRANSITIONS, empty_line_entry; cbn [find_transition]; rewrite B; [exact H| |].
  - rewrite A. exact H.
  - rewrite C. exact H.
Qed.
Lemma find_empty (rest : transition_table) : exists cs, find_transition [] (empty_line_entry :: rest) = Some (empty_line, cs).
Proof. destruct nil_blank as [cs E]. exists cs. unfold empty_line_entry. cbn [find_transition]. now rewrite E. Qed.
Lemma text_break w c t : ws w -> starts_text (c :: t) = true -> captures APLUS_COL_BREAK (w ++ c :: t) = None.
Proof. intros Hw Hl. apply ink_break; [exact Hw|now apply starts_text_ink in Hl|]. intros ->. discriminate Hl. Qed.
Lemma find_text (tbl : transition_table) w l : body_table tbl -> ws w -> starts_text l = true -> like_enumerator l = false ->
  exists cs, find_transition (w ++ l) tbl = Some (body_text, cs) /\ cap 1 cs = Some w.
Proof.
  intros Hb Hw Hl He. destruct l as [|c t]; [discriminate|]. destruct (st_text w c t Hw Hl) as (cs & E & C1 & _). exists cs. split; [|exact C1].
  apply find_in_body; [exact Hb|now apply st_blank|now apply st_attribution|now apply text_break|]. unfold body_rest. cbn [find_transition].
  rewrite st_bullet, st_enum, st_field, st_footnote, st_citation, st_target, st_directive, st_comment, st_line, E by auto. reflexivity.
Qed.
Lemma bullet_ink b : existsb (N.eqb b) bullet_chars = true -> is_whitespace b = false.
Proof.
  intros H. apply existsb_exists in H as (x & Hx & E). apply N.eqb_eq in E. subst x. vm_compute in Hx.
  repeat (destruct Hx as [<-|Hx]; [reflexivity|]). contradiction.
Qed.
Lemma find_bullet (tbl : transition_table) w b l : body_table tbl -> ws w -> existsb (N.eqb b) bullet_chars = true -> starts_text l = true ->
  exists cs, find_transition (w ++ b :: 32%N :: l) tbl = Some (body_bullet, cs) /\
    cap 1 cs = Some w /\ cap 2 cs = Some [b] /\ whole cs = w ++ [b; 32%N].
Proof.
  intros Hb Hw Hbu Hl. destruct l as [|c t]; [discriminate|]. apply starts_text_ink in Hl.
  destruct (bl_bullet w b c t Hw Hbu Hl) as (cs & E & C). exists cs. split; [|exact C].
  apply find_in_body; [exact Hb|apply ink_blank; now apply bullet_ink|now apply bl_attribution|apply ink_break; [exact Hw|now apply bullet_ink|now intros ->]|]. unfold body_rest. apply find_some. exact E.
Qed.
Lemma find_list_bullet w b l : ws w -> existsb (N.eqb b) bullet_chars = true -> starts_text l = true ->
  exists cs, find_transition (w ++ b :: 32%N :: l) BULLET_LIST_TRANSITIONS = Some (list_bullet, cs) /\
    cap 1 cs = Some w /\ cap 2 cs = Some [b] /\ whole cs = w ++ [b; 32%N].
Proof.
  intros Hw Hbu Hl. destruct l as [|c t]; [discriminate|]. apply starts_text_ink in Hl.
  destruct (bl_bullet w b c t Hw Hbu Hl) as (cs & E & C). exists cs. split; [|exact C].
  unfold BULLET_LIST_TRANSITIONS, empty_line_entry. rewrite find_none by (apply ink_blank; now apply bullet_ink). apply find_some. exact E.
Qed.
Lemma find_list_none line : captures BLANK_LINE line = None -> captures BULLET line = None -> find_transition line BULLET_LIST_TRANSITIONS = None.
Proof. intros A B. unfold BULLET_LIST_TRANSITIONS, empty_line_entry. cbn [find_transition]. now rewrite A, B. Qed.
Lemma no_markup_plain l : no_markup_chars l = true -> plain l.
Proof.
  unfold no_markup_chars, plain. rewrite forallb_forall. intros H c Hc Hm. apply H in Hc. apply negb_true_iff in Hc.
  enough (existsb (N.eqb c) markup_chars = true) by congruence. apply existsb_exists. exists c. split; [exact Hm|apply N.eqb_refl].
Qed.
Lemma find_comment (tbl : transition_table) w l : body_table tbl -> ws w -> starts_word l = true -> no_markup_chars l = true ->
  exists cs, find_transition (w ++ lit ".. " ++ l) tbl = Some (body_comment, cs) /\ cap 1 cs = Some w /\ whole cs = w ++ lit ".. ".
Proof.
  intros Hb Hw Hl Hm. apply no_markup_plain in Hm. destruct l as [|c t]; [discriminate|]. cbn [starts_word] in Hl.
  destruct (cm_comment w c t Hw Hl) as (cs & E & C). exists cs. split; [|exact C].
  change (w ++ lit ".. " ++ c :: t) with (w ++ 46%N :: 46%N :: 32%N :: c :: t).
  apply find_in_body; [exact Hb|now apply ink_blank|now apply cm_attribution|now apply ink_break|]. unfold body_rest. cbn [find_transition].
  rewrite cm_bullet, cm_enum, cm_field, cm_footnote, cm_citation, cm_target, cm_directive, E by auto. reflexivity.
Qed.
Lemma find_bare_rest c n : bare_line c n = true ->
  exists cs, find_transition (repeat c n) body_rest = Some (body_line, cs) /\ cap 1 cs = Some (repeat c n) /\ whole cs = repeat c n.
Proof.
  unfold bare_line. intros H. apply andb_true_iff in H as [H Hn]. apply andb_true_iff in H as [Hp Hc].
  apply negb_true_iff, N.eqb_neq in Hc. apply Nat.leb_le in Hn.
  destruct (br_line c n Hp ltac:(lia)) as (cs & E & C). exists cs. split; [|exact C]. unfold body_rest. cbn [find_transition].
  rewrite br_bullet, br_enum, br_field, br_footnote, br_citation, br_target, br_directive, br_comment, E by auto. reflexivity.
Qed.
Lemma bare_blank c n : bare_line c n = true -> captures BLANK_LINE (repeat c n) = None.
Proof.
  unfold bare_line. intros H. apply andb_true_iff in H as [H Hn]. apply andb_true_iff in H as [Hp Hc].
  apply negb_true_iff, N.eqb_neq in Hc. apply Nat.leb_le in Hn. now apply br_blank.
Qed.
Lemma bare_bullet c n : bare_line c n = true -> captures BULLET (repeat c n) = None.
Proof.
  unfold bare_line. intros H. apply andb_true_iff in H as [H Hn]. apply andb_true_iff in H as [Hp Hc].
  apply negb_true_iff, N.eqb_neq in Hc. apply Nat.leb_le in Hn. now apply br_bullet.
Qed.
