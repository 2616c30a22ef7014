(* QuizProofs.v -- questionnaires (used for C47). *)
From Verif Require Import Base Unicode Regex Patterns Common Converters NodeTypes Tree DocTree History Blocks Prog ParseLoop
  Inline Body Directives Parser Spec RegexProofs BlockProofs TreeProofs DocTreeProofs HyperrefProofs InlineSpec RegexGroups InlineProofs LoopProofs
  Utf8Latex Writer WriterProofs Transforms TextProofs OpenProofs SimpleSpec LineProofs Properties7 RunProofs StepProofs ChunkProofs Properties13 ParaProofs NumberProofs LeaveProofs GroupProofs
  MarkerProofs OpenerProofs EntryProofs LeafProofs ShiftProofs ConverterProofs ExerciseProofs BoxProofs GreedyProofs ChoiceProofs.

(* what a program does, whatever nested parsing would do *)
Definition does {A} (m : prog A) (d : DocTree) (cur : LineCursor) (a : A) (d' : DocTree) (cur' : LineCursor) : Prop :=
  forall call, pexec call m d cur = Ret (a, d', cur').
Lemma does_ret {A} (a : A) d cur : does (PRet a) d cur a d cur. Proof. intros call. reflexivity. Qed.
Lemma does_bind {A B} (m : prog A) (k : A -> prog B) d cur a d1 cur1 b d2 cur2 :
  does m d cur a d1 cur1 -> does (k a) d1 cur1 b d2 cur2 -> does (let* x := m in k x) d cur b d2 cur2.
Proof. intros H1 H2 call. rewrite pexec_bind, (H1 call). cbn [obind]. apply H2. Qed.
Lemma does_op {B} o (k : answer -> prog B) a d d1 cur (b : B) d2 cur2 : dop_exec o d = Ret (a, d1) -> does (k a) d1 cur b d2 cur2 -> does (PDoc o k) d cur b d2 cur2.
Proof. intros H1 H2 call. cbn [pexec]. rewrite H1. cbn [obind]. apply H2. Qed.
Lemma does_pushed o d d1 cur : dop_exec o d = Ret (AOk, d1) -> does (Prog.pushed o) d cur true d1 cur.
Proof. intros H. eapply does_op; [exact H|]. apply does_ret. Qed.
Lemma does_parent d d1 cur : d_focus_on_parent d = Ret d1 -> exists u, does focus_parent d cur u d1 cur.
Proof. intros H. eexists. intros call. unfold focus_parent. cbn [pbind pexec dop_exec]. rewrite H. reflexivity. Qed.
Lemma does_advance n d cur : does (advance n) d cur tt d (cur_add cur n). Proof. intros call. reflexivity. Qed.

(* a line that is not empty and stands further to the left, or the end *)
Definition left_of (j : nat) (tail : list str) : Prop := match tail with [] => True | l :: _ => blank l = false /\ indent_of l < j end.
Lemma left_of_more j j' tail : j <= j' -> left_of j tail -> left_of j' tail.
Proof. destruct tail; cbn; [auto|]. intros H [A B]. split; [exact A|lia]. Qed.
Lemma left_no_blanks j tail : left_of j tail -> blank_prefix tail = 0.
Proof. destruct tail as [|l t]; [reflexivity|]. intros [H _]. cbn [blank_prefix]. now rewrite H. Qed.
Lemma blanks_then g tail : blank_prefix tail = 0 -> blank_prefix (repeat [] g ++ tail) = g.
Proof. intros H. induction g as [|g IH]; [exact H|]. cbn [repeat app blank_prefix]. replace (blank []) with true by reflexivity. now rewrite IH. Qed.

Section Quiz.
  Variables (ord : hash_order) (full : bool).
  Notation fresh := (fresh ord full).
  Variable (src : list str).
  Definition here (cur : LineCursor) (X : list str) : Prop := skipn (cur_offset cur) src = X.
  Lemma here_on cur X Y : here cur (X ++ Y) -> here (cur_add cur (length X)) Y.
  Proof. unfold here. intros H. apply skipn_past in H. exact H. Qed.
  Lemma here_line cur l Y : here cur (l :: Y) -> nth_error src (cur_offset cur) = Some l /\ here (cur_add cur 1) Y.
  Proof. intros H. split; [now apply skipn_cons in H|]. apply (here_on cur [l] Y H). Qed.

  Lemma does_skip d cur g tail : here cur (repeat [] g ++ tail) -> blank_prefix tail = 0 -> does (skip_empty src) d cur tt d (cur_add cur g).
  Proof. intros H Ht call. unfold skip_empty, get_cursor, advance. cbn [pbind pexec]. unfold here in H. rewrite H, blanks_then by exact Ht. reflexivity. Qed.
  Lemma here_skip cur g tail : here cur (repeat [] g ++ tail) -> here (cur_add cur g) tail.
  Proof. intros H. apply here_on in H. now rewrite repeat_length in H. Qed.

  Lemma does_inline t d cur : chunks_ok true t = true -> does (inline_parse false (chunks_source t)) d cur (flat_map chunk_nodes t) d (cur_add cur (newlines (chunks_source t))).
  Proof. intros H call. now apply (inline_parse_chunks t true). Qed.
  Lemma chunks_some t : chunks_ok true t = true -> chunks_source t <> [] -> flat_map chunk_nodes t <> [].
  Proof.
    intros Hch Hne En. apply Hne. destruct t as [|c t]; [reflexivity|]. cbn [flat_map] in En. destruct c; cbn [chunk_nodes app] in En; try discriminate.
    destruct (runs_of s) eqn:Er; [|discriminate]. destruct s as [|x0 s0]; [discriminate Hch|]. destruct (runs_head x0 s0) as (? & ? & ?). congruence.
  Qed.

  (* a node with a text *)
  Lemma does_filled d p y ys s seen x pre post t cur : fresh d p y ys s seen -> sound p -> unlabelled x = true -> can_have_children (kind x) = true ->
    child_is_allowed (kind y) (kind x) = Ret true -> kind x = KParagraph \/ kind x = KAplusPickChoice \/ kind x = KAplusQuestionnaireHint ->
    untransformed x = true -> pre_string ord full x None = Ret pre -> post_string full x None = Ret post -> forallb written_chunk t = true ->
    exists d' n, does (push_filled x (flat_map chunk_nodes t)) d cur true d' cur /\ fresh d' p y (ys ++ [n]) (s ++ pre ++ chunks_latex t ++ post) seen.
  Proof.
    intros F Hp Hu Hcc Hk Hz Hx Hpre Hpost Hw. destruct (fresh_into ord full d p y ys s seen x F Hp Hu Hcc Hk) as (d1 & E1 & F1).
    destruct (chunks_writes ord full t Hw) as (ss & FF & Ess).
    destruct (fresh_all_text ord full _ x seen Hz _ _ FF (chunks_in_text t Hw) _ _ _ F1) as (d2 & cs' & E2 & F2). cbn [app] in F2. rewrite Ess in F2.
    destruct (fresh_back ord full d2 d p y ys s seen x cs' _ seen pre post Hp F F2 Hx Hpre Hpost) as (d3 & n & E3 & F3).
    exists d3, n. split; [|exact F3]. unfold push_filled. eapply does_bind; [apply does_pushed; exact E1|]. cbn [negb].
    eapply does_bind; [intros call; apply E2|]. cbn [negb]. destruct (does_parent d2 d3 cur E3) as (u & Eu). eapply does_bind; [exact Eu|]. apply does_ret.
  Qed.

  (* ---------- answers and hints ---------- *)
  Section Items.
    Context {T : Type}.
    Variables (j : nat) (r : re) (item : caps -> prog (option (TreeNodeType * str))) (line : T -> str) (node : T -> TreeNodeType) (text_of : T -> text)
      (pre post : T -> str) (y : TreeNodeType) (ok : T -> bool).
    Hypotheses
      (Hread : forall t, ok t = true -> exists cs, captures r (pad j (line t)) = Some cs /\ item cs = PRet (Some (node t, chunks_source (text_of t))))
      (Hink : forall t, ok t = true -> exists c l, line t = c :: l /\ is_whitespace c = false)
      (Htext : forall t, ok t = true -> phrase_ok (text_of t) = true)
      (Hnode : forall t, ok t = true -> unlabelled (node t) = true /\ can_have_children (kind (node t)) = true /\ child_is_allowed (kind y) (kind (node t)) = Ret true /\
         (kind (node t) = KParagraph \/ kind (node t) = KAplusPickChoice \/ kind (node t) = KAplusQuestionnaireHint) /\ untransformed (node t) = true /\
         pre_string ord full (node t) None = Ret (pre t) /\ post_string full (node t) None = Ret (post t)).
    Definition item_out (t : T) : str := pre t ++ chunks_latex (text_of t) ++ post t.
    Lemma does_items seen p : sound p -> forall ts fuel d cur ys s tail, length ts < fuel -> forallb ok ts = true ->
      here cur (map (pad j) (map line ts) ++ tail) -> match tail with [] => True | l :: _ => indent_of l <> j end -> fresh d p y ys s seen ->
      exists d' ns, does (items_loop fuel src j r item) d cur true d' (cur_add cur (length ts)) /\ fresh d' p y (ys ++ ns) (s ++ flat_map item_out ts) seen /\
        length ns = length ts.
    Proof.
      intros Hp. induction ts as [|t ts IH]; intros fuel d cur ys s tail Hfu Hok Hh Ht F; (destruct fuel as [|fuel]; [inversion Hfu|]).
      - exists d, []. cbn [flat_map length]. rewrite !app_nil_r. split; [|auto]. intros call. cbn [items_loop]. unfold get_cursor. cbn [pbind pexec]. rewrite cur_add_0.
        cbn [map app] in Hh. unfold here in Hh. destruct tail as [|l tail].
        + replace (nth_error src (cur_offset cur)) with (@None str); [reflexivity|]. symmetry. apply nth_error_None. apply (f_equal (@length str)) in Hh. rewrite skipn_length in Hh. cbn in Hh. lia.
        + apply skipn_cons in Hh as [Hl _]. rewrite Hl. replace (indent_of l =? j) with false by (symmetry; now apply Nat.eqb_neq). reflexivity.
      - cbn [forallb] in Hok. apply andb_true_iff in Hok as [H1 Hok]. cbn [map app length] in *. apply here_line in Hh as [Hl Hh].
        destruct (Hread t H1) as (cs & Ec & Ei). destruct (Hink t H1) as (c & l & El & Hc). specialize (Htext t H1). destruct (Hnode t H1) as (N1 & N2 & N3 & N4 & N5 & N6 & N7).
        pose proof Htext as Hph. unfold phrase_ok in Htext. apply andb_true_iff in Htext as [Htx Hne]. apply andb_true_iff in Htx as [Htx _]. apply andb_true_iff in Htx as [Htx Hol]. apply andb_true_iff in Htx as [Hch Hwr].
        destruct (does_filled d p y ys s seen (node t) (pre t) (post t) (text_of t) cur F Hp N1 N2 N3 N4 N5 N6 N7 Hwr) as (d1 & n & E1 & F1).
        destruct (IH fuel d1 (cur_add cur 1) (ys ++ [n]) (s ++ item_out t) tail (proj2 (Nat.succ_lt_mono _ _) Hfu) Hok Hh Ht F1) as (d2 & ns & E2 & F2 & L2).
        exists d2, (n :: ns). split; [|split; [|cbn [length]; now f_equal]].
        2:{ replace (ys ++ n :: ns) with ((ys ++ [n]) ++ ns) by (now rewrite <- app_assoc). replace (s ++ flat_map item_out (t :: ts)) with ((s ++ item_out t) ++ flat_map item_out ts) by (cbn [flat_map]; now rewrite <- app_assoc). exact F2. }
        intros call. cbn [items_loop]. unfold get_cursor. cbn [pbind pexec]. rewrite Hl.
        replace (indent_of (pad j (line t)) =? j) with true.
        2:{ symmetry. apply Nat.eqb_eq. rewrite El. unfold pad. rewrite ink_indent; [apply repeat_length|apply ws_pad|exact Hc]. }
        cbn [negb]. rewrite Ec, Ei. cbn [pbind]. revert call. eapply does_bind; [apply does_inline; exact Hch|]. rewrite (one_line_newlines _ Hol), cur_add_0.
        destruct (flat_map chunk_nodes (text_of t)) as [|n0 ns0] eqn:En.
        { exfalso. revert En. apply chunks_some; [exact Hch|]. intros E0. rewrite E0 in Hne. discriminate. }
        eapply does_bind; [exact E1|]. cbn [negb]. eapply does_bind; [apply does_advance|]. replace (S (length ts)) with (1 + length ts) by reflexivity. rewrite <- cur_add_add. exact E2.
    Qed.
  End Items.

  Definition choice_node (c : choice) : TreeNodeType := NAplusPickChoice (c_label c) (is_right (c_verdict c)) (c_ticked c) (is_neutral (c_verdict c)).
  Definition choice_pre (c : choice) : str := match c_verdict c with Wrong => lit "\wrong " | Right => lit "\right " | Neutral => lit "\undet " end.
  Definition choice_post (c : choice) : str := lit " \label{" ++ c_label c ++ lit "}" ++ nl1.
  Definition hint_node (type : AplusQuestionnaireType) (h : hint) : TreeNodeType :=
    NAplusQuestionnaireHint (match type with FreeText => trim (h_label h ++ lit " ") | _ => h_label h end) (h_other h) type.
  Definition hint_reference (type : AplusQuestionnaireType) (h : hint) : str := match type with FreeText => [] | _ => lit "\ref{" ++ h_label h ++ lit "}" end.
  Definition hint_pre (type : AplusQuestionnaireType) (h : hint) : str := lit "\feedback{" ++ (if h_other h then [] else lit "!") ++ hint_reference type h ++ lit "}{".
  Definition hint_re (type : AplusQuestionnaireType) : re := match type with FreeText => FREETEXT_HINT | _ => PICK_HINT end.
  Definition choice_re (any : bool) : re := if any then PICK_ANY_CHOICE else PICK_ONE_CHOICE.
  Definition choice_item (any : bool) := if any then pick_any_item else pick_one_item.
  Lemma took_iff n cs b : (cap n cs <> None <-> b = true) -> took_part n cs = b.
  Proof. unfold took_part. destruct (cap n cs), b; intros H; try reflexivity; exfalso; [enough (false = true) by discriminate; apply H; discriminate|enough (@None str <> None) by congruence; now apply H]. Qed.
  Lemma phrase_not_blank t : phrase_ok t = true -> blank (chunks_source t) = false /\ trim (chunks_source t) = chunks_source t.
  Proof. intros H. destruct (phrase_chars _ H) as (_ & _ & _ & _ & _ & _ & A & B). auto. Qed.
  Lemma choice_read (any : bool) j c : choice_ok any c = true ->
    exists cs, captures (choice_re any) (pad j (choice_line c)) = Some cs /\ choice_item any cs = PRet (Some (choice_node c, chunks_source (c_answer c))).
  Proof.
    intros H. assert (Hp : phrase_ok (c_answer c) = true) by (unfold choice_ok in H; apply andb_true_iff in H as [H _]; now apply andb_true_iff in H as [_ H]).
    destruct (phrase_not_blank _ Hp) as [Hb _]. destruct any.
    - destruct (pick_any_reads j c H) as (cs & E & C5 & C6 & T4 & T3 & T2). exists cs. split; [exact E|]. unfold choice_item, pick_any_item, get_cap, opt_cap.
      rewrite C5, C6. cbn [unwrap lift pbind]. rewrite Hb, (took_iff _ _ _ T4), (took_iff _ _ _ T3), (took_iff _ _ _ T2). reflexivity.
    - destruct (pick_one_reads j c H) as (cs & E & C5 & C6 & T3 & T2). exists cs. split; [exact E|]. unfold choice_item, pick_one_item, get_cap, opt_cap.
      rewrite C5, C6. cbn [unwrap lift pbind]. rewrite Hb, (took_iff _ _ _ T3), (took_iff _ _ _ T2). unfold choice_node.
      replace (is_neutral (c_verdict c)) with false; [reflexivity|]. unfold choice_ok in H. apply andb_true_iff in H as [_ H]. destruct (c_verdict c); [reflexivity|reflexivity|discriminate].
  Qed.
  Lemma hint_read type j h : hint_ok h = true ->
    exists cs, captures (hint_re type) (pad j (hint_line h)) = Some cs /\ hint_item type cs = PRet (Some (hint_node type h, chunks_source (h_text h))).
  Proof.
    intros H. destruct (hint_parts h H) as (_ & Hp & _). destruct (phrase_not_blank _ Hp) as [Hb Ht].
    destruct type.
    - destruct (pick_hint_reads j h H) as (cs & E & C3 & C4 & T2). exists cs. split; [exact E|]. unfold hint_item. rewrite C3, C4, Ht, Hb, (took_iff _ _ _ T2). reflexivity.
    - destruct (pick_hint_reads j h H) as (cs & E & C3 & C4 & T2). exists cs. split; [exact E|]. unfold hint_item. rewrite C3, C4, Ht, Hb, (took_iff _ _ _ T2). reflexivity.
    - destruct (freetext_hint_reads j h H) as (cs & E & C3 & C4 & T2). exists cs. split; [exact E|]. unfold hint_item. rewrite C3, C4, Ht, Hb, (took_iff _ _ _ T2). reflexivity.
  Qed.
  Definition choices_ok (any : bool) (cs : list choice) := forallb (choice_ok any) cs.
  Lemma here_length cur X Y : here cur (X ++ Y) -> length X <= length src.
  Proof. unfold here. intros H. apply (f_equal (@length str)) in H. rewrite skipn_length, app_length in H. lia. Qed.
  Lemma does_choices (any : bool) j d cur p ys s seen cs tail : sound p -> choices_ok any cs = true -> here cur (map (pad j) (map choice_line cs) ++ tail) ->
    match tail with [] => True | l :: _ => indent_of l <> j end -> fresh d p (NAplusPickChoices j) ys s seen ->
    exists d' ns, does (items_loop (S (length src)) src j (choice_re any) (choice_item any)) d cur true d' (cur_add cur (length cs)) /\
      fresh d' p (NAplusPickChoices j) (ys ++ ns) (s ++ flat_map choice_latex cs) seen /\ length ns = length cs.
  Proof.
    intros Hp Hok Hh Ht F.
    destruct (does_items j (choice_re any) (choice_item any) choice_line choice_node c_answer choice_pre choice_post (NAplusPickChoices j) (choice_ok any)) with (seen := seen) (p := p) (ts := cs) (fuel := S (length src)) (d := d) (cur := cur) (ys := ys) (s := s) (tail := tail)
      as (d' & ns & E & F' & L); auto.
    - intros t H. now apply choice_read.
    - intros t H. unfold choice_ok in H. apply andb_true_iff in H as [H _]. apply andb_true_iff in H as [H _]. destruct (choice_head _ H) as (x & u & E & Hx). eauto.
    - intros t H. unfold choice_ok in H. apply andb_true_iff in H as [H _]. now apply andb_true_iff in H as [_ H].
    - intros t H. unfold choice_node, choice_pre, choice_post. split; [reflexivity|]. split; [reflexivity|]. split; [reflexivity|]. split; [auto|]. split; [reflexivity|]. split.
      + cbn [pre_string]. destruct (c_verdict t); reflexivity.
      + cbn [post_string]. unfold braces, nl, nl1. rewrite <- !app_assoc. reflexivity.
    - apply here_length in Hh. rewrite !map_length in Hh. apply Nat.lt_succ_r. exact Hh.
    - exists d', ns. split; [exact E|]. split; [|exact L]. unfold item_out, choice_pre, choice_post in F'. unfold choice_latex. exact F'.
  Qed.
  Lemma does_hints type j d cur p ys s seen hs tail : sound p -> forallb hint_ok hs = true -> here cur (map (pad j) (map hint_line hs) ++ tail) ->
    match tail with [] => True | l :: _ => indent_of l <> j end -> fresh d p (NAplusQuestionnaireHints j) ys s seen ->
    exists d' ns, does (items_loop (S (length src)) src j (hint_re type) (hint_item type)) d cur true d' (cur_add cur (length hs)) /\
      fresh d' p (NAplusQuestionnaireHints j) (ys ++ ns) (s ++ flat_map (hint_latex (hint_reference type)) hs) seen.
  Proof.
    intros Hp Hok Hh Ht F.
    destruct (does_items j (hint_re type) (hint_item type) hint_line (hint_node type) h_text (hint_pre type) (fun _ => lit "}" ++ nl1) (NAplusQuestionnaireHints j) hint_ok) with (seen := seen) (p := p) (ts := hs) (fuel := S (length src)) (d := d) (cur := cur) (ys := ys) (s := s) (tail := tail)
      as (d' & ns & E & F' & L); auto.
    - intros t H. now apply hint_read.
    - intros t H. destruct (hint_parts _ H) as (Hl & _). destruct (hint_head _ Hl) as (x & u & E & Hx). eauto.
    - intros t H. now destruct (hint_parts _ H) as (_ & Hl & _).
    - intros t H. unfold hint_node, hint_pre. split; [reflexivity|]. split; [reflexivity|]. split; [reflexivity|]. split; [auto|]. split; [reflexivity|]. split.
      + cbn [pre_string]. unfold braces, hint_reference. destruct (h_other t), type; rewrite ?app_nil_r, <- ?app_assoc; reflexivity.
      + reflexivity.
    - apply here_length in Hh. rewrite !map_length in Hh. apply Nat.lt_succ_r. exact Hh.
    - exists d', ns. split; [exact E|]. replace (flat_map (hint_latex (hint_reference type)) hs) with (flat_map (item_out h_text (hint_pre type) (fun _ => lit "}" ++ nl1)) hs); [exact F'|].
      apply flat_map_ext. intros h. unfold item_out, hint_pre, hint_latex. rewrite <- !app_assoc. reflexivity.
  Qed.

  (* ---------- the parts of a question ---------- *)
  Lemma does_assignment m d cur t X : m_body m = m_body m -> para_ok t = true -> here cur (map (pad (m_body m)) (text_lines t) ++ X) -> para_ends (m_body m) X ->
    does (assignment src m) d cur (Some (flat_map chunk_nodes t)) d (cur_add cur (length (text_lines t))).
  Proof.
    intros _ Hok Hh Hx. pose proof (para_ok_lines _ Hok) as [Hne Hl]. pose proof (para_ok_inv _ Hok) as (Hch & Hwr & _).
    intros call. unfold assignment, get_cursor. cbn [pbind pexec]. rewrite (read_para_block src (cur_offset cur) (m_body m) X (text_lines t));
      [|exact Hh|exact Hne|eapply Forall_impl; [|exact Hl]; now intros ? [? _]|exact Hx]. cbn [lift pbind tb_lines]. unfold join_lines.
    replace (join [newline] (text_lines t)) with (chunks_source t) by (unfold text_lines; now rewrite split_lines_join).
    revert call. eapply does_bind; [apply does_inline; exact Hch|]. destruct (flat_map chunk_nodes t) as [|n0 ns] eqn:En.
    { exfalso. revert En. apply chunks_some; [exact Hch|]. now apply para_nonempty. }
    eapply does_bind; [apply does_advance|]. rewrite cur_add_add. replace (newlines (chunks_source t) + 1) with (length (text_lines t)); [apply does_ret|].
    unfold text_lines. rewrite split_lines_length. lia.
  Qed.
  Lemma first_not_blank t X j : para_ok t = true -> blank_prefix (map (pad j) (text_lines t) ++ X) = 0.
  Proof. intros H. destruct (para_ok_first _ H) as (l & more & -> & Hst & _). cbn [map app blank_prefix]. now rewrite pad_not_blank. Qed.
  (* a paragraph inside such a node *)
  Lemma does_paragraph d p y ys s seen j t cur : fresh d p y ys s seen -> sound p -> child_is_allowed (kind y) KParagraph = Ret true -> para_ok t = true ->
    exists d' n, does (push_filled (NParagraph j) (flat_map chunk_nodes t)) d cur true d' cur /\ fresh d' p y (ys ++ [n]) (s ++ para_latex t) seen.
  Proof.
    intros F Hp Hk Hok. pose proof (para_ok_inv _ Hok) as (Hch & Hwr & _).
    destruct (does_filled d p y ys s seen (NParagraph j) [] nl2 t cur F Hp eq_refl eq_refl Hk (or_introl eq_refl) eq_refl eq_refl eq_refl Hwr) as (d' & n & E & F').
    exists d', n. split; [exact E|]. exact F'.
  Qed.
  Definition assigned (j : nat) (a : option text) : list str := match a with Some t => map (pad j) (text_lines t) ++ [[]] | None => [] end.
  Definition assigned_latex (a : option text) : str := match a with Some t => para_latex t | None => [] end.
  Lemma choices_head any j cs X : cs <> [] -> choices_ok any cs = true -> blank_prefix (map (pad j) (map choice_line cs) ++ X) = 0 /\
    exists l Y, map (pad j) (map choice_line cs) ++ X = l :: Y /\ is_match (choice_re any) l = true.
  Proof.
    destruct cs as [|c cs]; [congruence|]. intros _ H. unfold choices_ok in H. cbn [forallb] in H. apply andb_true_iff in H as [H _]. cbn [map app]. split.
    - unfold choice_ok in H. apply andb_true_iff in H as [H _]. apply andb_true_iff in H as [H _]. destruct (choice_head _ H) as (x & u & E & Hx). rewrite E. cbn [blank_prefix].
      unfold pad. now rewrite ink_not_blank.
    - eexists _, _. split; [reflexivity|]. destruct (choice_read any j c H) as (caps & E & _). unfold is_match. unfold captures in E. destruct (rexec _ _); [reflexivity|discriminate].
  Qed.
  Lemma does_pick_assignment (any : bool) m d p y ys s seen a cs cur g X : fresh d p y ys s seen -> sound p -> child_is_allowed (kind y) KParagraph = Ret true ->
    match a with Some t => para_ok t && no_label t | None => true end = true -> cs <> [] -> choices_ok any cs = true ->
    here cur (repeat [] g ++ assigned (m_body m) a ++ map (pad (m_body m)) (map choice_line cs) ++ X) ->
    exists d' ns cur' g', does (pick_assignment src m (choice_re any)) d cur true d' cur' /\ fresh d' p y (ys ++ ns) (s ++ assigned_latex a) seen /\
      here cur' (repeat [] g' ++ map (pad (m_body m)) (map choice_line cs) ++ X) /\ cur_baseline cur' = cur_baseline cur.
  Proof.
    intros F Hp Hk Ha Hne Hcs Hh. destruct a as [t|].
    - apply andb_true_iff in Ha as [Ht Hl]. destruct (does_paragraph d p y ys s seen (m_body m) t (cur_add (cur_add cur g) (length (text_lines t))) F Hp Hk Ht) as (d' & n & E & F').
      cbn [assigned] in Hh. rewrite <- app_assoc in Hh. pose proof (here_skip _ _ _ Hh) as Hh2.
      exists d', [n], (cur_add (cur_add cur g) (length (text_lines t))), 1. split; [|split; [exact F'|split; [|reflexivity]]].
      2:{ apply here_on in Hh2. rewrite map_length in Hh2. exact Hh2. }
      unfold pick_assignment. eapply does_bind; [eapply does_skip; [exact Hh|now apply first_not_blank]|]. intros call. unfold get_cursor. cbn [pbind pexec].
      destruct (para_ok_first _ Ht) as (l & more & El & Hst & _).
      assert (Hn : nth_error src (cur_offset (cur_add cur g)) = Some (pad (m_body m) l)) by (rewrite El in Hh2; cbn [map app] in Hh2; now apply here_line in Hh2 as [Hh2 _]).
      rewrite Hn. replace (is_match (choice_re any) (pad (m_body m) l)) with false.
      2:{ symmetry. destruct (starts_text_inv _ Hst) as (c & u & -> & _ & Hc). apply (not_a_choice any _ c u (match more with [] => [] | _ => newline :: join [newline] more end)); [exact Hc|].
          unfold no_label in Hl. apply negb_true_iff in Hl. rewrite <- Hl. f_equal. f_equal. f_equal. rewrite <- (split_lines_join (chunks_source t)). fold (text_lines t). rewrite El.
          destruct more; [now rewrite app_nil_r|reflexivity]. }
      revert call. eapply does_bind; [eapply does_assignment; [reflexivity|exact Ht|exact Hh2|now left]|]. exact E.
    - exists d, [], (cur_add cur g), 0. rewrite !app_nil_r. cbn [assigned app] in Hh. pose proof (here_skip _ _ _ Hh) as Hh2. split; [|auto].
      destruct (choices_head any (m_body m) cs X Hne Hcs) as (Hb & l & Y & El & Hm).
      unfold pick_assignment. eapply does_bind; [eapply does_skip; [exact Hh|exact Hb]|]. intros call. unfold get_cursor. cbn [pbind pexec].
      rewrite El in Hh2. apply here_line in Hh2 as [Hh2 _]. rewrite Hh2, Hm. reflexivity.
  Qed.
  Lemma fresh_count d p y ys s seen : fresh d p y ys s seen -> z_n_of_children (tree d) = Ret (length ys).
  Proof. intros [[i E] _ _ _]. unfold z_n_of_children. rewrite E. reflexivity. Qed.
  Lemma does_pick_choices (any : bool) m d p y ys s seen cs cur g X : fresh d p y ys s seen -> sound p -> child_is_allowed (kind y) KAplusPickChoices = Ret true ->
    cs <> [] -> choices_ok any cs = true -> here cur (repeat [] g ++ map (pad (m_body m)) (map choice_line cs) ++ X) -> match X with [] => True | l :: _ => indent_of l <> m_body m end ->
    exists d' n, does (pick_choices src m (choice_re any) (choice_item any)) d cur true d' (cur_add cur (g + length cs)) /\
      fresh d' p y (ys ++ [n]) (s ++ lit "\begin{answers}" ++ nl1 ++ flat_map choice_latex cs ++ lit "\end{answers}" ++ nl2) seen.
  Proof.
    intros F Hp Hk Hne Hcs Hh Hx. destruct (choices_head any (m_body m) cs X Hne Hcs) as (Hb & _). pose proof (here_skip _ _ _ Hh) as Hh2.
    destruct (fresh_into ord full d p y ys s seen (NAplusPickChoices (m_body m)) F Hp eq_refl eq_refl Hk) as (d1 & E1 & F1).
    pose proof (fresh_sound ord full _ _ _ _ _ _ Hp F) as Hp1.
    destruct (does_choices any (m_body m) d1 (cur_add cur g) (tree d) [] [] seen cs X Hp1 Hcs Hh2 Hx F1) as (d2 & ns & E2 & F2 & L2). cbn [app] in F2.
    destruct (fresh_back ord full d2 d p y ys s seen (NAplusPickChoices (m_body m)) ns _ seen (lit "\begin{answers}" ++ nl1) (lit "\end{answers}" ++ nl2) Hp F F2 eq_refl eq_refl eq_refl) as (d3 & n & E3 & F3).
    exists d3, n. split.
    - unfold pick_choices. eapply does_bind; [eapply does_skip; [exact Hh|exact Hb]|]. eapply does_bind; [apply does_pushed; exact E1|]. cbn [negb].
      eapply does_bind; [exact E2|]. cbn [negb]. intros call. unfold get_doc. cbn [pbind pexec]. rewrite (fresh_count _ _ _ _ _ _ F2). cbn [lift pbind].
      replace (length ns =? 0) with false by (rewrite L2; destruct cs; [congruence|reflexivity]). rewrite cur_add_add. revert call.
      destruct (does_parent d2 d3 (cur_add cur (g + length cs)) E3) as (u & Eu). eapply does_bind; [exact Eu|]. apply does_ret.
    - rewrite <- !app_assoc in F3. exact F3.
  Qed.
  (* the hints, and back to the questionnaire *)
  Lemma does_finish type m d dq z y ys s seen x cs t pre post hs cur g1 g2 tail : sound z -> fresh dq z y ys s seen -> fresh d (tree dq) x cs t seen -> untransformed x = true ->
    pre_string ord full x None = Ret pre -> post_string full x None = Ret post -> child_is_allowed (kind x) KAplusQuestionnaireHints = Ret true ->
    forallb hint_ok hs = true -> (hs = [] -> g2 = 0) -> left_of (m_body m) tail -> 0 < m_body m ->
    here cur (repeat [] g1 ++ map (pad (m_body m)) (map hint_line hs) ++ repeat [] g2 ++ tail) ->
    exists d' n, does (finish_question src m type) d cur (TSuccess Neither None) d' (cur_add cur (g1 + length hs + g2)) /\
      fresh d' z y (ys ++ [n]) (s ++ pre ++ t ++ flat_map (hint_latex (hint_reference type)) hs ++ nl1 ++ post) seen /\
      here (cur_add cur (g1 + length hs + g2)) tail.
  Proof.
    intros Hz Fq F Hx Hpre Hpost Hk Hok Hg Ht Hm Hh. pose proof (here_skip _ _ _ Hh) as Hh2. pose proof (fresh_sound ord full _ _ _ _ _ _ Hz Fq) as Hp.
    assert (Hh3 : here (cur_add cur (g1 + length hs)) (repeat [] g2 ++ tail)) by (apply here_on in Hh2; rewrite !map_length, cur_add_add in Hh2; exact Hh2).
    pose proof (here_skip _ _ _ Hh3) as Hh4. rewrite cur_add_add in Hh4.
    destruct (fresh_into ord full d (tree dq) x cs t seen (NAplusQuestionnaireHints (m_body m)) F Hp eq_refl eq_refl Hk) as (d1 & E1 & F1).
    pose proof (fresh_sound ord full _ _ _ _ _ _ Hp F) as Hp1.
    destruct (does_hints type (m_body m) d1 (cur_add cur g1) (tree d) [] [] seen hs (repeat [] g2 ++ tail) Hp1 Hok Hh2) as (d2 & ns & E2 & F2); [|exact F1|].
    { destruct g2; cbn [repeat app]; [|cbn; lia]. destruct tail as [|l tl]; [exact I|]. destruct Ht as [_ Ht]. lia. }
    cbn [app] in F2.
    destruct (fresh_back ord full d2 d (tree dq) x cs t seen (NAplusQuestionnaireHints (m_body m)) ns _ seen [] nl1 Hp F F2 eq_refl eq_refl eq_refl) as (d3 & n1 & E3 & F3).
    destruct (fresh_back ord full d3 dq z y ys s seen x (cs ++ [n1]) _ seen pre post Hz Fq F3 Hx Hpre Hpost) as (d4 & n2 & E4 & F4).
    exists d4, n2. split; [|split; [|exact Hh4]].
    - unfold finish_question. eapply does_bind; [eapply does_skip; [exact Hh|]|].
      { destruct hs as [|h hs]; [rewrite (Hg eq_refl); exact (left_no_blanks _ _ Ht)|]. cbn [forallb] in Hok. apply andb_true_iff in Hok as [Hok _]. destruct (hint_parts _ Hok) as (Hl & _).
        destruct (hint_head _ Hl) as (c & u & E & Hc). cbn [map app]. rewrite E. unfold pad. cbn [blank_prefix]. now rewrite ink_not_blank. }
      eapply does_bind; [apply does_pushed; exact E1|]. cbn [negb]. eapply does_bind; [exact E2|]. cbn [negb]. rewrite cur_add_add.
      eapply does_bind; [eapply does_skip; [exact Hh3|exact (left_no_blanks _ _ Ht)]|]. rewrite cur_add_add.
      destruct (does_parent d2 d3 (cur_add cur (g1 + length hs + g2)) E3) as (u & Eu). eapply does_bind; [exact Eu|].
      destruct (does_parent d3 d4 (cur_add cur (g1 + length hs + g2)) E4) as (u' & Eu'). eapply does_bind; [exact Eu'|]. apply does_ret.
    - rewrite <- !app_assoc in F4. cbn [app] in F4. exact F4.
  Qed.
End Quiz.
