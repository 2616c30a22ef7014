(* ParserProofs.v -- every transition of the parser's tables is safe in the sense
   of LoopProofs.v: its own loops end, nested parsers get smaller sources, and
   sections are made only where they fit. *)
From Verif Require Import Base Unicode Regex RegexProofs RegexGroups Patterns Common Converters NodeTypes Tree
  DocTree History Blocks BlockSpec BlockProofs Prog ParseLoop LoopProofs HyperrefProofs Inline InlineSpec
  InlineProofs Body Directives Parser.
Require Import Lia.

(* ---------- sizes ---------- *)
Lemma nth_lt {A} (l : list A) n x : nth_error l n = Some x -> n < length l.
Proof. intros H. apply nth_error_Some. congruence. Qed.
Lemma skipn_skipn {A} m n (l : list A) : skipn m (skipn n l) = skipn (m + n) l.
Proof.
  revert l. induction n as [|n IH]; intros l; [now rewrite Nat.add_0_r|].
  rewrite Nat.add_succ_r. destruct l; cbn [skipn]; [now rewrite skipn_nil|]. apply IH.
Qed.
Lemma size_app a b : src_size (a ++ b) = src_size a + src_size b.
Proof. induction a; cbn [app src_size fold_right] in *; [auto|]. unfold src_size in *. lia. Qed.
Lemma size_split n src : src_size src = src_size (firstn n src) + src_size (skipn n src).
Proof. rewrite <- size_app, firstn_skipn. auto. Qed.
Lemma size_skipn n src : src_size (skipn n src) <= src_size src.
Proof. rewrite (size_split n src). lia. Qed.
Lemma size_cons l src : src_size (l :: src) = S (length l) + src_size src.
Proof. reflexivity. Qed.
Lemma size_map f src : (forall l, length (f l) <= length l) -> src_size (map f src) <= src_size src.
Proof.
  intros H. induction src as [|l src IH]; [auto|]. cbn [map]. rewrite !size_cons. specialize (H l). lia.
Qed.
Lemma skipn_len n (l : str) : length (skipn n l) <= length l.
Proof. rewrite skipn_length. lia. Qed.
Lemma size_strip f m ls : src_size (strip_block (Some f) m ls) <= src_size ls.
Proof.
  destruct ls as [|l ls]; cbn [strip_block]; [cbn; lia|]. rewrite !size_cons.
  pose proof (skipn_len f l). pose proof (size_map (skipn m) ls (skipn_len m)). lia.
Qed.
Lemma size_pos (src : list str) n : n < length src -> 0 < src_size (skipn n src).
Proof.
  intros H. destruct (skipn n src) as [|l t] eqn:E; [|rewrite size_cons; lia].
  apply (f_equal (@length _)) in E. rewrite skipn_length in E. cbn in E. lia.
Qed.
Lemma size_nth (src : list str) n (l : str) : nth_error src n = Some l -> src_size (skipn n src) = S (length l) + src_size (skipn (S n) src).
Proof. intros H. now rewrite (skipn_nth _ _ _ H), size_cons. Qed.
Lemma size_skip_le n m src : n <= m -> src_size (skipn m src) <= src_size (skipn n src).
Proof.
  intros H. replace m with (m - n + n) by lia. rewrite <- skipn_skipn. apply size_skipn.
Qed.
Lemma size_skip_lt n m (src : list str) : n < m -> n < length src -> src_size (skipn m src) < src_size (skipn n src).
Proof.
  intros H Hl. destruct (nth_error src n) as [l|] eqn:E; [|apply nth_error_None in E; lia].
  rewrite (size_nth _ _ _ E). pose proof (size_skip_le (S n) m src H). lia.
Qed.

(* a block read with an indent given is no larger than the lines from its start *)
Lemma block_size src start ub bi fi fa ib :
  read_indented_block src start ub true (Some bi) fi fa = Ret (Some ib) ->
  src_size (ib_lines ib) <= src_size (skipn start src).
Proof.
  intros H. apply read_indented_block_spec in H as (taken & Hlen & Ht & _ & _ & _ & ->).
  destruct fi; cbn [first_given]; (etransitivity; [apply size_strip|]); rewrite Ht, (size_split (ib_offset ib) (skipn start src)); lia.
Qed.
(* and smaller if the first line loses a character *)
Lemma block_shrinks (src : list str) start ub bi fi fa ib (line : str) f :
  read_indented_block src start ub true (Some bi) fi fa = Ret (Some ib) ->
  nth_error src start = Some line -> 1 <= length line ->
  first_given (Some bi) fi = Some f -> 1 <= f ->
  src_size (ib_lines ib) < src_size (skipn start src).
Proof.
  intros H Hl Hlen Hf Hf1. apply read_indented_block_spec in H as (taken & Hn & Ht & HM & _ & _ & ->).
  rewrite Hf in *. rewrite (size_split (ib_offset ib) (skipn start src)). rewrite <- Ht.
  destruct HM as (_ & Hfree & _). cbn [free_lines] in Hfree.
  destruct taken as [|l t]; [cbn in Hn; lia|].
  assert (l = line) as ->.
  { rewrite (skipn_nth _ _ _ Hl) in Ht. destruct (ib_offset ib); cbn in Ht; congruence. }
  cbn [strip_block]. rewrite !size_cons. pose proof (size_map (skipn (ib_min_indent ib)) t (skipn_len _)).
  rewrite skipn_length. lia.
Qed.
(* and smaller if it stops before the end *)
Lemma block_stops (src : list str) start bi fi fa ib j (l : str) :
  read_indented_block src start false true (Some bi) fi fa = Ret (Some ib) ->
  start < j -> nth_error src j = Some l -> blank l = false -> indent_of l = 0 ->
  src_size (ib_lines ib) < src_size (skipn start src).
Proof.
  intros H Hj Hl Hb Hi. apply read_indented_block_spec in H as (taken & Hn & Ht & HM & _ & _ & ->).
  destruct (first_given (Some bi) fi) as [f|] eqn:Ef; [|destruct fi; discriminate].
  cbn [free_lines] in HM. destruct HM as (Hle & _ & Hno & _).
  assert (Hlt : start + ib_offset ib < length src).
  { apply Nat.nle_gt. intros Hge.
    assert (j < length src) by (apply nth_error_Some; congruence).
    apply (Hno (j - start) l); [lia|now replace (start + (j - start)) with j by lia|].
    unfold ends_indented_block. rewrite Hb. auto. }
  eapply Nat.le_lt_trans; [apply size_strip|]. rewrite Ht, (size_split (ib_offset ib) (skipn start src)).
  rewrite skipn_skipn. rewrite (Nat.add_comm (ib_offset ib)). pose proof (size_pos src _ Hlt). lia.
Qed.

(* ---------- weakest preconditions ---------- *)
Section Wp.
  Context {A : Type} (n : nat) (Q : A -> DocTree -> LineCursor -> Prop).
  Lemma w_bind {B} (p : prog B) (f : B -> prog A) d c :
    safe n (fun a d c => safe n Q (f a) d c) p d c -> safe n Q (pbind p f) d c.
  Proof. intros H. eapply safe_bind; eauto. Qed.
  Lemma w_lift (m : outcome A) d c : m <> OutOfFuel -> (forall a, m = Ret a -> Q a d c) -> safe n Q (lift m) d c.
  Proof. destruct m; cbn; auto; congruence. Qed.
End Wp.
Lemma w_doc n (Q : DocTree -> DocTree -> LineCursor -> Prop) d c : Q d d c -> safe n Q get_doc d c.
Proof. auto. Qed.
Lemma w_cursor n (Q : LineCursor -> DocTree -> LineCursor -> Prop) d c : Q c d c -> safe n Q get_cursor d c.
Proof. auto. Qed.
Lemma w_advance n (Q : unit -> DocTree -> LineCursor -> Prop) d c m : Q tt d (cur_add c m) -> safe n Q (advance m) d c.
Proof. auto. Qed.
Lemma w_doc_op n (Q : answer -> DocTree -> LineCursor -> Prop) d c o : dpre o d -> (forall a d', Q a d' c) -> safe n Q (doc_op o) d c.
Proof. cbn. auto. Qed.
Lemma w_pushed n (Q : bool -> DocTree -> LineCursor -> Prop) d c o : dpre o d -> (forall a d', Q a d' c) -> safe n Q (pushed o) d c.
Proof. cbn. auto. Qed.
Lemma w_parent n (Q : unit -> DocTree -> LineCursor -> Prop) d c : (forall a d', Q a d' c) -> safe n Q focus_parent d c.
Proof. cbn. auto. Qed.
Lemma w_label n (Q : str -> DocTree -> LineCursor -> Prop) d c o : dpre o d -> (forall a d', Q a d' c) -> safe n Q (label_of o) d c.
Proof. cbn. intros H HQ. split; auto. intros a d' _. destruct a; cbn; auto. Qed.
Lemma w_cap n (Q : str -> DocTree -> LineCursor -> Prop) d c g cs : (forall x, cap g cs = Some x -> Q x d c) -> safe n Q (get_cap g cs) d c.
Proof. intros H. unfold get_cap. destruct (cap g cs); cbn; auto. Qed.
Lemma w_cap_len n (Q : nat -> DocTree -> LineCursor -> Prop) d c g cs : (forall x, Q x d c) -> safe n Q (cap_len g cs) d c.
Proof. intros H. apply w_bind, w_cap. cbn. auto. Qed.
Lemma w_first n (Q : char -> DocTree -> LineCursor -> Prop) d c s : (forall x, Q x d c) -> safe n Q (first_char s) d c.
Proof. destruct s; cbn; auto. Qed.
Lemma w_inline n (Q : list TreeNodeType -> DocTree -> LineCursor -> Prop) d c doc s :
  (forall x d', Q x d' (cur_add c (newlines s))) -> safe n Q (inline_parse doc s) d c.
Proof.
  intros H. eapply runs_safe with (b := false). eapply runs_mono; [apply inline_parse_ok; discriminate|].
  cbn. intros a d' c' [_ ->]. auto.
Qed.
Lemma w_push_all n (Q : bool -> DocTree -> LineCursor -> Prop) c l : forall d, (forall b d', Q b d' c) -> safe n Q (push_all l) d c.
Proof.
  induction l as [|x l IH]; intros d H; cbn [push_all]; [cbn; auto|].
  apply w_bind, w_pushed; [exact I|]. intros [|] d'; cbn [safe]; auto.
Qed.
Lemma w_focus n (Q : IndentationMatch -> DocTree -> LineCursor -> Prop) d c i : (forall m, Q m d c) -> safe n Q (focus_matches i) d c.
Proof. intros H. unfold focus_matches. cbn. destruct (NodeTypes.body_indent (focused_data d)); cbn; auto. Qed.

Lemma sub_fuel a b : checked_sub a b <> OutOfFuel.
Proof. unfold checked_sub. destruct (_ <=? _); discriminate. Qed.
Lemma unwrap_fuel {A} (o : option A) : unwrap o <> OutOfFuel.
Proof. destruct o; discriminate. Qed.
Lemma indented_fuel src s ub st bi fi fa : read_indented_block src s ub st bi fi fa <> OutOfFuel.
Proof.
  unfold read_indented_block. destruct src; [discriminate|]. apply obind_fuel; [apply sub_fuel|]. intros _ _.
  apply obind_fuel.
  - destruct (match bi with Some _ => _ | None => _ end); [|discriminate].
    apply obind_fuel; [apply unwrap_fuel|]. intros line _. destruct (indented_loop _ _ _ _ _ _) as [[? ?] ?]. discriminate.
  - intros [[ls m] bf] _. apply obind_fuel; [apply unwrap_fuel|]. discriminate.
Qed.
Lemma text_fuel src s a b al ub : read_text_block src s a b al ub <> OutOfFuel.
Proof. unfold read_text_block. apply obind_fuel; [apply sub_fuel|]. discriminate. Qed.
Lemma enum_fuel cs lk il o i s : enum_captures_to_int_kind_and_delims cs lk il o i s <> OutOfFuel.
Proof.
  assert (F : forall n k d, finish_enum n k d o <> OutOfFuel).
  { intros [n|] k d; cbn; [|discriminate]. destruct o; [destruct (_ <=? _)%N|]; discriminate. }
  unfold enum_captures_to_int_kind_and_delims. destruct (enum_branch cs 2 _ _ _ _ _); try apply F; try discriminate.
  destruct (enum_branch cs 8 _ _ _ _ _); try apply F; try discriminate.
  destruct (enum_branch cs 14 _ _ _ _ _); try apply F; try discriminate.
Qed.
Lemma is_item_fuel src c b ei n k dl lk il i s : is_enumerated_list_item src c b ei n k dl lk il i s <> OutOfFuel.
Proof.
  unfold is_enumerated_list_item. destruct (nth_error _ _); [|discriminate].
  destruct (_ || _); [discriminate|]. destruct (_ =? _); [|discriminate].
  destruct (captures _ _); [|discriminate]. apply obind_fuel; [apply enum_fuel|]. intros [[[? ?] ?]|] _; discriminate.
Qed.
Lemma suffix_fuel l n : line_suffix l n <> OutOfFuel.
Proof. unfold line_suffix. apply obind_fuel; [apply sub_fuel|discriminate]. Qed.
Lemma label_fuel d k s : footnote_label d k s <> OutOfFuel.
Proof.
  destruct k; cbn [footnote_label]; try discriminate; destruct (autonumber_spec d) as (r & -> & _); cbn; discriminate.
Qed.
Lemma words_fuel l : decimal_words l <> OutOfFuel.
Proof. induction l; cbn [decimal_words]; [discriminate|]. apply obind_fuel; [apply unwrap_fuel|]. intros f _. apply obind_fuel; auto. discriminate. Qed.
Lemma widths_fuel w : table_widths w <> OutOfFuel.
Proof. destruct w; cbn [table_widths]; [|discriminate]. destruct (str_eqb _ _); [discriminate|]. apply obind_fuel; [apply words_fuel|discriminate]. Qed.
Lemma children_fuel z : z_n_of_children z <> OutOfFuel.
Proof. unfold z_n_of_children. destruct (node_children _); discriminate. Qed.

(* one step of a symbolic run *)
Ltac fuel := first
  [ apply sub_fuel | apply unwrap_fuel | apply indented_fuel | apply text_fuel | apply enum_fuel
  | apply is_item_fuel | apply suffix_fuel | apply label_fuel | apply widths_fuel | apply children_fuel ].
Ltac w1 := lazymatch goal with
  | |- safe _ _ (pbind _ _) _ _ => apply w_bind
  | |- safe _ _ get_doc _ _ => apply w_doc
  | |- safe _ _ get_cursor _ _ => apply w_cursor
  | |- safe _ _ (advance _) _ _ => apply w_advance
  | |- safe _ _ (doc_op _) _ _ => apply w_doc_op; [exact I|intros]
  | |- safe _ _ (pushed _) _ _ => apply w_pushed; [exact I|intros]
  | |- safe _ _ focus_parent _ _ => apply w_parent; intros
  | |- safe _ _ (label_of _) _ _ => apply w_label; [exact I|intros]
  | |- safe _ _ (get_cap _ _) _ _ => apply w_cap; intros
  | |- safe _ _ (cap_len _ _) _ _ => apply w_cap_len; intros
  | |- safe _ _ (first_char _) _ _ => apply w_first; intros
  | |- safe _ _ (inline_parse _ _) _ _ => apply w_inline; intros
  | |- safe _ _ (push_all _) _ _ => apply w_push_all; intros
  | |- safe _ _ (focus_matches _) _ _ => apply w_focus; intros
  | |- safe _ _ (lift _) _ _ => apply w_lift; [fuel|intros]
  end.
Ltac live_tac := cbn [leaf_ok]; repeat constructor.
Ltac split_tac := match goal with
  | |- safe _ _ (if negb true then _ else _) _ _ => cbn [negb]
  | |- safe _ _ (if negb false then _ else _) _ _ => cbn [negb]
  | |- safe _ _ (if negb ?x then _ else _) _ _ => is_var x; destruct x; cbn [negb]
  | |- safe _ _ (match ?x with _ => _ end) _ _ => destruct x eqn:?
  end.
Ltac w := repeat first [ progress cbv beta zeta | w1 | match goal with |- safe _ _ (PRet _) _ _ => cbn [safe] end
  | match goal with |- safe _ _ PPanic _ _ => exact I end | split_tac
  | match goal with |- leaf_ok (match ?x with _ => _ end) _ _ => destruct x eqn:? end
  | match goal with |- leaf_ok _ _ _ => solve [live_tac] end ].

Lemma w_leave n d c : safe n leaf_ok leave d c.
Proof. unfold leave. w. Qed.
Lemma w_quote n d c i : safe n leaf_ok (open_block_quote i) d c.
Proof. unfold open_block_quote. w. Qed.
Lemma w_by_indent n d c i p : safe n leaf_ok p d c -> safe n leaf_ok (by_indent i p) d c.
Proof. intros H. unfold by_indent. apply w_bind, w_focus. intros [| |]; [apply w_leave|auto|apply w_quote]. Qed.
Lemma w_open_list n d c x s : live s -> safe n leaf_ok (open_list x s) d c.
Proof. intros H. unfold open_list. w. cbn [leaf_ok]. auto. Qed.
Lemma w_open_node n d c x s a : live s -> safe n leaf_ok (open_node x s a) d c.
Proof. intros H. unfold open_node. w. cbn [leaf_ok]. auto. Qed.
Lemma w_add_node n d c x a : safe n leaf_ok (add_node x a) d c.
Proof. unfold add_node. w. Qed.
Ltac w2 := repeat first [ lazymatch goal with
  | |- safe _ _ leave _ _ => apply w_leave
  | |- safe _ _ (open_block_quote _) _ _ => apply w_quote
  | |- safe _ _ (by_indent _ _) _ _ => apply w_by_indent
  | |- safe _ _ (open_list _ _) _ _ => apply w_open_list; exact I
  | |- safe _ _ (open_node _ _ _) _ _ => apply w_open_node; exact I
  | |- safe _ _ (add_node _ _) _ _ => apply w_add_node
  end | progress w ].

Lemma w_first_block n (src : list str) base ti fi st force (line : str) d c (Q : option (list State * nat) -> DocTree -> LineCursor -> Prop) :
  (exists o, nth_error src o = Some line /\ o <= cur_offset c) -> 1 <= length line -> live st -> src_size src <= n ->
  base < match fi with Some f => f | None => ti end ->
  (forall r d', match r with Some (l, _) => Forall live l | None => True end -> Q r d' c) ->
  safe n Q (parse_first_node_block src base ti fi st force) d c.
Proof.
  intros (o & Hl & Ho) Hlen Hst Hn Hb HQ. unfold parse_first_node_block.
  apply w_bind, w_cursor, w_bind, w_lift; [fuel|]. intros rf Hrf. apply w_bind, w_lift; [fuel|]. intros rb Hrb.
  apply w_bind, w_lift; [fuel|]. intros [ib|] Hib; [|cbn; auto]. cbn [safe]. split; [|split; [exact Hst|]].
  - apply checked_sub_ret in Hrf as [_ ->].
    eapply Nat.lt_le_trans; [|etransitivity; [apply (size_skipn o)|exact Hn]].
    apply Nat.le_lteq in Ho as [Ho|Ho].
    { eapply Nat.le_lt_trans; [eapply block_size; exact Hib|]. apply size_skip_lt; auto. exact (nth_lt _ _ _ Hl). }
    rewrite <- Ho in Hib.
    eapply block_shrinks; [exact Hib|exact Hl|exact Hlen|reflexivity|lia].
  - intros r d' Hr _. apply HQ. destruct r; cbn in Hr; auto.
Qed.

(* what the captures of a matched line give *)
Lemma match_pos r line cs : captures r line = Some cs -> 1 <= min_len r ->
  1 <= match_len cs /\ match_len cs <= length line /\ 1 <= length line.
Proof.
  intros H Hm. apply captures_whole in H as (t & -> & _ & H). unfold match_len. rewrite app_length. lia.
Qed.
Lemma byte_len_ge s : length s <= byte_len s.
Proof. induction s as [|c s IH]; [cbn; auto|]. unfold byte_len in *. cbn [fold_right length].
  assert (1 <= utf8_len c) by (unfold utf8_len; repeat destruct (_ <? _)%N; lia). lia.
Qed.

(* ---------- transitions without nested parsers ---------- *)
Lemma paragraph_safe n src base i d c : safe n leaf_ok (parse_paragraph src base i) d c.
Proof. unfold parse_paragraph. w2; destruct b; live_tac. Qed.
Lemma section_safe n t st k d c : safe n leaf_ok (open_section t st k) d c.
Proof.
  unfold open_section. apply w_bind, w_doc. destruct (focused_data d) eqn:E; try apply w_leave.
  - apply w_bind, w_pushed; [left; exact E|]. intros [|] d'; cbn [safe]; live_tac.
  - destruct (_ <=? _) eqn:L; [apply w_leave|]. apply Nat.leb_gt in L.
    apply w_bind, w_pushed; [right; eauto|]. intros [|] d'; cbn [safe]; live_tac.
Qed.
Ltac w3 := repeat first [ lazymatch goal with
  | |- safe _ _ (parse_paragraph _ _ _) _ _ => apply paragraph_safe
  | |- safe _ _ (open_section _ _ _) _ _ => apply section_safe
  end | progress w2 ].
Lemma text_safe n src base cs d c : safe n leaf_ok (body_text src base cs) d c.
Proof. unfold body_text. w3. Qed.
Lemma bullet_safe n src base cs d c : safe n leaf_ok (body_bullet src base cs) d c.
Proof. unfold body_bullet. w3. Qed.
Lemma enumerator_safe n src base cs d c : safe n leaf_ok (body_enumerator src base cs) d c.
Proof. unfold body_enumerator. w3. apply text_safe. Qed.
Lemma field_safe n src base cs d c : safe n leaf_ok (body_field_marker src base cs) d c.
Proof. unfold body_field_marker. w3. Qed.
Lemma target_safe n src base cs d c : safe n leaf_ok (body_hyperlink_target src base cs) d c.
Proof. unfold body_hyperlink_target. w3. Qed.
Lemma comment_safe n src base cs d c : safe n leaf_ok (body_comment src base cs) d c.
Proof. unfold body_comment. w3. Qed.
Lemma line_safe n src base cs d c : safe n leaf_ok (body_line src base cs) d c.
Proof. unfold body_line. w3. Qed.
Lemma definition_safe n src base cs d c : safe n leaf_ok (definition_text src base cs) d c.
Proof. unfold definition_text. w3. Qed.
Lemma literal_safe n q src base cs d c : safe n leaf_ok (literal_block q src base cs) d c.
Proof. unfold literal_block, parse_indented_literal, parse_quoted_literal. w3. Qed.
Lemma attribution_safe n src base cs d c : safe n leaf_ok (attribution src base cs) d c.
Proof. unfold attribution. w3. Qed.
Lemma col_break_safe n src base cs d c : safe n leaf_ok (aplus_col_break src base cs) d c.
Proof. unfold aplus_col_break. w3. Qed.
Lemma questionnaire_text_safe n src base cs d c : safe n leaf_ok (questionnaire_text src base cs) d c.
Proof. unfold questionnaire_text. w3. Qed.

(* ---------- transitions with a first block ---------- *)
Section First.
  Variables (src : list str) (base : nat) (line : str) (cs : caps) (d : DocTree) (c : LineCursor).
  Hypothesis Hl : nth_error src (cur_offset c) = Some line.
  Lemma finish_safe r d' : match r with Some (l, _) => Forall live l | None => True end ->
    leaf_ok (finish_first_block r) d' c.
  Proof. destruct r as [[l k]|]; cbn; auto. Qed.
  Lemma here : exists o, nth_error src o = Some line /\ o <= cur_offset c.
  Proof. eauto. Qed.
  Lemma later k : exists o, nth_error src o = Some line /\ o <= cur_offset (cur_add c k).
  Proof. exists (cur_offset c). destruct c; cbn in *. split; [auto|lia]. Qed.
  Ltac block H := let H1 := fresh in let H2 := fresh in
    destruct (match_pos _ _ _ H ltac:(vm_compute; lia)) as (H1 & H2 & ?);
    eapply w_first_block; [apply here || apply later|assumption|exact I|apply le_n|try lia|intros; cbn [safe]; now apply finish_safe].
  Lemma footnote_safe : captures FOOTNOTE line = Some cs -> safe (src_size src) leaf_ok (body_footnote src base cs) d c.
  Proof. intros H. unfold body_footnote. w3. block H. Qed.
  Lemma citation_safe : captures CITATION line = Some cs -> safe (src_size src) leaf_ok (body_citation src base cs) d c.
  Proof. intros H. unfold body_citation. w3. block H. Qed.
  Lemma list_field_safe : captures FIELD_MARKER line = Some cs -> safe (src_size src) leaf_ok (list_field_marker src base cs) d c.
  Proof. intros H. unfold list_field_marker. w3. block H. Qed.
  Lemma list_bullet_safe : captures BULLET line = Some cs -> safe (src_size src) leaf_ok (list_bullet src base cs) d c.
  Proof. intros H. unfold list_bullet. w3. pose proof (byte_len_ge (whole cs)) as Hb. block H. unfold match_len in *. lia. Qed.
  Lemma list_enumerator_safe : captures ENUMERATOR line = Some cs -> safe (src_size src) leaf_ok (list_enumerator src base cs) d c.
  Proof.
    intros H. unfold list_enumerator. w3; try apply text_safe.
    destruct (match_pos _ _ _ H ltac:(vm_compute; lia)) as (M1 & M2 & M3).
    split; [|split; [exact I|]].
    - match goal with E : checked_sub _ _ = Ret _ |- _ => apply checked_sub_ret in E as [_ ->] end.
      eapply Nat.lt_le_trans; [|apply (size_skipn (cur_offset c))].
      eapply block_shrinks; [eassumption|exact Hl|exact M3|reflexivity|lia].
    - intros r d9 Hr _. destruct r; cbn in Hr; cbn; auto.
  Qed.
End First.

(* ---------- directives ---------- *)
(* what the directive transitions know of the marker: it is on line o, which is
   not empty; the text after it starts later; and if the body is not indented,
   it does not take all the lines that follow *)
Definition marker_ok (src : list str) (o : nat) (m : marker) : Prop :=
  exists line, nth_error src o = Some line /\ 1 <= length line /\ 1 <= m_first m /\
    (m_body m = 0 -> exists j l, o < j /\ nth_error src j = Some l /\ blank l = false /\ indent_of l = 0).

Lemma trim_len (s : str) : length (trim s) <= length s.
Proof.
  assert (Hs : forall s, length (trim_start s) <= length s).
  { clear s. intros s. destruct (trim_start_split s) as (w & _ & H & _). rewrite H at 2. rewrite app_length. lia. }
  unfold trim. pose proof (Hs s). unfold trim_end. rewrite rev_length.
  pose proof (Hs (rev (trim_start s))). rewrite rev_length in *. lia.
Qed.
Lemma args_size body first : forall rest : list str, let n := length (argument_lines rest body first false) in
  src_size (argument_lines rest body first false) <= src_size (firstn n rest) /\ n <= length rest.
Proof.
  induction rest as [|l rest IH]; cbn [argument_lines]; [cbn; auto|].
  destruct (negb false && _); [cbn; split; lia|]. cbv zeta in *.
  destruct (_ || _); [cbn; split; lia|]. cbn [length firstn]. rewrite !size_cons. pose proof (trim_len l). lia.
Qed.
Lemma args_marker_size body first (line : str) (rest : list str) : 1 <= length line -> 1 <= first ->
  let args := argument_lines (line :: rest) body first true in
  let n := length args in
  n <= S (length rest) /\ (args = [] \/ src_size args < src_size (firstn n (line :: rest))).
Proof.
  intros Hl Hf. cbn [argument_lines negb andb]. destruct (_ || _); [cbn; split; [lia|auto]|].
  cbv zeta. cbn [length firstn]. rewrite !size_cons. pose proof (args_size body first rest) as H. cbv zeta in H.
  rewrite skipn_length. split; [lia|right; lia].
Qed.

(* the cursor after the arguments, and their size *)
Definition args_ok (src : list str) (o : nat) (args : list str) (c : LineCursor) : Prop :=
  o <= cur_offset c /\ (args <> [] -> o < cur_offset c) /\
  (o = cur_offset c \/ src_size args + src_size (skipn (cur_offset c) src) < src_size (skipn o src)) .
Lemma w_arguments n src m d c (Q : list str -> DocTree -> LineCursor -> Prop) :
  marker_ok src (cur_offset c) m ->
  (forall args c', args_ok src (cur_offset c) args c' -> Q args d c') -> safe n Q (arguments src m) d c.
Proof.
  intros (line & Hl & Hlen & Hf & _) HQ. unfold arguments, scan_arguments.
  apply w_bind, w_advance, w_bind, w_cursor, w_bind, w_advance. cbn [safe]. apply HQ. clear HQ Q.
  destruct c as [o bl]. unfold args_ok, cur_add. cbn [cur_offset cur_baseline] in *.
  pose proof (nth_lt _ _ _ Hl) as Ho. pose proof (skipn_nth _ _ _ Hl) as Hsk. destruct (m_empty m); cbn [negb].
  - pose proof (args_size (m_body m) (m_first m) (skipn (o + 1) src)) as H.
    cbv zeta in H. destruct H as [H1 H2]. set (args := argument_lines _ _ _ _) in *.
    split; [lia|]. split; [lia|]. right.
    pose proof (size_nth _ _ _ Hl) as Hs. replace (S o) with (o + 1) in Hs by lia.
    rewrite (size_split (length args) (skipn (o + 1) src)), skipn_skipn in Hs.
    replace (length args + (o + 1)) with (o + 1 + length args) in Hs by lia. lia.
  - rewrite Nat.add_0_r.
    pose proof (args_marker_size (m_body m) (m_first m) line (skipn (S o) src) Hlen Hf) as H. cbv zeta in H.
    rewrite <- Hsk in *. set (args := argument_lines _ _ _ _) in *.
    destruct H as [H1 [H2|H2]].
    + rewrite H2. cbn [length]. split; [lia|]. split; [congruence|left; lia].
    + assert (1 <= length args) by (destruct args; cbn in *; lia).
      split; [lia|]. split; [lia|]. right.
      pose proof (size_split (length args) (skipn o src)) as Hs. rewrite skipn_skipn in Hs.
      replace (length args + o) with (o + length args) in Hs by lia. lia.
Qed.
Lemma w_options n src m d c (Q : option_map -> DocTree -> LineCursor -> Prop) :
  (forall x k, Q x d (cur_add c k)) -> safe n Q (options src m) d c.
Proof.
  intros HQ. unfold options, scan_options. apply w_bind, w_cursor.
  destruct (option_lines _ _) as [l b]. apply w_bind, w_advance. destruct l as [|x l]; [apply HQ|].
  apply w_bind, w_advance. cbn [safe]. destruct c. unfold cur_add in *. cbn in *. rewrite <- Nat.add_assoc. apply HQ.
Qed.
Lemma w_skip n src d c (Q : unit -> DocTree -> LineCursor -> Prop) :
  (forall k, Q tt d (cur_add c k)) -> safe n Q (skip_empty src) d c.
Proof. intros HQ. unfold skip_empty. apply w_bind, w_cursor, w_advance. apply HQ. Qed.

(* the body of a directive *)
Lemma body_shrinks src o m fi ib s : marker_ok src o m -> o <= s ->
  first_given (Some (m_body m)) fi = Some (m_body m) ->
  read_indented_block src s false true (Some (m_body m)) fi false = Ret (Some ib) ->
  src_size (ib_lines ib) < src_size (skipn o src).
Proof.
  intros (line & Hl & Hlen & _ & Hb) Hs Hf H. apply Nat.le_lteq in Hs as [Hs|<-].
  - eapply Nat.le_lt_trans; [eapply block_size; exact H|]. apply size_skip_lt; auto. exact (nth_lt _ _ _ Hl).
  - destruct (m_body m) as [|b] eqn:Eb.
    + destruct (Hb eq_refl) as (j & l & Hj & Hjl & Hbl & Hi). eapply block_stops; eauto.
    + eapply block_shrinks; [exact H|exact Hl|exact Hlen|exact Hf|lia].
Qed.

Section DirectiveParsers.
  Variables (src : list str) (m : marker) (d : DocTree) (c : LineCursor).
  Hypothesis HM : marker_ok src (cur_offset c) m.
  Notation n := (src_size src).
  Ltac dw := unfold body_block; repeat first [ lazymatch goal with
    | |- safe _ _ (arguments _ _) _ _ => apply w_arguments; [exact HM|intros ? ? ?Hargs]
    | |- safe _ _ (options _ _) _ _ => apply w_options; intros
    | |- safe _ _ (skip_empty _) _ _ => apply w_skip; intros
    end | progress w3 ].
  Lemma cur_add_ge k c' o : o <= cur_offset c' -> o <= cur_offset (cur_add c' k).
  Proof. destruct c'. cbn. lia. Qed.
  Lemma nested_ok a r k d' c' : live_result r -> leaf_ok
    (match r with REOF stack | REmptyStateStack stack => TSuccess (Push stack) k | RFailure => TFailure end) d' (cur_add c' a).
  Proof. destruct r; cbn; auto. Qed.

  Lemma admonition_safe v : safe n leaf_ok (parse_standard_admonition v src m) d c.
  Proof.
    unfold parse_standard_admonition. dw. cbn [safe]. split; [|split; [exact I|]].
    - rewrite size_app. destruct Hargs as (H1 & H2 & [H3|H3]).
      + assert (args = []) as -> by (destruct args; auto; exfalso; assert (cur_offset c < cur_offset c') by (apply H2; discriminate); lia).
        cbn [src_size fold_right Nat.add]. eapply Nat.lt_le_trans; [|apply (size_skipn (cur_offset c))].
        eapply body_shrinks; [exact HM| | |eassumption]; [|reflexivity]. apply cur_add_ge. lia.
      + eapply Nat.lt_le_trans; [|apply (size_skipn (cur_offset c))].
        match goal with H : read_indented_block _ _ _ _ _ _ _ = _ |- _ => apply block_size in H; rename H into HB end.
        pose proof (size_skip_le (cur_offset c') (cur_offset (cur_add c' k)) src (cur_add_ge _ _ _ (le_n _))). lia.
    - intros r d9 Hr _. now apply nested_ok.
  Qed.
  Lemma generic_safe : safe n leaf_ok (parse_generic_admonition src m) d c.
  Proof. unfold parse_generic_admonition. dw. Qed.
  Lemma image_safe : safe n leaf_ok (parse_image src m) d c.
  Proof. unfold parse_image. dw. Qed.
  Lemma figure_safe : safe n leaf_ok (parse_figure src m) d c.
  Proof. unfold parse_figure. dw. Qed.
  Lemma code_safe : safe n leaf_ok (parse_code src m) d c.
  Proof. unfold parse_code. dw. Qed.
  Lemma math_safe : safe n leaf_ok (parse_math_block src m) d c.
  Proof. unfold parse_math_block. dw. Qed.
  Lemma unwind_safe k c' (Q : unit -> DocTree -> LineCursor -> Prop) : forall d',
    (forall d', Q tt d' c') -> safe n Q (unwind k) d' c'.
  Proof.
    induction k as [|k IH]; intros d' H; cbn [unwind]; [apply H|]. apply w_bind, w_parent. intros. now apply IH.
  Qed.
  Lemma list_table_safe : safe n leaf_ok (parse_list_table src m) d c.
  Proof.
    unfold parse_list_table. dw. split; [|split; [exact I|]].
    - eapply Nat.lt_le_trans; [|apply (size_skipn (cur_offset c))].
      eapply body_shrinks; [exact HM| | |eassumption]; [|reflexivity]. destruct Hargs as (H1 & _). do 2 apply cur_add_ge. auto.
    - intros r d9 Hr _. destruct r; dw; (apply unwind_safe; intros; dw).
  Qed.
  Lemma class_safe : safe n leaf_ok (parse_class src m) d c.
  Proof.
    unfold parse_class. dw. split; [|split; [exact I|]].
    - eapply Nat.lt_le_trans; [|apply (size_skipn (cur_offset c))].
      eapply body_shrinks; [exact HM| | |eassumption]; [|reflexivity]. destruct Hargs as (H1 & _). auto.
    - intros r d9 Hr _. destruct r; cbn in *; auto.
  Qed.
  Lemma code_block_safe : safe n leaf_ok (parse_sphinx_code_block src m) d c.
  Proof. unfold parse_sphinx_code_block. dw. Qed.
  Lemma only_safe : safe n leaf_ok (parse_sphinx_only src m) d c.
  Proof. unfold parse_sphinx_only. dw. Qed.
  Lemma questionnaire_safe : safe n leaf_ok (parse_aplus_questionnaire src m) d c.
  Proof. unfold parse_aplus_questionnaire. dw. Qed.
  Lemma submit_safe : safe n leaf_ok (parse_aplus_submit src m) d c.
  Proof. unfold parse_aplus_submit. dw. Qed.
  Lemma input_safe : safe n leaf_ok (parse_ae_input src m) d c.
  Proof. unfold parse_ae_input. dw. Qed.
  Lemma output_safe : safe n leaf_ok (parse_ae_output src m) d c.
  Proof. unfold parse_ae_output. dw. Qed.
  Lemma poi_safe : safe n leaf_ok (parse_poi src m) d c.
  Proof. unfold parse_poi. dw. Qed.
  Lemma unknown_safe name : safe n leaf_ok (parse_unknown_directive name src m) d c.
  Proof. unfold parse_unknown_directive. dw. Qed.

  Lemma filled_safe (Q : bool -> DocTree -> LineCursor -> Prop) x nodes d' c' :
    (forall b d', Q b d' c') -> safe n Q (push_filled x nodes) d' c'.
  Proof.
    intros H. unfold push_filled. apply w_bind, w_pushed; [exact I|]. intros [|] d1; [|apply H]. cbn [negb].
    apply w_bind, w_push_all. intros [|] d2; [|apply H]. cbn [negb]. apply w_bind, w_parent. intros. apply H.
  Qed.
  (* an item changes neither document nor cursor *)
  Definition item_ok (item : caps -> prog (option (TreeNodeType * str))) : Prop :=
    forall cs d c (Q : option (TreeNodeType * str) -> DocTree -> LineCursor -> Prop),
      (forall x, Q x d c) -> safe n Q (item cs) d c.
  Lemma items_loop_safe r item (Q : bool -> DocTree -> LineCursor -> Prop) : item_ok item ->
    (forall b d' c', Q b d' c') ->
    forall fuel d' c', length src - cur_offset c' < fuel -> safe n Q (items_loop fuel src (m_body m) r item) d' c'.
  Proof.
    intros HI HQ. induction fuel as [|f IH]; intros d' c' Hf; [lia|]. cbn [items_loop].
    apply w_bind, w_cursor. destruct (nth_error src (cur_offset c')) as [line|] eqn:El; [|apply HQ].
    pose proof (nth_lt _ _ _ El). destruct (negb _); [apply HQ|]. destruct (captures r line); [|apply HQ].
    apply w_bind, HI. intros [[x text]|]; [|apply HQ]. apply w_bind, w_inline. intros nodes d1.
    destruct nodes; [apply HQ|]. apply w_bind, filled_safe. intros [|] d2; [|apply HQ]. cbn [negb].
    apply w_bind, w_advance, IH. destruct c'. cbn in *. lia.
  Qed.
  Lemma items_safe r item (Q : bool -> DocTree -> LineCursor -> Prop) d' c' : item_ok item ->
    (forall b d' c', Q b d' c') -> safe n Q (items src m r item) d' c'.
  Proof. intros. unfold items. apply items_loop_safe; auto. lia. Qed.
  Lemma pick_one_ok : item_ok pick_one_item.
  Proof. intros cs d' c' Q H. unfold pick_one_item. w. apply H. Qed.
  Lemma pick_any_ok : item_ok pick_any_item.
  Proof. intros cs d' c' Q H. unfold pick_any_item. w. apply H. Qed.
  Lemma hint_ok t : item_ok (hint_item t).
  Proof. intros cs d' c' Q H. unfold hint_item. cbn [safe]. apply H. Qed.
  Lemma finish_question_safe t d' c' : safe n leaf_ok (finish_question src m t) d' c'.
  Proof.
    unfold finish_question. dw. apply items_safe; [apply hint_ok|]. intros b d2 c2. dw.
  Qed.
  Lemma pick_safe node r item t d' c' : item_ok item -> safe n leaf_ok (pick_question src m node r item t) d' c'.
  Proof.
    intros HI. unfold pick_question, pick_assignment, assignment.
    assert (HF : forall d2 c2 (Q : bool -> DocTree -> LineCursor -> Prop), (forall b d' c', Q b d' c') ->
      safe n Q (pick_choices src m r item) d2 c2).
    { intros d2 c2 Q HQ. unfold pick_choices. dw; try apply HQ. apply items_safe; auto. intros b d3 c3. dw; try apply HQ. }
    assert (HF2 : forall d2 c2, safe n leaf_ok (
      let* ok := pick_choices src m r item in
      if negb ok then PRet TFailure else finish_question src m t) d2 c2).
    { intros d2 c2. apply w_bind, HF. intros [|] d3 c3; cbn [negb]; [apply finish_question_safe|exact I]. }
    dw; try (apply HF; intros [|] d3 c3; cbn [negb]; [apply finish_question_safe|exact I]).
    apply filled_safe. intros [|] d2; cbn [negb]; [|exact I]. apply HF2.
  Qed.
  Lemma pick_one_safe : safe n leaf_ok (parse_aplus_pick_one src m) d c.
  Proof. unfold parse_aplus_pick_one. dw; apply pick_safe, pick_one_ok. Qed.
  Lemma pick_any_safe : safe n leaf_ok (parse_aplus_pick_any src m) d c.
  Proof. unfold parse_aplus_pick_any. dw; apply pick_safe, pick_any_ok. Qed.
  Lemma freetext_safe : safe n leaf_ok (parse_aplus_freetext src m) d c.
  Proof.
    unfold parse_aplus_freetext, assignment. dw. apply filled_safe. intros [|] d2; cbn [negb]; dw.
    apply finish_question_safe.
  Qed.
  Lemma parser_for_safe label : safe n leaf_ok (parser_for label src m) d c.
  Proof.
    unfold parser_for. destruct (standard_admonition label); [apply admonition_safe|].
    assert (HD : forall name p, In (name, p) directive_parsers -> safe n leaf_ok (p src m) d c).
    { intros name p H. unfold directive_parsers in H. cbn [In] in H.
      repeat (destruct H as [H|H]; [injection H as _ <-|]); try contradiction; try exact I;
        first [ apply generic_safe | apply image_safe | apply figure_safe | apply code_safe | apply math_safe
        | apply list_table_safe | apply class_safe | apply code_block_safe | apply only_safe | apply questionnaire_safe
        | apply submit_safe | apply input_safe | apply output_safe | apply poi_safe ]. }
    induction directive_parsers as [|[name p] l IH]; [apply unknown_safe|]. cbn [find_parser].
    destruct (str_eqb label (lit name)); [apply (HD name); left; auto|]. apply IH. intros. eapply HD. right. eauto.
  Qed.
End DirectiveParsers.

Lemma first_indent_in ls i : first_indent_of ls = Some i ->
  exists j l, nth_error ls j = Some l /\ blank l = false /\ indent_of l = i.
Proof.
  induction ls as [|l ls IH]; cbn [first_indent_of]; [discriminate|]. destruct (blank l) eqn:E.
  - intros H. destruct (IH H) as (j & l' & ? & ?). exists (S j), l'. auto.
  - intros H. apply some_inj in H. exists 0, l. auto.
Qed.
Lemma subsequent_in (src : list str) o i k : indent_on_subsequent_lines src o = Some (i, k) ->
  exists j (l : str), o < j /\ nth_error src j = Some l /\ blank l = false /\ indent_of l = i.
Proof.
  unfold indent_on_subsequent_lines. destruct (first_indent_of (skipn (S o) src)) as [i'|] eqn:E; [|discriminate].
  intros H. injection H as -> _. apply first_indent_in in E as (j & l & H1 & H2).
  assert (Hn : forall n (s : list str), nth_error (skipn n s) j = nth_error s (n + j)).
  { clear. induction n as [|n IH]; intros s; [auto|]. destruct s; [cbn; now destruct j|]. cbn. apply IH. }
  rewrite Hn in H1. exists (S o + j), l. split; [lia|]. auto.
Qed.
Lemma directive_safe src base line cs d c : nth_error src (cur_offset c) = Some line ->
  captures DIRECTIVE line = Some cs -> safe (src_size src) leaf_ok (directive src base cs) d c.
Proof.
  intros Hl H. unfold directive. w2. apply parser_for_safe.
  destruct (match_pos _ _ _ H ltac:(vm_compute; lia)) as (M1 & M2 & M3).
  exists line. split; [exact Hl|]. split; [exact M3|]. cbn [m_first m_body]. split; [exact M1|].
  destruct (indent_on_subsequent_lines src (cur_offset c)) as [[i k]|] eqn:E; [|lia].
  intros ->. eapply subsequent_in; eauto.
Qed.
Lemma questionnaire_directive_safe src base line cs d c : nth_error src (cur_offset c) = Some line ->
  captures APLUS_QUESTIONNAIRE_DIRECTIVE line = Some cs ->
  safe (src_size src) leaf_ok (questionnaire_directive src base cs) d c.
Proof.
  intros Hl H. unfold questionnaire_directive.
  apply w_bind, w_cap_len. intros i. apply w_bind, w_cap. intros name Hname. apply w_bind, w_cursor, w_bind, w_lift; [fuel|].
  intros line' Hl'. cbv zeta. apply w_bind, w_focus. intros mm.
  assert (HM : marker_ok src (cur_offset c) (MkMarker
     match indent_on_subsequent_lines src (S (cur_offset c)) with
     | Some (i, _) => i + base | None => match_len cs + base end
     (match_len cs + base) (empty_after line' (match_len cs + base)))).
  { destruct (match_pos _ _ _ H ltac:(vm_compute; lia)) as (H1 & H2 & H3).
    exists line. split; [exact Hl|]. split; [exact H3|]. cbn [m_first m_body]. split; [lia|].
    destruct (indent_on_subsequent_lines src (S (cur_offset c))) as [[i' k]|] eqn:E; [|lia].
    intros Hi. assert (i' = 0) as -> by lia. destruct (subsequent_in _ _ _ _ E) as (j & l & Hj & ?). exists j, l. split; [lia|auto]. }
  destruct mm; try apply w_leave.
  destruct (str_eqb _ _); [now apply pick_one_safe|].
  destruct (str_eqb _ _); [now apply pick_any_safe|].
  destruct (str_eqb _ _); [now apply freetext_safe|]. apply w_leave.
Qed.

(* ---------- the tables ---------- *)
Theorem tables_total : table_total table.
Proof. intros s H. destruct s; try contradiction; eexists; reflexivity. Qed.

Theorem tables_safe : table_safe table.
Proof.
  intros s tbl r t src base line cs d c Ht Hin Hl Hc.
  assert (HE : safe (src_size src) leaf_ok (empty_line src base cs) d c) by exact I.
  assert (HU : safe (src_size src) leaf_ok (back_up src base cs) d c) by exact I.
  assert (HB : In (r, t) body_rest -> safe (src_size src) leaf_ok (t src base cs) d c).
  { clear Ht Hin. unfold body_rest. intros Hin. cbn [In] in Hin.
    repeat (destruct Hin as [E|Hin]; [injection E as <- <-|]); try contradiction;
      first [ apply bullet_safe | apply enumerator_safe | apply field_safe | eapply footnote_safe; eassumption
            | eapply citation_safe; eassumption | apply target_safe | eapply directive_safe; eassumption
            | apply comment_safe | apply line_safe | apply text_safe ]. }
  destruct s; cbn [table] in Ht; try discriminate; apply some_inj in Ht; subst tbl;
    (unfold BODY_TRANSITIONS, BLOCK_QUOTE_TRANSITIONS, BULLET_LIST_TRANSITIONS, DEFINITION_LIST_TRANSITIONS,
       ENUMERATED_LIST_TRANSITIONS, FIELD_LIST_TRANSITIONS, LITERAL_BLOCK_TRANSITIONS, LIST_TABLE_TRANSITIONS,
       APLUS_MULTICOL_TRANSITIONS, APLUS_QUESTIONNAIRE_TRANSITIONS, empty_line_entry in Hin);
    cbn [In] in Hin;
    repeat first [ exact (HB Hin) | destruct Hin as [E|Hin]; [injection E as <- <-|] ];
    try contradiction; try assumption;
    first [ apply attribution_safe | eapply list_bullet_safe; eassumption | apply definition_safe
          | eapply list_enumerator_safe; eassumption | eapply list_field_safe; eassumption | apply literal_safe
          | apply bullet_safe | apply col_break_safe | eapply questionnaire_directive_safe; eassumption
          | apply questionnaire_text_safe ].
Qed.
