(* NestedProofs.v -- the parser on nested lists, quotes, paragraphs and comments
   (used for C47): induction over the document. *)
From Coq Require Import Permutation.
From Verif Require Import Base Unicode Regex Patterns Common Converters NodeTypes Tree DocTree History Blocks Prog ParseLoop
  Inline Body Directives Parser Spec RegexProofs BlockProofs TreeProofs DocTreeProofs HyperrefProofs InlineSpec RegexGroups InlineProofs LoopProofs
  Utf8Latex Writer WriterProofs Transforms TextProofs OpenProofs SimpleSpec LineProofs Properties7 RunProofs StepProofs ParaProofs NumberProofs LeaveProofs GroupProofs
  MarkerProofs OpenerProofs EntryProofs LeafProofs FieldProofs ShiftProofs BoxProofs FigureProofs QuizProofs QuestionProofs QuizRunProofs TableProofs CiteProofs.

(* lia, after clearing what is not arithmetic *)
Ltac qlia := repeat match goal with H : ?T |- _ =>
    lazymatch type of T with
    | Prop => lazymatch T with
        | (_ <= _)%nat => fail | (_ < _)%nat => fail | @eq nat _ _ => fail | (_ <= _)%N => fail | (_ < _)%N => fail | @eq N _ _ => fail
        | _ => clear H end end end; lia.

(* ---------- frames ---------- *)
Definition deeper (k : nat) (prev : tag) (f : frame) : Prop :=
  match f with
  | (SListItem, NBulletListItem _ _ m) => k < m
  | (SListItem, NEnumeratedListItem _ _ _ _ m) | (SListItem, NFieldListItem _ _ _ m) | (SListItem, NDefinitionListItem _ _ m) => k < m
  | (SBlockQuote, NBlockQuote m) => k < m
  | (SCitation, NCitation m _) | (SFootnote, NFootnote m _ _ _) | (SFigure, NFigure m _ _ _ _) => k < m
  | (SAdmonition, NAdmonition m _ _ _) | (SBody, NSphinxOnly _ m) | (SBody, NUnknownDirective _ _ _ m) => k < m
  | (SBody, NAplusSubmit m _ _ _ _ _ _ _ _ _ _ _ _ _ _ _ _ _ _ _ _ _) => k < m
  | (SAplusMultiCol, NAplusPOI _ m _ _ _ _ _ _ _ _ _ _ _) => k < m
  | (SAplusQuestionnaire, NAplusQuestionnaire m _ _ _ _ _ _ _ _ _ _ _ _ _ _ _ _ _) => k < m
  | (SListTable, NListTable m _ _ _ _ _ _) => k < m
  | (SBulletList, NBulletList c i _) => k < i \/ (i = k /\ prev = TList c)
  | (SEnumeratedList, NEnumeratedList ld lk start n i) => (n + start <= usize_max)%N /\ (k < i \/ (i = k /\ prev = TNumbers ld lk (n + start)))
  | (SFieldList, NFieldList i) => k < i \/ (i = k /\ prev = TFields)
  | (SDefinitionList, NDefinitionList i) => i = 0 /\ k = 0 /\ prev = TTerms
  | _ => False
  end.
Definition mark_of (b : block) : mark := match b with Para _ => MText | Bullets c _ => MBullet c | Numbered d s n _ => MNumber d s n | Fields _ _ => MField | _ => MPlain end.
Ltac frame_cases f := destruct f as [S x]; destruct S; try contradiction; destruct x; try contradiction;
  cbn [deeper ended_by]; auto.
Lemma deeper_ended k prev b f : may_follow prev b = true -> deeper k prev f -> ended_by k (mark_of b) f.
Proof.
  frame_cases f.
  - intros Hm [H|[-> ->]]; destruct b; cbn [mark_of]; auto.
    + right. lia.
    + left. cbn in Hm. apply negb_true_iff, N.eqb_neq in Hm. congruence.
  - intros Hm (_ & _ & ->). destruct b; try discriminate. reflexivity.
  - intros Hm [H0 [H|[-> ->]]]; (split; [exact H0|]); destruct b; cbn [mark_of]; auto; [left; lia|right]. cbn [may_follow] in Hm. now apply negb_true_iff in Hm.
  - intros Hm [H|[-> ->]]; destruct b; cbn [mark_of]; auto; [lia|discriminate].
Qed.
Lemma deeper_weaken k k' prev tag f : k < k' -> deeper k' prev f -> deeper k tag f.
Proof. intros Hk. frame_cases f; lia. Qed.
Lemma deeper_strict k tag f : deeper k TNone f -> deeper k tag f.
Proof.
  frame_cases f.
  - intros [H|[_ H]]; [now left|discriminate].
  - intros (_ & _ & H). discriminate.
  - intros [H0 [H|[_ H]]]; [split; [exact H0|now left]|discriminate].
  - intros [H|[_ H]]; [now left|discriminate].
Qed.
Lemma strict_ended k b f : deeper k TNone f -> ended_by k b f.
Proof.
  frame_cases f.
  - intros [H|[_ H]]; [|discriminate]. destruct b; auto. right. lia.
  - intros (_ & _ & H). discriminate.
  - intros [H0 [H|[_ H]]]; [|discriminate]. split; [exact H0|]. destruct b; auto. left. lia.
  - intros [H|[_ H]]; [|discriminate]. destruct b; auto. lia.
Qed.
Lemma deeper_skippable k prev f : deeper k prev f -> skippable (fst f).
Proof. frame_cases f; intros _; (split; [exact I|]); eexists; reflexivity. Qed.
Lemma fstack_app a b : fstack (a ++ b) = fstack a ++ fstack b. Proof. apply map_app. Qed.
Lemma fentries_app a b : fentries (a ++ b) = fentries a ++ fentries b. Proof. apply map_app. Qed.
Lemma ends_of_app a b : ends_of (a ++ b) = ends_of a ++ ends_of b.
Proof. unfold ends_of. now rewrite map_app, concat_app. Qed.

Lemma ends_one f : ends_of [f] = end_of f.
Proof. unfold ends_of. cbn [map concat]. apply app_nil_r. Qed.

(* how many nodes a block opens on its first line *)
Definition opens (b : block) : nat := match b with Para _ | Remark _ | Leaf _ | Boxed _ _ | Entry _ _ _ _ | Figure _ _ _ _ _ | Quiz _ | Tabular _ => 0 | Bullets _ _ | Numbered _ _ _ _ | Fields _ _ => 1 | Quote _ _ | Said _ _ _ _ _ => 2 end.
Definition first_opens (bs : blocks) : nat := match bs with BNil => 0 | BCons b _ _ => opens b end.
Definition is_quote (b : block) : bool := match b with Quote _ _ | Said _ _ _ _ _ => true | _ => false end.
(* blocks after which the next line may be indented by more *)
Definition is_para (b : block) : bool := match b with Para _ | Said _ _ _ _ _ => true | _ => false end.
(* how many nodes it leaves open *)
Definition left_open (b : block) : nat := match b with Said _ _ _ _ _ => 0 | _ => depth b end.
Lemma left_depth b : left_open b <= depth b. Proof. destruct b; cbn [left_open]; try apply Nat.le_refl. apply Nat.le_0_l. Qed.
Lemma may_follow_quote prev b : may_follow prev b = true -> is_quote b = true -> prev = TNone \/ prev = TText.
Proof. destruct b; try discriminate; destruct prev; cbn; auto; discriminate. Qed.

(* the first line of a numbered list *)
Lemma numbered_first src p k d auto n its rest : items_ok its = true -> is_inil its = false -> spaced its = true ->
  skipn p src = numbered_source k d auto n its ++ rest -> head_ok k rest ->
  exists l, nth_error src p = Some (pad k (enumerator d auto n ++ 32%N :: l)) /\ starts_text l = true /\ free_next src p k.
Proof.
  intros Hi Hne Hsp E Hr. destruct its as [|tx gap more its]; [discriminate|]. cbn [items_ok] in Hi. apply andb_true_iff in Hi as [Hi _]. apply andb_true_iff in Hi as [Hi Hm].
  apply andb_true_iff in Hi as [Hp Hg]. destruct (para_ok_first _ Hp) as (l & mr & El & Hst & Hen). pose proof (para_ok_lines _ Hp) as [_ Hls].
  cbn [numbered_source] in E. cbv zeta in E. rewrite El in E, Hls. cbn [numbered_lines app] in E. apply skipn_cons in E as [Hl E].
  exists l. split; [exact Hl|]. split; [exact Hst|]. intros nx Hnx. destruct mr as [|m mr].
  - cbn [map app] in E. destruct gap as [|gap].
    + cbn [repeat app] in E. destruct more; [|discriminate]. cbn [blocks_source app] in E.
      destruct its as [|tx2 gap2 more2 its2]; [|cbn [spaced] in Hsp; rewrite El in Hsp; discriminate].
      cbn [numbered_source app] in E. destruct rest as [|r rest]; [apply skipn_end in E; apply nth_error_None in E; congruence|].
      apply skipn_cons in E as [E _]. assert (nx = r) by congruence. subst r. cbn in Hr. destruct Hr as [-> | (j & (_ & Hj & _) & Hlt)]; [now left|right; lia].
    + cbn [repeat app] in E. apply skipn_cons in E as [E _]. assert (nx = []) by congruence. subst nx. now left.
  - cbn [map app] in E. apply skipn_cons in E as [E _]. right. assert (H : nx = pad (k + S (length (enumerator d auto n))) m) by congruence. rewrite H.
    apply Forall_cons_iff in Hls as [_ Hls]. apply Forall_cons_iff in Hls as [[Hm' _] _]. rewrite pad_indent by exact Hm'. lia.
Qed.
Lemma numbered_shape d auto first its : block_ok (Numbered d auto first its) = true ->
  items_ok its = true /\ is_inil its = false /\ items_boxless its = true /\ spaced its = true /\ numbers_ok auto first its = true /\ (auto = Auto -> first = 1%N) /\ (first + count its <= usize_max)%N.
Proof.
  cbn [block_ok]. intros H. apply andb_true_iff in H as [H Hu]. apply andb_true_iff in H as [H Ha]. apply andb_true_iff in H as [H Hns]. apply andb_true_iff in H as [H Hs]. apply andb_true_iff in H as [H Hbl]. apply andb_true_iff in H as [H Hi].
  apply negb_true_iff in H. apply N.leb_le in Hu. split; [exact Hi|]. split; [exact H|]. split; [exact Hbl|]. split; [exact Hs|]. split; [exact Hns|]. split; [|exact Hu].
  intros ->. now apply N.eqb_eq in Ha.
Qed.
Lemma numbered_number s n its : numbers_ok s n its = true -> is_inil its = false -> number_ok s n = true.
Proof. destruct its; [discriminate|]. cbn [numbers_ok]. intros H _. now apply andb_true_iff in H as [H _]. Qed.

(* the first line of a field list *)
Lemma fields_shape names its : block_ok (Fields names its) = true ->
  is_inil its = false /\ items_ok its = true /\ forallb field_name names = true /\ length names = items_count its.
Proof.
  cbn [block_ok]. intros H. apply andb_true_iff in H as [H Hc]. apply andb_true_iff in H as [H Hn]. apply andb_true_iff in H as [H Hi].
  apply negb_true_iff in H. apply Nat.eqb_eq in Hc. auto.
Qed.
Lemma fields_first names its k : block_ok (Fields names its) = true ->
  exists name l ls, field_name name = true /\ starts_text l = true /\ source k (Fields names its) = pad k (field_marker name ++ 32%N :: l) :: ls.
Proof.
  intros H. destruct (fields_shape _ _ H) as (Hne & Hi & Hn & Hc). destruct its as [|tx gap more its]; [discriminate|]. destruct names as [|name names]; [discriminate|].
  cbn [items_ok] in Hi. do 2 apply andb_true_iff in Hi as [Hi _]. apply andb_true_iff in Hi as [Hp _]. destruct (para_ok_first _ Hp) as (l & mr & El & Hst & _).
  cbn [forallb] in Hn. apply andb_true_iff in Hn as [Hn _]. exists name, l. cbn [source fields_source hd]. cbv zeta. rewrite El. cbn [numbered_lines app]. eauto.
Qed.

Lemma entry_shape m t gap more : block_ok (Entry m t gap more) = true ->
  note_ok m = true /\ para_ok t = true /\ (more = BNil \/ 1 <= gap) /\ blocks_ok TQuote more = true.
Proof.
  cbn [block_ok]. intros H. apply andb_true_iff in H as [H Hm]. apply andb_true_iff in H as [H Hg]. apply andb_true_iff in H as [Hn Ht].
  split; [exact Hn|]. split; [exact Ht|]. split; [|exact Hm]. apply orb_true_iff in Hg as [Hg|Hg]; [left; now destruct more|right; now apply Nat.leb_le].
Qed.
Lemma figure_shape uri opts t gap more : block_ok (Figure uri opts t gap more) = true ->
  argument_ok uri = true /\ nonempty uri = true /\ forallb setting_ok opts = true /\ para_ok t = true /\ (more = BNil \/ 1 <= gap) /\ blocks_ok TQuote more = true.
Proof.
  cbn [block_ok]. intros H. apply andb_true_iff in H as [H Hm]. apply andb_true_iff in H as [H Hg]. apply andb_true_iff in H as [H Ht]. apply andb_true_iff in H as [H Ho]. apply andb_true_iff in H as [Ha Hn].
  repeat (split; [assumption|]). split; [|exact Hm]. apply orb_true_iff in Hg as [Hg|Hg]; [left; now destruct more|right; now apply Nat.leb_le].
Qed.
Lemma first_indent_past ls : first_indent_of ls = first_indent_of (past_blanks ls).
Proof. destruct (past_blanks_split ls) as (g & E). rewrite E at 1. clear. induction g; [reflexivity|exact IHg]. Qed.

Section Nested.
  Variables (ord : hash_order) (full : bool).
  Notation under := (under ord full).
  Notation at_ := (at_ ord full).
  Hypothesis (Hord : forall l, Permutation (ord l) l).
  Section Source.
  Variables (src : list str) (base : nat).

  (* the first line of a block *)
  Lemma block_starts b k p rest : block_ok b = true -> is_quote b = false -> skipn p src = source k b ++ rest -> head_ok k rest ->
    ender ord full src base p k (mark_of b) /\ by_its_indent src base p k.
  Proof.
    intros Hok Hq E Hr. destruct b as [tx|c its|d auto first its|names its|extra bs|extra bs who|bx bs|m tx gap more|uri opts tx gap more|q|tb|t|l]; try discriminate.
    - cbn [block_ok] in Hok. destruct (para_ok_lines _ Hok) as [_ Hls]. destruct (para_ok_first _ Hok) as (l & more & El & Hst & Hen). rewrite El in Hls.
      cbn [source map app] in E. rewrite El in E. cbn [map app] in E. apply skipn_cons in E as [Hl E].
      assert (Hn : next_no_line src p).
      { intros l2 H2. destruct more as [|m more].
        - cbn [map app] in E. destruct rest as [|l3 rest].
          + apply skipn_end in E. apply nth_error_None in E. congruence.
          + apply skipn_cons in E as [E _]. assert (l2 = l3) by congruence. subst l3. cbn in Hr.
            destruct Hr as [-> | (i & (_ & _ & Hnl & _) & _)]; [apply nil_line|exact Hnl].
        - cbn [map app] in E. apply skipn_cons in E as [E _]. assert (l2 = pad k m) by congruence. subst l2.
          apply Forall_cons_iff in Hls as [_ Hls]. apply Forall_cons_iff in Hls as [(Hm & _) _]. now apply pad_no_line. }
      assert (Hless : not_more src p k).
      { intros l2 H2. destruct more as [|m more].
        - cbn [map app] in E. destruct rest as [|l3 rest].
          + apply skipn_end in E. apply nth_error_None in E. congruence.
          + apply skipn_cons in E as [E _]. assert (l2 = l3) by congruence. subst l3. cbn in Hr.
            destruct Hr as [-> | (i & (_ & Hi & _) & Hlt)]; [apply Nat.le_0_l|qlia].
        - cbn [map app] in E. apply skipn_cons in E as [E _]. assert (l2 = pad k m) by congruence. subst l2.
          apply Forall_cons_iff in Hls as [_ Hls]. apply Forall_cons_iff in Hls as [(Hm & _) _]. rewrite pad_indent by exact Hm. qlia. }
      split; [split|].
      + eapply leaver_text; eauto. unfold next_line_ok. unfold next_no_line in Hn. destruct (nth_error src (S p)); [|trivial]. now rewrite (Hn s eq_refl).
      + eapply list_line_text; eauto.
      + eapply quote_text; eauto.
    - cbn [block_ok] in Hok. apply andb_true_iff in Hok as [Hok Hi]. apply andb_true_iff in Hok as [Hc Hne].
      destruct its as [|tx gap more its]; [discriminate|]. cbn [items_ok] in Hi. apply andb_true_iff in Hi as [Hi _]. apply andb_true_iff in Hi as [Hi _].
      apply andb_true_iff in Hi as [Hp _]. destruct (para_ok_first _ Hp) as (l & mr & El & Hst & Hen).
      cbn [source items_source] in E. rewrite El in E. cbn [item_lines app] in E. apply skipn_cons in E as [Hl _].
      split; [split|]; [eapply leaver_bullet|eapply list_line_bullet|eapply quote_bullet]; eauto.
    - destruct (numbered_shape _ _ _ _ Hok) as (Hi & Hne & _ & Hsp & Hns & _ & Hu). cbn [source] in E.
      destruct (numbered_first _ _ _ _ _ _ _ _ Hi Hne Hsp E Hr) as (l & Hl & Hst & Hfree).
      pose proof (numbered_number _ _ _ Hns Hne) as Hf.
      split; [split|]; [eapply leaver_number|eapply list_line_number|eapply quote_number]; eauto.
    - destruct (fields_first _ _ k Hok) as (name & l & ls & Hn & Hst & Es). rewrite Es in E. cbn [app] in E. apply skipn_cons in E as [Hl _].
      split; [split|]; [eapply leaver_field|eapply list_line_field|eapply quote_field]; eauto.
    - cbn [block_ok] in Hok. do 3 apply andb_true_iff in Hok as [Hok _]. pose proof (box_name_ok _ Hok) as Hn. assert (Ha : argument_ok (box_argument bx) = true) by (unfold box_ok in Hok; now destruct (argument_ok (box_argument bx))).
      cbn [source app] in E. apply skipn_cons in E as [Hl _].
      split; [split|]; [eapply leaver_directive|eapply list_line_directive|eapply quote_directive]; eauto.
    - destruct (entry_shape _ _ _ _ Hok) as (Hm & Hp & _ & _). destruct (para_ok_first _ Hp) as (l & mr & El & Hst & _).
      cbn [source] in E. rewrite El in E. cbn [entry_lines app] in E. apply skipn_cons in E as [Hl _].
      split; [split|]; [eapply leaver_note|eapply list_line_note|eapply quote_note]; eauto.
    - destruct (figure_shape _ _ _ _ _ Hok) as (Ha & _). cbn [source app] in E. apply skipn_cons in E as [Hl _].
      split; [split|]; [eapply leaver_directive|eapply list_line_directive|eapply quote_directive]; eauto.
    - cbn [block_ok] in Hok. destruct (quiz_parts _ Hok) as (Ha & _). cbn [source] in E. unfold quiz_source in E. cbn [app] in E. apply skipn_cons in E as [Hl _].
      split; [split|]; [eapply leaver_directive|eapply list_line_directive|eapply quote_directive]; eauto.
    - cbn [block_ok] in Hok. destruct (table_parts _ Hok) as (Ha & _). cbn [source] in E. unfold table_source, directive_source in E. cbn [app] in E. apply skipn_cons in E as [Hl _].
      split; [split|]; [eapply leaver_directive|eapply list_line_directive|eapply quote_directive]; eauto.
    - cbn [block_ok] in Hok. apply andb_true_iff in Hok as [Hok Hs]. apply andb_true_iff in Hok as [Ht Hm]. apply andb_true_iff in Ht as [Hst Ho].
      cbn [source app] in E. apply skipn_cons in E as [Hl _].
      split; [split|]; [eapply leaver_comment|eapply list_line_comment|eapply quote_comment]; eauto.
    - cbn [block_ok] in Hok. pose proof (leaf_name_ok l) as Hn. assert (Ha : argument_ok (leaf_argument l) = true) by (unfold leaf_ok in Hok; now destruct (argument_ok (leaf_argument l))).
      cbn [source] in E. unfold leaf_source, directive_source in E. cbn [app] in E. apply skipn_cons in E as [Hl _].
      split; [split|]; [eapply leaver_directive|eapply list_line_directive|eapply quote_directive]; eauto.
  Qed.
  Lemma first_line b k : block_ok b = true -> is_quote b = false ->
    exists l ls, source k b = l :: ls /\ l <> [] /\ blank l = false /\ indent_of l = k.
  Proof.
    intros Hok Hq. assert (G : forall l : str, blank l = false -> l <> []) by (intros [|? ?]; [discriminate|congruence]).
    destruct b as [tx|c its|d auto first its|names its|extra bs|extra bs who|bx bs|m tx gap more|uri opts tx gap more|q|tb|t|l]; try discriminate.
    - cbn [block_ok] in Hok. destruct (para_ok_first _ Hok) as (l & more & El & Hst & _). cbn [source]. rewrite El. cbn [map]. do 2 eexists. split; [reflexivity|].
      pose proof (pad_not_blank k l Hst). split; [auto|]. split; [auto|]. now apply pad_indent.
    - cbn [block_ok] in Hok. apply andb_true_iff in Hok as [Hok Hi]. apply andb_true_iff in Hok as [Hc Hne].
      destruct its as [|tx gap more its]; [discriminate|]. cbn [items_ok] in Hi. apply andb_true_iff in Hi as [Hi _]. apply andb_true_iff in Hi as [Hi _].
      apply andb_true_iff in Hi as [Hp _]. destruct (para_ok_first _ Hp) as (l & mr & El & Hst & Hen).
      cbn [source items_source]. rewrite El. cbn [item_lines app]. do 2 eexists. split; [reflexivity|].
      assert (B : bullet_line k c (pad k (c :: 32%N :: l))) by (split; eauto).
      pose proof (bullet_line_blank _ _ _ B). split; [auto|]. split; [auto|]. eapply bullet_line_indent; eauto.
    - destruct (numbered_shape _ _ _ _ Hok) as (Hi & Hne & _ & Hsp & Hns & _ & Hu). pose proof (numbered_number _ _ _ Hns Hne) as Hf.
      destruct its as [|tx gap more its]; [discriminate|]. cbn [items_ok] in Hi. apply andb_true_iff in Hi as [Hi _]. apply andb_true_iff in Hi as [Hi _].
      apply andb_true_iff in Hi as [Hp _]. destruct (para_ok_first _ Hp) as (l & mr & El & Hst & Hen).
      cbn [source numbered_source]. cbv zeta. rewrite El. cbn [numbered_lines app]. do 2 eexists. split; [reflexivity|].
      pose proof (nb_not_blank d auto first k l Hf). split; [auto|]. split; [auto|]. now apply nb_indent.
    - destruct (fields_first _ _ k Hok) as (name & l & ls & Hn & Hst & Es). rewrite Es. do 2 eexists. split; [reflexivity|].
      pose proof (fl_not_blank k name l). split; [auto|]. split; [auto|]. apply fl_indent.
    - cbn [block_ok] in Hok. do 3 apply andb_true_iff in Hok as [Hok _]. cbn [source]. do 2 eexists. split; [reflexivity|]. unfold pad.
      destruct (marker_shape (box_name bx) (box_argument bx) (box_name_ok _ Hok)) as (c & t & _ & _ & ->).
      assert (blank (repeat 32%N k ++ 46%N :: 46%N :: 32%N :: c :: t) = false) by now apply ink_not_blank.
      split; [auto|]. split; [auto|]. rewrite ink_indent; [apply pad_length|apply ws_pad|reflexivity].
    - destruct (entry_shape _ _ _ _ Hok) as (Hm & Hp & _ & _). destruct (para_ok_first _ Hp) as (l & mr & El & Hst & _).
      cbn [source]. rewrite El. cbn [entry_lines app]. do 2 eexists. split; [reflexivity|]. destruct (note_first_line m k l). auto.
    - cbn [source]. do 2 eexists. split; [reflexivity|]. unfold pad.
      destruct (marker_shape (lit "figure") uri eq_refl) as (c & t & _ & _ & ->).
      assert (blank (repeat 32%N k ++ 46%N :: 46%N :: 32%N :: c :: t) = false) by now apply ink_not_blank.
      split; [auto|]. split; [auto|]. rewrite ink_indent; [apply pad_length|apply ws_pad|reflexivity].
    - cbn [source]. unfold quiz_source. do 2 eexists. split; [reflexivity|]. unfold pad.
      destruct (marker_shape (lit "questionnaire") (quiz_argument q) eq_refl) as (c & t & _ & _ & ->).
      assert (blank (repeat 32%N k ++ 46%N :: 46%N :: 32%N :: c :: t) = false) by now apply ink_not_blank.
      split; [auto|]. split; [auto|]. rewrite ink_indent; [apply pad_length|apply ws_pad|reflexivity].
    - cbn [source]. unfold table_source, directive_source. do 2 eexists. split; [reflexivity|]. unfold pad.
      destruct (marker_shape (lit "list-table") (t_title tb) eq_refl) as (c & t & _ & _ & ->).
      assert (blank (repeat 32%N k ++ 46%N :: 46%N :: 32%N :: c :: t) = false) by now apply ink_not_blank.
      split; [auto|]. split; [auto|]. rewrite ink_indent; [apply pad_length|apply ws_pad|reflexivity].
    - cbn [source]. do 2 eexists. split; [reflexivity|]. change (lit ".. " ++ t) with (46%N :: 46%N :: 32%N :: t). unfold pad.
      assert (blank (repeat 32%N k ++ 46%N :: 46%N :: 32%N :: t) = false) by now apply ink_not_blank.
      split; [auto|]. split; [auto|]. rewrite ink_indent; [apply pad_length|apply ws_pad|reflexivity].
    - cbn [source]. unfold leaf_source, directive_source. do 2 eexists. split; [reflexivity|]. unfold pad.
      destruct (marker_shape (leaf_name l) (leaf_argument l) (leaf_name_ok l)) as (c & t & _ & _ & ->).
      assert (blank (repeat 32%N k ++ 46%N :: 46%N :: 32%N :: c :: t) = false) by now apply ink_not_blank.
      split; [auto|]. split; [auto|]. rewrite ink_indent; [apply pad_length|apply ws_pad|reflexivity].
  Qed.
  Lemma inside_first bs : is_bnil bs = false -> blocks_ok TQuote bs = true ->
    exists b gap bs', bs = BCons b gap bs' /\ block_ok b = true /\ is_quote b = false.
  Proof.
    intros H1 H2.
    destruct bs as [|b gap bs]; [discriminate|]. cbn [blocks_ok] in H2. apply andb_true_iff in H2 as [H2 _]. apply andb_true_iff in H2 as [H2 _].
    apply andb_true_iff in H2 as [Ha Hb]. exists b, gap, bs. split; [reflexivity|]. split; [exact Hb|]. destruct b; try reflexivity; discriminate.
  Qed.
  Lemma quote_first extra bs : block_ok (Quote extra bs) = true ->
    exists b gap bs', bs = BCons b gap bs' /\ block_ok b = true /\ is_quote b = false.
  Proof.
    cbn [block_ok]. intros H. apply andb_true_iff in H as [H H2]. apply andb_true_iff in H as [_ H1]. apply negb_true_iff in H1. now apply inside_first.
  Qed.
  Lemma cited_shape extra bs who hang more : block_ok (Said extra bs who hang more) = true ->
    block_ok (Quote extra bs) = true /\ forallb starts_word (who :: more) = true /\ snug (join (lit " ") (who :: more)) = true.
  Proof. cbn [block_ok]. intros H. apply andb_true_iff in H as [H H3]. apply andb_true_iff in H as [H H2]. apply andb_true_iff in H as [H H1]. auto. Qed.
  Lemma first_line_any b k : block_ok b = true -> exists l ls, source k b = l :: ls /\ l <> [].
  Proof.
    intros Hok. destruct (is_quote b) eqn:Q; [|destruct (first_line b k Hok Q) as (l & ls & E & H & _); eauto].
    destruct b as [| | | |extra bs|extra bs who hang more| | | | | | |]; try discriminate.
    - destruct (quote_first _ _ Hok) as (b & gap & bs' & -> & Hb & Hq).
      destruct (first_line b (k + extra) Hb Hq) as (l & ls & E & H & _). cbn [source blocks_source]. rewrite E. cbn [app]. eauto.
    - destruct (cited_shape _ _ _ _ _ Hok) as (Hok' & _). destruct (quote_first _ _ Hok') as (b & gap & bs' & -> & Hb & Hq).
      destruct (first_line b (k + extra) Hb Hq) as (l & ls & E & H & _). cbn [source blocks_source]. rewrite E. cbn [app]. eauto.
  Qed.

  Definition outcome_at (S0 : State) (st : list State) (e : list entry) (c : config) (s : str)
      (seen : list SectionLineStyle) (rest : list str) (n : nat) (fits : frame -> Prop) (bound : nat) (text : str) : Prop :=
    exists c' L t q, steps src base c c' /\
      at_ src c' (fstack L ++ S0 :: st) (fentries L ++ e) (s ++ t) seen q n /\
      t ++ ends_of L = text /\ Forall fits L /\ length L <= bound /\ past_blanks (skipn q src) = past_blanks rest.

  Lemma approach L S0 st e s seen c p n lines : Forall (fun f => skippable (fst f)) L -> skippable S0 ->
    at_ src c (fstack L ++ S0 :: st) e s seen p n -> n <= 9 -> past_blanks (skipn p src) = lines -> past_blanks lines = lines ->
    exists c' q, steps src base c c' /\ at_ src c' (fstack L ++ S0 :: st) e s seen q n /\ skipn q src = lines.
  Proof.
    intros HL HS Hat Hn E El. destruct (past_blanks_split (skipn p src)) as (g & Eg). rewrite E in Eg.
    assert (G : exists T rest, fstack L ++ S0 :: st = T :: rest /\ skippable T).
    { destruct L as [|f L]; cbn [fstack map app]; [eauto|]. apply Forall_cons_iff in HL as [Hf _]. eauto. }
    destruct G as (T & rest & ET & HT). rewrite ET in Hat |- *.
    destruct (skip_blanks ord full src base T rest e s seen lines HT g c p n Hat Hn Eg) as (c1 & Hs & Ha).
    exists c1, (p + g). split; [exact Hs|]. split; [eapply at_weaken; [exact Ha|destruct g; qlia]|].
    replace g with (length (repeat (@nil char) g)) by apply repeat_length. now apply skipn_past.
  Qed.

  End Source.

  Definition P_block (b : block) : Prop := forall src base k S0 x r e st c s seen p n rest,
    block_ok b = true -> home S0 x (base + k) -> at_ src c (S0 :: st) ((x, r) :: e) s seen p n ->
    n + opens b <= 9 -> depth b <= 8 -> (base = 0 \/ boxless b = true) -> skipn p src = source k b ++ rest -> head_ok k rest -> (is_para b = false -> low k rest) -> (needs_gap b = true -> gap_head rest) ->
    outcome_at src base S0 st ((x, r) :: e) c s seen rest 0 (deeper (base + k) (tag_of b)) (left_open b) (latex b).
  Definition P_blocks (bs : blocks) : Prop := forall src base k S0 x r e st L prev c s seen p n rest,
    blocks_ok prev bs = true -> home S0 x (base + k) -> Forall (deeper (base + k) prev) L -> (prev = TNone \/ prev = TText -> L = []) ->
    at_ src c (fstack L ++ S0 :: st) (fentries L ++ (x, r) :: e) s seen p n ->
    n + length L + first_opens bs <= 9 -> blocks_depth bs <= 8 -> (base = 0 \/ blocks_boxless bs = true) ->
    past_blanks (skipn p src) = past_blanks (blocks_source k bs ++ rest) -> head_ok k rest -> low k rest ->
    exists tag, outcome_at src base S0 st ((x, r) :: e) c s seen rest (if is_bnil bs then n else 0) (deeper (base + k) tag)
      (Nat.max (length L) (blocks_depth bs)) (ends_of L ++ blocks_latex bs).
  Definition P_items (its : items) : Prop := forall src base k b e st L c s seen p n rest,
    items_ok its = true -> existsb (N.eqb b) bullet_chars = true -> Forall (deeper (base + k) TNone) L ->
    at_ src c (fstack L ++ SBulletList :: st) (fentries L ++ (NBulletList b (base + k) (base + (k + 2)), None) :: e) s seen p n ->
    n + length L <= 9 -> items_depth its <= 6 -> (base = 0 \/ items_boxless its = true) ->
    past_blanks (skipn p src) = past_blanks (items_source k b its ++ rest) -> head_ok (k + 2) rest -> low (k + 2) rest ->
    outcome_at src base SBulletList st ((NBulletList b (base + k) (base + (k + 2)), None) :: e) c s seen rest (if is_inil its then n else 0) (deeper (base + k) TNone)
      (Nat.max (length L) (1 + items_depth its)) (ends_of L ++ items_latex its).

  Lemma block_para tx : P_block (Para tx).
  Proof.
    intros src base k S0 x r e st c s seen p n rest Hok Hh Hat Hn Hd Hx0 E Hr _ _. cbn [block_ok] in Hok. cbn [source] in E. cbn [opens] in Hn.
    destruct (home_table _ _ _ Hh) as (tbl & Ht & Hb).
    destruct (step_para ord full src base c S0 tbl st x r e s seen p n k tx rest (home_live _ _ _ Hh) Ht Hb (home_indent _ _ _ Hh)) as (c1 & Hs & Ha); auto.
    { apply (home_allows _ _ _ _ Hh). a_kind. }
    { qlia. }
    exists c1, [], (para_latex tx), (p + length (text_lines tx)). split; [exact Hs|]. split; [exact Ha|]. split; [cbn; now rewrite app_nil_r|].
    split; [constructor|]. split; [cbn; qlia|]. replace (length (text_lines tx)) with (length (map (pad k) (text_lines tx))) by apply map_length. now rewrite (skipn_past _ _ _ _ E).
  Qed.
  Lemma block_remark t : P_block (Remark t).
  Proof.
    intros src base k S0 x r e st c s seen p n rest Hok Hh Hat Hn Hd Hx0 E Hr Hlow Hgap. cbn [block_ok] in Hok. cbn [source] in E. cbn [opens] in Hn.
    apply andb_true_iff in Hok as [Hok Hsn]. apply andb_true_iff in Hok as [Ht Hm]. apply andb_true_iff in Ht as [Ht Ho].
    destruct (past_blanks_split rest) as (g & Eg). cbn [app] in E. rewrite Eg in E.
    destruct (step_remark ord full src base c S0 x k st r e s seen p n t g (past_blanks rest) Hh Hat ltac:(qlia) E (Hlow eq_refl) Ht Ho Hm Hsn) as (c1 & Hs & Ha).
    exists c1, [], (lit "% " ++ t ++ nl2), (p + (1 + g)). split; [exact Hs|]. split; [exact Ha|]. split; [cbn [ends_of map concat]; now rewrite app_nil_r|].
    split; [constructor|]. split; [cbn; qlia|].
    change (pad k (lit ".. " ++ t) :: repeat [] g ++ past_blanks rest) with ((pad k (lit ".. " ++ t) :: repeat [] g) ++ past_blanks rest) in E.
    apply skipn_past in E. cbn [length] in E. rewrite repeat_length in E. change (S g) with (1 + g) in E. rewrite E.
    destruct (past_blanks_split rest) as (g' & Eg'). rewrite Eg' at 2. now rewrite past_blanks_repeat.
  Qed.
  Lemma block_bullets b its : P_items its -> P_block (Bullets b its).
  Proof.
    intros IH src base k S0 x r e st c s seen p n rest Hok Hh Hat Hn Hd Hx0 E Hr Hlow Hgap. cbn [block_ok] in Hok. cbn [source] in E. cbn [opens] in Hn. cbn [depth] in Hd.
    apply andb_true_iff in Hok as [Hok Hi]. apply andb_true_iff in Hok as [Hb Hne].
    assert (Hl : exists l, nth_error src p = Some l /\ bullet_line k b l).
    { destruct its as [|tx gap more its]; [discriminate|]. pose proof Hi as Hi'. cbn [items_ok] in Hi'. apply andb_true_iff in Hi' as [Hi' _]. apply andb_true_iff in Hi' as [Hi' _].
      apply andb_true_iff in Hi' as [Hp _]. destruct (para_ok_first _ Hp) as (l & mr & El & Hst & Hen).
      cbn [items_source] in E. rewrite El in E. cbn [item_lines app] in E. apply skipn_cons in E as [Hl _]. eexists. split; [exact Hl|]. split; eauto. }
    destruct Hl as (l & Hl & Hbl).
    destruct (step_list ord full src base c S0 x k st r e s seen p n b l Hh Hat ltac:(qlia) Hl Hbl) as (c1 & Hs1 & Ha1).
    destruct (IH src base k b ((x, r) :: e) (S0 :: st) [] c1 _ seen p (n + 1) rest Hi Hb (Forall_nil _) Ha1) as (c2 & L & t & q & Hs2 & Ha2 & Et & HF & HL & Hq).
    { cbn [length]. qlia. } { qlia. } { exact Hx0. } { now rewrite E. } { eapply head_ok_mono; [|exact Hr]. qlia. } { eapply low_mono; [|now apply Hlow]. qlia. }
    exists c2, (L ++ [(SBulletList, NBulletList b (base + k) (base + (k + 2)))]), ((lit "\begin{itemize}" ++ nl1) ++ t), q.
    split; [eapply steps_trans; eauto|]. rewrite fstack_app, fentries_app, ends_of_app, app_assoc. rewrite <- !app_assoc. cbn [fstack fentries map fst snd app].
    split. { destruct its; [discriminate|]. cbn [is_inil] in Ha2. rewrite <- app_assoc in Ha2. exact Ha2. }
    split. { cbn [latex]. rewrite <- ?app_assoc. f_equal. f_equal. rewrite (app_assoc t), Et, ends_one. reflexivity. }
    split. { apply Forall_app. split; [eapply Forall_impl; [|exact HF]; intros; now apply deeper_strict|]. constructor; [|constructor]. right. split; reflexivity. }
    split; [|exact Hq]. rewrite app_length. cbn [length left_open depth]. cbn [length] in HL. qlia.
  Qed.
  (* inside a quote *)
  Lemma inside_quote extra bs : P_blocks bs -> forall src base k S0 x r e st c s seen p n rest,
    block_ok (Quote extra bs) = true -> home S0 x (base + k) -> at_ src c (S0 :: st) ((x, r) :: e) s seen p n ->
    n + 2 <= 9 -> 1 + blocks_depth bs <= 8 -> (base = 0 \/ blocks_boxless bs = true) -> skipn p src = blocks_source (k + extra) bs ++ rest ->
    head_ok (k + extra) rest -> low (k + extra) rest ->
    exists tag, outcome_at src base SBlockQuote (S0 :: st) ((NBlockQuote (base + (k + extra)), None) :: (x, r) :: e) c s seen rest 0 (deeper (base + (k + extra)) tag) (blocks_depth bs)
      (lit "\begin{quotation}" ++ nl1 ++ blocks_latex bs).
  Proof.
    intros IH src base k S0 x r e st c s seen p n rest Hok Hh Hat Hn Hd Hx0 E Hr Hlow. pose proof Hok as Hok0. destruct (quote_first _ _ Hok0) as (b & gap & bs' & Ebs & Hb & Hq).
    cbn [block_ok] in Hok. apply andb_true_iff in Hok as [Hok Hbs]. apply andb_true_iff in Hok as [He Hne]. apply Nat.leb_le in He.
    assert (Hstart : by_its_indent src base p (k + extra)).
    { subst bs. cbn [blocks_source] in E. rewrite <- app_assoc in E. eapply (block_starts src base b (k + extra) p); [exact Hb|exact Hq|exact E|].
      cbn [blocks_ok] in Hbs. apply andb_true_iff in Hbs as [Hbs _]. apply andb_true_iff in Hbs as [_ Hg].
      rewrite <- app_assoc. destruct gap as [|gap]; [|cbn; now left]. destruct bs'; [|discriminate]. cbn [repeat blocks_source app]. exact Hr. }
    destruct (step_quote ord full src base c S0 x (base + k) st r e s seen p n (k + extra) Hh Hat ltac:(qlia) Hstart ltac:(qlia)) as (c1 & Hs1 & Ha1).
    destruct (IH src base (k + extra) SBlockQuote (NBlockQuote (base + (k + extra))) None ((x, r) :: e) (S0 :: st) [] TQuote c1 _ seen p (n + 1) rest Hbs (home_quote _) (Forall_nil _)
      (fun _ => eq_refl) Ha1) as (tag & c2 & L & t & q & Hs2 & Ha2 & Et & HF & HL & Hpb).
    { cbn [length]. subst bs. cbn [first_opens]. destruct b; cbn [opens]; try discriminate Hq; qlia. } { qlia. } { exact Hx0. } { now rewrite E. }
    { exact Hr. } { exact Hlow. }
    exists tag, c2, L, ((lit "\begin{quotation}" ++ nl1) ++ t), q.
    split; [eapply steps_trans; eauto|]. rewrite app_assoc.
    split. { destruct bs; [discriminate|]. exact Ha2. }
    split. { rewrite <- !app_assoc. cbn [ends_of map concat app] in Et. now rewrite Et. }
    split; [exact HF|]. split; [cbn [length] in HL; qlia|exact Hpb].
  Qed.
  Lemma block_quote extra bs : P_blocks bs -> P_block (Quote extra bs).
  Proof.
    intros IH src base k S0 x r e st c s seen p n rest Hok Hh Hat Hn Hd Hx0 E Hr Hlow Hgap. cbn [source] in E. cbn [opens] in Hn. cbn [depth] in Hd.
    destruct (inside_quote extra bs IH src base k S0 x r e st c s seen p n rest Hok Hh Hat Hn Hd Hx0 E) as (tag & c2 & L & t & q & Hs2 & Ha2 & Et & HF & HL & Hpb).
    { eapply head_ok_mono; [|exact Hr]. qlia. } { eapply low_mono; [|now apply Hlow]. qlia. }
    exists c2, (L ++ [(SBlockQuote, NBlockQuote (base + (k + extra)))]), t, q.
    split; [exact Hs2|]. rewrite fstack_app, fentries_app, ends_of_app, app_assoc. rewrite <- !app_assoc. cbn [fstack fentries map fst snd app].
    split; [exact Ha2|].
    split. { cbn [latex]. rewrite (app_assoc t), Et, ends_one. rewrite <- ?app_assoc. reflexivity. }
    split. { apply Forall_app. cbn [block_ok] in Hok. do 2 apply andb_true_iff in Hok as [Hok _]. apply Nat.leb_le in Hok. split; [eapply Forall_impl; [|exact HF]; intros f; apply deeper_weaken; qlia|]. constructor; [|constructor]. cbn. qlia. }
    split; [|exact Hpb]. rewrite app_length. cbn [length left_open depth]. qlia.
  Qed.
  Lemma deeper_plain k tag f : 1 <= k -> deeper k tag f -> ended_by k MPlain f.
  Proof.
    frame_cases f.
    - intros Hk (_ & H & _). lia.
    - intros _ (H & _). auto.
  Qed.
  Lemma block_cited extra bs who hang more : P_blocks bs -> P_block (Said extra bs who hang more).
  Proof.
    intros IH src base k S0 x r e st c s seen p n rest Hok Hh Hat Hn Hd Hx0 E Hr _ Hgap. cbn [source] in E. cbn [opens] in Hn. cbn [depth] in Hd. specialize (Hgap eq_refl).
    assert (base = 0) as -> by (destruct Hx0 as [Hx0|Hx0]; [exact Hx0|discriminate]).
    destruct (cited_shape _ _ _ _ _ Hok) as (Hq & Hst & Hsn). pose proof Hst as Hw. cbn [forallb] in Hw. apply andb_true_iff in Hw as [Hw _]. pose proof Hq as He. cbn [block_ok] in He. do 2 apply andb_true_iff in He as [He _]. apply Nat.leb_le in He.
    rewrite <- app_assoc in E. cbn [app] in E. set (rest0 := rest) in *. set (tl := map (pad (k + extra + hang)) more ++ rest0) in *. set (line := pad (k + extra) (lit "-- " ++ who)) in *.
    assert (Hb : blank line = false /\ indent_of line = k + extra).
    { unfold line, pad. change (lit "-- " ++ who) with (45%N :: 45%N :: 32%N :: who). split; [now apply ink_not_blank|]. rewrite ink_indent; [apply pad_length|apply ws_pad|reflexivity]. }
    destruct Hb as [Hb Hi].
    assert (Hne : line <> []) by (intros Z; rewrite Z in Hb; discriminate).
    destruct (inside_quote extra bs IH src 0 k S0 x r e st c s seen p n ([] :: line :: tl) Hq Hh Hat Hn Hd ltac:(now left) E) as (tag & c2 & L & t & q & Hs2 & Ha2 & Et & HF & HL & Hpb).
    { cbn. now left. } { unfold low. change (past_blanks ([] :: line :: tl)) with (past_blanks (line :: tl)). rewrite past_blanks_cons by exact Hne. cbn. split; [exact Hb|]. qlia. }
    assert (Epb : past_blanks (line :: tl) = line :: tl) by (now apply past_blanks_cons).
    change (past_blanks ([] :: line :: tl)) with (past_blanks (line :: tl)) in Hpb. rewrite Epb in Hpb.
    destruct (approach src 0 L SBlockQuote (S0 :: st) _ (s ++ t) seen c2 q 0 _ (Forall_impl _ (deeper_skippable (0 + (k + extra)) tag) HF) ltac:(split; [exact I|]; eexists; reflexivity)
      Ha2 ltac:(qlia) Hpb Epb) as (c3 & q3 & Hs3 & Ha3 & E3).
    pose proof E3 as E3'. apply skipn_cons in E3' as [Hl3 Hrest].
    assert (Hmw : forallb starts_word more = true) by (cbn [forallb] in Hst; apply andb_true_iff in Hst as [_ Hst]; exact Hst).
    destruct (unwind ord full src 0 q3 (k + extra) MPlain) with (L := L) (c := c3) (st := SBlockQuote :: S0 :: st) (e := (NBlockQuote (0 + (k + extra)), @None (list str)) :: (x, r) :: e) (s := s ++ t) (seen := seen) (n := 0)
      as (c4 & Hs4 & Ha4); auto; try discriminate.
    { split; [eapply leaver_cite; eauto; eapply cited_next; eauto|eapply list_line_cite; eauto]. }
    { eapply Forall_impl; [|exact HF]. intros f. apply deeper_plain. qlia. }
    { qlia. }
    destruct (step_cite ord full src c4 x r e (S0 :: st) _ seen q3 _ (k + extra) hang who more rest Ha4 ltac:(qlia) ltac:(qlia) Hl3 Hrest Hst Hsn Hgap) as (c5 & Hs5 & Ha5).
    exists c5, [], (t ++ ends_of L ++ (lit "-- " ++ join (lit " ") (who :: more) ++ nl1) ++ lit "\end{quotation}" ++ nl2), (q3 + S (length more)).
    split; [eapply steps_trans; [|exact Hs5]; eapply steps_trans; [|exact Hs4]; eapply steps_trans; eauto|].
    split. { rewrite <- !app_assoc in *. exact Ha5. }
    split. { change (ends_of []) with (@nil char). cbn [latex]. rewrite app_nil_r, (app_assoc t), Et. rewrite <- !app_assoc. reflexivity. }
    split; [constructor|]. split; [apply Nat.le_refl|]. apply (skipn_past (S q3)) in Hrest. rewrite map_length in Hrest. replace (q3 + S (length more)) with (S q3 + length more) by lia. rewrite Hrest. reflexivity.
  Qed.
  Lemma block_leaf l : P_block (Leaf l).
  Proof.
    intros src base k S0 x r e st c s seen p n rest Hok Hh Hat Hn Hd Hx0 E Hr Hlow Hgap. cbn [block_ok] in Hok. cbn [source] in E. cbn [opens] in Hn.
    destruct (past_blanks_split rest) as (g & Eg). rewrite Eg in E.
    destruct (step_leaf ord full src base c S0 x k st r e s seen p n l g (past_blanks rest) Hh Hat ltac:(qlia) E) as (c1 & q & g' & Hs & Ha & Eq); auto.
    { intros ->. cbn [repeat app] in Eg. destruct (Hgap eq_refl) as [-> | (r0 & ->)]; [reflexivity|]. exfalso. exact (past_blanks_head _ _ (eq_sym Eg)). }
    { now apply Hlow. }
    exists c1, [], (leaf_latex l), q. split; [exact Hs|]. split; [exact Ha|]. split; [cbn [ends_of map concat]; now rewrite app_nil_r|].
    split; [constructor|]. split; [cbn; qlia|]. rewrite Eq, past_blanks_repeat. clear. destruct (past_blanks_split rest) as (g & Eg). rewrite Eg at 2. now rewrite past_blanks_repeat.
  Qed.
  Lemma blocks_nil : P_blocks BNil.
  Proof.
    intros src base k S0 x r e st L prev c s seen p n rest Hok Hh HL Hp Hat Hn Hd Hx0 E Hr Hlow. exists prev, c, L, [], p.
    split; [apply steps_refl|]. split; [rewrite app_nil_r; exact Hat|]. split; [cbn; now rewrite app_nil_r|]. split; [exact HL|]. split; [qlia|exact E].
  Qed.
  (* a block after what is still open *)
  Lemma block_after b : P_block b -> forall src base k S0 x r e st L prev c s seen p n rest,
    block_ok b = true -> may_follow prev b = true -> home S0 x (base + k) -> Forall (deeper (base + k) prev) L -> (prev = TNone \/ prev = TText -> L = []) ->
    at_ src c (fstack L ++ S0 :: st) (fentries L ++ (x, r) :: e) s seen p n ->
    n + length L + opens b <= 9 -> depth b <= 8 -> (base = 0 \/ boxless b = true) ->
    past_blanks (skipn p src) = source k b ++ rest -> head_ok k rest -> (is_para b = false -> low k rest) -> (needs_gap b = true -> gap_head rest) ->
    outcome_at src base S0 st ((x, r) :: e) c s seen rest 0 (deeper (base + k) (tag_of b)) (left_open b) (ends_of L ++ latex b).
  Proof.
    intros IHb src base k S0 x r e st L prev c s seen p n rest Hb Hm Hh HL Hp Hat Hn Hd Hx0 E Hr Hlow Hgap.
    destruct (first_line_any b k Hb) as (l0 & ls0 & El0 & Hl0).
    assert (Epb : past_blanks (source k b ++ rest) = source k b ++ rest) by (rewrite El0; cbn [app]; now apply past_blanks_cons).
    destruct (approach src base L S0 st ((fentries L ++ (x, r) :: e)) s seen c p n _ (Forall_impl _ (deeper_skippable (base + k) prev) HL) (home_skippable _ _ _ Hh) Hat ltac:(qlia) E Epb)
      as (c1 & p1 & Hs1 & Ha1 & E1).
    assert (G : exists c2, steps src base c1 c2 /\ at_ src c2 (S0 :: st) ((x, r) :: e) (s ++ ends_of L) seen p1 (n + length L)).
    { destruct L as [|f L].
      - exists c1. split; [apply steps_refl|]. cbn. rewrite app_nil_r. eapply at_weaken; [exact Ha1|qlia].
      - assert (Hq : is_quote b = false).
        { destruct (is_quote b) eqn:Q; [|reflexivity]. pose proof (Hp (may_follow_quote _ _ Hm Q)). discriminate. }
        destruct (block_starts src base b k p1 rest Hb Hq E1 Hr) as [He _].
        apply (unwind ord full src base p1 k (mark_of b) He (f :: L)); auto; try discriminate; [|qlia].
        eapply Forall_impl; [|exact HL]. intros. eapply deeper_ended; eauto. }
    destruct G as (c2 & Hs2 & Ha2).
    destruct (IHb src base k S0 x r e st c2 _ seen p1 (n + length L) rest Hb Hh Ha2 ltac:(qlia) ltac:(qlia) Hx0 E1 Hr Hlow Hgap) as (c3 & L3 & t3 & q3 & Hs3 & Ha3 & Et3 & HF3 & HL3 & Hpb3).
    exists c3, L3, (ends_of L ++ t3), q3. split; [eapply steps_trans; [|exact Hs3]; eapply steps_trans; eauto|].
    rewrite app_assoc. split; [exact Ha3|]. split; [now rewrite <- app_assoc, Et3|]. auto.
  Qed.
  Lemma blocks_cons b gap bs : P_block b -> P_blocks bs -> P_blocks (BCons b gap bs).
  Proof.
    intros IHb IH src base k S0 x r e st L prev c s seen p n rest Hok Hh HL Hp Hat Hn Hd Hx0 E Hr Hlow.
    cbn [blocks_ok] in Hok. apply andb_true_iff in Hok as [Hok Hbs]. apply andb_true_iff in Hok as [Hok Hg]. apply andb_true_iff in Hok as [Hm Hb].
    cbn [first_opens] in Hn. cbn [blocks_depth] in Hd. cbn [blocks_source] in E. rewrite <- !app_assoc in E.
    set (rest_b := repeat [] gap ++ blocks_source k bs ++ rest) in *.
    assert (Epb : past_blanks (source k b ++ rest_b) = source k b ++ rest_b).
    { destruct (first_line_any b k Hb) as (l0 & ls0 & El0 & Hl0). rewrite El0. cbn [app]. now apply past_blanks_cons. }
    change (past_blanks (skipn p src) = past_blanks (source k b ++ rest_b)) in E. rewrite Epb in E.
    assert (Hrb : head_ok k rest_b).
    { unfold rest_b. destruct gap as [|gap]; [|cbn; now left]. destruct bs; [|discriminate]. exact Hr. }
    assert (Hlb : is_para b = false -> low k rest_b).
    { intros Hnp. unfold rest_b, low. rewrite past_blanks_repeat. destruct bs as [|b2 gap2 bs2]; [exact Hlow|].
      cbn [blocks_ok] in Hbs. apply andb_true_iff in Hbs as [Hbs _]. apply andb_true_iff in Hbs as [Hbs _]. apply andb_true_iff in Hbs as [Hm2 Hb2].
      assert (Hq2 : is_quote b2 = false).
      { destruct (is_quote b2) eqn:Q; [|reflexivity]. destruct (may_follow_quote _ _ Hm2 Q) as [T|T]; destruct b; discriminate. }
      destruct (first_line b2 k Hb2 Hq2) as (l2 & ls2 & El2 & Hne2 & Hbl2 & Hi2). cbn [blocks_source]. rewrite El2. cbn [app].
      rewrite past_blanks_cons by exact Hne2. cbn. split; [exact Hbl2|qlia]. }
    assert (Hgb : needs_gap b = true -> gap_head rest_b).
    { intros Hng. rewrite Hng in Hg. cbn [negb] in Hg. rewrite andb_false_r in Hg. apply Nat.leb_le in Hg. unfold rest_b. destruct gap; [qlia|]. right. cbn [repeat app]. eauto. }
    assert (Hxb : base = 0 \/ boxless b = true) by (destruct Hx0 as [Hx0|Hx0]; [now left|right; cbn [blocks_boxless] in Hx0; now apply andb_true_iff in Hx0]).
    assert (Hxbs : base = 0 \/ blocks_boxless bs = true) by (destruct Hx0 as [Hx0|Hx0]; [now left|right; cbn [blocks_boxless] in Hx0; now apply andb_true_iff in Hx0]).
    destruct (block_after b IHb src base k S0 x r e st L prev c s seen p n rest_b Hb Hm Hh HL Hp Hat Hn ltac:(qlia) Hxb E Hrb Hlb Hgb) as (c3 & L3 & t3 & q3 & Hs3 & Ha3 & Et3 & HF3 & HL3 & Hpb3). pose proof (left_depth b) as Hld.
    destruct (IH src base k S0 x r e st L3 (tag_of b) c3 (s ++ t3) seen q3 0 rest Hbs Hh HF3) as (tag & c4 & L4 & t4 & q4 & Hs4 & Ha4 & Et4 & HF4 & HL4 & Hpb4); auto.
    { intros Ht. destruct b; cbn [tag_of left_open depth] in *; destruct Ht as [Ht|Ht]; try discriminate; destruct L3; auto; cbn in HL3; qlia. }
    { destruct bs as [|b2 gap2 bs2]; [cbn [first_opens]; qlia|]. cbn [first_opens]. cbn [blocks_ok] in Hbs.
      apply andb_true_iff in Hbs as [Hbs _]. apply andb_true_iff in Hbs as [Hbs _]. apply andb_true_iff in Hbs as [Hm2 _].
      destruct (is_quote b2) eqn:Q.
      - destruct (may_follow_quote _ _ Hm2 Q) as [T|T]; destruct b; try discriminate; cbn [left_open depth] in HL3; destruct b2; cbn [opens]; try discriminate; qlia.
      - destruct b2; cbn [opens]; try discriminate; qlia. }
    { qlia. }
    { rewrite Hpb3. unfold rest_b. apply past_blanks_repeat. }
    exists tag, c4, L4, (t3 ++ t4), q4. split; [eapply steps_trans; eauto|].
    rewrite app_assoc. cbn [is_bnil].
    split; [eapply at_weaken; [exact Ha4|destruct (is_bnil bs); qlia]|]. cbn [blocks_latex]. split; [|split; [exact HF4|]; split; [|exact Hpb4]].
    - rewrite <- app_assoc, Et4, app_assoc, Et3, <- app_assoc. reflexivity.
    - cbn [blocks_depth]. qlia.
  Qed.
  Lemma items_nil : P_items INil.
  Proof.
    intros src base k b e st L c s seen p n rest Hok Hb HL Hat Hn Hd Hx0 E Hr Hlow. exists c, L, [], p.
    split; [apply steps_refl|]. split; [rewrite app_nil_r; exact Hat|]. split; [cbn; now rewrite app_nil_r|]. split; [exact HL|]. split; [qlia|exact E].
  Qed.
  Lemma items_cons tx gap more its : P_blocks more -> P_items its -> P_items (ICons tx gap more its).
  Proof.
    intros IHm IH src base k b e st L c s seen p n rest Hok Hb HL Hat Hn Hd Hx0 E Hr Hlow.
    cbn [items_ok] in Hok. apply andb_true_iff in Hok as [Hok Hits]. apply andb_true_iff in Hok as [Hok Hmore]. apply andb_true_iff in Hok as [Hp Hg].
    cbn [items_depth] in Hd. cbn [items_source] in E. rewrite <- !app_assoc in E.
    set (rest_m := items_source k b its ++ rest) in *. set (rest_l := repeat [] gap ++ blocks_source (k + 2) more ++ rest_m) in *.
    destruct (para_ok_first _ Hp) as (l & mr & El & Hst & Hen).
    assert (El0 : item_lines k b (text_lines tx) ++ rest_l = pad k (b :: 32%N :: l) :: map (pad (k + 2)) mr ++ rest_l) by (rewrite El; reflexivity).
    assert (Hne : pad k (b :: 32%N :: l) <> []) by (unfold pad; destruct k; discriminate).
    assert (Epb : past_blanks (item_lines k b (text_lines tx) ++ rest_l) = item_lines k b (text_lines tx) ++ rest_l) by (rewrite El0; now apply past_blanks_cons).
    change (past_blanks (skipn p src) = past_blanks (item_lines k b (text_lines tx) ++ rest_l)) in E. rewrite Epb in E.
    destruct (approach src base L SBulletList st _ s seen c p n _ (Forall_impl _ (deeper_skippable (base + k) TNone) HL) ltac:(split; [exact I|]; eexists; reflexivity)
      Hat ltac:(qlia) E Epb) as (c1 & p1 & Hs1 & Ha1 & E1).
    assert (Hl1 : nth_error src p1 = Some (pad k (b :: 32%N :: l))) by (rewrite El0 in E1; now apply skipn_cons in E1).
    destruct (unwind ord full src base p1 k (MBullet b)) with (L := L) (c := c1) (st := SBulletList :: st) (e := (NBulletList b (base + k) (base + (k + 2)), @None (list str)) :: e) (s := s) (seen := seen) (n := n)
      as (c2 & Hs2 & Ha2); auto; try discriminate.
    { split; [eapply leaver_bullet|eapply list_line_bullet]; eauto. }
    { eapply Forall_impl; [|exact HL]. intros. now apply strict_ended. }
    assert (Hrm : head_ok (k + 2) rest_m /\ low (k + 2) rest_m).
    { unfold rest_m. destruct its as [|ls2 gap2 more2 its2]; [split; [exact Hr|exact Hlow]|].
      cbn [items_ok] in Hits. apply andb_true_iff in Hits as [Hits _]. apply andb_true_iff in Hits as [Hits _]. apply andb_true_iff in Hits as [Hp2 _].
      destruct (para_ok_first _ Hp2) as (l2 & mr2 & El2 & Hst2 & _). cbn [items_source]. rewrite El2. cbn [item_lines app].
      assert (B : bullet_line k b (pad k (b :: 32%N :: l2))) by (split; eauto).
      split.
      - cbn. right. exists k. split; [now apply (bullet_item k b)|qlia].
      - unfold low. rewrite past_blanks_cons by (unfold pad; destruct k; discriminate). split; [exact (bullet_line_blank _ _ _ B)|]. pose proof (bullet_line_indent _ _ _ B) as Q. apply Nat.eq_le_incl in Q. eapply Nat.le_trans; [exact Q|qlia]. }
    destruct Hrm as [Hrm1 Hrm2].
    assert (Hrl : head_ok (k + 2) rest_l).
    { unfold rest_l. destruct gap as [|gap]; [|cbn; now left]. destruct more; [|discriminate]. exact Hrm1. }
    destruct (step_item ord full src base c2 st e _ seen p1 (n + length L) b k tx rest_l Ha2 ltac:(qlia) Hb Hp Hrl E1) as (c3 & Hs3 & Ha3).
    apply skipn_past in E1.
    assert (Hxm : base = 0 \/ blocks_boxless more = true) by (destruct Hx0 as [Hx0|Hx0]; [now left|right; cbn [items_boxless] in Hx0; now apply andb_true_iff in Hx0]).
    assert (Hxi : base = 0 \/ items_boxless its = true) by (destruct Hx0 as [Hx0|Hx0]; [now left|right; cbn [items_boxless] in Hx0; now apply andb_true_iff in Hx0]).
    destruct (IHm src base (k + 2) SListItem (NBulletListItem b (base + k) (base + (k + 2))) None ((NBulletList b (base + k) (base + (k + 2)), None) :: e) (SBulletList :: st) [] TText c3 _ seen _ 0 rest_m Hmore
      (home_item _ _ _) (Forall_nil _) (fun _ => eq_refl) Ha3) as (tag & c4 & L4 & t4 & q4 & Hs4 & Ha4 & Et4 & HF4 & HL4 & Hpb4); auto.
    { destruct more as [|b2 ? ?]; cbn [first_opens length]; [qlia|]. destruct b2; cbn [opens]; qlia. }
    { qlia. }
    { rewrite E1. unfold rest_l. apply past_blanks_repeat. }
    set (item := (SListItem, NBulletListItem b (base + k) (base + (k + 2)))).
    destruct (IH src base k b e st (L4 ++ [item]) c4 ((s ++ ends_of L) ++ (lit "\item " ++ para_latex tx) ++ t4) seen q4 0 rest Hits Hb) as (c5 & L5 & t5 & q5 & Hs5 & Ha5 & Et5 & HF5 & HL5 & Hpb5); auto.
    { apply Forall_app. split; [eapply Forall_impl; [|exact HF4]; intros f; apply deeper_weaken; qlia|]. constructor; [|constructor]. cbn. qlia. }
    { rewrite fstack_app, fentries_app, <- !app_assoc. cbn [fstack fentries map fst snd app item]. rewrite <- !app_assoc in Ha4. cbn [fstack fentries map] in Ha4.
      eapply at_weaken; [exact Ha4|destruct (is_bnil more); qlia]. }
    { rewrite app_length. cbn [length] in *. qlia. }
    { qlia. }
    exists c5, L5, (ends_of L ++ (lit "\item " ++ para_latex tx) ++ t4 ++ t5), q5.
    split; [eapply steps_trans; [|exact Hs5]; eapply steps_trans; [|exact Hs4]; eapply steps_trans; [|exact Hs3]; eapply steps_trans; eauto|].
    cbn [is_inil]. split; [rewrite <- !app_assoc in Ha5; rewrite <- !app_assoc; eapply at_weaken; [exact Ha5|destruct (is_inil its); qlia]|].
    split; [|split; [exact HF5|]; split; [|exact Hpb5]].
    - cbn [items_latex]. rewrite <- !app_assoc. do 3 f_equal. rewrite Et5, ends_of_app. cbn [ends_of map concat end_of item snd app] in Et4 |- *. rewrite app_nil_r, app_assoc, Et4. reflexivity.
    - rewrite app_length in HL5. cbn [items_depth length] in *. qlia.
  Qed.
  (* ---------- field lists ---------- *)
  Definition P_fields (its : items) : Prop := forall src base k names e st L c s seen p n rest,
    items_ok its = true -> forallb field_name names = true -> length names = items_count its -> Forall (deeper (base + k) TNone) L ->
    at_ src c (fstack L ++ SFieldList :: st) (fentries L ++ (NFieldList (base + k), None) :: e) s seen p n ->
    n + length L <= 9 -> items_depth its <= 6 -> (base = 0 \/ items_boxless its = true) ->
    past_blanks (skipn p src) = past_blanks (fields_source k names its ++ rest) -> head_ok k rest -> low k rest ->
    outcome_at src base SFieldList st ((NFieldList (base + k), None) :: e) c s seen rest (if is_inil its then n else 0) (deeper (base + k) TNone)
      (Nat.max (length L) (1 + items_depth its)) (ends_of L ++ fields_latex names its).
  Lemma fields_nil : P_fields INil.
  Proof.
    intros src base k names e st L c s seen p n rest Hok Hf Hcn HL Hat Hn Hd Hx0 E Hr Hlow. exists c, L, [], p.
    split; [apply steps_refl|]. split; [rewrite app_nil_r; exact Hat|]. split; [cbn; now rewrite app_nil_r|]. split; [exact HL|]. split; [qlia|exact E].
  Qed.
  Lemma fields_cons tx gap more its : P_blocks more -> P_fields its -> P_fields (ICons tx gap more its).
  Proof.
    intros IHm IH src base k names e st L c s seen p n rest Hok Hnames Hcn HL Hat Hn Hd Hx0 E Hr Hlow.
    cbn [items_ok] in Hok. apply andb_true_iff in Hok as [Hok Hits]. apply andb_true_iff in Hok as [Hok Hmore]. apply andb_true_iff in Hok as [Hp Hg].
    destruct names as [|name names]; [discriminate|]. cbn [forallb] in Hnames. apply andb_true_iff in Hnames as [Hname Hnames]. cbn [length items_count] in Hcn. apply Nat.succ_inj in Hcn.
    cbn [items_depth] in Hd. cbn [fields_source hd tl] in E. cbv zeta in E. rewrite <- !app_assoc in E.
    set (m := field_marker name) in *. set (w := k + S (length m)) in *.
    set (rest_m := fields_source k names its ++ rest) in *. set (rest_l := repeat [] gap ++ blocks_source w more ++ rest_m) in *.
    destruct (para_ok_first _ Hp) as (l & mr & El & Hst & Hen).
    assert (El0 : numbered_lines k m (text_lines tx) ++ rest_l = pad k (m ++ 32%N :: l) :: map (pad w) mr ++ rest_l) by (rewrite El; reflexivity).
    assert (Hne : pad k (m ++ 32%N :: l) <> []) by (unfold pad; destruct k; discriminate).
    assert (Epb : past_blanks (numbered_lines k m (text_lines tx) ++ rest_l) = numbered_lines k m (text_lines tx) ++ rest_l) by (rewrite El0; now apply past_blanks_cons).
    change (past_blanks (skipn p src) = past_blanks (numbered_lines k m (text_lines tx) ++ rest_l)) in E. rewrite Epb in E.
    destruct (approach src base L SFieldList st _ s seen c p n _ (Forall_impl _ (deeper_skippable (base + k) TNone) HL) ltac:(split; [exact I|]; eexists; reflexivity)
      Hat ltac:(qlia) E Epb) as (c1 & p1 & Hs1 & Ha1 & E1).
    assert (Hl1 : nth_error src p1 = Some (pad k (m ++ 32%N :: l))) by (rewrite El0 in E1; now apply skipn_cons in E1).
    destruct (unwind ord full src base p1 k MField) with (L := L) (c := c1) (st := SFieldList :: st) (e := (NFieldList (base + k), @None (list str)) :: e) (s := s) (seen := seen) (n := n)
      as (c2 & Hs2 & Ha2); auto; try discriminate.
    { split; [eapply leaver_field|eapply list_line_field]; eauto. }
    { eapply Forall_impl; [|exact HL]. intros. now apply strict_ended. }
    assert (Hrm : head_ok (S k) rest_m /\ low k rest_m).
    { unfold rest_m. destruct its as [|ls2 gap2 more2 its2]; [split; [eapply head_ok_mono; [|exact Hr]; qlia|exact Hlow]|].
      cbn [items_ok] in Hits. apply andb_true_iff in Hits as [Hits _]. apply andb_true_iff in Hits as [Hits _]. apply andb_true_iff in Hits as [Hp2 _].
      destruct names as [|name2 names]; [discriminate|]. cbn [forallb] in Hnames. apply andb_true_iff in Hnames as [Hname2 _].
      destruct (para_ok_first _ Hp2) as (l2 & mr2 & El2 & Hst2 & _). cbn [fields_source hd tl]. cbv zeta. rewrite El2. cbn [numbered_lines app].
      pose proof (field_item k name2 l2 Hst2) as B.
      split.
      - cbn. right. exists k. split; [exact B|qlia].
      - unfold low. rewrite past_blanks_cons by (unfold pad; destruct k; discriminate). split; [apply fl_not_blank|]. apply Nat.eq_le_incl. apply fl_indent. }
    destruct Hrm as [Hrm1 Hrm2].
    assert (Hrl : head_ok (S k) rest_l).
    { unfold rest_l. destruct gap as [|gap]; [|cbn; now left]. destruct more; [|discriminate]. exact Hrm1. }
    destruct (step_field ord full src base c2 st e _ seen p1 (n + length L) k name tx rest_l Ha2 ltac:(qlia) Hname Hp Hrl E1) as (c3 & Hs3 & Ha3).
    fold m in Ha3. fold w in Ha3. apply skipn_past in E1.
    assert (Hxm : base = 0 \/ blocks_boxless more = true) by (destruct Hx0 as [Hx0|Hx0]; [now left|right; cbn [items_boxless] in Hx0; now apply andb_true_iff in Hx0]).
    assert (Hxi : base = 0 \/ items_boxless its = true) by (destruct Hx0 as [Hx0|Hx0]; [now left|right; cbn [items_boxless] in Hx0; now apply andb_true_iff in Hx0]).
    set (nd := field_node name (base + k) (base + w)) in *. set (pre := lit "\item \textbf{" ++ name ++ lit "}" ++ nl2) in *.
    assert (Hkw : S k <= w) by (unfold w; qlia).
    destruct (IHm src base w SListItem nd None ((NFieldList (base + k), None) :: e) (SFieldList :: st) [] TText c3 _ seen _ 0 rest_m Hmore
      (home_field _ _ _ _) (Forall_nil _) (fun _ => eq_refl) Ha3) as (tag & c4 & L4 & t4 & q4 & Hs4 & Ha4 & Et4 & HF4 & HL4 & Hpb4); auto.
    { destruct more as [|b2 ? ?]; cbn [first_opens length]; [qlia|]. destruct b2; cbn [opens]; qlia. }
    { qlia. }
    { rewrite E1. unfold rest_l. apply past_blanks_repeat. }
    { eapply head_ok_mono; [|exact Hrm1]. exact Hkw. } { eapply low_mono; [|exact Hrm2]. qlia. }
    set (item := (SListItem, nd)).
    destruct (IH src base k names e st (L4 ++ [item]) c4 ((s ++ ends_of L) ++ (pre ++ para_latex tx) ++ t4) seen q4 0 rest Hits Hnames Hcn) as (c5 & L5 & t5 & q5 & Hs5 & Ha5 & Et5 & HF5 & HL5 & Hpb5); auto.
    { apply Forall_app. split; [eapply Forall_impl; [|exact HF4]; intros f; apply deeper_weaken; qlia|]. constructor; [|constructor]. cbn. qlia. }
    { rewrite fstack_app, fentries_app, <- !app_assoc. cbn [fstack fentries map fst snd app item]. rewrite <- !app_assoc in Ha4. cbn [fstack fentries map] in Ha4.
      eapply at_weaken; [exact Ha4|destruct (is_bnil more); qlia]. }
    { rewrite app_length. cbn [length] in *. qlia. }
    { qlia. }
    exists c5, L5, (ends_of L ++ (pre ++ para_latex tx) ++ t4 ++ t5), q5.
    split; [eapply steps_trans; [|exact Hs5]; eapply steps_trans; [|exact Hs4]; eapply steps_trans; [|exact Hs3]; eapply steps_trans; eauto|].
    cbn [is_inil]. split; [rewrite <- !app_assoc in Ha5; rewrite <- !app_assoc; eapply at_weaken; [exact Ha5|destruct (is_inil its); qlia]|].
    split; [|split; [exact HF5|]; split; [|exact Hpb5]].
    - cbn [fields_latex hd tl]. assert (Ei : ends_of [item] = nl1) by reflexivity. cbn [ends_of map concat app] in Et4.
      rewrite <- !app_assoc. f_equal. unfold pre. rewrite <- !app_assoc. do 5 f_equal. rewrite Et5, ends_of_app, Ei. rewrite app_assoc, (app_assoc t4), Et4, <- app_assoc. reflexivity.
    - rewrite app_length in HL5. cbn [items_depth length] in *. qlia.
  Qed.
  Lemma block_fields names its : P_fields its -> P_block (Fields names its).
  Proof.
    intros IH src base k S0 x r e st c s seen p n rest Hok Hh Hat Hn Hd Hx0 E Hr Hlow Hgap. cbn [opens] in Hn. cbn [depth] in Hd.
    destruct (fields_shape _ _ Hok) as (Hne & Hi & Hnames & Hcn). destruct (fields_first names its k Hok) as (name & l & ls & Hname & Hst & Es).
    assert (Hl : nth_error src p = Some (pad k (field_marker name ++ 32%N :: l))) by (rewrite Es in E; cbn [app] in E; now apply skipn_cons in E).
    cbn [source] in E.
    destruct (step_fields ord full src base c S0 x k st r e s seen p n name l Hh Hat ltac:(qlia) Hl Hname Hst) as (c1 & Hs1 & Ha1).
    destruct (IH src base k names ((x, r) :: e) (S0 :: st) [] c1 _ seen p (n + 1) rest Hi Hnames Hcn (Forall_nil _) Ha1) as (c2 & L & t & q & Hs2 & Ha2 & Et & HF & HL & Hq).
    { cbn [length]. qlia. } { qlia. } { exact Hx0. } { now rewrite E. } { exact Hr. } { now apply Hlow. }
    exists c2, (L ++ [(SFieldList, NFieldList (base + k))]), ((lit "\begin{itemize}" ++ nl1) ++ t), q.
    split; [eapply steps_trans; eauto|]. rewrite fstack_app, fentries_app, ends_of_app, app_assoc. rewrite <- !app_assoc. cbn [fstack fentries map fst snd app].
    split. { destruct its; [discriminate|]. cbn [is_inil] in Ha2. rewrite <- app_assoc in Ha2. exact Ha2. }
    split. { cbn [latex]. rewrite <- ?app_assoc. f_equal. f_equal. rewrite (app_assoc t), Et, ends_one. reflexivity. }
    split. { apply Forall_app. split; [eapply Forall_impl; [|exact HF]; intros; now apply deeper_strict|]. constructor; [|constructor]. right. split; reflexivity. }
    split; [|exact Hq]. rewrite app_length. cbn [length left_open depth]. cbn [length] in HL. qlia.
  Qed.
  (* ---------- numbered lists ---------- *)
  Definition P_nitems (its : items) : Prop := forall src base k d auto first cnt nb e st L c s seen p n rest,
    items_ok its = true -> spaced its = true -> numbers_ok auto nb its = true -> nb = (cnt + first)%N -> (nb + count its <= usize_max)%N -> Forall (deeper (base + k) TNone) L ->
    at_ src c (fstack L ++ SEnumeratedList :: st) (fentries L ++ (NEnumeratedList d (kind_of auto) first cnt (base + k), None) :: e) s seen p n ->
    n + length L <= 9 -> items_depth its <= 6 -> items_boxless its = true ->
    past_blanks (skipn p src) = past_blanks (numbered_source k d auto nb its ++ rest) -> head_ok k rest -> low k rest ->
    outcome_at src base SEnumeratedList st ((NEnumeratedList d (kind_of auto) first (cnt + count its)%N (base + k), None) :: e) c s seen rest (if is_inil its then n else 0) (deeper (base + k) TNone)
      (Nat.max (length L) (1 + items_depth its)) (ends_of L ++ items_latex its).
  Lemma numbered_low d auto nb its k rest : items_ok its = true -> numbers_ok auto nb its = true -> low k rest -> low k (numbered_source k d auto nb its ++ rest).
  Proof.
    intros Hi Hns Hlow. destruct its as [|tx gap more its]; [exact Hlow|]. pose proof (numbered_number _ _ _ Hns eq_refl) as Hf. cbn [items_ok] in Hi. apply andb_true_iff in Hi as [Hi _]. apply andb_true_iff in Hi as [Hi _].
    apply andb_true_iff in Hi as [Hp _]. destruct (para_ok_first _ Hp) as (l & mr & El & Hst & _).
    cbn [numbered_source]. cbv zeta. rewrite El. cbn [numbered_lines app]. pose proof (nb_not_blank d auto nb k l Hf) as Hb.
    unfold low. rewrite past_blanks_cons by (intros Q; rewrite Q in Hb; discriminate). cbn. split; [exact Hb|]. apply Nat.eq_le_incl. now apply nb_indent.
  Qed.
  (* the lines of one item, with the empty lines after it *)
  Lemma read_number src p k m w l X rest : w = k + S (length m) -> skipn p src = pad k (m ++ 32%N :: l) :: map (shifted w) X ++ rest -> low_head k rest ->
    exists bf, read_indented_block src p false true (Some w) (Some w) false =
      Ret (Some (MkIndentedBlock (l :: X) w (length (l :: X)) bf)).
  Proof.
    intros Ew E Hr. apply skipn_cons in E as [Hl Hrest].
    destruct (block_loop k w rest Hr ltac:(qlia) X (Some (pad k (m ++ 32%N :: l))) w) as (bf & El). exists bf.
    unfold read_indented_block. destruct src as [|s0 src0] eqn:Es; [destruct p; discriminate|]. rewrite <- Es in *.
    unfold checked_sub. replace (p <=? length src) with true by (symmetry; apply Nat.leb_le, Nat.lt_le_incl, nth_error_Some; congruence).
    cbn [obind]. rewrite Hl. cbn [unwrap obind]. rewrite Hrest, El. cbn [obind unwrap strip_block].
    replace (skipn w (pad k (m ++ 32%N :: l))) with l.
    2:{ rewrite Ew. unfold pad. change (32%N :: l) with ([32%N] ++ l). rewrite (app_assoc m), (app_assoc (repeat _ _)). symmetry.
        replace (k + S (length m)) with (length (repeat 32%N k ++ m ++ [32%N])) by (rewrite !app_length, repeat_length; cbn [length]; qlia).
        rewrite skipn_app, skipn_all, Nat.sub_diag. reflexivity. }
    rewrite map_map, (map_ext _ (fun l => l)), map_id by (intros; apply shifted_skip).
    cbn [length]. reflexivity.
  Qed.
  Lemma nitems_nil : P_nitems INil.
  Proof.
    intros src base k d auto first cnt nb e st L c s seen p n rest Hok Hsp Hns Enb Hu HL Hat Hn Hd Hx0 E Hr Hlow. exists c, L, [], p.
    cbn [count]. rewrite N.add_0_r. split; [apply steps_refl|]. split; [rewrite app_nil_r; exact Hat|]. split; [cbn; now rewrite app_nil_r|]. split; [exact HL|]. split; [qlia|exact E].
  Qed.
  Lemma nitems_cons tx gap more its : P_blocks more -> P_nitems its -> P_nitems (ICons tx gap more its).
  Proof.
    intros IHm IH src base k d auto first cnt nb e st L c s seen p n rest Hok0 Hsp0 Hns Enb Hu HL Hat Hn Hd Hx0 E Hr Hlow. pose proof Hok0 as Hok. pose proof Hsp0 as Hsp.
    cbn [items_ok] in Hok. apply andb_true_iff in Hok as [Hok Hits]. apply andb_true_iff in Hok as [Hok Hmore]. apply andb_true_iff in Hok as [Hp Hg].
    cbn [items_boxless] in Hx0. apply andb_true_iff in Hx0 as [Hxm Hxi]. cbn [spaced] in Hsp. cbn [count] in Hu |- *. cbn [items_depth] in Hd.
    assert (Hsp' : spaced its = true) by (destruct its; [reflexivity|]; now apply andb_true_iff in Hsp as [_ Hsp]).
    cbn [numbers_ok] in Hns. apply andb_true_iff in Hns as [Hnb Hns]. assert (Hnu : (nb <= usize_max)%N) by qlia.
    set (m := enumerator d auto nb). set (w := k + S (length m)).
    destruct (para_ok_first _ Hp) as (l & mr & El & Hst & Hen).
    set (rest_m := numbered_source k d auto (N.succ nb) its ++ rest).
    assert (Hlm : low k rest_m) by now apply numbered_low.
    destruct (past_blanks_split rest_m) as (g & Eg).
    set (X := mr ++ repeat [] gap ++ blocks_source 0 more ++ repeat [] g).
    assert (Eline : numbered_source k d auto nb (ICons tx gap more its) ++ rest = pad k (m ++ 32%N :: l) :: map (shifted w) X ++ past_blanks rest_m).
    { cbn [numbered_source]. cbv zeta. rewrite El. cbn [numbered_lines app]. fold m. fold w. rewrite <- !app_assoc. fold rest_m. rewrite Eg at 1. f_equal.
      unfold X. rewrite !map_app, <- !app_assoc, <- !repeat_shift. f_equal.
      - pose proof (text_nonempty _ Hp) as Hne. rewrite El in Hne. apply Forall_cons_iff in Hne as [_ Hne]. rewrite <- (Nat.add_0_r w) at 1.
        rewrite map_shift by exact Hne. f_equal. rewrite <- (map_id mr) at 2. reflexivity.
      - f_equal. f_equal. eapply shift_to; eauto. }
    assert (Hne : pad k (m ++ 32%N :: l) <> []) by (apply pad_nonempty; destruct m; discriminate).
    rewrite Eline, past_blanks_cons in E by exact Hne.
    destruct (approach src base L SEnumeratedList st _ s seen c p n _ (Forall_impl _ (deeper_skippable (base + k) TNone) HL) ltac:(split; [exact I|]; eexists; reflexivity)
      Hat ltac:(qlia) E (past_blanks_cons _ _ Hne)) as (c1 & p1 & Hs1 & Ha1 & E1).
    assert (Hl1 : nth_error src p1 = Some (pad k (m ++ 32%N :: l))) by (now apply skipn_cons in E1).
    assert (Hfree : free_next src p1 k).
    { pose proof (eq_trans E1 (eq_sym Eline)) as E1'. destruct (numbered_first src p1 k d auto nb _ rest Hok0 eq_refl Hsp0 E1' Hr) as (? & _ & _ & Hfree). exact Hfree. }
    destruct (unwind ord full src base p1 k (MNumber d auto nb)) with (L := L) (c := c1) (st := SEnumeratedList :: st) (e := (NEnumeratedList d (kind_of auto) first cnt (base + k), @None (list str)) :: e) (s := s) (seen := seen) (n := n)
      as (c2 & Hs2 & Ha2); auto; try discriminate.
    { split; [eapply leaver_number|eapply list_line_number]; eauto. }
    { eapply Forall_impl; [|exact HL]. intros. now apply strict_ended. }
    (* the item *)
    pose proof (at_cur _ _ _ _ _ _ _ _ _ _ Ha2) as Hc2. pose proof (at_doc _ _ _ _ _ _ _ _ _ _ Ha2) as Hu2.
    destruct (find_list_number d auto nb k l Hst Hnb) as (cs & Hf & C1 & Cw & Ce).
    pose proof (under_update ord full _ _ _ _ _ _ (NEnumeratedList d (kind_of auto) first (cnt + 1)%N (base + k)) Hu2 eq_refl eq_refl eq_refl) as Hu3.
    set (d2 := set_focused_data (cf_doc c2) (NEnumeratedList d (kind_of auto) first (cnt + 1)%N (base + k))) in *.
    set (item := NEnumeratedListItem d (kind_of auto) nb (base + k) (base + w)).
    destruct (under_open ord full d2 _ (s ++ ends_of L) seen item (lit "\item ") Hu3) as (d3 & Ed & Hu4).
    { reflexivity. } { reflexivity. } { reflexivity. }
    { rewrite (under_data _ _ _ _ _ _ _ _ Hu3). reflexivity. }
    { reflexivity. }
    destruct (read_number src p1 k m w l X (past_blanks rest_m) eq_refl E1 Hlm) as (bf & Hread).
    set (inner_src := l :: X) in *. set (c0 := initial (cur_sum (cf_cur c2)) SListItem d3).
    set (e1 := (NEnumeratedList d (kind_of auto) first (cnt + 1)%N (base + k), @None (list str)) :: e).
    assert (Ha0 : at_ inner_src c0 [SListItem] ((item, None) :: e1) ((s ++ ends_of L) ++ lit "\item ") seen 0 0).
    { split; try reflexivity. exact Hu4. }
    assert (Hbody : blocks_ok TNone (BCons (Para tx) gap more) = true).
    { cbn [blocks_ok may_follow block_ok]. rewrite Hp. cbn [andb tag_of needs_gap negb]. rewrite Hmore, !andb_true_r. exact Hg. }
    destruct (blocks_cons (Para tx) gap more (block_para tx) IHm inner_src (base + w) 0 SListItem item None e1 [] [] TNone c0 ((s ++ ends_of L) ++ lit "\item ") seen 0 0 (repeat [] g) Hbody) as (tag & c4 & L4 & t4 & q4 & Hs4 & Ha4 & Et4 & HF4 & HL4 & Hpb4).
    { rewrite Nat.add_0_r. apply home_number. } { constructor. } { reflexivity. } { exact Ha0. } { cbn [length first_opens opens]. qlia. } { cbn [blocks_depth depth]. qlia. } { right. cbn [blocks_boxless boxless]. exact Hxm. }
    { cbn [skipn]. unfold inner_src, X. cbn [blocks_source source]. rewrite El. cbn [map app]. rewrite <- !app_assoc. f_equal. f_equal. f_equal. symmetry. rewrite <- (map_id mr) at 2. reflexivity. }
    { destruct g; cbn; auto. } { unfold low. rewrite <- (app_nil_r (repeat [] g)), past_blanks_repeat. exact I. }
    cbn [is_bnil] in Ha4. rewrite Nat.add_0_r in HF4.
    assert (Hpb5 : past_blanks (skipn q4 inner_src) = []) by (rewrite Hpb4, <- (app_nil_r (repeat [] g)); apply past_blanks_repeat).
    assert (HL4' : length L4 <= 6) by (cbn [length blocks_depth depth] in HL4; qlia).
    destruct (approach inner_src (base + w) L4 SListItem [] _ _ seen c4 q4 0 [] (Forall_impl _ (deeper_skippable (base + w) tag) HF4) ltac:(split; [exact I|]; eexists; reflexivity) Ha4 ltac:(qlia) Hpb5 eq_refl)
      as (c5 & q5 & Hs5 & Ha5 & Eq5).
    assert (Hrun : exists f0, forall f, f0 <= f -> parse table f inner_src (base + w) (cur_sum (cf_cur c2)) SListItem d3 = Ret (REOF (rev (fstack L4 ++ [SListItem])), cf_doc c5)).
    { unfold parse. fold c0. eapply run_steps; [eapply steps_trans; [exact Hs4|exact Hs5]|]. eapply run_end; [exact Ha5|qlia|]. now apply skipn_end. }
    destruct Hrun as (f0 & Hrun). pose proof (at_doc _ _ _ _ _ _ _ _ _ _ Ha5) as Hu5.
    assert (Hex : pexec (parse table f0) (list_enumerator src base cs) (cf_doc c2) (cf_cur c2) = Ret (TSuccess (Push (rev (fstack L4 ++ [SListItem]))) (Some (length inner_src)), cf_doc c5, cf_cur c2)).
    { unfold list_enumerator, get_doc. cbn [pbind pexec]. rewrite (under_data _ _ _ _ _ _ _ _ Hu2).
      rewrite (cap_len_ok _ _ _ _ _ _ _ C1), pad_length, (Nat.add_comm k). cbv zeta. unfold get_cursor. cbn [pbind pexec].
      rewrite Ce by (try (rewrite <- Enb); auto). cbn [lift pbind].
      replace (number_value auto (cnt + first) nb) with nb by (destruct auto; auto). replace (number_kind auto (list_kind_of (Some (kind_of auto)))) with (kind_of auto) by (destruct auto; reflexivity).
      rewrite free_is_item by (now rewrite Hc2). cbn [lift pbind negb].
      replace (delims_eqb d d) with true by (destruct d; reflexivity). replace (kind_eqb (kind_of auto) (kind_of auto)) with true by (destruct auto as [| |[|]|[|]]; reflexivity). rewrite Nat.eqb_refl.
      replace (nb =? cnt + first)%N with true by (symmetry; apply N.eqb_eq; exact Enb). cbn [andb].
      cbn [doc_op pbind pexec].
      replace (match_len cs + base) with (base + w).
      2:{ unfold match_len. rewrite Cw. fold m. unfold pad, w. rewrite !app_length, repeat_length. cbn [length]. qlia. }
      cbn [dop_exec]. unfold update_data. rewrite (under_data _ _ _ _ _ _ _ _ Hu2). cbn [count_item obind]. fold d2. cbn [pbind pexec].
      fold item. unfold Prog.pushed. cbn [pbind pexec]. rewrite Ed. cbn [obind pexec negb].
      unfold checked_sub. replace (base <=? base + w) with true by (symmetry; apply Nat.leb_le; qlia). cbn [lift pbind].
      replace (base + w - base) with w by qlia. rewrite Hc2, Hread. cbn [lift pbind pexec ib_lines ib_offset]. rewrite Hrun by qlia. cbn [obind pexec]. reflexivity. }
    destruct (step_transition ord full src base c2 SEnumeratedList st _ (s ++ ends_of L) seen p1 (n + length L) _ ENUMERATED_LIST_TRANSITIONS list_enumerator cs (Push (rev (fstack L4 ++ [SListItem]))) (Some (length inner_src))
      (fentries L4 ++ (item, None) :: e1) (((s ++ ends_of L) ++ lit "\item ") ++ t4) seen (cf_doc c5) (cf_cur c2) 0 (fstack L4 ++ SListItem :: SEnumeratedList :: st)
      Ha2 ltac:(qlia) Hl1 I eq_refl Hf) with (2 := Hu5) as (c6 & Hs6 & Ha6); auto.
    { exists f0. intros f Hf0. eapply exec_up; [exact Hex|exact Hf0]. }
    { rewrite rev_involutive, <- app_assoc. reflexivity. }
    { rewrite Hc2. unfold inner_src. cbn [length]. qlia. }
    rewrite Hc2 in Ha6.
    assert (Eq6 : skipn (p1 + length inner_src) src = past_blanks rest_m).
    { change (pad k (m ++ 32%N :: l) :: map (shifted w) X ++ past_blanks rest_m) with ((pad k (m ++ 32%N :: l) :: map (shifted w) X) ++ past_blanks rest_m) in E1.
      apply skipn_past in E1. cbn [length] in E1. rewrite map_length in E1. exact E1. }
    destruct (IH src base k d auto first (cnt + 1)%N (N.succ nb) e st (L4 ++ [(SListItem, item)]) c6 (((s ++ ends_of L) ++ lit "\item ") ++ t4) seen (p1 + length inner_src) 0 rest Hits Hsp' Hns) as (c7 & L7 & t7 & q7 & Hs7 & Ha7 & Et7 & HF7 & HL7 & Hpb7); auto.
    { qlia. } { qlia. }
    { apply Forall_app. split; [eapply Forall_impl; [|exact HF4]; intros f; apply deeper_weaken; qlia|]. constructor; [|constructor]. cbn. qlia. }
    { rewrite fstack_app, fentries_app, <- !app_assoc. cbn [fstack fentries map fst snd app]. rewrite <- !app_assoc in Ha6. exact Ha6. }
    { rewrite app_length. cbn [length]. qlia. }
    { qlia. }
    { rewrite Eq6. fold rest_m. clear -Eg. rewrite Eg at 2. now rewrite past_blanks_repeat. }
    replace (cnt + 1 + count its)%N with (cnt + N.succ (count its))%N in Ha7 by qlia.
    exists c7, L7, (ends_of L ++ lit "\item " ++ t4 ++ t7), q7.
    split; [eapply steps_trans; [|exact Hs7]; eapply steps_trans; [|exact Hs6]; eapply steps_trans; eauto|].
    cbn [is_inil]. split; [rewrite <- ?app_assoc in Ha7; rewrite <- ?app_assoc; eapply at_weaken; [exact Ha7|destruct (is_inil its); qlia]|].
    split; [|split; [exact HF7|]; split; [|exact Hpb7]].
    - cbn [items_latex]. rewrite <- !app_assoc. do 2 f_equal. rewrite Et7, ends_of_app. cbn [ends_of map concat end_of item snd app blocks_latex latex] in Et4 |- *.
      rewrite app_nil_r, app_assoc, Et4. symmetry. apply app_assoc.
    - rewrite app_length in HL7. cbn [items_depth length blocks_depth depth] in *. qlia.
  Qed.
  Lemma block_numbered d auto first its : P_nitems its -> P_block (Numbered d auto first its).
  Proof.
    intros IH src base k S0 x r e st c s seen p n rest Hok Hh Hat Hn Hd Hx0 E Hr Hlow Hgap. destruct (numbered_shape _ _ _ _ Hok) as (Hi & Hne & Hbl & Hsp & Hns & Ha & Hu). pose proof (numbered_number _ _ _ Hns Hne) as Hf.
    cbn [source] in E. cbn [opens] in Hn. cbn [depth] in Hd.
    destruct (numbered_first _ _ _ _ _ _ _ _ Hi Hne Hsp E Hr) as (l & Hl & Hst & Hfree).
    destruct (step_numbers ord full src base c S0 x k st r e s seen p n d auto first l Hh Hat ltac:(qlia) Hl Hst Hf Hfree Ha) as (c1 & Hs1 & Ha1).
    destruct (IH src base k d auto first 0%N first ((x, r) :: e) (S0 :: st) [] c1 _ seen p (n + 1) rest Hi Hsp Hns eq_refl Hu (Forall_nil _) Ha1) as (c2 & L & t & q & Hs2 & Ha2 & Et & HF & HL & Hq).
    { cbn [length]. qlia. } { qlia. } { exact Hbl. } { now rewrite E. } { exact Hr. } { now apply Hlow. }
    exists c2, (L ++ [(SEnumeratedList, NEnumeratedList d (kind_of auto) first (0 + count its)%N (base + k))]), ((lit "\begin{enumerate}" ++ nl1) ++ t), q.
    split; [eapply steps_trans; eauto|]. rewrite fstack_app, fentries_app, ends_of_app, app_assoc. rewrite <- !app_assoc. cbn [fstack fentries map fst snd app].
    split. { destruct its; [discriminate|]. cbn [is_inil] in Ha2. rewrite <- app_assoc in Ha2. exact Ha2. }
    split. { cbn [latex]. rewrite <- ?app_assoc. f_equal. f_equal. rewrite (app_assoc t), Et, ends_one. reflexivity. }
    split. { apply Forall_app. split; [eapply Forall_impl; [|exact HF]; intros; now apply deeper_strict|]. constructor; [|constructor]. cbn [deeper tag_of]. split; [qlia|]. right. split; [reflexivity|]. f_equal. qlia. }
    split; [|exact Hq]. rewrite app_length. cbn [length left_open depth]. cbn [length] in HL. qlia.
  Qed.
  (* ---------- boxes ---------- *)
  Lemma block_boxed bx bs : P_blocks bs -> P_block (Boxed bx bs).
  Proof.
    intros IH src base k S0 x r e st c s seen p n rest Hok Hh Hat Hn Hd Hx0 E Hr Hlow Hgap.
    cbn [block_ok] in Hok. cbn [opens] in Hn. cbn [depth] in Hd.
    apply andb_true_iff in Hok as [Hok Hbs]. apply andb_true_iff in Hok as [Hok Hne]. apply andb_true_iff in Hok as [Hbx Hal]. apply negb_true_iff in Hne.
    destruct Hx0 as [-> |Hx0]; [|discriminate]. cbn [Nat.add] in *.
    destruct (inside_first _ Hne Hbs) as (b & gap & bs' & Ebs & Hb & Hq).
    assert (Hpr : proper (blocks_source 0 bs)).
    { subst bs. cbn [blocks_source]. destruct (first_line b 0 Hb Hq) as (l0 & ls0 & El0 & _ & Hl0 & Hi0). rewrite El0. cbn [app]. exists l0. eexists. split; [reflexivity|]. split; [exact Hl0|exact Hi0]. }
    assert (Esrc : source k (Boxed bx bs) = directive_source k (box_name bx) (box_argument bx) (box_settings bx) (blocks_source 0 bs)).
    { cbn [source]. unfold directive_source. f_equal. rewrite map_app. f_equal.
      - rewrite !map_map. apply map_ext. reflexivity.
      - rewrite (shift_to bs TQuote (k + 3) Hbs). destruct (blocks_source 0 bs) eqn:Q; [now apply proper_nonempty in Hpr|]. reflexivity. }
    rewrite Esrc in E.
    assert (Hop : first_opens bs <= 1) by (subst bs; cbn [first_opens]; destruct b; cbn [opens]; try discriminate Hq; qlia).
    destruct (nested_alone bx) eqn:Hna.
    - destruct bx as [name opts|?|?|?|?|?]; try discriminate. cbn [box_name box_argument box_settings] in E.
      cbn [nested_alone negb orb] in Hal.
      assert (Hstd : one_of name standard_names = true) by (unfold box_ok in Hbx; now apply andb_true_iff in Hbx as [_ Hbx]).
      destruct (parser_standard _ Hstd) as (v & Hpar & Hdis & Hv & Hdn).
      pose proof (at_cur _ _ _ _ _ _ _ _ _ _ Hat) as Hc. pose proof (at_doc _ _ _ _ _ _ _ _ _ _ Hat) as Hu.
      destruct (past_blanks_split rest) as (g & Eg). rewrite Eg in E.
      assert (Hl : nth_error src p = Some (pad k (marker_line name []))) by (unfold directive_source in E; cbn [app] in E; now apply skipn_cons in E).
      assert (Ho : forallb setting_ok opts = true) by (unfold box_ok in Hbx; apply andb_true_iff in Hbx as [Hbx _]; now apply andb_true_iff in Hbx as [_ Hbx]).
      destruct (home_table _ _ _ Hh) as (tbl & Htb & Hbt).
      destruct (directive_by_indent src 0 p k name [] tbl Hl Hbt Hdn eq_refl) as (cs & Hf & Hx).
      match type of Hx with context [MkMarker ?a ?b ?c] => set (m := MkMarker a b c) in Hx end.
      assert (Hm : m_body m = k + 3).
      { unfold m. cbn [m_body]. rewrite (body_indent_below src p k _ _ _ _ _ E Ho); [reflexivity|right; exact Hpr|right; now apply proper_nonempty]. }
      set (bx := Standard name opts) in *.
      pose proof (box_home bx v (k + 3)) as Hbh. pose proof (box_end bx v (k + 3) Hbx (fun _ => conj Hv Hdis)) as Hbe.
      set (fr := box_frame bx v (k + 3)) in *.
      destruct (nested_box_run ord full Hord src 0 name opts k _ g (past_blanks rest) p m v (cf_doc c) (cf_cur c) x S0 r e s seen Hbx Hpr (Hlow eq_refl) E Hpar Hv Hdis Hm eq_refl eq_refl Hh Hu Hc)
        as (q0 & d1 & Hu1 & Hrunbox & Hq0 & Erest). fold bx fr in Hu1.
      set (X := leading opts ++ blocks_source 0 bs ++ repeat [] g) in *. set (c0 := initial (cur_sum (cur_add (cf_cur c) q0)) SAdmonition d1).
      assert (HX0 : X <> []) by (unfold X; destruct opts; [discriminate|]; cbn [leading app]; destruct (blocks_source 0 bs) eqn:Q; [now apply proper_nonempty in Hpr|discriminate]).
      assert (HX : past_blanks (skipn 0 X) = past_blanks (blocks_source 0 bs ++ repeat [] g)) by (unfold X; destruct opts; reflexivity).
      assert (Ha0 : at_ X c0 [SAdmonition] ((snd fr, None) :: (x, r) :: e) (s ++ box_pre bx) seen 0 0).
      { split; try reflexivity; [|exact Hu1]. destruct X; [congruence|reflexivity]. }
      destruct (IH X (k + 3) 0 SAdmonition (snd fr) None ((x, r) :: e) [] [] TQuote c0 (s ++ box_pre bx) seen 0 0 (repeat [] g) Hbs) as (tag & c4 & L4 & t4 & q4 & Hs4 & Ha4 & Et4 & HF4 & HL4 & Hpb4).
      { rewrite Nat.add_0_r. exact Hbh. } { constructor. } { reflexivity. } { exact Ha0. } { cbn [length]. qlia. } { qlia. } { right. exact Hal. }
      { exact HX. } { destruct g; cbn; auto. } { unfold low. rewrite <- (app_nil_r (repeat [] g)), past_blanks_repeat. exact I. }
      rewrite Hne in Ha4. rewrite Nat.add_0_r in HF4.
      assert (Hpb5 : past_blanks (skipn q4 X) = []) by (rewrite Hpb4, <- (app_nil_r (repeat [] g)); apply past_blanks_repeat).
      destruct (approach X (k + 3) L4 SAdmonition [] _ _ seen c4 q4 0 [] (Forall_impl _ (deeper_skippable (k + 3) tag) HF4) ltac:(split; [exact I|]; eexists; reflexivity) Ha4 ltac:(qlia) Hpb5 eq_refl)
        as (c5 & q5 & Hs5 & Ha5 & Eq5).
      assert (Hrun : exists f0, forall f, f0 <= f -> parse table f X (k + 3) (cur_sum (cur_add (cf_cur c) q0)) SAdmonition d1 = Ret (REOF (rev (fstack L4 ++ [SAdmonition])), cf_doc c5)).
      { unfold parse. fold c0. eapply run_steps; [eapply steps_trans; [exact Hs4|exact Hs5]|]. eapply run_end; [exact Ha5|qlia|]. now apply skipn_end. }
      destruct Hrun as (f0 & Hrun). pose proof (at_doc _ _ _ _ _ _ _ _ _ _ Ha5) as Hu5.
      assert (Hex : pexec (parse table f0) (directive src 0 cs) (cf_doc c) (cf_cur c) = Ret (TSuccess (Push (rev (fstack L4 ++ [SAdmonition]))) (Some (length X)), cf_doc c5, cur_add (cf_cur c) q0)).
      { rewrite (Hx (parse table f0) (cf_doc c) (cf_cur c) x k Hc (under_data _ _ _ _ _ _ _ _ Hu) (home_indent _ _ _ Hh)). cbn [Nat.add]. rewrite match_same, Hrunbox. cbn [pexec].
        rewrite Hrun by qlia. reflexivity. }
      assert (Hoff : cur_offset (cur_add (cf_cur c) q0) = p + q0) by (clear -Hc; destruct (cf_cur c); cbn in *; lia).
      destruct (step_transition ord full src 0 c S0 st ((x, r) :: e) s seen p n _ tbl directive cs (Push (rev (fstack L4 ++ [SAdmonition]))) (Some (length X))
        (fentries L4 ++ (snd fr, None) :: (x, r) :: e) ((s ++ box_pre bx) ++ t4) seen (cf_doc c5) (cur_add (cf_cur c) q0) 0 (fstack L4 ++ SAdmonition :: S0 :: st)
        Hat ltac:(qlia) Hl (home_live _ _ _ Hh) Htb Hf) with (2 := Hu5) as (c6 & Hs6 & Ha6); auto.
      { exists f0. intros f Hf0. eapply exec_up; [exact Hex|exact Hf0]. }
      { rewrite rev_involutive, <- app_assoc. reflexivity. }
      { rewrite Hoff. qlia. }
      rewrite Hoff in Ha6.
      exists c6, (L4 ++ [fr]), (box_pre bx ++ t4), (p + q0 + length X).
      split; [exact Hs6|]. rewrite fstack_app, fentries_app, ends_of_app, app_assoc. rewrite <- !app_assoc. cbn [fstack fentries map app].
      split. { rewrite <- !app_assoc in Ha6. exact Ha6. }
      split. { cbn [latex]. rewrite box_latex_eq. f_equal. cbn [ends_of map concat app] in Et4. rewrite (app_assoc t4), Et4, ends_one, Hbe. reflexivity. }
      split. { apply Forall_app. split; [eapply Forall_impl; [|exact HF4]; intros f; apply deeper_weaken; qlia|]. constructor; [|constructor]. cbn. qlia. }
      split; [rewrite app_length; cbn [length left_open depth]; cbn [length] in HL4; qlia|]. rewrite Erest. clear. destruct (past_blanks_split rest) as (g & Eg). rewrite Eg at 2. now rewrite past_blanks_repeat.
    - destruct (step_open_box ord full Hord src 0 bx c S0 x k st r e s seen p n _ rest AdmNote Hna Hbx Hpr Hh Hat ltac:(qlia) E) as (c1 & q1 & g1 & Hs1 & Ha1 & E1).
      pose proof (box_home bx AdmNote (k + 3)) as Hbh. pose proof (box_end bx AdmNote (k + 3) Hbx ltac:(congruence)) as Hbe.
      set (fr := box_frame bx AdmNote (k + 3)) in *.
      destruct (IH src 0 (k + 3) (fst fr) (snd fr) None ((x, r) :: e) (S0 :: st) [] TQuote c1 _ seen q1 0 rest Hbs Hbh (Forall_nil _)
        (fun _ => eq_refl) Ha1) as (tag & c2 & L & t & q & Hs2 & Ha2 & Et & HF & HL & Hpb).
      { cbn [length]. qlia. } { qlia. } { now left. } { rewrite E1, past_blanks_repeat. now rewrite (shift_to bs TQuote (k + 3) Hbs). }
      { eapply head_ok_mono; [|exact Hr]. qlia. } { eapply low_mono; [|now apply Hlow]. qlia. }
      exists c2, (L ++ [fr]), (box_pre bx ++ t), q.
      split; [eapply steps_trans; eauto|]. rewrite fstack_app, fentries_app, ends_of_app, app_assoc. rewrite <- !app_assoc. cbn [fstack fentries map app].
      split. { destruct bs; [discriminate|]. cbn [is_bnil] in Ha2. rewrite <- app_assoc in Ha2. replace (refs_of (snd fr)) with (@None (list str)) by (unfold fr; destruct bx; reflexivity). exact Ha2. }
      split. { cbn [latex]. rewrite box_latex_eq. f_equal. rewrite (app_assoc t), Et, ends_one, Hbe. reflexivity. }
      split. { apply Forall_app. split; [eapply Forall_impl; [|exact HF]; intros f; apply deeper_weaken; qlia|]. constructor; [|constructor]. unfold fr. destruct bx; cbn; qlia. }
      split; [|exact Hpb]. rewrite app_length. cbn [length left_open depth]. cbn [length] in HL. qlia.
  Qed.
  (* ---------- footnotes and citations ---------- *)
  Lemma entry_indent src base k p m tx gap more rest : block_ok (Entry m tx gap more) = true -> (base = 0 \/ boxless (Entry m tx gap more) = true) ->
    skipn p src = source k (Entry m tx gap more) ++ rest -> low k rest ->
    exists w, marker_body_indent src p (k + base) (k + S (length (note_marker m)) + base) = base + (k + w) /\ 3 <= w /\
      (w = 3 \/ more = BNil /\ length (text_lines tx) <= 1).
  Proof.
    intros Hok Hx0 E Hlow. destruct (entry_shape _ _ _ _ Hok) as (Hm & Hp & Hg & Hmore).
    destruct (para_ok_lines _ Hp) as [_ Hls]. destruct (para_ok_first _ Hp) as (l & mr & El & Hst & _). rewrite El in Hls.
    cbn [source] in E. rewrite El in E. cbn [entry_lines] in E. rewrite <- !app_assoc in E. cbn [app] in E. apply skipn_cons in E as [_ E].
    unfold marker_body_indent, indent_on_subsequent_lines. rewrite E. rewrite El. cbn [boxless] in Hx0. rewrite El in Hx0. cbn [length] in Hx0.
    destruct mr as [|l2 mr].
    - cbn [map app]. destruct more as [|b2 gap2 bs2].
      + cbn [blocks_source app]. rewrite first_indent_past, past_blanks_repeat.
        exists (S (length (note_marker m))). split; [|split; [unfold note_marker; rewrite !app_length; cbn [length lit]; change (length (lit ".. [")) with 4; qlia|right; split; [reflexivity|cbn; qlia]]].
        unfold low in Hlow. destruct (past_blanks rest) as [|r rs]; [cbn [first_indent_of]; qlia|]. cbn in Hlow. destruct Hlow as [Hb Hi]. cbn [first_indent_of]. rewrite Hb.
        replace (k + base <? indent_of r) with false by (symmetry; apply Nat.ltb_ge; qlia). qlia.
      + destruct Hx0 as [-> |Hx0]; [|discriminate]. exists 3. split; [|split; [qlia|now left]].
        destruct (inside_first (BCons b2 gap2 bs2) eq_refl Hmore) as (b & g' & bs' & Eb & Hb & Hq). injection Eb as -> -> ->.
        destruct (first_line b (k + 3) Hb Hq) as (l2 & ls2 & El2 & Hne & Hbl & Hi). cbn [blocks_source]. rewrite El2. cbn [app].
        rewrite first_indent_past, past_blanks_repeat, past_blanks_cons by exact Hne. cbn [first_indent_of]. rewrite Hbl, Hi.
        replace (k + 0 <? k + 3) with true by (symmetry; apply Nat.ltb_lt; qlia). reflexivity.
    - destruct Hx0 as [-> |Hx0]; [|apply andb_true_iff in Hx0 as [_ Hx0]; discriminate]. exists 3. split; [|split; [qlia|now left]].
      apply Forall_cons_iff in Hls as [_ Hls]. apply Forall_cons_iff in Hls as [[Hm' _] _]. cbn [map app first_indent_of].
      rewrite pad_not_blank, pad_indent by exact Hm'. replace (k + 0 <? k + 3) with true by (symmetry; apply Nat.ltb_lt; qlia). reflexivity.
  Qed.
  Lemma note_home m i : home (note_state m) (note_node m i) i. Proof. destruct m; constructor. Qed.
  Lemma block_entry m tx gap more : P_blocks more -> P_block (Entry m tx gap more).
  Proof.
    intros IH src base k S0 x r e st c s seen p n rest Hok Hh Hat Hn Hd Hx0 E Hr Hlow Hgap.
    destruct (entry_shape _ _ _ _ Hok) as (Hm & Hp & Hg & Hmore). cbn [opens] in Hn. cbn [depth] in Hd.
    destruct (entry_indent src base k p m tx gap more rest Hok Hx0 E (Hlow eq_refl)) as (w & Hbody & Hw3 & Hw).
    cbn [source] in E. rewrite <- !app_assoc in E.
    assert (Em : blocks_source (k + 3) more = blocks_source (k + w) more) by (destruct Hw as [-> |[-> _]]; reflexivity). rewrite Em in E.
    set (rest_l := repeat [] gap ++ blocks_source (k + w) more ++ rest) in *.
    assert (Hrw : head_ok (k + w) rest) by (eapply head_ok_mono; [|exact Hr]; qlia).
    assert (Hrl : head_ok (k + w) rest_l).
    { unfold rest_l. destruct gap as [|gap]; [|cbn; now left]. destruct Hg as [-> |Hg]; [exact Hrw|qlia]. }
    destruct (step_note ord full src base c S0 x k st r e s seen p n m tx rest_l w Hh Hat ltac:(qlia) Hm Hp E Hbody Hw3) as (c1 & Hs1 & Ha1).
    { destruct Hw as [-> |[_ Hw]]; [now right|now left]. } { exact Hrl. }
    apply skipn_past in E.
    assert (Hlen : length (entry_lines k m (text_lines tx)) = length (text_lines tx)) by (destruct (text_lines tx); [reflexivity|]; cbn [entry_lines length]; now rewrite map_length).
    rewrite Hlen in E.
    set (fr := (note_state m, note_node m (base + (k + w)))).
    destruct (IH src base (k + w) (note_state m) (note_node m (base + (k + w))) (refs_of (note_node m (base + (k + w)))) ((x, r) :: e) (S0 :: st) [] TQuote c1 _ seen _ 0 rest Hmore
      (note_home m _) (Forall_nil _) (fun _ => eq_refl) Ha1) as (tag & c2 & L & t & q & Hs2 & Ha2 & Et & HF & HL & Hpb).
    { cbn [length]. destruct (is_bnil more) eqn:Hb; [destruct more; [cbn; qlia|discriminate]|]. destruct (inside_first _ Hb Hmore) as (b & ? & ? & -> & _ & Hq).
      cbn [first_opens]. destruct b; cbn [opens]; try discriminate Hq; qlia. }
    { qlia. }
    { destruct Hx0 as [Hx0|Hx0]; [now left|right]. cbn [boxless] in Hx0. apply andb_true_iff in Hx0 as [Hx0 _]. now destruct more. }
    { rewrite E. unfold rest_l. apply past_blanks_repeat. }
    { exact Hrw. } { eapply low_mono; [|now apply Hlow]. qlia. }
    exists c2, (L ++ [fr]), ((note_begin m ++ para_latex tx) ++ t), q.
    split; [eapply steps_trans; eauto|]. rewrite fstack_app, fentries_app, ends_of_app, app_assoc. rewrite <- !app_assoc. cbn [fstack fentries map app].
    split. { eapply at_weaken; [rewrite <- ?app_assoc in Ha2; exact Ha2|destruct (is_bnil more); qlia]. }
    split. { cbn [latex]. do 2 f_equal. cbn [ends_of map concat app] in Et. rewrite (app_assoc t), Et, ends_one. f_equal. unfold fr. destruct m; reflexivity. }
    split. { apply Forall_app. split; [eapply Forall_impl; [|exact HF]; intros f; apply deeper_weaken; qlia|]. constructor; [|constructor]. unfold fr. destruct m; cbn; qlia. }
    split; [|exact Hpb]. rewrite app_length. cbn [length left_open depth]. cbn [length] in HL. qlia.
  Qed.
  (* ---------- figures ---------- *)
  Lemma block_figure uri opts tx gap more : P_blocks more -> P_block (Figure uri opts tx gap more).
  Proof.
    intros IH src base k S0 x r e st c s seen p n rest Hok Hh Hat Hn Hd Hx0 E Hr Hlow Hgap.
    destruct (figure_shape _ _ _ _ _ Hok) as (Ha & Hu & Ho & Hp & Hg & Hmore). cbn [opens] in Hn. cbn [depth] in Hd.
    assert (base = 0) as -> by (destruct Hx0 as [Hx0|Hx0]; [exact Hx0|discriminate]). cbn [Nat.add] in Hh.
    set (rest_l := repeat [] gap ++ blocks_source (k + 3) more ++ rest) in *.
    assert (Hrw : head_ok (k + 3) rest) by (eapply head_ok_mono; [|exact Hr]; qlia).
    assert (Hrl : head_ok (k + 3) rest_l).
    { unfold rest_l. destruct gap as [|gap]; [|cbn; now left]. destruct Hg as [-> |Hg]; [exact Hrw|qlia]. }
    assert (E' : skipn p src = directive_source k (lit "figure") uri opts (text_lines tx) ++ rest_l).
    { rewrite E. cbn [source]. rewrite figure_lines by exact Hp. unfold rest_l. rewrite <- !app_assoc. reflexivity. }
    destruct (step_figure ord full src uri opts tx c S0 x k st r e s seen p n rest_l Ha Hu Ho Hp Hh Hat ltac:(qlia) E' Hrl) as (c1 & q1 & Hs1 & Ha1 & E1).
    destruct (IH src 0 (k + 3) SFigure (figure_node opts (k + 3)) None ((x, r) :: e) (S0 :: st) [] TQuote c1 _ seen _ 0 rest Hmore
      (home_figure _ _ _ _ _) (Forall_nil _) (fun _ => eq_refl) Ha1) as (tag & c2 & L & t & q & Hs2 & Ha2 & Et & HF & HL & Hpb).
    { cbn [length]. destruct (is_bnil more) eqn:Hb; [destruct more; [cbn; qlia|discriminate]|]. destruct (inside_first _ Hb Hmore) as (b & ? & ? & -> & _ & Hq).
      cbn [first_opens]. destruct b; cbn [opens]; try discriminate Hq; qlia. }
    { qlia. } { now left. } { rewrite E1. unfold rest_l. apply past_blanks_repeat. } { exact Hrw. } { eapply low_mono; [|now apply Hlow]. qlia. }
    exists c2, (L ++ [(SFigure, figure_node opts (k + 3))]), ((figure_begin uri opts ++ caption_latex tx) ++ t), q.
    split; [eapply steps_trans; eauto|]. rewrite fstack_app, fentries_app, ends_of_app, app_assoc. rewrite <- !app_assoc. cbn [fstack fentries map app].
    split. { eapply at_weaken; [rewrite <- ?app_assoc in Ha2; exact Ha2|destruct (is_bnil more); qlia]. }
    split. { cbn [latex]. do 2 f_equal. cbn [ends_of map concat app] in Et. rewrite (app_assoc t), Et, ends_one. f_equal. apply figure_ends. }
    split. { apply Forall_app. split; [eapply Forall_impl; [|exact HF]; intros f; apply deeper_weaken; qlia|]. constructor; [|constructor]. cbn. qlia. }
    split; [|exact Hpb]. rewrite app_length. cbn [length left_open depth]. cbn [length] in HL. qlia.
  Qed.
  (* ---------- questionnaires ---------- *)
  Lemma block_quiz q : P_block (Quiz q).
  Proof.
    intros src base k S0 x r e st c s seen p n rest Hok Hh Hat Hn Hd Hx0 E Hr Hlow Hgap. cbn [block_ok] in Hok. cbn [opens] in Hn. cbn [source] in E.
    assert (base = 0) as -> by (destruct Hx0 as [Hx0|Hx0]; [exact Hx0|discriminate]). cbn [Nat.add] in Hh.
    destruct (step_quiz ord full src q c S0 x k st r e s seen p n rest Hok Hh Hat ltac:(qlia) E) as (c1 & q1 & Hs1 & Ha1 & E1).
    { apply head_para_ends. eapply head_ok_mono; [|exact Hr]. qlia. }
    { pose proof (Hlow eq_refl) as Hl. unfold low in Hl. destruct (past_blanks rest) as [|l ls]; [exact I|]. cbn in Hl. destruct Hl as [Hb Hi]. split; [exact Hb|qlia]. }
    exists c1, [(SAplusQuestionnaire, quiz_node (k + 3) q (all_points (q_parts q)))], (quiz_begin q ++ flat_map (fun x => part_latex (fst x)) (q_parts q)), q1.
    split; [exact Hs1|]. split; [exact Ha1|]. split; [|split; [|split; [cbn; qlia|exact E1]]].
    - cbn [latex]. unfold quiz_latex. rewrite ends_one, <- app_assoc. reflexivity.
    - constructor; [|constructor]. cbn. qlia.
  Qed.
  (* ---------- list tables ---------- *)
  Lemma past_blanks_twice ls : past_blanks (past_blanks ls) = past_blanks ls.
  Proof. induction ls as [|[|ch l] ls IH]; [reflexivity|exact IH|reflexivity]. Qed.
  Lemma block_table t : P_block (Tabular t).
  Proof.
    intros src base k S0 x r e st c s seen p n rest Hok Hh Hat Hn Hd Hx0 E Hr Hlow Hgap. cbn [block_ok] in Hok. cbn [opens] in Hn. cbn [source] in E.
    assert (base = 0) as -> by (destruct Hx0 as [Hx0|Hx0]; [exact Hx0|discriminate]). cbn [Nat.add] in Hh.
    destruct (step_table ord full src t c S0 x k st r e s seen p n rest Hok Hh Hat ltac:(qlia) E (Hlow eq_refl)) as (c1 & q1 & Hs1 & Ha1 & E1).
    exists c1, [(SListTable, table_node t (k + 3) (Some (even_widths (columns t))))], (table_begin t ++ table_rows t), q1.
    split; [exact Hs1|]. split; [exact Ha1|]. split; [|split; [|split; [cbn; qlia|rewrite E1; apply past_blanks_twice]]].
    - cbn [latex]. unfold table_latex. rewrite ends_one, <- app_assoc. reflexivity.
    - constructor; [|constructor]. cbn. qlia.
  Qed.
  Theorem nested : (forall b, P_block b) /\ (forall bs, P_blocks bs) /\ (forall its, P_items its /\ P_nitems its /\ P_fields its).
  Proof.
    apply simple_mut; auto using block_para, block_quote, block_cited, block_remark, block_leaf, block_boxed, block_entry, block_figure, block_quiz, block_table, blocks_nil, blocks_cons.
    - intros b its (H & _). now apply block_bullets.
    - intros d auto first its (_ & H & _). now apply block_numbered.
    - intros names its (_ & _ & H). now apply block_fields.
    - split; [apply items_nil|]. split; [apply nitems_nil|apply fields_nil].
    - intros tx gap more Hm its (H1 & H2 & H3). split; [now apply items_cons|]. split; [now apply nitems_cons|now apply fields_cons].
  Qed.
End Nested.
