(* ShiftProofs.v -- a block that is indented by more has its lines moved to the
   right (used for C47). *)
From Verif Require Import Base Unicode Common Converters NodeTypes Spec DirectiveSpec SimpleSpec LineProofs ParaProofs MarkerProofs LeafProofs.

Scheme block_mut := Induction for block Sort Prop
with blocks_mut := Induction for blocks Sort Prop
with items_mut := Induction for items Sort Prop.
Combined Scheme simple_mut from block_mut, blocks_mut, items_mut.

Lemma pad_pad a b l : pad (a + b) l = pad a (pad b l).
Proof. unfold pad. now rewrite repeat_app, app_assoc. Qed.
Lemma shifted_nonempty a l : l <> [] -> shifted a l = pad a l.
Proof. destruct l; [congruence|reflexivity]. Qed.
Lemma pad_nonempty k l : l <> [] -> pad k l <> [].
Proof. intros H E. unfold pad in E. apply app_eq_nil in E as [_ E]. auto. Qed.
Lemma pad_shift a k l : l <> [] -> pad (a + k) l = shifted a (pad k l).
Proof. intros H. rewrite pad_pad. symmetry. apply shifted_nonempty. now apply pad_nonempty. Qed.
Lemma shifted_shift a k l : shifted (a + k) l = shifted a (shifted k l).
Proof. destruct l as [|c l]; [reflexivity|]. change (shifted (a + k) (c :: l)) with (pad (a + k) (c :: l)). change (shifted k (c :: l)) with (pad k (c :: l)). now apply pad_shift. Qed.
Lemma starts_nonempty l : starts_text l = true -> l <> [].
Proof. intros H ->. discriminate. Qed.
Lemma map_shift a k ls : Forall (fun l => l <> []) ls -> map (pad (a + k)) ls = map (shifted a) (map (pad k) ls).
Proof. rewrite map_map. intros H. apply map_ext_in. intros l Hl. rewrite Forall_forall in H. apply pad_shift. auto. Qed.
Lemma repeat_shift a g : repeat (@nil char) g = map (shifted a) (repeat [] g).
Proof. induction g; [reflexivity|]. cbn [repeat map]. now f_equal. Qed.
Lemma text_nonempty t : para_ok t = true -> Forall (fun l => l <> []) (text_lines t).
Proof. intros H. apply para_ok_lines in H as [_ H]. eapply Forall_impl; [|exact H]. intros l [Hl _]. now apply starts_nonempty. Qed.

Lemma directive_shift a k name arg opts body : directive_source (a + k) name arg opts body = map (shifted a) (directive_source k name arg opts body).
Proof.
  unfold directive_source. cbn [map]. f_equal; [now apply pad_shift|]. rewrite map_map. apply map_ext. intros x. rewrite <- Nat.add_assoc. apply shifted_shift.
Qed.
Lemma parts_shift a k ps : parts_ok ps = true -> parts_source (a + k) ps = map (shifted a) (parts_source k ps).
Proof.
  induction ps as [|[x gap] ps IH]; intros H; [reflexivity|]. cbn [parts_ok] in H. apply andb_true_iff in H as [H H2]. apply andb_true_iff in H as [H _].
  unfold parts_source in *. cbn [flat_map fst snd]. rewrite !map_app, <- repeat_shift, <- IH by exact H2. f_equal. f_equal.
  destruct x as [t|q]; cbn [part_source]; [apply map_shift; now apply text_nonempty|apply directive_shift].
Qed.
Lemma quiz_shift a k q : quiz_ok q = true -> quiz_source (a + k) q = map (shifted a) (quiz_source k q).
Proof.
  intros H. unfold quiz_source. cbn [map]. f_equal; [now apply pad_shift|]. rewrite map_app. f_equal; [rewrite <- Nat.add_assoc; apply map_shift; rewrite Forall_map; now apply Forall_forall|].
  cbn [map]. f_equal. rewrite <- Nat.add_assoc. apply parts_shift. unfold quiz_ok in H. apply andb_true_iff in H as [H _]. apply andb_true_iff in H as [_ H].
  destruct (q_parts q); [discriminate|exact H].
Qed.
Definition shift_block (b : block) : Prop := forall a k, block_ok b = true -> source (a + k) b = map (shifted a) (source k b).
Definition shift_blocks (bs : blocks) : Prop := forall prev a k, blocks_ok prev bs = true -> blocks_source (a + k) bs = map (shifted a) (blocks_source k bs).
Definition shift_items (its : items) : Prop := forall a k, items_ok its = true ->
  (forall c, items_source (a + k) c its = map (shifted a) (items_source k c its)) /\
  (forall d auto n, numbered_source (a + k) d auto n its = map (shifted a) (numbered_source k d auto n its)) /\
  (forall names, fields_source (a + k) names its = map (shifted a) (fields_source k names its)).
Theorem shift : (forall b, shift_block b) /\ (forall bs, shift_blocks bs) /\ (forall its, shift_items its).
Proof.
  apply simple_mut.
  - intros t a k H. cbn [source]. apply map_shift. now apply text_nonempty.
  - intros c its IH a k H. cbn [source block_ok] in *. apply andb_true_iff in H as [_ H]. now apply IH.
  - intros d auto first its IH a k H. cbn [source block_ok] in *. do 5 apply andb_true_iff in H as [H _]. apply andb_true_iff in H as [_ H]. now apply IH.
  - intros names its IH a k H. cbn [source block_ok] in *. do 2 apply andb_true_iff in H as [H _]. apply andb_true_iff in H as [_ H]. now apply IH.
  - intros extra bs IH a k H. cbn [source block_ok] in *. apply andb_true_iff in H as [_ H]. rewrite <- Nat.add_assoc. eapply IH; eauto.
  - intros extra bs IH who hang more a k H. cbn [source block_ok] in *. do 2 apply andb_true_iff in H as [H _]. apply andb_true_iff in H as [H Hw]. apply andb_true_iff in H as [_ H].
    rewrite map_app, <- Nat.add_assoc. f_equal; [eapply IH; eauto|]. cbn [map shifted]. do 2 f_equal; [apply pad_shift; discriminate|].
    rewrite <- Nat.add_assoc. apply map_shift. cbn [forallb] in Hw. apply andb_true_iff in Hw as [_ Hw]. apply Forall_forall. intros y Hy Z. subst y.
    rewrite forallb_forall in Hw. specialize (Hw _ Hy). discriminate.
  - intros x bs IH a k H. cbn [source block_ok] in *. apply andb_true_iff in H as [_ H]. cbn [map]. f_equal; [now apply pad_shift|].
    rewrite map_app. f_equal; [rewrite <- Nat.add_assoc; apply map_shift; rewrite Forall_map; now apply Forall_forall|]. cbn [map]. f_equal. rewrite <- Nat.add_assoc. eapply IH; eauto.
  - intros m t gap more IHm a k H. cbn [block_ok source] in *. apply andb_true_iff in H as [H Hm]. apply andb_true_iff in H as [H _]. apply andb_true_iff in H as [_ Ht].
    pose proof (text_nonempty _ Ht) as Hne. rewrite !map_app, <- repeat_shift. f_equal; [|f_equal; rewrite <- Nat.add_assoc; eapply IHm; eauto].
    destruct (text_lines t) as [|l ls]; [reflexivity|]. apply Forall_cons_iff in Hne as [_ Hne]. cbn [entry_lines map]. f_equal; [apply pad_shift; discriminate|].
    rewrite <- Nat.add_assoc. now apply map_shift.
  - intros uri opts t gap more IHm a k H. cbn [block_ok source] in *. apply andb_true_iff in H as [H Hm]. apply andb_true_iff in H as [H _]. apply andb_true_iff in H as [_ Ht].
    pose proof (text_nonempty _ Ht) as Hne. cbn [map]. f_equal; [now apply pad_shift|]. rewrite map_app. f_equal; [rewrite <- Nat.add_assoc; apply map_shift; rewrite Forall_map; now apply Forall_forall|].
    cbn [map]. f_equal. rewrite !map_app, <- repeat_shift, <- Nat.add_assoc. f_equal; [now apply map_shift|]. f_equal. eapply IHm; eauto.
  - intros q a k H. cbn [source]. now apply quiz_shift.
  - intros t a k H. cbn [source]. apply directive_shift.
  - intros t a k H. cbn [source map]. f_equal. now apply pad_shift.
  - intros l a k H. cbn [source]. apply directive_shift.
  - intros prev a k H. reflexivity.
  - intros b IHb gap bs IH prev a k H. cbn [blocks_ok blocks_source] in *. apply andb_true_iff in H as [H H2]. apply andb_true_iff in H as [H _]. apply andb_true_iff in H as [_ H].
    rewrite !map_app, <- repeat_shift, IHb by exact H. erewrite IH by eauto. reflexivity.
  - intros a k H. split; [|split]; reflexivity.
  - intros t gap more IHm its IH a k H. cbn [items_ok items_source numbered_source fields_source] in *. apply andb_true_iff in H as [H H2]. apply andb_true_iff in H as [H Hm]. apply andb_true_iff in H as [Ht _].
    pose proof (text_nonempty _ Ht) as Hne. destruct (IH a k H2) as (I1 & I2 & I3). split; [|split].
    + intros c. rewrite !map_app, <- repeat_shift, I1. f_equal; [|f_equal; f_equal; rewrite <- Nat.add_assoc; eapply IHm; eauto].
      destruct (text_lines t) as [|l ls]; [reflexivity|]. apply Forall_cons_iff in Hne as [_ Hne]. cbn [item_lines map]. f_equal; [apply pad_shift; discriminate|].
      rewrite <- Nat.add_assoc. now apply map_shift.
    + intros d auto n. cbv zeta. rewrite !map_app, <- repeat_shift, I2. f_equal; [|f_equal; f_equal; rewrite <- Nat.add_assoc; eapply IHm; eauto].
      destruct (text_lines t) as [|l ls]; [reflexivity|]. apply Forall_cons_iff in Hne as [_ Hne]. cbn [numbered_lines map]. f_equal.
      * apply pad_shift. destruct (enumerator d auto n); discriminate.
      * rewrite <- Nat.add_assoc. now apply map_shift.
    + intros names. cbv zeta. rewrite !map_app, <- repeat_shift, I3. f_equal; [|f_equal; f_equal; rewrite <- Nat.add_assoc; eapply IHm; eauto].
      destruct (text_lines t) as [|l ls]; [reflexivity|]. apply Forall_cons_iff in Hne as [_ Hne]. cbn [numbered_lines map]. f_equal.
      * apply pad_shift. discriminate.
      * rewrite <- Nat.add_assoc. now apply map_shift.
Qed.
Corollary shift_to bs prev a : blocks_ok prev bs = true -> blocks_source a bs = map (shifted a) (blocks_source 0 bs).
Proof. intros H. rewrite <- (Nat.add_0_r a) at 1. now apply (proj1 (proj2 shift)) with (prev := prev). Qed.
