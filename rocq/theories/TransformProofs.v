(* TransformProofs.v -- proofs about the transforms (C41, C42). *)
From Verif Require Import Base Common NodeTypes Tree DocTree Transforms TransformSpec Spec TreeProofs.

Lemma obind_inv {A B} (m : outcome A) (f : A -> outcome B) b : obind m f = Ret b -> exists a, m = Ret a /\ f a = Ret b.
Proof. destruct m; cbn; [intro H; eauto|discriminate|discriminate]. Qed.
Lemma ret_eq {A} (a b : A) : Ret a = Ret b -> a = b.
Proof. congruence. Qed.
Lemma omap_ok {A B} (f : A -> outcome B) l : forall l', omap f l = Ret l' <-> Forall2 (fun a b => f a = Ret b) l l'.
Proof.
  induction l as [|x t IH]; intro l'; cbn [omap].
  - split; intro H; [apply ret_eq in H; subst; constructor|inversion H; reflexivity].
  - split; intro H.
    + apply obind_inv in H as [y [E H]]. apply obind_inv in H as [ys [E2 H]]. apply ret_eq in H. subst.
      constructor; [exact E|apply IH; exact E2].
    + inversion H as [|? y ? ys E F]; subst. rewrite E. cbn [obind]. apply IH in F. rewrite F. reflexivity.
Qed.
Lemma omap_ext {A B} (f g : A -> outcome B) l : (forall x, In x l -> f x = g x) -> omap f l = omap g l.
Proof.
  induction l as [|x t IH]; intro H; [reflexivity|]. cbn [omap]. rewrite (H x) by (left; reflexivity).
  rewrite IH by (intros; apply H; right; assumption). reflexivity.
Qed.
Definition max_height (cs : list TreeNode) : nat := fold_right (fun c m => Nat.max (height c) m) 0 cs.
Lemma height_kids n : height n = S (match node_children n with Some cs => max_height cs | None => 0 end).
Proof. apply height_unfold. Qed.
Lemma height_data n d : height (with_data n d) = height n.
Proof. destruct n as [i r k e [cs|]]; reflexivity. Qed.
Lemma height_set n cs : height (with_children n (Some cs)) = S (max_height cs).
Proof. destruct n; reflexivity. Qed.
Lemma max_height_le cs m : max_height cs <= m <-> Forall (fun c => height c <= m) cs.
Proof.
  induction cs as [|c t IH]; cbn; [split; [constructor|lia]|]. fold (max_height t). split.
  - intro H. constructor; [lia|apply IH; lia].
  - intro H. inversion H as [|? ? A B]; subst. apply IH in B. lia.
Qed.
Lemma max_height_in cs c : In c cs -> height c <= max_height cs.
Proof. apply height_child. Qed.
Lemma mark_height cells : max_height (mark_entries cells) = max_height cells.
Proof.
  induction cells as [|c [|c2 t] IH]; [reflexivity|cbn; rewrite height_data; reflexivity|].
  change (mark_entries (c :: c2 :: t)) with (with_data c (NEntry false) :: mark_entries (c2 :: t)).
  cbn [max_height fold_right] in *. fold (max_height (mark_entries (c2 :: t))). rewrite height_data. rewrite IH. reflexivity.
Qed.
Lemma append_ok p cs new m : node_children p = Some cs -> node_append_children p new = Ret m ->
  m = with_children p (Some (cs ++ new)).
Proof.
  unfold node_append_children. intros C H. apply obind_inv in H as [[|] [_ H]]; [|discriminate]. rewrite C in H.
  apply ret_eq in H. auto.
Qed.
(* rows are allowed to have entries *)
Lemma mark_allowed cells : all_allowed KTRow (mark_entries cells) = Ret true.
Proof.
  induction cells as [|c [|c2 t] IH]; [reflexivity|destruct c; reflexivity|].
  change (mark_entries (c :: c2 :: t)) with (with_data c (NEntry false) :: mark_entries (c2 :: t)).
  cbn [all_allowed]. destruct c. exact IH.
Qed.

(* what an item becomes *)
Lemma item_cases item : 
  (exists b i t nested rest cells bi ii ti, node_data item = NBulletListItem b i t /\ node_children item = Some (nested :: rest) /\
     node_data nested = NBulletList bi ii ti /\ node_children nested = Some cells /\ cells <> [] /\
     transform_item item = Ret (with_children (with_data item NTRow) (Some (mark_entries cells)))) \/
  transform_item item = Panic \/
  (exists b i t, node_data item = NBulletListItem b i t /\ transform_item item = Ret (with_data item NTRow) /\
     (forall nested rest, node_children item = Some (nested :: rest) -> node_kind nested <> KBulletList)) \/
  (transform_item item = Ret item /\ node_kind item <> KBulletListItem).
Proof.
  unfold transform_item, node_kind. destruct (node_data item) eqn:D; try (right; right; right; split; [reflexivity|discriminate]).
  assert (E : node_children (with_data item NTRow) = node_children item) by (destruct item; reflexivity). rewrite E.
  destruct (node_children item) as [[|nested rest]|] eqn:C;
    [right; right; left; exists bullet, bullet_indent, text_indent; repeat split; discriminate| |
     right; right; left; exists bullet, bullet_indent, text_indent; repeat split; discriminate].
  assert (Other : kind (node_data nested) <> KBulletList -> forall x y, Some (nested :: rest) = Some (x :: y) -> kind (node_data x) <> KBulletList)
    by (intros; assert (nested = x) by congruence; subst; assumption).
  destruct (node_data nested) eqn:DN;
    try (right; right; left; exists bullet, bullet_indent, text_indent; repeat split; apply Other; discriminate).
  destruct (node_children nested) as [cells|] eqn:CN; [|right; left; reflexivity].
  destruct cells as [|c cells]; [right; left; reflexivity|]. left.
  exists bullet, bullet_indent, text_indent, nested, rest, (c :: cells), bullet0, bullet_indent0, text_indent0.
  repeat split; try assumption; [discriminate|]. cbn [checked_sub length Nat.leb obind].
  unfold node_append_children. replace (node_kind (with_children (with_data item NTRow) (Some []))) with KTRow by (destruct item; reflexivity).
  rewrite mark_allowed. cbn [obind]. destruct item. reflexivity.
Qed.
Lemma item_height item m : transform_item item = Ret m -> height m <= height item.
Proof.
  intro H. destruct (item_cases item) as [X|[X|[X|[X _]]]].
  - destruct X as (b & i & t & nested & rest & cells & bi & ii & ti & D & C & DN & CN & _ & E). rewrite E in H.
    apply ret_eq in H. subst m. rewrite height_set, mark_height, (height_kids item), C. cbn [max_height fold_right].
    rewrite (height_kids nested), CN. lia.
  - rewrite X in H. discriminate.
  - destruct X as (b & i & t & D & E & _). rewrite E in H. apply ret_eq in H. subst m. rewrite height_data. lia.
  - rewrite X in H. apply ret_eq in H. subst. lia.
Qed.
Lemma here_height n m : transform_here n = Ret m -> height m <= height n.
Proof.
  unfold transform_here. destruct (node_data n); destruct (node_children n) as [cs|] eqn:C;
    try (intro H; apply ret_eq in H; subst; lia).
  - destruct cs as [|a [|b rest]]; try (intro H; apply ret_eq in H; subst; lia).
    destruct (node_data b); try (intro H; apply ret_eq in H; subst; lia).
    intro H; apply ret_eq in H; subst. rewrite height_set, (height_kids n), C. cbn [max_height fold_right]. rewrite height_data. lia.
  - destruct cs as [|l rest]; try (intro H; apply ret_eq in H; subst; lia).
    destruct (node_data l) eqn:DL; try (intro H; apply ret_eq in H; subst; lia).
    assert (E : node_children (with_data l NTBody) = node_children l) by (destruct l; reflexivity). rewrite E.
    destruct (node_children l) as [items|] eqn:CL.
    + intro H. apply obind_inv in H as [rows [R H]]. apply ret_eq in H. subst m.
      rewrite height_set, (height_kids n), C. cbn [max_height fold_right]. rewrite height_set, (height_kids l), CL.
      assert (max_height rows <= max_height items); [|fold (max_height rest); lia].
      apply omap_ok in R. apply max_height_le, Forall_forall. intros x Hx. clear - R Hx.
      induction R as [|it row its rws E1 _ IH]; [contradiction|]. cbn [max_height fold_right]. fold (max_height its).
      destruct Hx as [<-|Hx]; [apply item_height in E1; lia|specialize (IH Hx); lia].
    + intro H; apply ret_eq in H; subst m. rewrite height_set, (height_kids n), C. cbn [max_height fold_right]. rewrite height_data. lia.
Qed.
Lemma transform_fuel f : forall g n, height n <= f -> height n <= g -> transform f n = transform g n.
Proof.
  induction f as [|f IH]; intros g n F G; [rewrite height_kids in F; lia|].
  destruct g as [|g]; [rewrite height_kids in G; lia|]. cbn [transform].
  destruct (transform_here n) as [m| |] eqn:E; try reflexivity. cbn [obind]. apply here_height in E.
  destruct (node_children m) as [cs|] eqn:C; [|reflexivity]. rewrite (omap_ext (transform f) (transform g)); [reflexivity|].
  intros c I. rewrite height_kids, C in E. apply max_height_in in I. apply IH; lia.
Qed.
(* the fuel is enough *)
Lemma item_no_fuel item : transform_item item <> OutOfFuel.
Proof.
  destruct (item_cases item) as [X|[X|[X|[X _]]]].
  - destruct X as (b & i & t & nested & rest & cells & bi & ii & ti & D & C & DN & CN & _ & E). rewrite E. discriminate.
  - rewrite X. discriminate.
  - destruct X as (b & i & t & D & E & _). rewrite E. discriminate.
  - rewrite X. discriminate.
Qed.
Lemma omap_no_fuel {A B} (f : A -> outcome B) l : (forall x, In x l -> f x <> OutOfFuel) -> omap f l <> OutOfFuel.
Proof.
  induction l as [|x t IH]; intros H; [discriminate|]. cbn [omap]. pose proof (H x (or_introl eq_refl)).
  destruct (f x); [|discriminate|contradiction]. cbn [obind]. specialize (IH (fun y I => H y (or_intror I))).
  destruct (omap f t); [discriminate|discriminate|contradiction].
Qed.
Lemma here_no_fuel n : transform_here n <> OutOfFuel.
Proof.
  unfold transform_here. destruct (node_data n); destruct (node_children n) as [[|a [|b l]]|]; try discriminate;
    try (destruct (node_data b); discriminate); destruct (node_data a); try discriminate;
    destruct (node_children (with_data a NTBody)) as [items|]; try discriminate;
    pose proof (omap_no_fuel transform_item items (fun x _ => item_no_fuel x)) as X;
    destruct (omap transform_item items); try discriminate; contradiction.
Qed.
Lemma transform_enough f : forall n, height n <= f -> transform f n <> OutOfFuel.
Proof.
  induction f as [|f IH]; intros n F; [rewrite height_kids in F; lia|]. cbn [transform].
  pose proof (here_no_fuel n). destruct (transform_here n) as [m| |] eqn:E; [|discriminate|contradiction]. cbn [obind].
  apply here_height in E. destruct (node_children m) as [cs|] eqn:C; [|discriminate].
  pose proof (omap_no_fuel (transform f) cs) as X. destruct (omap (transform f) cs); [discriminate|discriminate|].
  exfalso. apply X; [|reflexivity]. intros c I. apply IH. rewrite height_kids, C in E. apply max_height_in in I. lia.
Qed.
(* one level of the recursion, without fuel *)
Lemma transform_node_eq n : transform_node n =
  (let! m := transform_here n in
   match node_children m with
   | Some cs => let! cs' := omap transform_node cs in Ret (with_children m (Some cs'))
   | None => Ret m
   end).
Proof.
  unfold transform_node at 1. destruct (height n) eqn:Hn; [rewrite height_kids in Hn; lia|]. cbn [transform].
  destruct (transform_here n) as [m| |] eqn:E; try reflexivity. cbn [obind]. apply here_height in E.
  destruct (node_children m) as [cs|] eqn:C; [|reflexivity]. rewrite (omap_ext (transform n0) transform_node); [reflexivity|].
  intros c I. apply transform_fuel; [|lia]. rewrite height_kids, C in E. apply max_height_in in I. lia.
Qed.

(* ---------- C42 ---------- *)
Lemma own_content_children n cs : own_content (with_children n cs) = own_content n.
Proof. destruct n; reflexivity. Qed.
Lemma children_with n cs : node_children (with_children n cs) = cs.
Proof. destruct n; reflexivity. Qed.
Lemma data_with_children n cs : node_data (with_children n cs) = node_data n.
Proof. destruct n; reflexivity. Qed.
Ltac ret := let H := fresh in intro H; apply ret_eq in H; subst; first [reflexivity | apply own_content_children].
Lemma here_own n m : transform_here n = Ret m -> own_content m = own_content n.
Proof.
  unfold transform_here. destruct (node_data n); destruct (node_children n) as [cs|]; try ret.
  - destruct cs as [|a [|b rest]]; try ret. destruct (node_data b); ret.
  - destruct cs as [|l rest]; try ret. destruct (node_data l); try ret.
    destruct (node_children (with_data l NTBody)); [|ret]. intro H. apply obind_inv in H as [rows [_ H]]. revert H. ret.
Qed.
Lemma transform_own n m : transform_node n = Ret m -> own_content m = own_content n.
Proof.
  rewrite transform_node_eq. intro H. apply obind_inv in H as [n1 [E H]]. apply here_own in E.
  destruct (node_children n1).
  - apply obind_inv in H as [cs' [_ H]]. apply ret_eq in H. subst m. rewrite own_content_children. exact E.
  - apply ret_eq in H. subst m. exact E.
Qed.
(* the second child of a figure becomes its caption *)
Definition with_caption (k : NodeKind) (cs : list TreeNode) : list TreeNode :=
  match k, cs with
  | KFigure, a :: b :: rest =>
      match node_data b with NParagraph indent => a :: with_data b (NCaption indent) :: rest | _ => cs end
  | _, _ => cs
  end.
Lemma here_nontable n : node_kind n <> KListTable ->
  exists m, transform_here n = Ret m /\ node_children m = option_map (with_caption (node_kind n)) (node_children n).
Proof.
  unfold node_kind, transform_here. intro K.
  destruct (node_data n); try (exfalso; apply K; reflexivity);
    destruct (node_children n) as [cs|] eqn:C; try (exists n; rewrite ?C; split; reflexivity).
  destruct cs as [|a [|b rest]]; try (exists n; rewrite ?C; split; reflexivity). cbn [option_map with_caption kind].
  destruct (node_data b); try (exists n; rewrite ?C; split; reflexivity).
  eexists. split; [reflexivity|]. destruct n; reflexivity.
Qed.
Lemma transform_caption b k indent m : node_data b = NParagraph k -> transform_node (with_data b (NCaption indent)) = Ret m ->
  exists m0, transform_node b = Ret m0 /\ m = with_data m0 (NCaption indent).
Proof.
  rewrite !transform_node_eq. unfold transform_here. intros D. rewrite D.
  destruct b as [i r c d cs]. cbn [node_data with_data] in *. subst d. cbn [obind node_children with_data].
  destruct cs as [cs|]; intro H.
  - apply obind_inv in H as [cs' [E H]]. rewrite E. cbn [obind]. apply ret_eq in H. subst. eexists. split; reflexivity.
  - apply ret_eq in H. subst. eexists. split; reflexivity.
Qed.
Lemma Forall2_nth {A B} (R : A -> B -> Prop) l l' : Forall2 R l l' -> forall i,
  match nth_error l i, nth_error l' i with Some a, Some b => R a b | None, None => True | _, _ => False end.
Proof. induction 1; intros [|i]; cbn; auto. apply IHForall2. Qed.
(* the node at an index below a node that is not a table *)
Definition becomes_caption (parent : TreeNode) (i : nat) (n : TreeNode) : option nat :=
  match node_kind parent, i, node_data n with
  | KFigure, 1, NParagraph k => Some k
  | _, _, _ => None
  end.
Lemma child_step n m i : node_kind n <> KListTable -> transform_node n = Ret m ->
  match node_at n [i], node_at m [i] with
  | Some c, Some c' =>
      match becomes_caption n i c with
      | Some k => exists c0, transform_node c = Ret c0 /\ c' = with_data c0 (NCaption k)
      | None => transform_node c = Ret c'
      end
  | None, None => True
  | _, _ => False
  end.
Proof.
  intros K H. rewrite transform_node_eq in H. destruct (here_nontable n K) as [m1 [E C]]. rewrite E in H. cbn [obind] in H.
  rewrite C in H. cbn [node_at]. destruct (node_children n) as [cs|] eqn:Cn; cbn [option_map] in H.
  - apply obind_inv in H as [cs' [O H]]. apply ret_eq in H. subst m. rewrite children_with.
    apply omap_ok in O. assert (X := Forall2_nth _ _ _ O i).
    assert (P : forall j, nth_error (with_caption (node_kind n) cs) j =
      match nth_error cs j with
      | Some c => Some (match becomes_caption n j c with Some k => with_data c (NCaption k) | None => c end)
      | None => None
      end).
    { clear. intro j. unfold with_caption, becomes_caption. destruct (node_kind n); try (destruct (nth_error cs j); reflexivity).
      destruct cs as [|a [|b rest]]; try (destruct j as [|[|j]]; reflexivity).
      destruct (node_data b) eqn:D; destruct j as [|[|j]]; cbn [nth_error]; rewrite ?D; try reflexivity;
        destruct (nth_error rest j); reflexivity. }
    rewrite P in X. destruct (nth_error cs i) as [c|], (nth_error cs' i) as [c'|]; try contradiction; [|exact I].
    destruct (becomes_caption n i c) eqn:B; [|exact X].
    eapply transform_caption; [|exact X]. revert B. unfold becomes_caption.
    destruct (node_kind n), i as [|[|i]], (node_data c); try discriminate. intros [= ->]. reflexivity.
  - apply ret_eq in H. subst m. rewrite C. exact I.
Qed.
Lemma node_at_snoc a b : forall n, node_at n (a ++ b) = match node_at n a with Some m => node_at m b | None => None end.
Proof.
  induction a as [|i a IH]; intro n; [reflexivity|]. cbn [app node_at].
  destruct (node_children n); [|reflexivity]. destruct (nth_error l i); [apply IH|reflexivity].
Qed.
Lemma transform_at root root' : transform_node root = Ret root' -> forall p, outside_tables root p ->
  match node_at root p, node_at root' p with
  | Some n, Some m =>
      (exists k n0, caption_at root p k /\ transform_node n = Ret n0 /\ m = with_data n0 (NCaption k)) \/
      ((forall k, ~ caption_at root p k) /\ transform_node n = Ret m)
  | None, None => True
  | _, _ => False
  end.
Proof.
  intros H p. induction p as [|i q IH] using rev_ind; intro O.
  - cbn [node_at]. right. split; [|exact H]. intros k (q & f & c & E & _). destruct q; discriminate.
  - assert (Oq : outside_tables root q).
    { intros a j r n E. apply (O a j (r ++ [i])). rewrite E, <- app_assoc. reflexivity. }
    specialize (IH Oq). rewrite !node_at_snoc. destruct (node_at root q) as [n|] eqn:En, (node_at root' q) as [m|] eqn:Em; try contradiction; [|exact I].
    assert (K : node_kind n <> KListTable) by exact (O q i [] n eq_refl En).
    assert (M : exists n0, transform_node n = Ret n0 /\ node_at m [i] = node_at n0 [i]).
    { destruct IH as [(k & n0 & _ & A & B)|[_ A]]; [|exists m; auto]. exists n0. split; [exact A|]. subst m. destruct n0; reflexivity. }
    destruct M as [n0 [A B]]. rewrite B. pose proof (child_step n n0 i K A) as C.
    destruct (node_at n [i]) as [c|] eqn:Ec, (node_at n0 [i]) as [c'|] eqn:Ec'; try contradiction; [|exact I].
    unfold becomes_caption in C.
    assert (At : node_at root (q ++ [i]) = Some c) by (rewrite node_at_snoc, En; exact Ec).
    assert (Cap : forall k, caption_at root (q ++ [i]) k <-> node_kind n = KFigure /\ i = 1 /\ node_data c = NParagraph k).
    { intro k. split.
      - intros (a & f & d & E & F1 & F2 & F3 & F4). apply app_inj_tail in E as [<- ->]. assert (f = n) by congruence.
        assert (d = c) by congruence. subst. auto.
      - intros (X & -> & Y). exists q, n, c. auto. }
    destruct (node_kind n) eqn:Kn; try (right; split; [intros k X; apply Cap in X as (X & _); discriminate|exact C]).
    destruct i as [|[|i]]; try (right; split; [intros k X; apply Cap in X as (_ & X & _); discriminate|exact C]).
    destruct (node_data c) eqn:Dc; try (right; split; [intros k X; apply Cap in X as (_ & _ & X); discriminate|exact C]).
    destruct C as [c0 [C1 C2]]. left. exists indent, c0. split; [apply Cap; auto|auto].
Qed.

(* ---------- C41 ---------- *)
Lemma omap_rows items rows : omap transform_item items = Ret rows -> Forall2 (fun it r => transform_item it = Ret r) items rows.
Proof. apply omap_ok. Qed.
Lemma mark_nth cells j c : nth_error cells j = Some c ->
  nth_error (mark_entries cells) j = Some (with_data c (NEntry (j =? length cells - 1))).
Proof.
  revert j. induction cells as [|x [|y t] IH]; intros j H; [destruct j; discriminate| |].
  - destruct j as [|[|j]]; [|discriminate|discriminate]. cbn in H. injection H as <-. reflexivity.
  - change (mark_entries (x :: y :: t)) with (with_data x (NEntry false) :: mark_entries (y :: t)).
    destruct j as [|j]; [injection H as <-; reflexivity|]. cbn [nth_error] in H. apply IH in H. cbn [nth_error]. rewrite H.
    do 3 f_equal. cbn [length]. destruct (Nat.eqb_spec j (S (length t) - 1)), (Nat.eqb_spec (S j) (S (S (length t)) - 1)); try reflexivity; lia.
Qed.
Lemma mark_length cells : length (mark_entries cells) = length cells.
Proof.
  induction cells as [|x [|y t] IH]; [reflexivity|reflexivity|].
  change (mark_entries (x :: y :: t)) with (with_data x (NEntry false) :: mark_entries (y :: t)). cbn [length]. rewrite IH. reflexivity.
Qed.
Lemma here_plain n : node_kind n <> KListTable -> node_kind n <> KFigure -> transform_here n = Ret n.
Proof. unfold node_kind, transform_here. intros A B. destruct (node_data n); try reflexivity; exfalso; first [apply A; reflexivity|apply B; reflexivity]. Qed.
Lemma transform_plain n m : node_kind n <> KListTable -> node_kind n <> KFigure -> transform_node n = Ret m ->
  own_content m = own_content n /\
  match node_children n, node_children m with
  | Some cs, Some cs' => Forall2 (fun c c' => transform_node c = Ret c') cs cs'
  | None, None => True
  | _, _ => False
  end.
Proof.
  intros A B H. split; [exact (transform_own _ _ H)|]. rewrite transform_node_eq, here_plain in H by assumption. cbn [obind] in H.
  destruct (node_children n) as [cs|] eqn:C.
  - apply obind_inv in H as [cs' [O H]]. apply ret_eq in H. subst m. rewrite children_with. apply omap_ok. exact O.
  - apply ret_eq in H. subst m. rewrite C. exact I.
Qed.

Lemma own_same a b : own_content a = own_content b -> same_names a b /\ node_data a = node_data b.
Proof. unfold own_content, same_names. intro H. injection H as ? ? ? ?. auto. Qed.
Lemma kind_list n : node_kind n = KBulletList -> exists a b c, node_data n = NBulletList a b c.
Proof. unfold node_kind. destruct (node_data n); try discriminate. eauto. Qed.
Lemma kind_item n : node_kind n = KBulletListItem -> exists a b c, node_data n = NBulletListItem a b c.
Proof. unfold node_kind. destruct (node_data n); try discriminate. eauto. Qed.
Lemma entry_of c b e : transform_node (with_data c (NEntry b)) = Ret e ->
  same_names e c /\ node_data e = NEntry b /\ transformed_children c e.
Proof.
  intro H. apply transform_plain in H as [O C]; [|destruct c; discriminate|destruct c; discriminate].
  apply own_same in O as [O D]. replace (node_children (with_data c (NEntry b))) with (node_children c) in C by (destruct c; reflexivity).
  split; [destruct c; exact O|]. split; [destruct c; exact D|exact C].
Qed.
Lemma row_spec item r row : transform_item item = Ret r -> transform_node r = Ret row -> row_of item row.
Proof.
  intros E T cells [K [nested [more [C [Kn Cn]]]]].
  destruct (item_cases item) as [X|[X|[X|[X Y]]]].
  - destruct X as (b & i & t & nested' & rest & cells' & bi & ii & ti & D & C' & DN & CN & _ & F).
    assert (nested' = nested) by congruence. subst nested'. assert (cells' = cells) by congruence. subst cells'.
    rewrite F in E. apply ret_eq in E. subst r.
    apply transform_plain in T as [O X]; [|destruct item; discriminate|destruct item; discriminate].
    rewrite children_with in X. apply own_same in O as [O Dr].
    split; [destruct item; exact O|]. split; [destruct item; exact Dr|].
    destruct (node_children row) as [entries|]; [|contradiction]. exists entries. split; [reflexivity|].
    split; [rewrite <- (mark_length cells); clear - X; induction X; cbn; congruence|].
    intros j c Hj. pose proof (Forall2_nth _ _ _ X j) as Z. rewrite (mark_nth _ _ _ Hj) in Z.
    destruct (nth_error entries j) as [e|]; [|contradiction]. exists e. split; [reflexivity|]. apply entry_of in Z. exact Z.
  - rewrite X in E. discriminate.
  - destruct X as (b & i & t & _ & _ & X). exfalso. exact (X _ _ C Kn).
  - contradiction.
Qed.
Lemma table_spec n m lst rest items : node_kind n = KListTable -> node_children n = Some (lst :: rest) ->
  node_kind lst = KBulletList -> node_children lst = Some items -> transform_node n = Ret m ->
  own_content m = own_content n /\
  exists body rest' rows, node_children m = Some (body :: rest') /\ Forall2 (fun c c' => transform_node c = Ret c') rest rest' /\
    same_names body lst /\ node_data body = NTBody /\ node_children body = Some rows /\ Forall2 row_of items rows.
Proof.
  intros K C Kl Cl T. split; [exact (transform_own _ _ T)|]. rewrite transform_node_eq in T. unfold transform_here in T.
  destruct (kind_list _ Kl) as (a & b & c & Dl). unfold node_kind in K. destruct (node_data n); try discriminate.
  rewrite C, Dl in T. replace (node_children (with_data lst NTBody)) with (node_children lst) in T by (destruct lst; reflexivity).
  rewrite Cl in T. apply obind_inv in T as [n1 [E T]]. apply obind_inv in E as [rows0 [R E]]. apply ret_eq in E. subst n1.
  rewrite children_with in T. apply obind_inv in T as [cs' [O T]]. apply ret_eq in T. subst m. rewrite children_with.
  apply omap_ok in O. inversion O as [|? body ? rest' Tb Tr E1 E2]; subst.
  apply transform_plain in Tb as [Ob Cb]; [|destruct lst; discriminate|destruct lst; discriminate].
  rewrite children_with in Cb. apply own_same in Ob as [Ob Db].
  destruct (node_children body) as [rows|] eqn:Crows; [|contradiction].
  exists body, rest', rows. split; [reflexivity|]. split; [exact Tr|]. split; [destruct lst; exact Ob|].
  split; [destruct lst; exact Db|]. split; [exact Crows|]. apply omap_rows in R. clear - R Cb.
  revert rows Cb. induction R as [|it r its rs E _ IH]; intros rows Cb; inversion Cb; subst; constructor.
  - eapply row_spec; eassumption.
  - apply IH. assumption.
Qed.

(* ---------- when the transforms succeed ---------- *)
Definition kids_of (n : TreeNode) : list TreeNode := match node_children n with Some l => l | None => [] end.
Lemma preorder_kids n : preorder n = n :: flat_map preorder (kids_of n).
Proof. destruct n as [i r k d [cs|]]; reflexivity. Qed.
Definition lists_ok (n : TreeNode) : Prop := Forall nonempty_list (preorder n).
Lemma lists_ok_iff n : lists_ok n <-> nonempty_list n /\ Forall lists_ok (kids_of n).
Proof.
  unfold lists_ok. rewrite preorder_kids. split.
  - intro H. inversion H; subst. split; [assumption|]. apply Forall_forall. intros c I. apply Forall_forall. intros x X.
    rewrite Forall_forall in H3. apply H3, in_flat_map. eauto.
  - intros [A B]. constructor; [exact A|]. apply Forall_forall. intros x X. apply in_flat_map in X as [c [I J]].
    rewrite Forall_forall in B. specialize (B c I). rewrite Forall_forall in B. auto.
Qed.
Lemma kids_data n d : kids_of (with_data n d) = kids_of n.
Proof. destruct n; reflexivity. Qed.
Lemma lists_ok_data n d : kind d <> KBulletList -> lists_ok n -> lists_ok (with_data n d).
Proof.
  intros K H. apply lists_ok_iff in H as [_ B]. apply lists_ok_iff. split; [|rewrite kids_data; exact B].
  intro X. exfalso. apply K. destruct n; exact X.
Qed.
Lemma lists_ok_mark cells : Forall lists_ok cells -> Forall lists_ok (mark_entries cells).
Proof.
  induction 1 as [|x l Hx Hl IH]; [constructor|]. destruct l as [|y t].
  - constructor; [apply lists_ok_data; [discriminate|exact Hx]|constructor].
  - change (mark_entries (x :: y :: t)) with (with_data x (NEntry false) :: mark_entries (y :: t)).
    constructor; [apply lists_ok_data; [discriminate|exact Hx]|exact IH].
Qed.
Lemma item_ok item : lists_ok item -> exists r, transform_item item = Ret r /\ lists_ok r.
Proof.
  intro H. apply lists_ok_iff in H as [A B]. destruct (item_cases item) as [X|[X|[X|[X Y]]]].
  - destruct X as (b & i & t & nested & rest & cells & bi & ii & ti & D & C & DN & CN & _ & F).
    eexists. split; [exact F|]. apply lists_ok_iff. split; [intro Z; destruct item; discriminate Z|].
    unfold kids_of in *. rewrite C in B. rewrite children_with. inversion B as [|? ? Bn _]; subst.
    apply lists_ok_iff in Bn as [_ Bn]. unfold kids_of in Bn. rewrite CN in Bn. apply lists_ok_mark. exact Bn.
  - exfalso. revert X. unfold transform_item. destruct (node_data item); try discriminate.
    replace (node_children (with_data item NTRow)) with (node_children item) by (destruct item; reflexivity).
    unfold kids_of in B. destruct (node_children item) as [[|nested rest]|] eqn:C; try discriminate.
    inversion B as [|? ? Bn _]; subst. apply lists_ok_iff in Bn as [Bn _].
    destruct (node_data nested) eqn:DN; try discriminate. destruct Bn as [c [cs Cn]]; [unfold node_kind; rewrite DN; reflexivity|].
    rewrite Cn. cbn [checked_sub length Nat.leb obind]. unfold node_append_children.
    replace (node_kind (with_children (with_data item NTRow) (Some []))) with KTRow by (destruct item; reflexivity).
    rewrite mark_allowed. cbn [obind]. rewrite children_with. discriminate.
  - destruct X as (b & i & t & _ & F & _). eexists. split; [exact F|]. apply lists_ok_data; [discriminate|].
    apply lists_ok_iff. auto.
  - exists item. split; [exact X|]. apply lists_ok_iff. auto.
Qed.
Lemma here_ok n : lists_ok n -> exists m, transform_here n = Ret m /\ Forall lists_ok (kids_of m).
Proof.
  intro H. apply lists_ok_iff in H as [_ B]. unfold transform_here, kids_of in *.
  assert (Same : exists m, @Ret TreeNode n = Ret m /\ Forall lists_ok match node_children m with Some l => l | None => [] end)
    by (exists n; auto).
  destruct (node_data n); destruct (node_children n) as [cs|] eqn:C; try exact Same.
  - destruct cs as [|a [|b rest]]; try exact Same. destruct (node_data b); try exact Same. eexists. split; [reflexivity|].
    rewrite children_with. inversion B as [|? ? ? B1]; subst. inversion B1; subst. constructor; [assumption|].
    constructor; [apply lists_ok_data; [discriminate|assumption]|assumption].
  - destruct cs as [|l rest]; try exact Same. destruct (node_data l); try exact Same.
    inversion B as [|? ? Bl Br]; subst. replace (node_children (with_data l NTBody)) with (node_children l) by (destruct l; reflexivity).
    destruct (node_children l) as [items|] eqn:Cl.
    + apply lists_ok_iff in Bl as [_ Bl]. unfold kids_of in Bl. rewrite Cl in Bl.
      assert (R : exists rows, omap transform_item items = Ret rows /\ Forall lists_ok rows).
      { clear - Bl. induction Bl as [|it its Hi _ [rows [IH1 IH2]]]; [exists []; split; [reflexivity|constructor]|].
        destruct (item_ok it Hi) as [r [E Or]]. exists (r :: rows). cbn [omap]. rewrite E, IH1. split; [reflexivity|constructor; assumption]. }
      destruct R as [rows [E Or]]. rewrite E. cbn [obind]. eexists. split; [reflexivity|]. rewrite children_with.
      constructor; [|exact Br]. apply lists_ok_iff. split; [intro Z; destruct l; discriminate Z|]. unfold kids_of. rewrite children_with. exact Or.
    + eexists. split; [reflexivity|]. rewrite children_with. constructor; [apply lists_ok_data; [discriminate|exact Bl]|exact Br].
Qed.
Lemma transform_ok n : lists_ok n -> exists m, transform_node n = Ret m.
Proof.
  remember (height n) as h eqn:Hh. assert (L : height n <= h) by lia. clear Hh. revert n L.
  induction h as [|h IH]; intros n L O; [rewrite height_kids in L; lia|]. rewrite transform_node_eq.
  destruct (here_ok n O) as [m [E F]]. rewrite E. cbn [obind]. apply here_height in E. unfold kids_of in F.
  destruct (node_children m) as [cs|] eqn:C; [|eexists; reflexivity].
  assert (R : exists cs', omap transform_node cs = Ret cs').
  { assert (Q : Forall (fun c => height c <= h) cs) by (apply max_height_le; rewrite height_kids, C in E; lia).
    clear - F Q IH. induction cs as [|c t IHt]; [eexists; reflexivity|]. inversion F; subst. inversion Q; subst.
    destruct (IH c) as [c' Ec]; [assumption|assumption|]. destruct IHt as [t' Et]; [assumption|assumption|].
    cbn [omap]. rewrite Ec, Et. eexists. reflexivity. }
  destruct R as [cs' R]. rewrite R. eexists. reflexivity.
Qed.
