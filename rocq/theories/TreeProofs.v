(* TreeProofs.v -- the zipper denotes a document and a position in it *)
From Verif Require Import Base Common NodeTypes Tree Spec.

(* ---------- induction over nodes ---------- *)
Lemma node_ind' (P : TreeNode -> Prop) :
  (forall i r k d, P (Node i r k d None)) ->
  (forall i r k d cs, Forall P cs -> P (Node i r k d (Some cs))) ->
  forall n, P n.
Proof.
  intros H0 H1. fix IH 1. intros [i r k d [cs|]]; [|apply H0].
  apply H1. induction cs as [|c cs IHc]; constructor; [apply IH|exact IHc].
Qed.
Lemma zip_ind' (P : TreeZipper -> Prop) :
  (forall n i, P (Zip n None i)) -> (forall n p i, P p -> P (Zip n (Some p) i)) -> forall z, P z.
Proof. intros H0 H1. fix IH 1. intros [n [p|] i]; [apply H1, IH|apply H0]. Qed.

(* ---------- lists ---------- *)
Lemma set_nth_length {A} (l : list A) i x : length (set_nth l i x) = length l.
Proof. revert i. induction l as [|y l IH]; intros [|i]; cbn; auto. Qed.
Lemma nth_set_nth {A} (l : list A) i x : i < length l -> nth_error (set_nth l i x) i = Some x.
Proof. revert i. induction l as [|y l IH]; intros [|i] H; cbn in *; try lia; auto. apply IH. lia. Qed.
Lemma nth_set_nth_ne {A} (l : list A) i j x : i <> j -> nth_error (set_nth l i x) j = nth_error l j.
Proof. revert i j. induction l as [|y l IH]; intros [|i] [|j] H; cbn; auto; try lia. Qed.
Lemma set_nth_set_nth {A} (l : list A) i x y : set_nth (set_nth l i x) i y = set_nth l i y.
Proof. revert i. induction l as [|z l IH]; intros [|i]; cbn; auto. rewrite IH. reflexivity. Qed.
Lemma set_nth_id {A} (l : list A) i x : nth_error l i = Some x -> set_nth l i x = l.
Proof. revert i. induction l as [|z l IH]; intros [|i]; cbn; try discriminate; intros H; [congruence|]. rewrite IH; auto. Qed.
Lemma set_nth_app_l {A} (l m : list A) i x : i < length l -> set_nth (l ++ m) i x = set_nth l i x ++ m.
Proof. revert i. induction l as [|y l IH]; intros [|i] H; cbn in *; try lia; auto. rewrite IH by lia. reflexivity. Qed.
Lemma set_nth_app_r {A} (l : list A) x y : set_nth (l ++ [y]) (length l) x = l ++ [x].
Proof. induction l as [|z l IH]; cbn; auto. rewrite IH. reflexivity. Qed.

(* where the node goes back to *)
Definition unswap {A} (cs : list A) (i : nat) (n : A) : list A :=
  match nth_error cs i with
  | Some c => set_nth cs i n ++ [c]
  | None => cs ++ [n]
  end.
Lemma swap_last {A} (cs : list A) i n : i <= length cs ->
  swap (cs ++ [n]) i (length (cs ++ [n]) - 1) = Some (unswap cs i n).
Proof.
  intros H. rewrite app_length. cbn [length]. replace (length cs + 1 - 1) with (length cs) by lia.
  unfold swap, unswap.
  rewrite (nth_error_app2 cs [n] (n := length cs)) by lia. rewrite Nat.sub_diag. cbn [nth_error].
  destruct (Nat.eq_dec i (length cs)) as [->|Hne].
  - rewrite (nth_error_app2 cs [n] (n := length cs)) by lia. rewrite Nat.sub_diag. cbn [nth_error].
    replace (nth_error cs (length cs)) with (@None A) by (symmetry; apply nth_error_None; lia).
    rewrite !set_nth_app_r. reflexivity.
  - assert (Hlt : i < length cs) by lia.
    rewrite nth_error_app1 by lia. destruct (nth_error cs i) as [c|] eqn:E; [|apply nth_error_None in E; lia].
    rewrite set_nth_app_l by lia.
    replace (length cs) with (length (set_nth cs i n)) at 1 by apply set_nth_length.
    rewrite set_nth_app_r. reflexivity.
Qed.
Lemma swap_remove_spec {A} (l : list A) i x r : swap_remove l i = Some (x, r) ->
  nth_error l i = Some x /\ i <= length r /\ unswap r i x = l.
Proof.
  unfold swap_remove. destruct (nth_error l i) as [y|] eqn:E; [|discriminate].
  destruct (rev l) as [|last t] eqn:Er; [discriminate|]. intros [= -> <-].
  apply (f_equal (@rev A)) in Er. rewrite rev_involutive in Er. cbn [rev] in Er. subst l.
  set (m := rev t) in *. assert (Hi : i < length (m ++ [last])) by (apply nth_error_Some; congruence).
  rewrite app_length in Hi. cbn in Hi. split; [reflexivity|].
  destruct (Nat.eq_dec i (length m)) as [->|Hne].
  - rewrite set_nth_app_r, removelast_last. rewrite nth_error_app2, Nat.sub_diag in E by lia. injection E as ->.
    split; [lia|]. unfold unswap.
    replace (nth_error m (length m)) with (@None A) by (symmetry; apply nth_error_None; lia). reflexivity.
  - rewrite set_nth_app_l by lia. rewrite removelast_last. rewrite set_nth_length. split; [lia|].
    unfold unswap. rewrite nth_set_nth by lia. rewrite set_nth_set_nth.
    rewrite nth_error_app1 in E by lia. rewrite set_nth_id by exact E. reflexivity.
Qed.
Lemma swap_remove_total {A} (l : list A) i : i < length l -> exists x r, swap_remove l i = Some (x, r).
Proof.
  intros H. unfold swap_remove. destruct (nth_error l i) eqn:E; [|apply nth_error_None in E; lia].
  destruct (rev l) eqn:Er; [|eauto]. apply (f_equal (@length A)) in Er. rewrite rev_length in Er. cbn in Er. lia.
Qed.
Lemma nth_unswap {A} (cs : list A) i n : i <= length cs -> nth_error (unswap cs i n) i = Some n.
Proof.
  intros H. unfold unswap. destruct (nth_error cs i) eqn:E.
  - assert (i < length cs) by (apply nth_error_Some; congruence).
    rewrite nth_error_app1 by (rewrite set_nth_length; lia). apply nth_set_nth. lia.
  - apply nth_error_None in E. replace i with (length cs) by lia.
    rewrite nth_error_app2, Nat.sub_diag by lia. reflexivity.
Qed.
Lemma set_unswap {A} (cs : list A) i n m : i <= length cs -> set_nth (unswap cs i n) i m = unswap cs i m.
Proof.
  intros H. unfold unswap. destruct (nth_error cs i) eqn:E.
  - assert (i < length cs) by (apply nth_error_Some; congruence).
    rewrite set_nth_app_l by (rewrite set_nth_length; lia). rewrite set_nth_set_nth. reflexivity.
  - apply nth_error_None in E. replace i with (length cs) by lia. apply set_nth_app_r.
Qed.
Lemma unswap_last {A} (cs : list A) n : unswap cs (length cs) n = cs ++ [n].
Proof. unfold unswap. replace (nth_error cs (length cs)) with (@None A) by (symmetry; apply nth_error_None; lia). reflexivity. Qed.

(* ---------- nodes ---------- *)
Lemma with_children_id n cs : node_children n = cs -> with_children n cs = n.
Proof. destruct n; cbn. congruence. Qed.
Lemma with_children_twice n a b : with_children (with_children n a) b = with_children n b.
Proof. destruct n; reflexivity. Qed.
Lemma children_with_children n a : node_children (with_children n a) = a.
Proof. destruct n; reflexivity. Qed.
Lemma z_eta z : Zip (z_node z) (z_parent z) (z_index z) = z.
Proof. destruct z; reflexivity. Qed.
Lemma z_with_node_id z : z_with_node z (z_node z) = z.
Proof. destruct z; reflexivity. Qed.
Lemma z_with_node_twice z a b : z_with_node (z_with_node z a) b = z_with_node z b.
Proof. destruct z; reflexivity. Qed.
Lemma z_node_with z a : z_node (z_with_node z a) = a.
Proof. destruct z; reflexivity. Qed.

(* ---------- well-formed zippers: what the moves produce ---------- *)
Fixpoint wf (z : TreeZipper) : Prop :=
  match z with
  | Zip _ None None => True
  | Zip _ (Some p) (Some i) =>
      wf p /\ match node_children (z_node p) with Some cs => i <= length cs | None => False end
  | _ => False
  end.
(* the document: put the focused node n back in, up to the root *)
Definition put_back (p : TreeNode) (i : nat) (n : TreeNode) : TreeNode :=
  with_children p (match node_children p with Some cs => Some (unswap cs i n) | None => None end).
Fixpoint rebuild (z : TreeZipper) (n : TreeNode) : TreeNode :=
  match z with
  | Zip _ (Some p) (Some i) => rebuild p (put_back (z_node p) i n)
  | _ => n
  end.
Definition document (z : TreeZipper) : TreeNode := rebuild z (z_node z).
Notation position := focus_path.

Lemma wf_with z n : wf (z_with_node z n) <-> wf z.
Proof. destruct z; reflexivity. Qed.
Lemma rebuild_with z m n : rebuild (z_with_node z m) n = rebuild z n.
Proof. destruct z; reflexivity. Qed.
Lemma position_with z m : position (z_with_node z m) = position z.
Proof. destruct z; reflexivity. Qed.
Lemma document_with z n : document (z_with_node z n) = rebuild z n.
Proof. unfold document. rewrite rebuild_with, z_node_with. reflexivity. Qed.

Lemma focus_on_parent_wf n p i : wf (Zip n (Some p) (Some i)) ->
  focus_on_parent (Zip n (Some p) (Some i)) = Ret (Ok (z_with_node p (put_back (z_node p) i n))).
Proof.
  destruct p as [pn pp pi]. cbn [wf z_node]. intros [_ H]. cbn [focus_on_parent]. unfold put_back.
  destruct (node_children pn) as [cs|] eqn:E; [|contradiction]. rewrite swap_last by exact H. reflexivity.
Qed.
Lemma focus_on_parent_root n : focus_on_parent (Zip n None None) = Ret (Err (Zip n None None)).
Proof. reflexivity. Qed.

(* ---------- C04 ---------- *)
Lemma focus_child_parent z i z' : focus_on_child z i = Ok z' -> focus_on_parent z' = Ret (Ok z).
Proof.
  unfold focus_on_child. destruct (node_children (z_node z)) as [cs|] eqn:E; [|discriminate].
  destruct cs as [|c0 cs0] eqn:Ec; [discriminate|]. rewrite <- Ec in *.
  destruct (i <? length cs); [|discriminate].
  destruct (swap_remove cs i) as [[c r]|] eqn:Es; [|discriminate]. intros [= <-].
  apply swap_remove_spec in Es as (_ & Hi & Hu).
  destruct z as [n p pi]. cbn [z_with_node z_node] in *. cbn [focus_on_parent].
  rewrite children_with_children. rewrite swap_last by exact Hi. cbn [unwrap obind].
  rewrite Hu, with_children_twice. rewrite with_children_id by exact E. reflexivity.
Qed.
Lemma focus_child_node z i z' : focus_on_child z i = Ok z' ->
  exists cs, node_children (z_node z) = Some cs /\ nth_error cs i = Some (z_node z').
Proof.
  unfold focus_on_child. destruct (node_children (z_node z)) as [cs|] eqn:E; [|discriminate].
  destruct cs as [|c0 cs0] eqn:Ec; [discriminate|]. rewrite <- Ec in *.
  destruct (i <? length cs); [|discriminate].
  destruct (swap_remove cs i) as [[c r]|] eqn:Es; [|discriminate]. intros [= <-].
  apply swap_remove_spec in Es as (Hn & _). eauto.
Qed.
Lemma focus_child_ok z cs i : node_children (z_node z) = Some cs -> i < length cs ->
  exists z', focus_on_child z i = Ok z'.
Proof.
  intros E Hi. unfold focus_on_child. rewrite E. destruct cs as [|c0 cs0] eqn:Ec; [cbn in Hi; lia|]. rewrite <- Ec in *.
  destruct (Nat.ltb_spec i (length cs)); [|lia].
  destruct (swap_remove_total cs i Hi) as (x & r & ->). eauto.
Qed.
Lemma focus_child_err z i :
  (forall cs, node_children (z_node z) = Some cs -> length cs <= i) -> focus_on_child z i = Err z.
Proof.
  intros H. unfold focus_on_child. destruct (node_children (z_node z)) as [cs|]; [|reflexivity].
  specialize (H _ eq_refl). destruct cs as [|c0 cs0] eqn:Ec; [reflexivity|]. rewrite <- Ec in *.
  destruct (Nat.ltb_spec i (length cs)); [lia|reflexivity].
Qed.
(* the moves keep well-formedness, document and extend the position *)
Lemma focus_child_wf z i z' : wf z -> focus_on_child z i = Ok z' ->
  wf z' /\ document z' = document z /\ position z' = position z ++ [i].
Proof.
  intros Hw. unfold focus_on_child. destruct (node_children (z_node z)) as [cs|] eqn:E; [|discriminate].
  destruct cs as [|c0 cs0] eqn:Ec; [discriminate|]. rewrite <- Ec in *.
  destruct (i <? length cs); [|discriminate].
  destruct (swap_remove cs i) as [[c r]|] eqn:Es; [|discriminate]. intros [= <-].
  apply swap_remove_spec in Es as (_ & Hi & Hu).
  split; [|split].
  - cbn [wf]. rewrite wf_with, z_node_with, children_with_children. auto.
  - unfold document. cbn [rebuild z_node]. rewrite rebuild_with, z_node_with. unfold put_back.
    rewrite children_with_children, with_children_twice, Hu. rewrite with_children_id by exact E. reflexivity.
  - cbn [position]. rewrite position_with. reflexivity.
Qed.
Lemma focus_parent_wf z r : wf z -> focus_on_parent z = Ret r ->
  match r with
  | Ok z' => wf z' /\ document z' = document z /\ exists i, position z = position z' ++ [i]
  | Err z' => z' = z /\ z_parent z = None
  end.
Proof.
  destruct z as [n [p|] [i|]]; intros Hw; try contradiction.
  - rewrite focus_on_parent_wf by exact Hw. intros [= <-]. cbn [wf] in Hw. destruct Hw as [Hp _].
    rewrite wf_with, position_with. split; [exact Hp|]. split; [|eexists; reflexivity].
    rewrite document_with. reflexivity.
  - cbn. intros [= <-]. auto.
Qed.
Lemma focus_parent_total z : wf z -> exists r, focus_on_parent z = Ret r.
Proof.
  destruct z as [n [p|] [i|]]; intros Hw; try contradiction.
  - rewrite focus_on_parent_wf by exact Hw. eauto.
  - cbn. eauto.
Qed.

(* ---------- walking to the root ---------- *)
Lemma depth_with z n : z_depth (z_with_node z n) = z_depth z.
Proof. destruct z; reflexivity. Qed.
Lemma walk_to_root_wf z : wf z -> z_walk_to_root z = Ret (Zip (document z) None None).
Proof.
  unfold z_walk_to_root.
  assert (G : forall f z, wf z -> z_depth z < f -> walk_to_root_loop f z = Ret (Zip (document z) None None)).
  { induction f as [|f IH]; intros y Hw Hf; [lia|]. destruct y as [n [p|] [i|]]; try contradiction.
    - cbn [walk_to_root_loop]. rewrite focus_on_parent_wf by exact Hw. cbn [obind].
      rewrite IH.
      + rewrite document_with. reflexivity.
      + apply wf_with. apply Hw.
      + rewrite depth_with. cbn in Hf. lia.
    - reflexivity. }
  intros Hw. apply G; [exact Hw|lia].
Qed.
Lemma walk_to_section_wf z l : wf z ->
  exists z', z_walk_to_parent_section_level z l = Ret z' /\ wf z' /\ document z' = document z.
Proof.
  unfold z_walk_to_parent_section_level.
  assert (G : forall f z, wf z -> z_depth z < f ->
    exists z', walk_to_section_loop f z l = Ret z' /\ wf z' /\ document z' = document z).
  { induction f as [|f IH]; intros y Hw Hf; [lia|].
    assert (Up : exists z', (let! r := focus_on_parent y in
                match r with Ok p => walk_to_section_loop f p l | Err z => Ret z end) = Ret z'
                /\ wf z' /\ document z' = document y).
    { destruct y as [n [p|] [i|]]; try contradiction.
      - rewrite focus_on_parent_wf by exact Hw. cbn [obind].
        destruct (IH (z_with_node p (put_back (z_node p) i n))) as (z' & E & Hw' & D).
        + apply wf_with. apply Hw.
        + rewrite depth_with. cbn in Hf. lia.
        + exists z'. rewrite E. split; [reflexivity|]. split; [exact Hw'|]. rewrite D, document_with. reflexivity.
      - cbn. eexists. split; [reflexivity|]. split; [exact Hw|reflexivity]. }
    cbn [walk_to_section_loop]. destruct (node_data (z_node y)); try exact Up.
    - eexists. split; [reflexivity|]. auto.
    - destruct (level <=? l); [|exact Up]. eexists. split; [reflexivity|]. auto. }
  intros Hw. apply G; [exact Hw|lia].
Qed.

(* ---------- the zipper is a document with a position ---------- *)
Lemma node_at_app n p q m : node_at n p = Some m -> node_at n (p ++ q) = node_at m q.
Proof.
  revert n. induction p as [|i p IH]; intros n; cbn; [congruence|].
  destruct (node_children n) as [cs|]; [|discriminate]. destruct (nth_error cs i); [apply IH|discriminate].
Qed.
Lemma put_at_app n p q m x : node_at n p = Some m -> put_at n (p ++ q) x = put_at n p (put_at m q x).
Proof.
  revert n. induction p as [|i p IH]; intros n; cbn; [congruence|].
  destruct (node_children n) as [cs|]; [|discriminate]. destruct (nth_error cs i) as [c|]; [|discriminate].
  intros H. rewrite (IH c) by exact H. reflexivity.
Qed.
Lemma rebuild_at z : forall n, wf z -> node_at (rebuild z n) (position z) = Some n.
Proof.
  induction z as [y i|y p i IH] using zip_ind'; intros n Hw; destruct i as [i|]; try contradiction; [reflexivity|].
  cbn [rebuild position]. destruct Hw as [Hp Hi]. rewrite (node_at_app _ _ _ _ (IH _ Hp)).
  cbn [node_at]. unfold put_back. rewrite children_with_children.
  destruct (node_children (z_node p)); [|contradiction]. rewrite nth_unswap by exact Hi. reflexivity.
Qed.
Lemma rebuild_put z : forall n m, wf z -> put_at (rebuild z n) (position z) m = rebuild z m.
Proof.
  induction z as [y i|y p i IH] using zip_ind'; intros n m Hw; destruct i as [i|]; try contradiction; [reflexivity|].
  cbn [rebuild position]. destruct Hw as [Hp Hi]. rewrite (put_at_app _ _ _ _ _ (rebuild_at p _ Hp)).
  rewrite IH by exact Hp. f_equal. cbn [put_at]. unfold put_back. rewrite children_with_children.
  destruct (node_children (z_node p)) as [cs|]; [|contradiction]. rewrite nth_unswap by exact Hi.
  rewrite set_unswap by exact Hi. rewrite with_children_twice. reflexivity.
Qed.

(* ---------- C06: search by id ---------- *)
Definition has_id (id : N) (n : TreeNode) : bool := existsb (fun m => N.eqb (node_id m) id) (preorder n).
Definition walk_loop (f : nat) (id : N) :=
  fix loop (inds : list nat) (z : TreeZipper) : outcome (result TreeZipper TreeZipper) :=
   match inds with
   | [] => let! r := focus_on_parent z in
           match r with Ok z' => Ret (Err z') | Err z' => Ret (Err z') end
   | ind :: inds' =>
       match focus_on_child z ind with
       | Err _ => Panic
       | Ok child =>
           let! r := z_walk_to_id f child id in
           match r with
           | Ok found => Ret (Ok found)
           | Err z' => loop inds' z'
           end
       end
   end.
Definition up_err (z : TreeZipper) : outcome (result TreeZipper TreeZipper) :=
  let! r := focus_on_parent z in match r with Ok z' => Ret (Err z') | Err z' => Ret (Err z') end.
Lemma walk_unfold f z id : z_walk_to_id (S f) z id =
  if N.eqb (node_id (z_node z)) id then Ret (Ok z)
  else match node_children (z_node z) with
       | None => up_err z
       | Some cs => walk_loop f id (seq 0 (length cs)) z
       end.
Proof. reflexivity. Qed.

Lemma height_child cs c : In c cs -> height c <= fold_right (fun c m => Nat.max (height c) m) 0 cs.
Proof. induction cs as [|d cs IH]; cbn; [contradiction|]. intros [->|H]; [lia|]. specialize (IH H). lia. Qed.

Lemma preorder_unfold n : preorder n =
  n :: match node_children n with Some cs => flat_map preorder cs | None => [] end.
Proof. destruct n as [i r k d [cs|]]; reflexivity. Qed.
Lemma height_unfold n : height n =
  S (match node_children n with Some cs => fold_right (fun c m => Nat.max (height c) m) 0 cs | None => 0 end).
Proof. destruct n as [i r k d [cs|]]; reflexivity. Qed.
Lemma has_id_unfold id n : has_id id n =
  N.eqb (node_id n) id || match node_children n with Some cs => existsb (has_id id) cs | None => false end.
Proof.
  unfold has_id at 1. rewrite preorder_unfold. cbn [existsb]. f_equal.
  destruct (node_children n) as [cs|]; [|reflexivity].
  induction cs as [|c cs IH]; [reflexivity|]. cbn [flat_map existsb]. rewrite existsb_app, IH. reflexivity.
Qed.

Definition found_below (id : N) (z z' : TreeZipper) : Prop :=
  node_id (z_node z') = id /\ wf z' /\ document z' = document z /\
  exists path, position z' = position z ++ path /\ node_at (z_node z) path = Some (z_node z').

Lemma walk_spec : forall f z id, wf z -> height (z_node z) <= f ->
  if has_id id (z_node z)
  then exists z', z_walk_to_id f z id = Ret (Ok z') /\ found_below id z z'
  else z_walk_to_id f z id = up_err z.
Proof.
  induction f as [|f IH]; intros z id Hw Hf.
  { rewrite height_unfold in Hf. lia. }
  rewrite walk_unfold, has_id_unfold. destruct (N.eqb_spec (node_id (z_node z)) id) as [E|E]; cbn [orb].
  { exists z. split; [reflexivity|]. unfold found_below. repeat split; auto. exists []. rewrite app_nil_r. auto. }
  rewrite height_unfold in Hf.
  destruct (node_children (z_node z)) as [cs|] eqn:Ec; [|reflexivity].
  assert (Hh : forall i c, nth_error cs i = Some c -> height c <= f).
  { intros i c Hc. apply nth_error_In in Hc. apply height_child in Hc. lia. }
  clear Hf.
  assert (G : forall k i, i + k = length cs ->
    if existsb (has_id id) (skipn i cs)
    then exists z', walk_loop f id (seq i k) z = Ret (Ok z') /\ found_below id z z'
    else walk_loop f id (seq i k) z = up_err z).
  { induction k as [|k IHk]; intros i Hi.
    - rewrite skipn_all2 by lia. reflexivity.
    - destruct (nth_error cs i) as [c|] eqn:En; [|apply nth_error_None in En; lia].
      assert (Es : skipn i cs = c :: skipn (S i) cs).
      { clear -En. revert i En. induction cs as [|x cs IH]; intros [|i] En; cbn in *; try discriminate; [congruence|]. apply IH. exact En. }
      rewrite Es. cbn [existsb seq walk_loop].
      destruct (focus_child_ok z cs i Ec) as [y Ey]; [lia|]. rewrite Ey.
      destruct (focus_child_wf z i y Hw Ey) as (Hwy & Dy & Py).
      destruct (focus_child_node z i y Ey) as (cs' & Ec' & Ny). rewrite Ec in Ec'. injection Ec' as <-.
      rewrite En in Ny. injection Ny as ->.
      pose proof (IH y id Hwy (Hh _ _ En)) as Hy.
      destruct (has_id id (z_node y)) eqn:Hid; cbn [orb].
      + destruct Hy as (z' & Ez & Hi' & Hw' & D' & path & P' & A'). rewrite Ez. cbn [obind].
        exists z'. split; [reflexivity|]. unfold found_below. repeat split; auto; [congruence|].
        exists (i :: path). split.
        * rewrite P', Py, <- app_assoc. reflexivity.
        * cbn [node_at]. rewrite Ec, En. exact A'.
      + rewrite Hy. unfold up_err. rewrite (focus_child_parent z i y Ey). cbn [obind].
        apply IHk. lia. }
  specialize (G (length cs) 0 eq_refl). cbn [skipn] in G. exact G.
Qed.
