(* OpenProofs.v -- a document under construction: the nodes that are still open
   and the text everything so far will be written as (used for C47). *)
From Verif Require Import Base Common NodeTypes Tree DocTree History Spec TreeProofs DocTreeProofs HyperrefProofs
  Utf8Latex Writer WriterProofs Transforms TransformProofs Prog.

(* ---------- what the transforms make of a tree ---------- *)
Definition untransformed (x : TreeNodeType) : bool :=
  match x with NFigure _ _ _ _ _ | NListTable _ _ _ _ _ _ _ => false | _ => true end.
Definition becomes (n n' : TreeNode) : Prop := forall f, height n <= f -> transform f n = Ret n'.
(* the second child of a figure becomes its caption, the list in a table its body *)
Definition relabel (x : TreeNodeType) (cs : list TreeNode) : list TreeNode :=
  match x, cs with
  | NListTable _ _ _ _ _ _ _, Node i r k (NBulletList _ _ _) (Some items) :: rest =>
      match omap transform_item items with Ret rows => Node i r k NTBody (Some rows) :: rest | _ => cs end
  | NFigure _ _ _ _ _, a :: b :: rest => match node_data b with NParagraph i => a :: with_data b (NCaption i) :: rest | _ => cs end
  | _, _ => cs
  end.
Definition no_table (x : TreeNodeType) : bool := match x with NListTable _ _ _ _ _ _ _ => false | _ => true end.
Lemma with_data_height n x : height (with_data n x) = height n. Proof. destruct n. reflexivity. Qed.
(* a figure has its image and its caption, a table its list of rows *)
Definition grown (x : TreeNodeType) (cs : list TreeNode) : Prop :=
  match x with
  | NFigure _ _ _ _ _ => 2 <= length cs
  | NListTable _ _ _ _ _ _ _ => exists i r k b bi ti items rows rest, cs = Node i r k (NBulletList b bi ti) (Some items) :: rest /\ omap transform_item items = Ret rows
  | _ => True
  end.
Lemma rows_height items rows : omap transform_item items = Ret rows -> max_height rows <= max_height items.
Proof.
  intros R. apply omap_ok in R. induction R as [|it row its rws E1 _ IH]; [apply le_n|]. cbn [max_height fold_right]. fold (max_height its) (max_height rws).
  apply item_height in E1. lia.
Qed.
Lemma relabel_height x cs m : (forall c, In c cs -> height c <= m) -> forall c, In c (relabel x cs) -> height c <= m.
Proof.
  intros H c. unfold relabel. destruct x; auto.
  - destruct cs as [|a [|b rest]]; auto. destruct (node_data b); auto.
    cbn [In]. intros [<-|[<-|Hc]]; [apply H; now left|rewrite with_data_height; apply H; right; now left|apply H; right; now right].
  - destruct cs as [|[i r k x items] rest]; auto. destruct x; auto. destruct items as [items|]; auto. destruct (omap transform_item items) as [rows| |] eqn:E; auto.
    cbn [In]. intros [<-|Hc]; [|apply H; now right]. apply rows_height in E. specialize (H _ (or_introl eq_refl)). rewrite height_kids in H |- *. cbn [node_children] in *. lia.
Qed.
Lemma relabel_here i r k x cs : no_table x = true \/ grown x cs -> transform_here (Node i r k x (Some cs)) = Ret (Node i r k x (Some (relabel x cs))).
Proof.
  intros H. unfold transform_here, relabel. cbn [node_data node_children]. destruct x; try reflexivity.
  - destruct cs as [|a [|b rest]]; try reflexivity. destruct (node_data b); reflexivity.
  - destruct H as [H|H]; [discriminate H|]. destruct H as (i0 & r0 & k0 & b & bi & ti & items & rows & rest & -> & E). cbn [node_data node_children with_data with_children].
    rewrite E. reflexivity.
Qed.
Lemma omap_becomes f cs cs' : Forall2 becomes cs cs' -> (forall c, In c cs -> height c <= f) -> omap (transform f) cs = Ret cs'.
Proof.
  induction 1 as [|c c' cs cs' Hc H IH]; intros Hh; [reflexivity|]. cbn [omap]. rewrite Hc by (apply Hh; now left). cbn [obind].
  rewrite IH by (intros y Hy; apply Hh; now right). reflexivity.
Qed.
Lemma becomes_grown i r k x cs cs' : no_table x = true \/ grown x cs -> Forall2 becomes (relabel x cs) cs' ->
  becomes (Node i r k x (Some cs)) (Node i r k x (Some cs')).
Proof.
  intros Hx F f Hh. rewrite height_unfold in Hh. cbn [node_children] in Hh. destruct f as [|f]; [lia|]. cbn [transform].
  rewrite relabel_here by exact Hx. cbn [obind node_children].
  rewrite (omap_becomes f _ _ F); [reflexivity|]. apply relabel_height. intros c Hin. apply height_child in Hin. lia.
Qed.
Lemma becomes_node i r k x cs cs' : no_table x = true -> Forall2 becomes (relabel x cs) cs' ->
  becomes (Node i r k x (Some cs)) (Node i r k x (Some cs')).
Proof. intros H. apply becomes_grown. now left. Qed.
Lemma becomes_leaf i r k x : no_table x = true -> becomes (Node i r k x None) (Node i r k x None).
Proof.
  intros Hx f Hh. destruct f as [|f]; [cbn in Hh; lia|]. cbn [transform].
  replace (transform_here (Node i r k x None)) with (Ret (Node i r k x None)) by (unfold transform_here; cbn [node_data node_children]; destruct x; reflexivity).
  reflexivity.
Qed.
Lemma untransformed_no_table x : untransformed x = true -> no_table x = true. Proof. destruct x; try reflexivity; discriminate. Qed.
Lemma untransformed_relabel x cs : untransformed x = true -> relabel x cs = cs. Proof. destruct x; try reflexivity; discriminate. Qed.
Lemma becomes_new x i r : untransformed x = true -> becomes (new_node x i r None) (new_node x i r None).
Proof.
  intros H. pose proof (untransformed_no_table _ H). unfold new_node. destruct (can_have_children (kind x)); [|now apply becomes_leaf].
  apply becomes_node; [assumption|]. rewrite untransformed_relabel by exact H. constructor.
Qed.
Lemma grown_more x cs n : grown x cs -> grown x (cs ++ [n]).
Proof.
  destruct x; cbn [grown]; try tauto; [rewrite app_length; lia|].
  intros (i & r & k & b & bi & ti & items & rows & rest & -> & E). exists i, r, k, b, bi, ti, items, rows, (rest ++ [n]). auto.
Qed.
Lemma grown_relabel x cs n : grown x cs -> relabel x (cs ++ [n]) = relabel x cs ++ [n].
Proof.
  destruct x; cbn [grown relabel]; try reflexivity; intros H.
  - destruct cs as [|a [|b rest]]; cbn [length] in H; try lia. cbn [app]. destruct (node_data b); reflexivity.
  - destruct H as (i & r & k & b & bi & ti & items & rows & rest & -> & E). cbn [app]. rewrite E. reflexivity.
Qed.
Lemma untransformed_grown x cs : untransformed x = true -> grown x cs. Proof. destruct x; try (intros; exact I); discriminate. Qed.

(* ---------- open nodes ---------- *)
Definition entry := (TreeNodeType * option (list str))%type.
Section Open.
  Variables (ord : hash_order) (full : bool).
  Inductive opened : TreeZipper -> list entry -> str -> Prop :=
  | op_root i r x cs cs' pre ks : pre_string ord full x r = Ret pre -> write_children ord full cs' = Ret ks ->
      Forall2 becomes (relabel x cs) cs' -> grown x cs ->
      opened (Zip (Node i r None x (Some cs)) None None) [(x, r)] (pre ++ concat ks)
  | op_child p e s i r x cs cs' pre ks : opened p e s -> pre_string ord full x r = Ret pre ->
      write_children ord full cs' = Ret ks -> Forall2 becomes (relabel x cs) cs' -> grown x cs ->
      opened (Zip (Node i r None x (Some cs)) (Some p) (Some (length (kids (z_node p))))) ((x, r) :: e) (s ++ pre ++ concat ks).

  Lemma opened_kids z e s : opened z e s -> exists cs, node_children (z_node z) = Some cs.
  Proof. destruct 1; cbn; eauto. Qed.
  Lemma opened_wf z e s : opened z e s -> wf z.
  Proof.
    induction 1; [exact I|]. cbn [wf]. split; [assumption|]. destruct (opened_kids _ _ _ H) as [ks' E].
    unfold kids. rewrite E. lia.
  Qed.
  Lemma opened_focus z e s : opened z e s -> exists r e', e = (node_data (z_node z), r) :: e'.
  Proof. destruct 1; cbn; eauto. Qed.
  Lemma opened_nonempty z e s : opened z e s -> e <> [].
  Proof. destruct 1; discriminate. Qed.
  Lemma write_children_snoc cs n ks out : write_children ord full cs = Ret ks -> write_node ord full n = Ret out ->
    write_children ord full (cs ++ [n]) = Ret (ks ++ out).
  Proof.
    revert ks. induction cs as [|c cs IH]; intros ks H Hn.
    - injection H as <-. cbn [app write_children]. rewrite Hn. cbn [obind]. now rewrite app_nil_r.
    - apply write_children_cons in H as (a & b & Ha & Hb & ->). cbn [app write_children]. rewrite Ha. cbn [obind].
      change (obind (write_children ord full (cs ++ [n])) (fun b0 => Ret (a ++ b0)) = Ret ((a ++ b) ++ out)).
      rewrite (IH _ Hb Hn). cbn [obind]. now rewrite app_assoc.
  Qed.
  Lemma grow x cs cs' n n' : Forall2 becomes (relabel x cs) cs' -> grown x cs -> becomes n n' ->
    Forall2 becomes (relabel x (cs ++ [n])) (cs' ++ [n']) /\ grown x (cs ++ [n]).
  Proof.
    intros F G B. split; [|now apply grown_more]. rewrite grown_relabel by exact G. apply Forall2_app; [exact F|]. constructor; [exact B|constructor].
  Qed.
  (* a finished child is added *)
  Lemma opened_add z e s n n' out : opened z e s -> becomes n n' -> write_node ord full n' = Ret out ->
    opened (z_with_node z (add_last (z_node z) n)) e (s ++ concat out).
  Proof.
    intros H Hc Hn. destruct H as [i r x cs cs' pre ks Hp Hk F U|p e s i r x cs cs' pre ks Hop Hp Hk F U]; cbn [z_with_node z_node add_last node_children with_children];
      destruct (grow _ _ _ _ _ F U Hc) as [F' U'].
    - rewrite <- app_assoc, <- concat_app. eapply op_root; eauto using write_children_snoc.
    - rewrite <- !app_assoc, <- concat_app. eapply op_child; eauto using write_children_snoc.
  Qed.
  (* a node is opened *)
  Lemma opened_open z e s x r i pre ks : opened z e s -> node_children (z_node z) = Some ks -> can_have_children (kind x) = true ->
    pre_string ord full x r = Ret pre -> untransformed x = true ->
    opened (Zip (new_node x i r None) (Some z) (Some (length ks))) ((x, r) :: e) (s ++ pre).
  Proof.
    intros H Hk Hc Hp U. unfold new_node. rewrite Hc. replace ks with (kids (z_node z)) by (unfold kids; now rewrite Hk).
    replace (s ++ pre) with (s ++ pre ++ concat []) by (cbn; now rewrite app_nil_r).
    apply (op_child z e s i r x [] [] pre []); auto using untransformed_grown. rewrite untransformed_relabel by exact U. constructor.
  Qed.
  (* a node below an open one is finished *)
  Lemma opened_put p e s n n' out : opened p e s -> becomes n n' -> write_node ord full n' = Ret out ->
    exists z', focus_on_parent (Zip n (Some p) (Some (length (kids (z_node p))))) = Ret (Ok z') /\ opened z' e (s ++ concat out).
  Proof.
    intros Hop Hc Hn. destruct (opened_kids _ _ _ Hop) as [qs Eq]. rewrite focus_on_parent_wf.
    2:{ cbn [wf]. split; [now apply opened_wf in Hop|]. unfold kids. rewrite Eq. lia. }
    eexists. split; [reflexivity|]. unfold put_back, kids. rewrite Eq, unswap_last.
    pose proof (opened_add _ _ _ _ _ _ Hop Hc Hn) as G. unfold add_last in G. rewrite Eq in G. exact G.
  Qed.
  (* the innermost open node is closed *)
  Lemma opened_close z x r e s post : opened z ((x, r) :: e) s -> e <> [] -> post_string full x r = Ret post ->
    exists z', focus_on_parent z = Ret (Ok z') /\ opened z' e (s ++ post).
  Proof.
    intros H He Hpost. remember ((x, r) :: e) as e0 eqn:Ee.
    destruct H as [i r' x' cs cs' pre ks Hp Hk F U|p e' s i r' x' cs cs' pre ks Hop Hp Hk F U]; [now injection Ee as _ _ <-|].
    injection Ee as -> -> ->. set (n' := Node i r None x (Some cs')).
    assert (Hn : write_node ord full n' = Ret (pre :: ks ++ [post])).
    { rewrite write_node_eq. cbn [node_data node_refnames kids node_children n']. rewrite Hp. cbn [obind]. rewrite Hk. cbn [obind].
      rewrite Hpost. reflexivity. }
    destruct (opened_put _ _ _ _ _ _ Hop (becomes_grown i r None x cs cs' (or_intror U) F) Hn) as (z' & Ez & G).
    exists z'. split; [exact Ez|].
    cbn [concat] in G. rewrite concat_app in G. cbn [concat] in G. rewrite app_nil_r in G.
    rewrite <- !app_assoc. exact G.
  Qed.

  (* everything that is still open is closed *)
  Fixpoint posts (e : list entry) : outcome str :=
    match e with
    | [] => Ret []
    | (x, r) :: e' => let! a := post_string full x r in let! b := posts e' in Ret (a ++ b)
    end.
  Lemma opened_done z e s t : opened z e s -> posts e = Ret t ->
    exists n out, becomes (document z) n /\ write_node ord full n = Ret out /\ concat out = s ++ t.
  Proof.
    revert z s t. induction e as [|[x r] e IH]; intros z s t H P; [now apply opened_nonempty in H|].
    cbn [posts] in P. apply obind_Ret in P as (a & Pa & P). apply obind_Ret in P as (b & Pb & P). injection P as <-.
    destruct e as [|en e].
    - injection Pb as <-. remember (@cons entry (x, r) nil) as e0 eqn:Ee.
      destruct H as [i r' x' cs cs' pre ks Hp Hk F U|p e' s i r' x' cs cs' pre ks Hop Hp Hk F U];
        [injection Ee as -> ->|injection Ee as -> -> ->; now apply opened_nonempty in Hop].
      unfold document. cbn [z_node rebuild].
      do 2 eexists. split; [apply becomes_grown; [right; exact U|exact F]|]. split.
      { rewrite write_node_eq. cbn [node_data node_refnames kids node_children]. rewrite Hp. cbn [obind]. rewrite Hk. cbn [obind]. rewrite Pa. reflexivity. }
      cbn [concat]. rewrite concat_app. cbn [concat]. now rewrite !app_nil_r, !app_assoc.
    - destruct (opened_close _ _ _ _ _ _ H ltac:(discriminate) Pa) as (z' & Ez & H').
      pose proof (focus_parent_wf _ _ (opened_wf _ _ _ H) Ez) as (_ & D & _). rewrite <- D.
      destruct (IH _ _ _ H' Pb) as (n & out & C & E & Eo). exists n, out. rewrite app_assoc. auto.
  Qed.

  (* ---------- documents ---------- *)
  Record under (d : DocTree) (e : list entry) (s : str) (seen : list SectionLineStyle) : Prop := {
    u_open : opened (tree d) e s;
    u_acc : accumulated (hyperref d) = [];
    u_cls : incoming_classes d = [];
    u_sec : sec_inv seen (sections d) }.
  Lemma under_focus d e s seen : under d e s seen -> exists r e', e = (focused_data d, r) :: e'.
  Proof. intros [H _ _ _]. apply opened_focus in H. exact H. Qed.

  (* nodes that get no label and change no counter *)
  Definition unlabelled (x : TreeNodeType) : bool :=
    match x with
    | NCitation _ _ | NCitationReference _ _ | NFootnote _ _ _ _ | NFootnoteReference _ _ _
    | NExternalHyperlinkTarget _ _ _ | NIndirectHyperlinkTarget _ _ _ | NSection _ _ _ => false
    | _ => true
    end.
  Lemma unlabelled_actions d x : unlabelled x = true -> accumulated (hyperref d) = [] -> hyperref_actions d x = Ret (d, x, None).
  Proof. intros H E. unfold hyperref_actions. rewrite E. destruct x; try discriminate; reflexivity. Qed.
  Lemma unlabelled_section x : unlabelled x = true -> is_section x = false.
  Proof. destruct x; try reflexivity; discriminate. Qed.
  Lemma no_classes d : incoming_classes d = [] -> take_classes d = (d, None).
  Proof. intros H. unfold take_classes. now rewrite H. Qed.

  Lemma under_leaf d e s seen x pre post : under d e s seen -> unlabelled x = true -> untransformed x = true ->
    child_is_allowed (kind (focused_data d)) (kind x) = Ret true ->
    pre_string ord full x None = Ret pre -> post_string full x None = Ret post ->
    exists d', dop_exec (DPush x) d = Ret (AOk, d') /\ under d' e (s ++ pre ++ post) seen /\ sections d' = sections d.
  Proof.
    intros [Ho Ha Hc Hs] Hu Ht Hk Hpre Hpost. cbn [dop_exec]. rewrite (unlabelled_section _ Hu). unfold push_data.
    rewrite unlabelled_actions by auto. cbn [obind]. rewrite no_classes by auto.
    destruct (opened_kids _ _ _ Ho) as [ks Ek].
    unfold z_push_data, z_push_child, node_push_child. unfold node_kind. fold (focused_data d). cbn [new_node node_data]. rewrite Hk. cbn [obind]. rewrite Ek. cbn [obind].
    eexists. split; [reflexivity|]. split; [|reflexivity]. split; cbn [tree hyperref incoming_classes sections d_set_count d_set_tree]; auto.
    change (with_children (z_node (tree d)) (Some (ks ++ [new_node x (node_count d) None None]))) with
      (with_children (z_node (tree d)) (Some (ks ++ [new_node x (node_count d) None None]))).
    rewrite <- (add_last_eq _ _ _ Ek).
    set (n := new_node x (node_count d) None None).
    assert (Hn : write_node ord full n = Ret [pre; post]).
    { rewrite write_node_eq. cbn [node_data node_refnames n new_node]. rewrite Hpre. cbn [obind].
      assert (kids n = []) as -> by (unfold kids, n; cbn [new_node node_children]; destruct (can_have_children (kind x)); reflexivity).
      cbn [write_children obind]. rewrite Hpost. reflexivity. }
    replace (pre ++ post) with (concat [pre; post]) by (cbn; now rewrite app_nil_r).
    apply (opened_add _ _ _ n n); auto. now apply becomes_new.
  Qed.
  (* references to citations and footnotes are noted down, but only there *)
  Definition mention (x : TreeNodeType) : bool :=
    match x with NCitationReference _ _ | NFootnoteReference _ _ FManual => true | _ => unlabelled x end.
  Lemma mention_actions d x : mention x = true -> accumulated (hyperref d) = [] -> exists d1 r,
    hyperref_actions d x = Ret (d1, x, r) /\ tree d1 = tree d /\ accumulated (hyperref d1) = [] /\
    incoming_classes d1 = incoming_classes d /\ sections d1 = sections d.
  Proof.
    intros H E. assert (R : forall r i d, accumulated (hyperref d) = [] -> tree (add_reference d r i) = tree d /\ accumulated (hyperref (add_reference d r i)) = [] /\
      incoming_classes (add_reference d r i) = incoming_classes d /\ sections (add_reference d r i) = sections d).
    { intros r i d0 E0. unfold add_reference. repeat split; cbn [tree hyperref incoming_classes sections d_set_hyperref]; auto. }
    destruct (unlabelled x) eqn:Hu.
    { exists d, None. split; [now apply unlabelled_actions|auto]. }
    destruct x; try discriminate Hu; try discriminate H; unfold hyperref_actions; rewrite E.
    - do 2 eexists. split; [reflexivity|]. now apply R.
    - match goal with k : FootnoteKind |- _ => destruct k end; try discriminate H. do 2 eexists. split; [reflexivity|]. unfold add_references. cbn [app fold_left]. now apply R.
  Qed.
  Lemma under_mention d e s seen x y : under d e s seen -> mention x = true -> untransformed x = true ->
    child_is_allowed (kind (focused_data d)) (kind x) = Ret true ->
    (forall refs, pre_string ord full x refs = Ret y /\ post_string full x refs = Ret []) ->
    exists d', dop_exec (DPush x) d = Ret (AOk, d') /\ under d' e (s ++ y) seen.
  Proof.
    intros [Ho Ha Hc Hs] Hu Ht Hk Hw. destruct (mention_actions d x Hu Ha) as (d1 & rn & E & Et & Ea & Ec & Es).
    assert (Hsec : is_section x = false) by (destruct x; try reflexivity; discriminate).
    cbn [dop_exec]. rewrite Hsec. unfold push_data. rewrite E. cbn [obind]. rewrite no_classes by congruence.
    destruct (opened_kids _ _ _ Ho) as [ks Ek]. rewrite Et.
    unfold z_push_data, z_push_child, node_push_child. unfold node_kind. fold (focused_data d). cbn [new_node node_data]. rewrite Hk. cbn [obind]. rewrite Ek. cbn [obind].
    eexists. split; [reflexivity|]. split; cbn [tree hyperref incoming_classes sections d_set_count d_set_tree]; try congruence.
    rewrite <- (add_last_eq _ _ _ Ek).
    set (n := new_node x (node_count d1) rn None).
    assert (Hn : write_node ord full n = Ret [y; []]).
    { rewrite write_node_eq. cbn [node_data node_refnames n new_node]. destruct (Hw rn) as [-> ->]. cbn [obind].
      assert (kids n = []) as -> by (unfold kids, n; cbn [new_node node_children]; destruct (can_have_children (kind x)); reflexivity).
      reflexivity. }
    replace y with (concat [y; []]) by (cbn; now rewrite app_nil_r).
    apply (opened_add _ _ _ n n); auto. now apply becomes_new.
  Qed.
  Lemma under_refused d e s seen x : under d e s seen -> unlabelled x = true ->
    child_is_allowed (kind (focused_data d)) (kind x) = Ret false ->
    dop_exec (DPush x) d = Ret (AErr, d).
  Proof.
    intros [Ho Ha Hc Hs] Hu Hk. cbn [dop_exec]. rewrite (unlabelled_section _ Hu). unfold push_data.
    rewrite unlabelled_actions by auto. cbn [obind]. rewrite no_classes by auto.
    unfold z_push_data, z_push_child, node_push_child. unfold node_kind. fold (focused_data d). cbn [new_node node_data]. rewrite Hk.
    cbn [obind]. do 2 f_equal. destruct d; reflexivity.
  Qed.
  Lemma push_focus_ok d ks x i r : wf (tree d) -> node_children (z_node (tree d)) = Some ks ->
    child_is_allowed (kind (focused_data d)) (kind x) = Ret true ->
    z_push_data_and_focus (tree d) x i r None = Ret (Ok (Zip (new_node x i r None) (Some (tree d)) (Some (length ks)))).
  Proof.
    intros W Ek Hk. unfold z_push_data_and_focus, z_push_child, node_push_child. unfold node_kind. fold (focused_data d).
    cbn [new_node node_data]. rewrite Hk. cbn [obind]. rewrite Ek. cbn [obind].
    fold (new_node x i r None). rewrite <- (add_last_eq _ _ _ Ek). now apply focus_last_new.
  Qed.
  Lemma under_open d e s seen x pre : under d e s seen -> unlabelled x = true -> untransformed x = true ->
    can_have_children (kind x) = true ->
    child_is_allowed (kind (focused_data d)) (kind x) = Ret true -> pre_string ord full x None = Ret pre ->
    exists d', dop_exec (DPushFocus x) d = Ret (AOk, d') /\ under d' ((x, None) :: e) (s ++ pre) seen.
  Proof.
    intros [Ho Ha Hc Hs] Hu Ht Hcc Hk Hpre. cbn [dop_exec]. rewrite (unlabelled_section _ Hu). unfold push_data_and_focus.
    rewrite unlabelled_actions by auto. cbn [obind]. rewrite no_classes by auto.
    destruct (opened_kids _ _ _ Ho) as [ks Ek]. rewrite (push_focus_ok d ks) by eauto using opened_wf. cbn [obind].
    eexists. split; [reflexivity|]. split; cbn [tree hyperref incoming_classes sections d_set_count d_set_tree]; auto.
    now apply opened_open.
  Qed.
  (* footnotes with a number and citations get a label *)
  Definition refs_of (x : TreeNodeType) : option (list str) :=
    match x with NCitation _ label | NFootnote _ FManual label _ => Some [normalize_refname label] | _ => None end.
  Lemma under_label d e s seen x pre : under d e s seen -> match x with NCitation _ _ | NFootnote _ FManual _ _ => True | _ => False end ->
    child_is_allowed (kind (focused_data d)) (kind x) = Ret true -> pre_string ord full x (refs_of x) = Ret pre ->
    exists d', dop_exec (DPushFocus x) d = Ret (AOk, d') /\ under d' ((x, refs_of x) :: e) (s ++ pre) seen.
  Proof.
    intros [Ho Ha Hc Hs] Hx Hk Hpre. destruct (opened_kids _ _ _ Ho) as [ks Ek].
    assert (G : exists d1, hyperref_actions d x = Ret (d1, x, refs_of x) /\ tree d1 = tree d /\ accumulated (hyperref d1) = [] /\
              incoming_classes d1 = [] /\ sections d1 = sections d /\ is_section x = false /\ untransformed x = true /\ can_have_children (kind x) = true).
    { destruct x; try contradiction Hx.
      - unfold hyperref_actions. rewrite Ha. eexists. split; [reflexivity|]. repeat split; auto.
      - match goal with k : FootnoteKind |- _ => destruct k end; try contradiction Hx.
        unfold hyperref_actions. rewrite Ha. eexists. split; [reflexivity|]. repeat split; auto. }
    destruct G as (d1 & E & Et & Ea & Ec & Es & Hsec & Hun & Hch).
    cbn [dop_exec]. rewrite Hsec. unfold push_data_and_focus. rewrite E. cbn [obind]. rewrite no_classes by exact Ec. rewrite Et.
    rewrite (push_focus_ok d ks) by eauto using opened_wf. cbn [obind].
    eexists. split; [reflexivity|]. split; cbn [tree hyperref incoming_classes sections d_set_count d_set_tree]; try congruence.
    now apply opened_open.
  Qed.
  Lemma under_section d e s seen title style : under d e s seen ->
    child_is_allowed (kind (focused_data d)) KSection = Ret true ->
    let x := NSection title (level_after seen style) style in
    forall pre, pre_string ord full x (Some [normalize_refname title]) = Ret pre ->
    exists d', dop_exec (DSection title style) d = Ret (AOk, d') /\
      under d' ((x, Some [normalize_refname title]) :: e) (s ++ pre) (seen ++ [style]).
  Proof.
    intros [Ho Ha Hc Hs] Hk x pre Hpre. cbn [dop_exec]. unfold new_section_data. rewrite (sec_inv_level _ _ _ Hs). fold x.
    unfold push_data_and_focus, hyperref_actions. rewrite Ha. cbn [obind app]. unfold x at 1. cbn [obind].
    rewrite no_classes by exact Hc. destruct (opened_kids _ _ _ Ho) as [ks Ek]. cbn [add_targets fold_left].
    cbn [tree d_set_sections add_target d_set_hyperref].
    rewrite (push_focus_ok d ks) by eauto using opened_wf. cbn [obind]. eexists. split; [reflexivity|].
    split; cbn [tree hyperref incoming_classes sections d_set_count d_set_tree d_set_sections add_target d_set_hyperref h_set_targets accumulated]; auto.
    - now apply opened_open.
    - pose proof (sec_inv_push _ _ style Hs) as G. cbn zeta in G. rewrite (sec_inv_level _ _ _ Hs) in G. exact G.
  Qed.
  (* the node in focus changes, but not what is written for its beginning *)
  Lemma under_update d x r e s seen y : under d ((x, r) :: e) s seen -> pre_string ord full y r = pre_string ord full x r ->
    untransformed x = true -> untransformed y = true -> under (set_focused_data d y) ((y, r) :: e) s seen.
  Proof.
    intros [Ho Ha Hc Hs] Hp Hx Hy. split; auto. unfold set_focused_data. cbn [tree d_set_tree].
    remember ((x, r) :: e) as en eqn:Ee. destruct Ho as [i r' x' cs cs' pre ks Hp' Hk F U|p e' s i r' x' cs cs' pre ks Hop Hp' Hk F U];
      [injection Ee as -> -> <-|injection Ee as -> -> <-]; cbn [z_node z_with_node with_data];
      rewrite untransformed_relabel in F by exact Hx; [apply (op_root i r y cs cs' pre ks)|apply (op_child p e' s i r y cs cs' pre ks)];
      auto using untransformed_grown; rewrite ?untransformed_relabel by exact Hy; congruence.
  Qed.
  Lemma under_close d x r e s seen post : under d ((x, r) :: e) s seen -> e <> [] -> post_string full x r = Ret post ->
    exists d', d_focus_on_parent d = Ret d' /\ under d' e (s ++ post) seen /\ sections d' = sections d.
  Proof.
    intros [Ho Ha Hc Hs] He Hpost. destruct (opened_close _ _ _ _ _ _ Ho He Hpost) as (z & Ez & Ho').
    unfold d_focus_on_parent. rewrite Ez. cbn [obind]. eexists. split; [reflexivity|]. split; [|reflexivity]. split; cbn; auto.
  Qed.
  Lemma under_done d e s seen t : under d e s seen -> posts e = Ret t ->
    exists d' out, perform_transforms d = Ret d' /\ write_tree ord full (tree d') = Ret out /\ concat out = s ++ t.
  Proof.
    intros [Ho Ha Hc Hs] P. destruct (opened_done _ _ _ _ Ho P) as (n & out & C & E & Eo).
    pose proof (opened_wf _ _ _ Ho) as W.
    unfold perform_transforms, d_walk_to_root. rewrite walk_to_root_wf by exact W. cbn [obind tree d_set_tree z_node z_with_node].
    unfold transform_node. rewrite C by lia. cbn [obind]. unfold d_walk_to_root. cbn [tree d_set_tree].
    rewrite walk_to_root_wf by exact I. cbn [obind]. eexists. exists out. split; [reflexivity|]. split; [|exact Eo].
    cbn [tree d_set_tree]. unfold write_tree. rewrite walk_to_root_wf by exact I. cbn [obind z_node]. exact E.
  Qed.
  Lemma under_new pre : pre_string ord full NDocument None = Ret pre -> under new_doctree [(NDocument, None)] pre [].
  Proof.
    intros H. split; try reflexivity; [|split; reflexivity].
    replace pre with (pre ++ concat []) by (cbn; now rewrite app_nil_r). apply (op_root _ _ _ [] [] pre []); auto; [constructor|exact I].
  Qed.

  (* ---------- a figure before its caption ---------- *)
  Definition calm (d : DocTree) (seen : list SectionLineStyle) : Prop :=
    accumulated (hyperref d) = [] /\ incoming_classes d = [] /\ sec_inv seen (sections d).
  (* the node in focus is below one that is open, is written as `s` so far and is not changed by the transforms *)
  Record fresh (d : DocTree) (p : TreeZipper) (x : TreeNodeType) (cs : list TreeNode) (s : str) (seen : list SectionLineStyle) : Prop := {
    f_tree : exists i, tree d = Zip (Node i None None x (Some cs)) (Some p) (Some (length (kids (z_node p))));
    f_kids : exists ks, write_children ord full cs = Ret ks /\ concat ks = s;
    f_calm : Forall2 becomes cs cs;
    f_rest : calm d seen }.
  Lemma fresh_data d p x cs s seen : fresh d p x cs s seen -> focused_data d = x.
  Proof. intros [[i E] _ _ _]. unfold focused_data. now rewrite E. Qed.
  Lemma fresh_mention d p x cs s seen y out : fresh d p x cs s seen -> mention y = true -> untransformed y = true ->
    child_is_allowed (kind x) (kind y) = Ret true ->
    (forall refs, exists a b, pre_string ord full y refs = Ret a /\ post_string full y refs = Ret b /\ out = a ++ b) ->
    exists d' n, dop_exec (DPush y) d = Ret (AOk, d') /\ fresh d' p x (cs ++ [n]) (s ++ out) seen.
  Proof.
    intros F Hu Ht Hk Hw. pose proof (fresh_data _ _ _ _ _ _ F) as Hx. destruct F as [[i Et] (ks & Ek & Eks) Hcs (Ha & Hc & Hs)].
    destruct (mention_actions d y Hu Ha) as (d1 & rn & E & Et1 & Ea & Ec & Es).
    assert (Hsec : is_section y = false) by (destruct y; try reflexivity; discriminate).
    cbn [dop_exec]. rewrite Hsec. unfold push_data. rewrite E. cbn [obind]. rewrite no_classes by congruence.
    rewrite Et1, Et. unfold z_push_data, z_push_child, node_push_child. unfold node_kind. cbn [z_node node_data new_node]. rewrite Hk. cbn [obind node_children].
    eexists. exists (new_node y (node_count d1) rn None). split; [reflexivity|].
    set (n := new_node y (node_count d1) rn None). destruct (Hw rn) as (a & b & Hp & Hq & ->).
    assert (Hn : write_node ord full n = Ret [a; b]).
    { rewrite write_node_eq. cbn [node_data node_refnames n new_node]. rewrite Hp, Hq. cbn [obind].
      assert (kids n = []) as -> by (unfold kids, n; cbn [new_node node_children]; destruct (can_have_children (kind y)); reflexivity).
      reflexivity. }
    split; cbn [tree d_set_count d_set_tree].
    - exists i. reflexivity.
    - exists (ks ++ [a; b]). split; [now apply write_children_snoc|]. rewrite concat_app, Eks. cbn [concat]. now rewrite app_nil_r.
    - apply Forall2_app; [exact Hcs|]. constructor; [now apply becomes_new|constructor].
    - unfold calm. cbn [hyperref incoming_classes sections d_set_count d_set_tree]. rewrite Ea, Ec, Es. auto.
  Qed.
  Lemma fresh_open d e s seen x : under d e s seen -> unlabelled x = true -> can_have_children (kind x) = true ->
    child_is_allowed (kind (focused_data d)) (kind x) = Ret true ->
    exists d', dop_exec (DPushFocus x) d = Ret (AOk, d') /\ fresh d' (tree d) x [] [] seen.
  Proof.
    intros [Ho Ha Hc Hs] Hu Hcc Hk. cbn [dop_exec]. rewrite (unlabelled_section _ Hu). unfold push_data_and_focus.
    rewrite unlabelled_actions by auto. cbn [obind]. rewrite no_classes by auto.
    destruct (opened_kids _ _ _ Ho) as [ks Ek]. rewrite (push_focus_ok d ks) by eauto using opened_wf. cbn [obind].
    eexists. split; [reflexivity|]. split; cbn [tree d_set_count d_set_tree].
    - unfold new_node. rewrite Hcc. unfold kids. rewrite Ek. eauto.
    - exists []. auto.
    - constructor.
    - unfold calm. auto.
  Qed.
  Lemma fresh_deeper d p x cs s seen y : fresh d p x cs s seen -> wf p -> node_children (z_node p) <> None -> unlabelled y = true -> can_have_children (kind y) = true ->
    child_is_allowed (kind x) (kind y) = Ret true ->
    exists d', dop_exec (DPushFocus y) d = Ret (AOk, d') /\ fresh d' (tree d) y [] [] seen.
  Proof.
    intros F W Hpk Hu Hcc Hk. pose proof (fresh_data _ _ _ _ _ _ F) as Hx. destruct F as [[i Et] (ks & Ek & Eks) Hcs (Ha & Hc & Hs)].
    cbn [dop_exec]. rewrite (unlabelled_section _ Hu). unfold push_data_and_focus.
    rewrite unlabelled_actions by auto. cbn [obind]. rewrite no_classes by auto.
    assert (W' : wf (tree d)).
    { rewrite Et. cbn [wf]. split; [exact W|]. unfold kids. destruct (node_children (z_node p)); [lia|congruence]. }
    rewrite (push_focus_ok d cs); [|exact W'|now rewrite Et|now rewrite Hx]. cbn [obind].
    eexists. split; [reflexivity|]. split; cbn [tree d_set_count d_set_tree].
    - unfold new_node. rewrite Hcc, Et. unfold kids. cbn [z_node node_children]. eauto.
    - exists []. auto.
    - constructor.
    - unfold calm. auto.
  Qed.
  (* its second child is a paragraph: the figure is an open node like others *)
  Lemma fresh_caption d dp p e s0 seen0 m al fw fc nm a s i cs t seen pre :
    opened p e s0 -> fresh dp p (NFigure m al fw fc nm) [a] s seen0 -> fresh d (tree dp) (NParagraph i) cs t seen ->
    pre_string ord full (NFigure m al fw fc nm) None = Ret pre ->
    exists d', d_focus_on_parent d = Ret d' /\
      under d' ((NFigure m al fw fc nm, None) :: e) (s0 ++ pre ++ s ++ lit "\captionof{figure}{" ++ t ++ lit "}" ++ [newline]) seen.
  Proof.
    intros Ho [[i1 Et1] (ks1 & Ek1 & Es1) Hc1 _] [[i2 Et2] (ks2 & Ek2 & Es2) Hc2 (Ha & Hcl & Hs)] Hpre.
    assert (W : wf (tree d)).
    { rewrite Et2, Et1. cbn [wf z_node]. destruct (opened_kids _ _ _ Ho) as [qs Eq]. split; [split; [now apply opened_wf in Ho|unfold kids; rewrite Eq; lia]|].
      unfold kids. cbn [node_children]. lia. }
    unfold d_focus_on_parent. rewrite Et2 in W |- *. rewrite focus_on_parent_wf by exact W. cbn [obind]. eexists. split; [reflexivity|].
    split; cbn [tree d_set_tree hyperref incoming_classes sections]; auto. unfold put_back, kids. rewrite Et1. cbn [z_node node_children z_with_node with_children]. rewrite unswap_last. cbn [app].
    set (cap := Node i2 None None (NCaption i) (Some cs)).
    assert (Hw : write_node ord full cap = Ret (lit "\captionof{figure}{" :: ks2 ++ [lit "}" ++ [newline]])).
    { rewrite write_node_eq. cbn [node_data node_refnames kids node_children cap pre_string obind]. rewrite Ek2. cbn [obind post_string]. reflexivity. }
    replace (s ++ lit "\captionof{figure}{" ++ t ++ lit "}" ++ [newline]) with (concat (ks1 ++ lit "\captionof{figure}{" :: ks2 ++ [lit "}" ++ [newline]])).
    2:{ rewrite concat_app. cbn [concat]. rewrite concat_app. cbn [concat]. rewrite Es1, Es2, app_nil_r. reflexivity. }
    apply (op_child p e s0 i1 None (NFigure m al fw fc nm) [a; Node i2 None None (NParagraph i) (Some cs)] [a; cap] pre).
    - exact Ho.
    - exact Hpre.
    - change [a; cap] with ([a] ++ [cap]). now apply write_children_snoc.
    - cbn [relabel node_data with_data]. inversion Hc1 as [|? ? ? ? Hc1a]; subst. constructor; [exact Hc1a|]. constructor; [|constructor].
      apply becomes_node; [reflexivity|]. cbn [relabel]. exact Hc2.
    - cbn [grown length]. lia.
  Qed.

  (* ---------- nodes inside such a node ---------- *)
  Definition sound (p : TreeZipper) : Prop := wf p /\ node_children (z_node p) <> None.
  Lemma opened_sound p e s : opened p e s -> sound p.
  Proof. intros H. split; [now apply opened_wf in H|]. destruct (opened_kids _ _ _ H) as [ks E]. congruence. Qed.
  Lemma fresh_sound d p x cs s seen : sound p -> fresh d p x cs s seen -> sound (tree d).
  Proof.
    intros [W K] [[i E] _ _ _]. rewrite E. split; [|cbn; discriminate]. cbn [wf]. split; [exact W|]. unfold kids. destruct (node_children (z_node p)); [lia|congruence].
  Qed.
  Lemma fresh_into d p x cs s seen y : fresh d p x cs s seen -> sound p -> unlabelled y = true -> can_have_children (kind y) = true ->
    child_is_allowed (kind x) (kind y) = Ret true ->
    exists d', dop_exec (DPushFocus y) d = Ret (AOk, d') /\ fresh d' (tree d) y [] [] seen.
  Proof. intros F [W K]. now apply (fresh_deeper d p x cs s seen y). Qed.
  Lemma fresh_back d dp p y ys s seen0 x cs t seen pre post : sound p -> fresh dp p y ys s seen0 -> fresh d (tree dp) x cs t seen -> untransformed x = true ->
    pre_string ord full x None = Ret pre -> post_string full x None = Ret post ->
    exists d' n, d_focus_on_parent d = Ret d' /\ fresh d' p y (ys ++ [n]) (s ++ pre ++ t ++ post) seen.
  Proof.
    intros Hp F1 F2 Hx Hpre Hpost. pose proof (fresh_sound _ _ _ _ _ _ (fresh_sound _ _ _ _ _ _ Hp F1) F2) as [W _].
    destruct F1 as [[i1 Et1] (ks1 & Ek1 & Es1) Hc1 _]. destruct F2 as [[i2 Et2] (ks2 & Ek2 & Es2) Hc2 Hcalm].
    unfold d_focus_on_parent. rewrite Et2 in W |- *. rewrite focus_on_parent_wf by exact W. cbn [obind]. eexists.
    set (n := Node i2 None None x (Some cs)). exists n. split; [reflexivity|].
    assert (Hw : write_node ord full n = Ret (pre :: ks2 ++ [post])).
    { rewrite write_node_eq. cbn [node_data node_refnames kids node_children n]. rewrite Hpre. cbn [obind]. rewrite Ek2. cbn [obind]. rewrite Hpost. reflexivity. }
    split; cbn [tree d_set_tree].
    - unfold put_back, kids. rewrite Et1. cbn [z_node node_children z_with_node with_children]. rewrite unswap_last. eauto.
    - exists (ks1 ++ pre :: ks2 ++ [post]). split; [now apply write_children_snoc|]. rewrite concat_app. cbn [concat]. rewrite concat_app. cbn [concat].
      rewrite Es1, Es2, app_nil_r. reflexivity.
    - apply Forall2_app; [exact Hc1|]. constructor; [|constructor]. apply becomes_node; [now apply untransformed_no_table|]. now rewrite untransformed_relabel.
    - exact Hcalm.
  Qed.
  Lemma fresh_update d p x cs s seen y : fresh d p x cs s seen -> fresh (set_focused_data d y) p y cs s seen.
  Proof.
    intros [[i E] K C R]. split; [|exact K|exact C|exact R]. exists i. unfold set_focused_data. cbn [tree d_set_tree]. rewrite E. reflexivity.
  Qed.
  Lemma fresh_done d p e s0 x cs s seen pre : opened p e s0 -> fresh d p x cs s seen -> untransformed x = true -> pre_string ord full x None = Ret pre ->
    under d ((x, None) :: e) (s0 ++ pre ++ s) seen.
  Proof.
    intros Ho [[i E] (ks & K & <-) C (Ha & Hc & Hs)] Hx Hpre. split; auto. rewrite E.
    apply (op_child p e s0 i None x cs cs pre ks Ho Hpre K); [now rewrite untransformed_relabel|now apply untransformed_grown].
  Qed.
End Open.
