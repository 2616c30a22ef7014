(* WriterProofs.v -- proofs about the writer (C33-C39). *)
From Coq Require Import Permutation.
From Verif Require Import Base Unicode Common NodeTypes Tree DocTree Utf8Latex TexSpec Writer WriterSpec Spec
  TextProofs TreeProofs Utf8Proofs.
Local Open Scope N_scope.

(* ---------- the writer as a relation ---------- *)
Definition write_children (ord : hash_order) (fd : bool) : list TreeNode -> outcome (list str) :=
  fix go l := match l with
              | [] => Ret []
              | c :: t => let! a := write_node ord fd c in let! b := go t in Ret (a ++ b)
              end.
Definition kids (n : TreeNode) : list TreeNode := match node_children n with Some l => l | None => [] end.
Lemma write_node_eq ord fd n : write_node ord fd n =
  (let! pre := pre_string ord fd (node_data n) (node_refnames n) in
   let! mid := write_children ord fd (kids n) in
   let! post := post_string fd (node_data n) (node_refnames n) in
   Ret (pre :: mid ++ [post])).
Proof. destruct n as [i r k d [cs|]]; reflexivity. Qed.

Lemma obind_Ret {A B} (m : outcome A) (f : A -> outcome B) b : obind m f = Ret b -> exists a, m = Ret a /\ f a = Ret b.
Proof. destruct m; cbn; [intro H; eauto|discriminate|discriminate]. Qed.

Lemma write_node_inv ord fd n out : write_node ord fd n = Ret out ->
  exists pre mid post, pre_string ord fd (node_data n) (node_refnames n) = Ret pre /\
    write_children ord fd (kids n) = Ret mid /\
    post_string fd (node_data n) (node_refnames n) = Ret post /\ out = pre :: mid ++ [post].
Proof.
  rewrite write_node_eq. intro H. apply obind_Ret in H as [pre [H1 H]]. apply obind_Ret in H as [mid [H2 H]].
  apply obind_Ret in H as [post [H3 H]]. injection H as <-. exists pre, mid, post. auto.
Qed.
Lemma write_children_cons ord fd c t out : write_children ord fd (c :: t) = Ret out ->
  exists a b, write_node ord fd c = Ret a /\ write_children ord fd t = Ret b /\ out = a ++ b.
Proof.
  cbn [write_children]. intro H. apply obind_Ret in H as [a [H1 H]]. apply obind_Ret in H as [b [H2 H]].
  injection H as <-. exists a, b. auto.
Qed.

(* induction on trees through the list of children *)
Lemma tree_ind (P : TreeNode -> Prop) : (forall n, Forall P (kids n) -> P n) -> forall n, P n.
Proof.
  intros H n. induction n as [i r k d|i r k d cs IH] using node_ind'; apply H; [constructor|exact IH].
Qed.
Lemma preorder_eq n : preorder n = n :: flat_map preorder (kids n).
Proof. destruct n as [i r k d [cs|]]; reflexivity. Qed.

(* ---------- C37 ---------- *)
Ltac kinds_in H := exfalso; apply H; cbn; tauto.
Lemma pre_writable ord fd d r : ~ In (kind d) unwritable_kinds ->
  (forall bi t w hr sc al, d <> NListTable bi t None w hr sc al) ->
  exists s, pre_string ord fd d r = Ret s.
Proof.
  intros H L. destruct d; try (eexists; cbn [pre_string]; reflexivity); try kinds_in H.
  - destruct variant; eexists; reflexivity.
  - destruct text; eexists; reflexivity.
  - destruct fd; eexists; reflexivity.
  - destruct widths; [eexists; reflexivity|exfalso; eapply L; reflexivity].
  - destruct reference, displayed_text; eexists; reflexivity.
Qed.
Lemma post_writable fd d r : ~ In (kind d) unwritable_kinds -> exists s, post_string fd d r = Ret s.
Proof.
  intros H. destruct d; try (eexists; cbn [post_string]; reflexivity); try kinds_in H.
  - destruct variant; eexists; reflexivity.
  - destruct fd; eexists; reflexivity.
Qed.
Lemma pre_unwritable ord fd d r : In (kind d) unwritable_kinds -> pre_string ord fd d r = Panic.
Proof.
  intros H. destruct d; try reflexivity;
    exfalso; cbn in H; repeat (destruct H as [H|H]; [discriminate H|]); contradiction.
Qed.
Lemma pre_total ord fd d r : pre_string ord fd d r = Panic \/ exists s, pre_string ord fd d r = Ret s.
Proof.
  destruct d; try (right; eexists; cbn [pre_string]; reflexivity); try (left; reflexivity).
  - destruct variant; right; eexists; reflexivity.
  - destruct text; right; eexists; reflexivity.
  - destruct fd; right; eexists; reflexivity.
  - destruct widths; [right; eexists; reflexivity|left; reflexivity].
  - destruct reference, displayed_text; right; eexists; reflexivity.
Qed.
Lemma post_total fd d r : post_string fd d r = Panic \/ exists s, post_string fd d r = Ret s.
Proof.
  destruct d; try (right; eexists; cbn [post_string]; reflexivity); try (left; reflexivity).
  - destruct variant; right; eexists; reflexivity.
  - destruct fd; right; eexists; reflexivity.
Qed.
Definition decided {A} (m : outcome A) : Prop := m = Panic \/ exists s, m = Ret s.
Lemma write_total ord fd n : decided (write_node ord fd n).
Proof.
  induction n as [n IH] using tree_ind. unfold decided. rewrite write_node_eq.
  destruct (pre_total ord fd (node_data n) (node_refnames n)) as [->|[p ->]]; [left; reflexivity|]. cbn [obind].
  assert (C : decided (write_children ord fd (kids n))).
  { induction IH as [|c t [E|[a E]] _ IHt]; [right; eexists; reflexivity| |]; unfold decided; cbn [write_children]; rewrite E; cbn [obind].
    - left. reflexivity.
    - change (decided (let! b := write_children ord fd t in Ret (a ++ b))).
      destruct IHt as [->|[b ->]]; [left; reflexivity|right; eexists; reflexivity]. }
  destruct C as [->|[m ->]]; [left; reflexivity|]. cbn [obind].
  destruct (post_total fd (node_data n) (node_refnames n)) as [->|[q ->]]; [left; reflexivity|right; eexists; reflexivity].
Qed.

Lemma write_ok ord fd n : Forall writable (preorder n) -> exists out, write_node ord fd n = Ret out.
Proof.
  induction n as [n IH] using tree_ind. rewrite preorder_eq. intro H. inversion H as [|? ? [W1 W2] Hc]; subst.
  rewrite write_node_eq.
  destruct (pre_writable ord fd _ (node_refnames n) W1 W2) as [p ->].
  destruct (post_writable fd _ (node_refnames n) W1) as [q E]. cbn [obind].
  assert (C : exists m, write_children ord fd (kids n) = Ret m).
  { clear H E p q W1 W2. induction IH as [|c t Hd _ IHt]; [eexists; reflexivity|].
    cbn [flat_map] in Hc. apply Forall_app in Hc as [H1 H2].
    destruct (Hd H1) as [a Ea]. destruct (IHt H2) as [b Eb]. cbn [write_children]. rewrite Ea. cbn [obind].
    fold (write_children ord fd). rewrite Eb. eexists; reflexivity. }
  destruct C as [m ->]. cbn [obind]. rewrite E. eexists; reflexivity.
Qed.
Lemma write_children_all ord fd l : forall out, write_children ord fd l = Ret out ->
  Forall (fun c => exists o, write_node ord fd c = Ret o) l.
Proof.
  induction l as [|c t IH]; intros out H; [constructor|].
  apply write_children_cons in H as [a [b [Ha [Hb _]]]]. constructor; [eexists; exact Ha|eapply IH; exact Hb].
Qed.
Lemma write_ok_inv ord fd n : forall out, write_node ord fd n = Ret out -> Forall writable (preorder n).
Proof.
  induction n as [n IH] using tree_ind. intros out H. rewrite preorder_eq.
  apply write_node_inv in H as [pre [mid [post [H1 [H2 [H3 _]]]]]]. constructor.
  - split.
    + intro U. unfold node_kind in U. rewrite (pre_unwritable ord fd _ (node_refnames n) U) in H1. discriminate.
    + intros bi t w hr sc al E. rewrite E in H1. discriminate.
  - apply write_children_all in H2. clear H1 H3. induction IH as [|c t Hc _ IHt]; [constructor|].
    cbn [flat_map]. inversion H2 as [|? ? [o Ho] H2']; subst. apply Forall_app. split; [eapply Hc; exact Ho|apply IHt; exact H2'].
Qed.

(* ---------- C34 ---------- *)
Definition visits_from (p : list nat) : nat -> list TreeNode -> list visit :=
  fix go i l := match l with [] => [] | c :: t => visits (p ++ [i]) c ++ go (S i) t end.
Lemma visits_eq p n : visits p n = Open p :: visits_from p 0 (kids n) ++ [Close p].
Proof. destruct n as [i r k d [cs|]]; reflexivity. Qed.

Lemma node_at_app a b : forall n, node_at n (a ++ b) = match node_at n a with Some m => node_at m b | None => None end.
Proof.
  induction a as [|i a IH]; intro n; [reflexivity|]. cbn [app node_at].
  destruct (node_children n); [|reflexivity]. destruct (nth_error l i); [apply IH|reflexivity].
Qed.
Lemma node_at_kid n i : node_at n [i] = nth_error (kids n) i.
Proof.
  unfold kids. cbn [node_at]. destruct (node_children n); [destruct (nth_error l i); reflexivity|destruct i; reflexivity].
Qed.
Lemma node_at_cons n i p : node_at n (i :: p) = match nth_error (kids n) i with Some c => node_at c p | None => None end.
Proof. change (i :: p) with ([i] ++ p). rewrite node_at_app, node_at_kid. reflexivity. Qed.

(* what is written at a visit *)
Definition says (ord : hash_order) (fd : bool) (root : TreeNode) (v : visit) (t : str) : Prop :=
  match v with
  | Open p => exists n, node_at root p = Some n /\ pre_string ord fd (node_data n) (node_refnames n) = Ret t
  | Close p => exists n, node_at root p = Some n /\ post_string fd (node_data n) (node_refnames n) = Ret t
  end.

Lemma write_visits ord fd root : forall n p out, node_at root p = Some n -> write_node ord fd n = Ret out ->
  Forall2 (says ord fd root) (visits p n) out.
Proof.
  induction n as [n IH] using tree_ind. intros p out At H.
  apply write_node_inv in H as [pre [mid [post [H1 [H2 [H3 ->]]]]]]. rewrite visits_eq.
  constructor; [exists n; auto|]. apply Forall2_app; [|constructor; [exists n; auto|constructor]].
  assert (G : forall l i m, Forall (fun n => forall p out, node_at root p = Some n -> write_node ord fd n = Ret out ->
      Forall2 (says ord fd root) (visits p n) out) l ->
      (forall j c, nth_error l j = Some c -> node_at root (p ++ [i + j]%nat) = Some c) ->
      write_children ord fd l = Ret m -> Forall2 (says ord fd root) (visits_from p i l) m).
  { induction l as [|c t IHt]; intros i m F A W.
    - injection W as <-. constructor.
    - apply write_children_cons in W as [a [b [Wa [Wb ->]]]]. inversion F as [|? ? Fc Ft]; subst. cbn [visits_from].
      apply Forall2_app.
      + apply Fc; [|exact Wa]. specialize (A 0%nat c eq_refl). rewrite Nat.add_0_r in A. exact A.
      + apply IHt; [exact Ft| |exact Wb]. intros j x E. specialize (A (S j) x E). rewrite Nat.add_succ_r in A. exact A. }
  apply G; [exact IH| |exact H2]. intros j c E. rewrite node_at_app, At, node_at_kid. exact E.
Qed.

Lemma visits_path n : forall p v, In v (visits p n) -> exists q, (v = Open (p ++ q) \/ v = Close (p ++ q)).
Proof.
  induction n as [n IH] using tree_ind. intros p v. rewrite visits_eq. intros [<-|H]; [exists []; rewrite app_nil_r; auto|].
  apply in_app_or in H as [H|[<-|[]]]; [|exists []; rewrite app_nil_r; auto].
  revert H. generalize 0%nat. induction IH as [|c t Hc _ IHt]; intros i H; [contradiction|]. cbn [visits_from] in H.
  apply in_app_or in H as [H|H]; [|exact (IHt (S i) H)].
  destruct (Hc _ _ H) as [q E]. exists (i :: q). rewrite <- app_assoc in E. exact E.
Qed.
Lemma visits_from_path l : forall p i v, In v (visits_from p i l) ->
  exists j q, (i <= j)%nat /\ (v = Open (p ++ j :: q) \/ v = Close (p ++ j :: q)).
Proof.
  induction l as [|c t IH]; intros p i v H; [contradiction|]. cbn [visits_from] in H. apply in_app_or in H as [H|H].
  - destruct (visits_path _ _ _ H) as [q E]. exists i, q. rewrite <- app_assoc in E. split; [lia|exact E].
  - destruct (IH _ _ _ H) as [j [q [L E]]]. exists j, q. split; [lia|exact E].
Qed.
Lemma NoDup_app' {A} (a b : list A) : NoDup a -> NoDup b -> (forall x, In x a -> In x b -> False) -> NoDup (a ++ b).
Proof.
  induction a as [|x a IH]; intros Ha Hb D; [exact Hb|]. inversion Ha; subst. cbn. constructor.
  - rewrite in_app_iff. intros [H|H]; [contradiction|]. exact (D x (or_introl eq_refl) H).
  - apply IH; [assumption|assumption|]. intros y Hy. exact (D y (or_intror Hy)).
Qed.
Lemma path_longer (p q : list nat) j : p ++ j :: q <> p.
Proof. intro H. rewrite <- (app_nil_r p) in H at 2. apply app_inv_head in H. discriminate. Qed.
Lemma visits_nodup n : forall p, NoDup (visits p n).
Proof.
  induction n as [n IH] using tree_ind. intro p. rewrite visits_eq.
  assert (G : forall i, NoDup (visits_from p i (kids n))).
  { induction IH as [|c t Hc _ IHt]; intro i; [constructor|]. cbn [visits_from]. apply NoDup_app'; [apply Hc|apply IHt|].
    intros v H1 H2. destruct (visits_path _ _ _ H1) as [q E]. destruct (visits_from_path _ _ _ _ H2) as [j [q' [L E']]].
    rewrite <- app_assoc in E. cbn [app] in E.
    assert (X : i :: q = j :: q').
    { destruct E as [-> | ->], E' as [[= E'] | [= E']]; apply app_inv_head in E'; exact E'. }
    injection X as -> _. lia. }
  constructor.
  - intro H. apply in_app_or in H as [H|[H|[]]]; [|discriminate].
    destruct (visits_from_path _ _ _ _ H) as [j [q [_ [[= E]|E]]]]; [|discriminate]. symmetry in E. exact (path_longer _ _ _ E).
  - apply NoDup_app'; [apply G|constructor; [intros []|constructor]|].
    intros v H [<-|[]]. destruct (visits_from_path _ _ _ _ H) as [j [q [_ [E|[= E]]]]]; [discriminate|].
    symmetry in E. exact (path_longer _ _ _ E).
Qed.
Lemma visits_complete q : forall n p m, node_at n q = Some m -> In (Open (p ++ q)) (visits p n) /\ In (Close (p ++ q)) (visits p n).
Proof.
  induction q as [|i q IH]; intros n p m H.
  - rewrite app_nil_r, visits_eq. split; [left; reflexivity|right; apply in_or_app; right; left; reflexivity].
  - rewrite node_at_cons in H. destruct (nth_error (kids n) i) as [c|] eqn:E; [|discriminate].
    rewrite visits_eq.
    assert (G : forall l k, nth_error l i = Some c -> forall v, In v (visits (p ++ [k + i]%nat) c) -> In v (visits_from p k l)).
    { clear -E. revert E. generalize (kids n) as l0. intros l0 _ l. revert i. induction l as [|x t IHt]; intros i k E v Hv; [destruct i; discriminate|].
      cbn [visits_from]. apply in_or_app. destruct i as [|i].
      - injection E as ->. rewrite Nat.add_0_r in Hv. left. exact Hv.
      - right. apply (IHt i (S k) E). rewrite Nat.add_succ_r in Hv. exact Hv. }
    destruct (IH c (p ++ [i]) m H) as [A B]. rewrite <- app_assoc in A, B.
    split; right; apply in_or_app; left; apply (G (kids n) 0%nat E); assumption.
Qed.

(* every node's texts are in the output *)
Lemma contains_app_l s t u : contains s t -> contains (s ++ u) t.
Proof. intros [a [b ->]]. exists a, (b ++ u). rewrite <- !app_assoc. reflexivity. Qed.
Lemma contains_app_r s t u : contains s t -> contains (u ++ s) t.
Proof. intros [a [b ->]]. exists (u ++ a), b. rewrite <- !app_assoc. reflexivity. Qed.
Lemma contains_refl t : contains t t.
Proof. exists [], []. rewrite app_nil_r. reflexivity. Qed.
Lemma contains_concat s l t : In s l -> contains s t -> contains (concat l) t.
Proof.
  induction l as [|x l IH]; [contradiction|]. intros [->|H] C; cbn [concat]; [apply contains_app_l; exact C|apply contains_app_r; auto].
Qed.
Lemma contains_join sep l t : In t l -> contains (join sep l) t.
Proof.
  induction l as [|x l IH]; [contradiction|]. intros [->|H].
  - destruct l; [apply contains_refl|]. cbn [join]. apply contains_app_l, contains_refl.
  - destruct l; [contradiction|]. cbn [join]. apply contains_app_r, contains_app_r, IH, H.
Qed.

Lemma write_contains_pre ord fd root out n : write_node ord fd root = Ret out -> In n (preorder root) ->
  exists pre post, pre_string ord fd (node_data n) (node_refnames n) = Ret pre /\
    post_string fd (node_data n) (node_refnames n) = Ret post /\ In pre out /\ In post out.
Proof.
  revert out. induction root as [root IH] using tree_ind. intros out H. rewrite preorder_eq.
  apply write_node_inv in H as [pre [mid [post [H1 [H2 [H3 ->]]]]]]. intros [<-|I].
  - exists pre, post. split; [exact H1|]. split; [exact H3|]. split; [left; reflexivity|].
    right. apply in_or_app. right. left. reflexivity.
  - apply in_flat_map in I as [c [Hc Hn]]. clear H1 H3.
    assert (G : forall l m, Forall (fun c => forall out, write_node ord fd c = Ret out -> In n (preorder c) ->
      exists pre post, pre_string ord fd (node_data n) (node_refnames n) = Ret pre /\
      post_string fd (node_data n) (node_refnames n) = Ret post /\ In pre out /\ In post out) l ->
      In c l -> write_children ord fd l = Ret m -> exists pre post, pre_string ord fd (node_data n) (node_refnames n) = Ret pre /\
      post_string fd (node_data n) (node_refnames n) = Ret post /\ In pre m /\ In post m).
    { induction l as [|x t IHt]; intros m F Hi W; [contradiction|].
      apply write_children_cons in W as [a [b [Wa [Wb ->]]]]. inversion F as [|? ? Fx Ft]; subst.
      destruct Hi as [->|Hi].
      - destruct (Fx a Wa Hn) as [u [w [A [B [C D]]]]]. exists u, w. repeat split; try assumption; apply in_or_app; left; assumption.
      - destruct (IHt b Ft Hi Wb) as [u [w [A [B [C D]]]]]. exists u, w. repeat split; try assumption; apply in_or_app; right; assumption. }
    destruct (G (kids root) mid IH Hc H2) as [u [w [A [B [C D]]]]]. exists u, w.
    repeat split; try assumption; right; apply in_or_app; left; assumption.
Qed.

Lemma Ret_inj {A} (a b : A) : Ret a = Ret b -> a = b.
Proof. congruence. Qed.
Ltac cont := first [ apply contains_refl | apply contains_app_l; cont | apply contains_app_r; cont ].
Lemma shown_in_pre ord fd d r s t : (forall a b c e f, d <> NCode a b c e f) ->
  pre_string ord fd d r = Ret s -> In t (shown_texts d) -> contains s t.
Proof.
  intros NC H I. destruct d; cbn [shown_texts] in I; try contradiction;
    try (cbn [pre_string] in H; apply Ret_inj in H; subst s; destruct I as [<-|[]]; unfold braces, brackets; cont; fail).
  - (* Admonition *) destruct variant; try contradiction. apply Ret_inj in H; subst s. destruct I as [<-|[]]. unfold braces. cont.
  - exfalso. eapply NC. reflexivity.
  - (* Comment *) destruct text as [c|]; [|contradiction]. cbn [pre_string] in H. apply Ret_inj in H; subst s.
    apply contains_app_l. apply in_map_iff in I as [l [<- Hl]]. apply (contains_concat (lit "% " ++ l ++ nl)).
    + apply in_map_iff. exists l. auto.
    + rewrite app_assoc. cont.
  - (* DefinitionListItem *) cbn [pre_string] in H. apply Ret_inj in H; subst s. destruct I as [<-|I]; [unfold braces; cont|].
    apply contains_app_r, contains_app_r, contains_app_l. destruct classifiers as [|c l]; [contradiction|].
    apply contains_app_r, contains_join, I.
  - (* Image *) cbn [pre_string] in H. apply Ret_inj in H; subst s. destruct alt as [a|].
    + destruct I as [<-|[<-|[]]]; [unfold braces; cont|]. apply contains_app_r, contains_app_l. cbn [opt_item app].
      unfold option_list, brackets. apply contains_app_r, contains_app_l, contains_join. left. reflexivity.
    + destruct I as [<-|[]]. unfold braces; cont.
  - (* ListTable *) destruct title as [t0|]; [|contradiction]. destruct I as [<-|[]]. destruct widths as [w|]; [|discriminate].
    cbn [pre_string opt_item option_list join] in H. apply Ret_inj in H; subst s. unfold braces, brackets. cont.
  - (* Reference *) destruct displayed_text as [t0|]; [|contradiction]. destruct I as [<-|[]].
    destruct reference; apply Ret_inj in H; subst s; unfold braces, brackets; cont.
  - (* UnknownDirective *) destruct (blank argument) eqn:B; [contradiction|]. destruct I as [<-|[]].
    cbn [pre_string] in H. rewrite B in H. apply Ret_inj in H; subst s. unfold braces. cont.
  - (* FreeText *) cbn [pre_string] in H. apply Ret_inj in H; subst s. destruct I as [<-|[<-|[]]]; unfold braces; cont.
  - destruct title as [t0|]; [|contradiction]. cbn [pre_string] in H. apply Ret_inj in H; subst s.
    destruct I as [<-|[<-|[]]]; unfold braces; cont.
  - destruct title as [t0|]; [|contradiction]. cbn [pre_string] in H. apply Ret_inj in H; subst s.
    destruct I as [<-|[<-|[<-|[]]]]; unfold braces; cont.
Qed.

(* ---------- C36 ---------- *)
Lemma anchor_contains d refs cmd name x : anchor_kind d = (name, cmd) -> cmd <> [] ->
  In x (match name with Some y => [y] | None => [] end ++ match refs with Some l => l | None => [] end) ->
  contains (anchor_string d refs) (lit "\" ++ cmd ++ lit "{" ++ x ++ lit "}").
Proof.
  intros K C I. unfold anchor_string. rewrite K. apply in_app_or in I.
  assert (A : forall y, contains (anchor1 cmd y) (lit "\" ++ cmd ++ lit "{" ++ y ++ lit "}")).
  { intro y. destruct cmd as [|a cmd]; [contradiction|]. unfold anchor1, braces. exists [], nl.
    generalize (a :: cmd). intro l. rewrite app_nil_l, <- !app_assoc. reflexivity. }
  destruct I as [I|I].
  - apply contains_app_l. destruct name as [y|]; [|contradiction]. destruct I as [<-|[]]. apply A.
  - apply contains_app_r. destruct refs as [l|]; [|contradiction].
    apply (contains_concat (anchor1 cmd x)); [|apply A]. apply in_map. exact I.
Qed.
Lemma anchors_written ord fd n pre post a : pre_string ord fd (node_data n) (node_refnames n) = Ret pre ->
  post_string fd (node_data n) (node_refnames n) = Ret post -> In a (anchors n) -> contains pre a \/ contains post a.
Proof.
  intros H1 H2 I. unfold anchors in I. destruct (node_data n) eqn:D; try contradiction.
  - apply in_map_iff in I as [x [<- I]]. right. cbn [post_string] in H2. apply Ret_inj in H2; subst post. apply contains_app_l.
    apply (anchor_contains _ _ (lit "label") name x); [reflexivity|discriminate|]. destruct name; exact I.
  - apply in_map_iff in I as [x [<- I]]. left. cbn [pre_string] in H1. apply Ret_inj in H1; subst pre. apply contains_app_l.
    apply (anchor_contains _ _ (lit "rstlabel") name x); [reflexivity|discriminate|]. destruct name; exact I.
  - apply in_map_iff in I as [x [<- I]]. left. cbn [pre_string] in H1. apply Ret_inj in H1; subst pre. apply contains_app_l.
    apply (anchor_contains _ _ (lit "rstlabel") None x); [reflexivity|discriminate|exact I].
Qed.

(* ---------- C39 ---------- *)
Lemma order_short ord l : is_order ord -> (List.length l <= 1)%nat -> ord l = l.
Proof.
  intros H L. specialize (H l). destruct l as [|a [|b l]]; [|
    |cbn in L; lia].
  - apply Permutation_nil in H. exact H.
  - apply Permutation_length_1_inv in H. exact H.
Qed.
Lemma pre_deterministic o1 o2 fd n : is_order o1 -> is_order o2 -> few_options n ->
  pre_string o1 fd (node_data n) (node_refnames n) = pre_string o2 fd (node_data n) (node_refnames n).
Proof.
  intros H1 H2 F. unfold few_options in F. destruct (node_data n); try reflexivity.
  cbn [pre_string]. rewrite (order_short o1), (order_short o2); [reflexivity|exact H2| |exact H1|];
    destruct options as [|a [|b l]]; cbn; try lia; contradiction.
Qed.
Lemma write_deterministic o1 o2 fd n : is_order o1 -> is_order o2 -> Forall few_options (preorder n) ->
  write_node o1 fd n = write_node o2 fd n.
Proof.
  intros H1 H2. induction n as [n IH] using tree_ind. rewrite preorder_eq. intro F. inversion F as [|? ? F0 Fc]; subst.
  rewrite !write_node_eq, (pre_deterministic o1 o2) by assumption.
  assert (C : write_children o1 fd (kids n) = write_children o2 fd (kids n)).
  { clear F F0. induction IH as [|c t Hc _ IHt]; [reflexivity|]. cbn [flat_map] in Fc. apply Forall_app in Fc as [Fa Fb].
    cbn [write_children]. rewrite (Hc Fa). fold (write_children o1 fd) (write_children o2 fd). rewrite (IHt Fb). reflexivity. }
  rewrite C. reflexivity.
Qed.

(* ---------- C38 ---------- *)
Lemma written_full chunks : written_bytes chunks [] = bytes (concat chunks).
Proof.
  induction chunks as [|c t IH]; [reflexivity|]. cbn [written_bytes concat]. rewrite IH.
  unfold bytes. rewrite flat_map_app. reflexivity.
Qed.
Lemma written_complete chunks : forall accepted,
  (forall i c k, nth_error chunks i = Some c -> nth_error accepted i = Some k -> (List.length (bytes c) <= k)%nat) ->
  written_bytes chunks accepted = bytes (concat chunks).
Proof.
  induction chunks as [|c t IH]; intros accepted H; [reflexivity|].
  destruct accepted as [|k ks]; [apply written_full|]. cbn [written_bytes concat].
  rewrite (firstn_all2 (n := k)) by exact (H 0%nat c k eq_refl eq_refl).
  rewrite IH; [unfold bytes; rewrite flat_map_app; reflexivity|].
  intros i x j Hx Hj. exact (H (S i) x j Hx Hj).
Qed.
(* characters are told apart by their bytes *)
Lemma utf8_len_bytes c : List.length (utf8_bytes c) = utf8_len c.
Proof.
  unfold utf8_bytes, utf8_len. destruct (c <? 0x80); [reflexivity|]. destruct (c <? 0x800); [reflexivity|].
  destruct (c <? 0x10000); reflexivity.
Qed.

(* ---------- C33 ---------- *)
(* s opens exactly the environments o (innermost first) and closes none *)
Definition takes (s : str) (o : list str) : Prop := forall st, env_run s EText st = Some (EText, o ++ st).
Definition closes (s : str) (o : list str) : Prop := forall st, env_run s EText (o ++ st) = Some (EText, st).
Definition inert (s : str) : Prop := takes s [].
Lemma env_run_app a b : forall m st, env_run (a ++ b) m st =
  match env_run a m st with Some (m', st') => env_run b m' st' | None => None end.
Proof.
  induction a as [|c a IH]; intros m st; [reflexivity|]. cbn [app env_run].
  destruct (env_step m st c) as [[m' st']|]; [apply IH|reflexivity].
Qed.
Lemma env_frame s more : forall m st m' st', env_run s m st = Some (m', st') ->
  env_run s m (st ++ more) = Some (m', st' ++ more).
Proof.
  induction s as [|c s IH]; intros m st m' st'; cbn [env_run]; [intros [= -> ->]; reflexivity|].
  destruct (env_step m st c) as [[m1 st1]|] eqn:E; [|discriminate]. intro H. apply IH in H.
  replace (env_step m (st ++ more) c) with (Some (m1, st1 ++ more)); [exact H|]. symmetry. clear -E.
  destruct m as [|acc|o acc]; cbn [env_step] in *.
  - injection E as <- <-. reflexivity.
  - destruct (tex_letter c); [injection E as <- <-; reflexivity|]. destruct acc; injection E as <- <-; reflexivity.
  - destruct (c =? ch "}"); [|injection E as <- <-; reflexivity]. destruct o; [injection E as <- <-; reflexivity|].
    destruct st as [|e st]; [discriminate|]. cbn [app]. destruct (str_eqb e acc); [injection E as <- <-; reflexivity|discriminate].
Qed.
Lemma balanced_inert s : env_balanced s -> inert s.
Proof. intros H st. exact (env_frame s st EText [] EText [] H). Qed.
Lemma inert_app a b : inert a -> inert b -> inert (a ++ b).
Proof. intros A B st. rewrite env_run_app, (A st). apply B. Qed.
Lemma takes_l a b o : inert a -> takes b o -> takes (a ++ b) o.
Proof. intros A B st. rewrite env_run_app, (A st). apply B. Qed.
Lemma takes_r a b o : takes a o -> inert b -> takes (a ++ b) o.
Proof. intros A B st. rewrite env_run_app, (A st). apply B. Qed.
Lemma closes_l a b o : inert a -> closes b o -> closes (a ++ b) o.
Proof. intros A B st. rewrite env_run_app, (A (o ++ st)). apply B. Qed.
Lemma closes_r a b o : closes a o -> inert b -> closes (a ++ b) o.
Proof. intros A B st. rewrite env_run_app, (A st). apply B. Qed.
Lemma inert_nil : inert [].
Proof. intro st. reflexivity. Qed.
Lemma inert_concat l : Forall inert l -> inert (concat l).
Proof. induction 1; [apply inert_nil|cbn [concat]; apply inert_app; assumption]. Qed.
Lemma inert_join sep l : inert sep -> Forall inert l -> inert (join sep l).
Proof.
  intros S. induction 1 as [|x l Hx Hl IH]; [apply inert_nil|]. destruct l; [exact Hx|].
  cbn [join]. apply inert_app; [exact Hx|apply inert_app; [exact S|exact IH]].
Qed.
Lemma plain_inert s : Forall (fun c => c <> ch "\") s -> inert s.
Proof.
  intros H st. induction H as [|c s Hc _ IH]; [reflexivity|]. cbn [env_run env_step].
  apply N.eqb_neq in Hc. rewrite Hc. exact IH.
Qed.
Lemma env_name e : Forall (fun c => c <> ch "}") e -> forall o acc st,
  env_run (e ++ lit "}") (EName o acc) st = env_run (lit "}") (EName o (acc ++ e)) st.
Proof.
  induction 1 as [|c e Hc _ IH]; intros o acc st; [rewrite app_nil_r; reflexivity|].
  cbn [app env_run env_step]. apply N.eqb_neq in Hc. rewrite Hc, IH, <- app_assoc. reflexivity.
Qed.
Lemma begin_takes e : Forall (fun c => c <> ch "}") e -> takes (begin_env e) [e].
Proof.
  intros H st. unfold begin_env. rewrite env_run_app.
  change (env_run (lit "\begin{") EText st) with (Some (EName true [], st)).
  cbv iota beta. rewrite env_name by exact H. reflexivity.
Qed.
Lemma end_closes e : Forall (fun c => c <> ch "}") e -> closes (end_env e) [e].
Proof.
  intros H st. unfold end_env. rewrite env_run_app.
  change (env_run (lit "\end{") EText ([e] ++ st)) with (Some (EName false [], e :: st)).
  cbv iota beta. rewrite env_name by exact H. cbn. rewrite str_eqb_refl. reflexivity.
Qed.
(* converted text opens and closes nothing, whatever it is *)
Lemma some_inj {A} (x y : A) : Some x = Some y -> x = y.
Proof. congruence. Qed.
Lemma piece_inert c p : written_as c p -> inert p.
Proof.
  assert (E : forall c e, escape_of c = Some e -> inert e).
  { clear. intros c e. unfold escape_of. destruct (c =? ch "\"); [intro X; apply some_inj in X; subst e; intro; reflexivity|].
    destruct (c =? ch "^"); [intro X; apply some_inj in X; subst e; intro; reflexivity|].
    destruct (tex_special c) eqn:S; [|discriminate]. intro X; apply some_inj in X; subst e. intro st.
    change (env_run [ch "\"; c] EText st) with (match env_step (ECmd []) st c with Some (m', st') => Some (m', st') | None => None end).
    unfold env_step. destruct (tex_letter c) eqn:L; [|reflexivity].
    destruct (letter_facts c L) as [_ [_ [X _]]]. unfold escape_of in X. rewrite S in X.
    destruct (c =? ch "\"); [discriminate|]. destruct (c =? ch "^"); discriminate. }
  intros [x N|x e H|x e H]; subst.
  - destruct (typeset_plain _ N) as [_ B]. apply plain_inert. constructor; [exact B|constructor].
  - apply (E x). exact H.
  - apply inert_app; [apply (E x); exact H|]. intro; reflexivity.
Qed.
Lemma text_inert s : inert (unicode_text_to_latex s).
Proof.
  destruct (text_pieces s) as [ps [-> F]]. apply inert_concat. induction F as [|c p cs ps H _ IH]; [constructor|].
  constructor; [eapply piece_inert; exact H|exact IH].
Qed.
Definition no_bs (s : str) : Prop := Forall (fun c => c <> ch "\") s.
Lemma digits_no_bs s : Forall (fun c => is_ascii_digit c = true) s -> no_bs s.
Proof. apply Forall_impl. intros c H ->. discriminate H. Qed.
Lemma dec_no_bs n : no_bs (dec n).
Proof. apply digits_no_bs, dec_digits. Qed.
Lemma zeros_no_bs n : no_bs (zeros n).
Proof. induction n; constructor; [discriminate|assumption]. Qed.
Lemma no_bs_app a b : no_bs a -> no_bs b -> no_bs (a ++ b).
Proof. intros. apply Forall_app. split; assumption. Qed.
Lemma no_bs_firstn n s : no_bs s -> no_bs (firstn n s).
Proof. intro H. revert n. induction H; intros [|n]; cbn; constructor; auto. apply IHForall. Qed.
Lemma no_bs_skipn n s : no_bs s -> no_bs (skipn n s).
Proof. intro H. revert n. induction H; intros [|n]; cbn; auto; constructor; auto. Qed.
Lemma no_bs_strip s : no_bs s -> no_bs (strip_zeros s).
Proof.
  intro H. unfold strip_zeros. apply Forall_rev. apply Forall_rev in H. induction H as [|c t Hc Ht IH]; [constructor|].
  destruct (c =? 48); [exact IH|constructor; assumption].
Qed.
Lemma fnum_no_bs f : no_bs (fnum_display f).
Proof.
  unfold fnum_display. set (d := zeros _ ++ _). assert (D : no_bs d) by (apply no_bs_app; [apply zeros_no_bs|apply dec_no_bs]).
  assert (X := no_bs_strip _ (no_bs_skipn (length d - scale f) d D)). assert (Y := no_bs_firstn (length d - scale f) d D).
  destruct (strip_zeros _); [exact Y|]. apply no_bs_app; [exact Y|]. apply no_bs_app; [repeat constructor; discriminate|exact X].
Qed.
Lemma length_inert l : inert (length_display l).
Proof.
  unfold length_display. apply inert_app; [apply plain_inert, fnum_no_bs|]. destruct (len_unit l); intro; reflexivity.
Qed.
Lemma fmt2_inert a b : inert (fmt2 a b).
Proof.
  apply plain_inert. unfold fmt2. apply no_bs_app; [apply dec_no_bs|]. apply no_bs_app; [repeat constructor; discriminate|].
  apply no_bs_app; [apply zeros_no_bs|apply dec_no_bs].
Qed.
Lemma dec_inert n : inert (dec n).
Proof. apply plain_inert, dec_no_bs. Qed.
Lemma braces_inert s : inert s -> inert (braces s).
Proof. intro. unfold braces. apply inert_app; [intro; reflexivity|apply inert_app; [assumption|intro; reflexivity]]. Qed.
Lemma brackets_inert s : inert s -> inert (brackets s).
Proof. intro. unfold brackets. apply inert_app; [intro; reflexivity|apply inert_app; [assumption|intro; reflexivity]]. Qed.
Lemma bracketed_inert s : inert s -> inert (bracketed s).
Proof. destruct s; intro; [apply inert_nil|apply brackets_inert; assumption]. Qed.
Lemma option_list_inert l : Forall inert l -> inert (option_list l).
Proof. destruct l; intro; [apply inert_nil|]. apply brackets_inert, inert_join; [intro; reflexivity|assumption]. Qed.
Lemma opt_part_inert k o : inert k -> (forall v, o = Some v -> inert v) -> inert (opt_part k o).
Proof.
  intros K V. destruct o as [v|]; [|apply inert_nil]. apply inert_app; [exact K|].
  apply inert_app; [apply V; reflexivity|intro; reflexivity].
Qed.
Lemma flag_part_inert k b : inert k -> inert (flag_part k b).
Proof. intro K. destruct b; [|apply inert_nil]. apply inert_app; [exact K|intro; reflexivity]. Qed.
Lemma opt_item_inert {A} (f : A -> str) o : (forall v, o = Some v -> inert (f v)) -> Forall inert (opt_item f o).
Proof. intro H. destruct o; constructor; [apply H; reflexivity|constructor]. Qed.
Lemma flag_item_inert b t : inert t -> Forall inert (flag_item b t).
Proof. intro H. destruct b; constructor; [assumption|constructor]. Qed.
Lemma nonempty_item_inert f t : inert (f t) -> Forall inert (nonempty_item f t).
Proof. intro H. destruct t; constructor; [assumption|constructor]. Qed.
Lemma anchor_inert d refs :
  Forall inert match refs with Some l => l | None => [] end ->
  (forall v, fst (anchor_kind d) = Some v -> inert v) -> inert (anchor_string d refs).
Proof.
  intros R O. unfold anchor_string. destruct (anchor_kind d) as [name command] eqn:K.
  assert (A1 : forall v, inert v -> inert (anchor1 command v)).
  { intros v V. assert (C : command = [] \/ command = lit "label" \/ command = lit "rstlabel").
    { destruct d; cbn in K; assert (X := f_equal snd K); cbn [snd] in X; auto. }
    destruct C as [->|[->| ->]]; [apply inert_nil| |].
    - change (inert (lit "\label" ++ braces v ++ nl)).
      apply inert_app; [intro; reflexivity|]. apply inert_app; [apply braces_inert; exact V|intro; reflexivity].
    - change (inert (lit "\rstlabel" ++ braces v ++ nl)).
      apply inert_app; [intro; reflexivity|]. apply inert_app; [apply braces_inert; exact V|intro; reflexivity]. }
  apply inert_app.
  - destruct name as [v|]; [|apply inert_nil]. apply A1, O. reflexivity.
  - destruct refs as [l|]; [|apply inert_nil]. apply inert_concat. induction R; constructor; [apply A1; assumption|assumption].
Qed.

(* the environments a node leaves open between its opening and closing text *)
Definition opened (fd : bool) (d : TreeNodeType) : list str :=
  match d with
  | NAdmonition _ _ _ (AdmAdmonition _) => [lit "admonition"]
  | NAdmonition _ _ _ v => [admonition_display v]
  | NBlockQuote _ => [lit "quotation"]
  | NBulletList _ _ _ | NDefinitionList _ | NFieldList _ => [lit "itemize"]
  | NCode _ _ _ _ _ | NLiteralBlock _ | NSphinxCodeBlock _ _ _ _ _ _ _ _ _ => [lit "codeblock"]
  | NDocument => if fd then [lit "document"] else []
  | NEnumeratedList _ _ _ _ _ => [lit "enumerate"]
  | NFigure _ _ _ _ _ => [lit "center"]
  | NListTable _ _ _ _ _ _ _ => [lit "tabular"]
  | NMathBlock _ _ _ => [lit "equation"]
  | NUnknownDirective name _ _ _ => [to_lowercase name]
  | NSphinxOnly _ _ => [lit "only"]
  | NAplusPOI _ _ _ _ _ _ _ _ _ _ _ _ _ => [lit "poi"]
  | NAplusQuestionnaire _ _ _ _ _ _ _ _ _ _ _ _ _ _ _ _ _ _ => [lit "quiz"]
  | NAplusPickOne _ _ _ _ _ _ | NAplusPickAny _ _ _ _ _ _ _ _ _ => [lit "pick"]
  | NAplusFreeText _ _ _ _ _ _ _ _ _ => [lit "freetext"]
  | NAplusPickChoices _ => [lit "answers"]
  | NAplusSubmit _ _ _ _ _ _ _ _ _ _ _ _ _ _ _ _ _ _ _ _ _ _ => [lit "submit"]
  | _ => []
  end.
Lemma opt_texts_cons o l : opt_texts (o :: l) = match o with Some t => [t] | None => [] end ++ opt_texts l.
Proof. reflexivity. Qed.
Ltac litin := first [apply inert_nil | intro; reflexivity].
Ltac ine :=
  repeat match goal with
  | |- inert (braces _) => apply braces_inert
  | |- inert (brackets _) => apply brackets_inert
  | |- inert (bracketed _) => apply bracketed_inert
  | |- inert (option_list _) => apply option_list_inert
  | |- inert (join _ _) => apply inert_join
  | |- inert (opt_part _ _) => apply opt_part_inert
  | |- inert (flag_part _ _) => apply flag_part_inert
  | |- inert (dec _) => apply dec_inert
  | |- inert (fmt2 _ _) => apply fmt2_inert
  | |- inert (fmt2_fnum _) => apply fmt2_inert
  | |- inert (length_display _) => apply length_inert
  | |- inert (rst_length_to_string _) => apply length_inert
  | |- inert (html_align_display ?a) => destruct a; litin
  | |- inert (submit_status ?a) => destruct a; litin
  | |- inert (output_status ?a) => destruct a; litin
  | |- inert (clear_str ?a) => destruct a; litin
  | |- inert (unicode_text_to_latex _) => apply text_inert
  | |- inert (_ ++ _) => apply inert_app
  | |- inert [] => apply inert_nil
  | |- inert nl => litin
  | |- inert comma => litin
  | |- inert (lit _) => litin
  | |- Forall inert (opt_item _ _) => apply opt_item_inert
  | |- Forall inert (flag_item _ _) => apply flag_item_inert
  | |- Forall inert (nonempty_item _ _) => apply nonempty_item_inert
  | |- Forall inert (_ ++ _) => apply Forall_app; split
  | |- Forall inert [_] => constructor; [|constructor]
  | |- forall _, _ => intros
  | |- _ => solve [auto]
  end.
Ltac inn := first [ left; reflexivity | apply in_or_app; left; inn | apply in_or_app; right; inn | right; inn ].
Ltac raw R := apply R; cbn [opt_texts flat_map]; inn.
Ltac leaf R :=
  repeat match goal with
  | E : option_map _ ?o = Some _ |- _ => destruct o; cbn [option_map] in E; [apply some_inj in E; subst|discriminate E]; ine
  | E : ?o = Some _ |- _ => subst o
  | |- inert (match ?x with _ => _ end) => destruct x; ine
  | |- inert (if ?x then _ else _) => destruct x; ine
  | |- inert [] => apply inert_nil
  | |- inert (lit _) => litin
  | |- _ => solve [raw R]
  | |- _ => progress ine
  end.
Lemma pre_takes ord fd a refs b d cs p : is_order ord ->
  Forall inert (raw_texts (Node a refs b d cs)) -> Forall (Forall (fun c => c <> ch "}")) (env_names d) ->
  kind d <> KRaw -> pre_string ord fd d refs = Ret p -> takes p (opened fd d).
Proof.
  intros O R E K P. unfold raw_texts in R. cbn [node_refnames node_data] in R.
  apply Forall_app in R as [RF R].
  destruct d; cbn [pre_string] in P; try discriminate P; try (exfalso; apply K; reflexivity);
  cbn [opened env_names] in *; rewrite Forall_forall in R.
  all: try solve [apply Ret_inj in P; subst p;
    match goal with
    | |- takes ?x [] => change (inert x); ine; leaf R
    | |- takes (begin_env _ ++ _) _ => apply takes_r; [apply begin_takes; repeat constructor; discriminate|];
      ine; leaf R
    end].
  - (* Admonition *) destruct variant; apply Ret_inj in P; subst p;
    (apply takes_r; [apply begin_takes; repeat constructor; discriminate|]); ine; leaf R.
  - (* Comment *) destruct text as [tx|]; apply Ret_inj in P; subst p; [|apply inert_nil].
    change (inert (concat (map (fun l => lit "% " ++ l ++ nl) (lines tx)) ++ nl)). ine. apply inert_concat, Forall_map, Forall_forall.
    intros x X. ine; apply R; exact X.
  - (* DefinitionListItem *) apply Ret_inj in P; subst p. match goal with |- takes ?x [] => change (inert x) end. ine; [leaf R|].
    destruct classifiers; [apply inert_nil|]. apply inert_app; [litin|]. apply inert_join; [litin|].
    apply Forall_forall. intros x X. apply R. right. exact X.
  - (* Document *) destruct fd; apply Ret_inj in P; subst p; [|apply inert_nil].
    apply takes_l; [litin|]. apply takes_l; [litin|]. apply takes_r; [apply begin_takes; repeat constructor; discriminate|]. ine.
  - (* InterpretedText *) apply Ret_inj in P; subst p. apply (R (lit "\" ++ role ++ braces content)). left. reflexivity.
  - (* ListTable *) destruct widths as [w|]; [|discriminate]. apply Ret_inj in P; subst p.
    apply takes_r; [apply begin_takes; repeat constructor; discriminate|]. ine; [leaf R|].
    destruct w; [|apply inert_nil]. apply inert_concat, Forall_map, Forall_forall. intros x _; ine.
  - (* MathBlock *) apply Ret_inj in P; subst p. apply takes_l; [apply anchor_inert; [exact RF|]; cbn [anchor_kind fst]; intros; leaf R|].
    apply takes_r; [apply begin_takes; repeat constructor; discriminate|]. ine; leaf R.
  - (* Reference *) destruct reference, displayed_text; apply Ret_inj in P; subst p;
    match goal with |- takes ?x [] => change (inert x) end; ine; leaf R.
  - (* Section *) apply Ret_inj in P; subst p. match goal with |- takes ?x [] => change (inert x) end.
    apply inert_app; [apply anchor_inert; [exact RF|]; cbn [anchor_kind fst]; discriminate|].
    rewrite app_assoc. apply inert_app; [|ine; leaf R].
    destruct level as [|[|[|[|]]]]; litin.
  - (* UnknownDirective *) apply Ret_inj in P; subst p.
    apply takes_r; [apply begin_takes; inversion E; assumption|]. ine; [|leaf R].
    apply Forall_map, Forall_forall. intros kv I. apply (Permutation_in _ (Permutation_sym (O options))) in I.
    assert (X : forall s, In s [fst kv; snd kv] -> inert s).
    { intros s S. apply R. right. apply in_flat_map. exists kv. split; assumption. }
    ine; apply X; cbn; auto.
Qed.
Lemma post_closes fd a refs b d cs p :
  Forall inert (raw_texts (Node a refs b d cs)) -> Forall (Forall (fun c => c <> ch "}")) (env_names d) ->
  kind d <> KRaw -> ~ In (kind d) unwritable_kinds -> post_string fd d refs = Ret p -> closes p (opened fd d).
Proof.
  intros R E K U P. unfold raw_texts in R. cbn [node_refnames node_data] in R.
  apply Forall_app in R as [RF R].
  destruct d; cbn [post_string] in P; try discriminate P; try (exfalso; apply K; reflexivity);
  try (exfalso; apply U; cbn; tauto);
  cbn [opened env_names] in *; rewrite Forall_forall in R.
  all: try solve [apply Ret_inj in P; subst p;
    match goal with
    | |- closes ?x [] => change (inert x); ine; leaf R
    | |- closes (end_env _ ++ _) _ => apply closes_r; [apply end_closes; repeat constructor; discriminate|];
      ine; leaf R
    end].
  - (* Admonition *) destruct variant; apply Ret_inj in P; subst p;
    (apply closes_r; [apply end_closes; repeat constructor; discriminate|]); ine; leaf R.
  - (* Document *) destruct fd; apply Ret_inj in P; subst p; [|apply inert_nil].
    apply closes_r; [apply end_closes; repeat constructor; discriminate|]. ine.
  - (* Figure *) apply Ret_inj in P; subst p. apply closes_l; [apply anchor_inert; [exact RF|]; cbn [anchor_kind fst]; intros; leaf R|].
    apply closes_r; [apply end_closes; repeat constructor; discriminate|]. ine.
  - (* LiteralBlock *) apply Ret_inj in P; subst p. apply closes_l; [ine|].
    apply closes_r; [apply end_closes; repeat constructor; discriminate|]. ine.
  - (* UnknownDirective *) apply Ret_inj in P; subst p.
    apply closes_r; [apply end_closes; inversion E; assumption|]. ine.
Qed.
Lemma write_balanced ord fd root : is_order ord -> forall out, write_node ord fd root = Ret out ->
  Forall (fun n => kind (node_data n) <> KRaw) (preorder root) ->
  Forall (fun n => Forall env_balanced (raw_texts n)) (preorder root) ->
  Forall (fun n => Forall (Forall (fun c => c <> ch "}")) (env_names (node_data n))) (preorder root) ->
  env_balanced (concat out).
Proof.
  intros O out W A B C. apply (fun H : inert (concat out) => H []).
  revert out W A B C. induction root as [n IH] using tree_ind. intros out W A B C.
  rewrite preorder_eq in A, B, C. inversion A as [|? ? A0 A1]; subst. inversion B as [|? ? B0 B1]; subst.
  inversion C as [|? ? C0 C1]; subst.
  assert (U := write_ok_inv _ _ _ _ W). rewrite preorder_eq in U. inversion U as [|? ? [U0 _] _]; subst.
  apply write_node_inv in W as [pre [mid [post [P [M [Q ->]]]]]].
  assert (Mi : inert (concat mid)).
  { clear - IH M A1 B1 C1. revert mid M. induction IH as [|c t Hc _ IHt]; intros mid M.
    - cbn in M. apply Ret_inj in M. subst mid. apply inert_nil.
    - apply write_children_cons in M as [a [b [Wa [Wb ->]]]]. cbn [flat_map] in A1, B1, C1.
      apply Forall_app in A1 as [? ?]. apply Forall_app in B1 as [? ?]. apply Forall_app in C1 as [? ?].
      rewrite concat_app. apply inert_app; [apply Hc; assumption|apply IHt; assumption]. }
  assert (B0' : Forall inert (raw_texts n)) by (eapply Forall_impl; [intros ?; apply balanced_inert|exact B0]).
  clear - P Q Mi B0' C0 A0 U0 O. destruct n as [i refs k d cs]. cbn [node_data node_refnames] in *.
  assert (T := pre_takes _ fd _ _ _ _ _ _ O B0' C0 A0 P).
  assert (X := post_closes fd _ _ _ _ _ _ B0' C0 A0 U0 Q).
  intro st. cbn [concat]. rewrite concat_app. cbn [concat]. rewrite app_nil_r, env_run_app, (T st).
  rewrite env_run_app, (Mi _). apply X.
Qed.
