(* Properties4.v -- C33-C39: the written LaTeX *)
From Coq Require Import Permutation.
From Verif Require Import Base Unicode Common NodeTypes Tree DocTree History Spec TreeProofs DocTreeProofs
  TextProofs Utf8Latex TexSpec Utf8Proofs Writer WriterSpec WriterProofs Properties2.
Local Open Scope N_scope.

(* ---------- documents used in examples ---------- *)
Definition same_order : hash_order := fun l => l.
Definition other_order : hash_order := @rev (str * str).
Lemma same_is_order : is_order same_order.
Proof. intro l. apply Permutation_refl. Qed.
Lemma other_is_order : is_order other_order.
Proof. intro l. apply Permutation_rev. Qed.
Definition full : Options := MkOptions StdOut true false.
Definition paper : list op :=
  [OSection (lit "One") (Under 61); OFocus (NParagraph 0); OPush (NText (lit "a \{ b")); OPush (NEmphasis (lit "em"));
   OParent; OFocus (NBulletList 45 0 2); OFocus (NBulletListItem 45 0 2); OFocus (NParagraph 2);
   OPush (NMath (lit "x^2") None None); OParent; OParent; OParent;
   OPush (NMathBlock (lit "e = mc^2") (Some (lit "einstein")) None);
   OFocus (NFigure 0 None None None (Some (lit "fig"))); OParent;
   OPush (NUnknownDirective (lit "Theorem") (lit "Fermat") [(lit "id", lit "f")] 3)].
Definition paper_tex : list str := match write_to_larst same_order full (doc_of paper) with Ret l => l | _ => [] end.
Definition whole (d : DocTree) : TreeNode := document (tree d).
Lemma seen_whole es d : built es d -> seen_from_root (tree d) (whole d).
Proof. intro H. apply seen_document. exact (inv_wf _ (reachable_inv _ _ (built_reachable _ _ H))). Qed.
Lemma doc_built os : exec [] new_doctree os <> None -> built (events_of os) (doc_of os).
Proof.
  intro H. apply exec_built with (os := os). unfold events_of, doc_of. destruct (exec [] new_doctree os) as [[e d]|]; [reflexivity|contradiction].
Qed.
Lemma paper_built : built (events_of paper) (doc_of paper).
Proof. apply doc_built. vm_compute. discriminate. Qed.

Lemma write_seen ord o d root : seen_from_root (tree d) root ->
  write_to_larst ord o d = write_node ord (print_full_document o) root.
Proof. intro S. unfold write_to_larst, write_tree. unfold seen_from_root in S. rewrite S. reflexivity. Qed.

(* ===== C33 environments are balanced ===== *)
(* Any document without raw nodes, whose unconverted texts are themselves
   balanced and whose unknown directives have no closing brace in their names *)
Theorem C33_balanced_partial ord o d root out : is_order ord -> seen_from_root (tree d) root ->
  write_to_larst ord o d = Ret out ->
  Forall (fun n => node_kind n <> KRaw) (preorder root) ->
  Forall (fun n => Forall env_balanced (raw_texts n)) (preorder root) ->
  Forall (fun n => Forall (Forall (fun c => c <> ch "}")) (env_names (node_data n))) (preorder root) ->
  env_balanced (concat out).
Proof. intros O S W A B C. rewrite (write_seen _ _ _ root S) in W. eapply write_balanced; eassumption. Qed.
(* converted text always meets the hypothesis *)
Theorem C33_converted_text s : env_balanced (unicode_text_to_latex s).
Proof. exact (text_inert s []). Qed.
Lemma by_test {A} (f : A -> bool) (P : A -> Prop) l : (forall x, f x = true -> P x) -> forallb f l = true -> Forall P l.
Proof. intros H F. rewrite forallb_forall in F. apply Forall_forall. auto. Qed.
Definition balancedb (s : str) : bool := match env_run s EText [] with Some (EText, []) => true | _ => false end.
Lemma balancedb_ok s : balancedb s = true -> env_balanced s.
Proof. unfold balancedb, env_balanced. destruct (env_run s EText []) as [[[] [|]]|]; intros; try discriminate; reflexivity. Qed.
Example C33_ex : write_to_larst same_order full (doc_of paper) = Ret paper_tex
  /\ Forall (fun n => node_kind n <> KRaw) (preorder (whole (doc_of paper)))
  /\ Forall (fun n => Forall env_balanced (raw_texts n)) (preorder (whole (doc_of paper)))
  /\ Forall (fun n => Forall (Forall (fun c => c <> ch "}")) (env_names (node_data n))) (preorder (whole (doc_of paper)))
  /\ env_balanced (concat paper_tex).
Proof.
  split; [vm_compute; reflexivity|].
  split; [apply (by_test (fun n => match node_kind n with KRaw => false | _ => true end)); [intros n; destruct (node_kind n); intros; discriminate|vm_compute; reflexivity]|].
  split; [apply (by_test (fun n => forallb balancedb (raw_texts n))); [intros n H; apply (by_test balancedb); [exact balancedb_ok|exact H]|vm_compute; reflexivity]|].
  split; [apply (by_test (fun n => forallb (forallb (fun c => negb (c =? ch "}"))) (env_names (node_data n)))); [|vm_compute; reflexivity]|].
  - intros n H. apply (by_test (forallb (fun c => negb (c =? ch "}")))); [|exact H]. intros s. apply by_test.
    intros c X ->. discriminate X.
  - vm_compute. reflexivity.
Qed.
(* a raw node opens one environment and closes another *)
Theorem C33_refuted : exists es d out, built es d /\ write_to_larst same_order full d = Ret out /\
  Forall (fun n => raw_texts n = []) (preorder (whole d)) /\ env_run (concat out) EText [] = None.
Proof.
  exists (events_of [OPush NRaw]), (doc_of [OPush NRaw]).
  eexists. split; [apply doc_built; vm_compute; discriminate|]. split; [vm_compute; reflexivity|].
  split; [vm_compute; repeat (constructor; [reflexivity|]); constructor|]. vm_compute. reflexivity.
Qed.
Print Assumptions C33_balanced_partial.

(* ===== C34 document order ===== *)
(* Each node has an opening and a closing text that depend on nothing but its
   own payload and names; the strings written are these, in the order in which
   a walk through the document opens and closes the nodes. *)
Theorem C34_document_order ord o : exists opening closing : TreeNodeType -> option (list str) -> str,
  forall d root out, seen_from_root (tree d) root -> write_to_larst ord o d = Ret out ->
  Forall2 (fun v t => match v with
                      | Open p => exists n, node_at root p = Some n /\ t = opening (node_data n) (node_refnames n)
                      | Close p => exists n, node_at root p = Some n /\ t = closing (node_data n) (node_refnames n)
                      end) (visits [] root) out.
Proof.
  set (fd := print_full_document o).
  exists (fun d r => match pre_string ord fd d r with Ret s => s | _ => [] end),
         (fun d r => match post_string fd d r with Ret s => s | _ => [] end).
  intros d root out S W. rewrite (write_seen _ _ _ root S) in W.
  pose proof (write_visits ord fd root root [] out eq_refl W) as F. clear W S. induction F as [|v t vs ts F0 _ IHF]; constructor; [|exact IHF]. revert F0. clear.
  destruct v as [p|p]; intros [n [A B]]; exists n; rewrite B; auto.
Qed.
(* every node is opened once and closed once *)
Theorem C34_each_once root : NoDup (visits [] root) /\
  (forall p, (exists n, node_at root p = Some n) <-> In (Open p) (visits [] root)) /\
  (forall p, (exists n, node_at root p = Some n) <-> In (Close p) (visits [] root)).
Proof.
  assert (X : forall n p, (forall v, In v (visits p n) -> exists q m, (v = Open (p ++ q) \/ v = Close (p ++ q)) /\ node_at n q = Some m)).
  { clear. intros n. induction n as [n IH] using tree_ind. intros p v H. rewrite visits_eq in H.
    destruct H as [<-|H]; [exists [], n; rewrite app_nil_r; auto|]. apply in_app_or in H as [H|[<-|[]]]; [|exists [], n; rewrite app_nil_r; auto].
    assert (G : forall l i, Forall (fun n => forall p v, In v (visits p n) -> exists q m, (v = Open (p ++ q) \/ v = Close (p ++ q)) /\ node_at n q = Some m) l ->
       In v (visits_from p i l) -> exists j c q m, nth_error l j = Some c /\ (v = Open (p ++ (i + j)%nat :: q) \/ v = Close (p ++ (i + j)%nat :: q)) /\ node_at c q = Some m).
    { clear. induction l as [|c t IHt]; intros i F I; [contradiction|]. inversion F as [|? ? Fc Ft]; subst. cbn [visits_from] in I.
      apply in_app_or in I as [I|I].
      - destruct (Fc _ _ I) as (q & m & A & B). exists 0%nat, c, q, m. rewrite Nat.add_0_r. rewrite <- app_assoc in A. auto.
      - destruct (IHt (S i) Ft I) as (j & c' & q & m & A & B & C). exists (S j), c', q, m. rewrite Nat.add_succ_r. auto. }
    destruct (G _ _ IH H) as (j & c & q & m & A & B & C). exists (j :: q), m. split; [exact B|]. rewrite node_at_cons, A. exact C. }
  split; [apply visits_nodup|]. split; intros p; split.
  - intros [n H]. apply (visits_complete p root [] n) in H. apply H.
  - intro H. destruct (X _ _ _ H) as (q & m & [[= ->]|E] & A); [exists m; exact A|discriminate].
  - intros [n H]. apply (visits_complete p root [] n) in H. apply H.
  - intro H. destruct (X _ _ _ H) as (q & m & [E|[= ->]] & A); [discriminate|exists m; exact A].
Qed.
(* wherever the focus is *)
Theorem C34_focus ord o d1 d2 root : seen_from_root (tree d1) root -> seen_from_root (tree d2) root ->
  write_to_larst ord o d1 = write_to_larst ord o d2.
Proof. intros A B. rewrite (write_seen _ _ _ root A), (write_seen _ _ _ root B). reflexivity. Qed.
(* the strings of the opening and closing texts of the example, in order *)
Example C34_ex : concat (match write_to_larst same_order full (doc_of demo) with Ret l => l | _ => [] end) =
  lit "\documentclass{aplus}" ++ nl ++ lit "\begin{document}" ++ nl ++ nl ++ lit "a\textit{b}" ++ nl ++ nl ++
  lit "\rstlabel{one}" ++ nl ++ lit "\chapter{One}" ++ nl ++ nl ++ lit "\begin{itemize}" ++ nl ++ lit "\item c" ++ nl ++ nl ++
  lit "\end{itemize}" ++ nl ++ nl ++ lit "\end{document}" ++ nl.
Proof. vm_compute. reflexivity. Qed.
Example C34_ex_visits : length (visits [] (whole (doc_of demo))) = 18%nat.
Proof. vm_compute. reflexivity. Qed.
Print Assumptions C34_document_order.

(* ===== C35 text is not dropped ===== *)
Theorem C35_shown_partial ord o d root out n t : seen_from_root (tree d) root -> write_to_larst ord o d = Ret out ->
  In n (preorder root) -> node_kind n <> KCode -> In t (shown_texts (node_data n)) -> contains (concat out) t.
Proof.
  intros S W I K T. rewrite (write_seen _ _ _ root S) in W.
  destruct (write_contains_pre _ _ _ _ _ W I) as (pre & post & A & B & C & _). eapply contains_concat; [exact C|].
  eapply shown_in_pre; [|exact A|exact T]. intros a b c e f E. apply K. unfold node_kind. rewrite E. reflexivity.
Qed.
Example C35_ex : contains (concat paper_tex) (lit "em") /\ contains (concat paper_tex) (lit "Fermat").
Proof.
  assert (S : seen_from_root (tree (doc_of paper)) (whole (doc_of paper))) by (eapply seen_whole, paper_built).
  assert (W : write_to_larst same_order full (doc_of paper) = Ret paper_tex) by (vm_compute; reflexivity).
  split.
  - assert (I : exists n, nth_error (preorder (whole (doc_of paper))) 4 = Some n /\ node_data n = NEmphasis (lit "em"))
      by (eexists; split; vm_compute; reflexivity).
    destruct I as [n [I D]]. eapply C35_shown_partial; [exact S|exact W|eapply nth_error_In; exact I| |];
      unfold node_kind; rewrite D; [discriminate|left; reflexivity].
  - assert (I : exists n, nth_error (preorder (whole (doc_of paper))) 11 = Some n /\
      node_data n = NUnknownDirective (lit "Theorem") (lit "Fermat") [(lit "id", lit "f")] 3)
      by (eexists; split; vm_compute; reflexivity).
    destruct I as [n [I D]]. eapply C35_shown_partial; [exact S|exact W|eapply nth_error_In; exact I| |];
      unfold node_kind; rewrite D; [discriminate|left; reflexivity].
Qed.
Lemma missing_char s t c : In c t -> ~ In c s -> ~ contains s t.
Proof. intros A B [x [y ->]]. apply B, in_or_app. right. apply in_or_app. left. exact A. Qed.
(* the text of a code block is not written *)
Theorem C35_refuted : exists es d out n, built es d /\ write_to_larst same_order full d = Ret out /\
  In n (preorder (whole d)) /\ node_data n = NCode (lit "x := 1") None None None None /\ ~ contains (concat out) (lit "x := 1").
Proof.
  set (os := [OPush (NCode (lit "x := 1") None None None None)]).
  exists (events_of os), (doc_of os). eexists. eexists. split; [apply doc_built; vm_compute; discriminate|].
  split; [vm_compute; reflexivity|]. split; [vm_compute; right; left; reflexivity|].
  split; [reflexivity|]. apply (missing_char _ _ (ch ":")).
  - right. right. left. reflexivity.
  - intro H. apply memN_In in H. vm_compute in H. discriminate.
Qed.
(* neither is the text shown for a reference to a footnote *)
Theorem C35_footnote_refuted : exists es d out n, built es d /\ write_to_larst same_order full d = Ret out /\
  In n (preorder (whole d)) /\ node_data n = NFootnoteReference (lit "7") (lit "fn") FManual /\ ~ contains (concat out) (lit "7").
Proof.
  set (os := [OFocus (NParagraph 0); OPush (NFootnoteReference (lit "7") (lit "fn") FManual)]).
  exists (events_of os), (doc_of os). eexists. eexists. split; [apply doc_built; vm_compute; discriminate|].
  split; [vm_compute; reflexivity|]. split; [vm_compute; right; right; left; reflexivity|].
  split; [reflexivity|]. apply (missing_char _ _ (ch "7")); [left; reflexivity|].
  intro H. apply memN_In in H. vm_compute in H. discriminate.
Qed.
Print Assumptions C35_shown_partial.

(* ===== C36 anchors ===== *)
Theorem C36_anchored ord o d root out n a : seen_from_root (tree d) root -> write_to_larst ord o d = Ret out ->
  In n (preorder root) -> In a (anchors n) -> contains (concat out) a.
Proof.
  intros S W I T. rewrite (write_seen _ _ _ root S) in W.
  destruct (write_contains_pre _ _ _ _ _ W I) as (pre & post & A & B & C & D).
  destruct (anchors_written _ _ _ _ _ _ A B T) as [X|X]; [exact (contains_concat _ _ _ C X)|exact (contains_concat _ _ _ D X)].
Qed.
Example C36_ex : contains (concat paper_tex) (lit "\rstlabel{einstein}") /\ contains (concat paper_tex) (lit "\rstlabel{one}")
  /\ contains (concat paper_tex) (lit "\label{fig}").
Proof.
  assert (S : seen_from_root (tree (doc_of paper)) (whole (doc_of paper))) by (eapply seen_whole, paper_built).
  assert (W : write_to_larst same_order full (doc_of paper) = Ret paper_tex) by (vm_compute; reflexivity).
  assert (G : forall i n a, nth_error (preorder (whole (doc_of paper))) i = Some n -> In a (anchors n) -> contains (concat paper_tex) a).
  { intros i n a H I. eapply C36_anchored; [exact S|exact W|eapply nth_error_In; exact H|exact I]. }
  split; [eapply (G 9%nat); [vm_compute; reflexivity|vm_compute; left; reflexivity]|].
  split; [eapply (G 1%nat); [vm_compute; reflexivity|vm_compute; left; reflexivity]|].
  eapply (G 10%nat); [vm_compute; reflexivity|vm_compute; left; reflexivity].
Qed.
Print Assumptions C36_anchored.

(* ===== C37 a document can be written ===== *)
(* writing succeeds exactly for documents without the listed node kinds and
   list tables without widths; otherwise it panics; it always terminates *)
Theorem C37_writable_partial ord o d root : seen_from_root (tree d) root ->
  (Forall writable (preorder root) <-> exists out, write_to_larst ord o d = Ret out) /\
  ((exists out, write_to_larst ord o d = Ret out) \/ write_to_larst ord o d = Panic).
Proof.
  intro S. rewrite (write_seen _ _ _ root S). split; [split|].
  - apply write_ok.
  - intros [out W]. eapply write_ok_inv. exact W.
  - destruct (write_total ord (print_full_document o) root) as [->|[s ->]]; [right; reflexivity|left; eexists; reflexivity].
Qed.
Example C37_ex : Forall writable (preorder (whole (doc_of paper))).
Proof.
  apply (C37_writable_partial same_order full (doc_of paper)); [eapply seen_whole, paper_built|].
  exists paper_tex. vm_compute. reflexivity.
Qed.
(* hyperlink targets, made by the parser for `.. _name: uri`, cannot be written *)
Theorem C37_refuted : exists es d, built es d /\ node_kind (whole d) = KDocument /\ write_to_larst same_order full d = Panic.
Proof.
  set (os := [OPush (NExternalHyperlinkTarget 0 (lit "rust") (lit "https://rust-lang.org"))]).
  exists (events_of os), (doc_of os). split; [apply doc_built; vm_compute; discriminate|]. split; vm_compute; reflexivity.
Qed.
Print Assumptions C37_writable_partial.

(* ===== C38 all bytes reach the output ===== *)
(* true if every call takes the whole string it is given *)
Theorem C38_complete_partial ord o d out accepted : write_to_larst ord o d = Ret out ->
  (forall i c k, nth_error out i = Some c -> nth_error accepted i = Some k -> (length (bytes c) <= k)%nat) ->
  written_bytes out accepted = bytes (concat out).
Proof. intros _. apply written_complete. Qed.
Example C38_ex : exists accepted, (5 <= length accepted)%nat /\ written_bytes paper_tex accepted = bytes (concat paper_tex).
Proof.
  exists (map (fun c => length (bytes c)) paper_tex). split; [vm_compute; lia|].
  apply (C38_complete_partial same_order full (doc_of paper)); [vm_compute; reflexivity|].
  intros i c k A B. rewrite nth_error_map, A in B. cbn in B. assert (X : length (bytes c) = k) by congruence. lia.
Qed.
(* a call that takes fewer bytes loses the rest, although no call failed and
   each took at least one byte *)
Theorem C38_refuted : exists es d out accepted, built es d /\ write_to_larst same_order full d = Ret out /\
  Forall (fun k => 1 <= k)%nat accepted /\ written_bytes out accepted <> bytes (concat out).
Proof.
  exists (events_of paper), (doc_of paper), paper_tex, [4%nat]. split; [exact paper_built|].
  split; [vm_compute; reflexivity|]. split; [repeat constructor|]. vm_compute. discriminate.
Qed.
Print Assumptions C38_complete_partial.

(* ===== C39 deterministic output ===== *)
Theorem C39_deterministic_partial o1 o2 o d root : is_order o1 -> is_order o2 -> seen_from_root (tree d) root ->
  Forall few_options (preorder root) -> write_to_larst o1 o d = write_to_larst o2 o d.
Proof. intros A B S F. rewrite !(write_seen _ _ _ root S). apply write_deterministic; assumption. Qed.
Example C39_ex : write_to_larst other_order full (doc_of paper) = Ret paper_tex.
Proof.
  assert (S : seen_from_root (tree (doc_of paper)) (whole (doc_of paper))) by (eapply seen_whole, paper_built).
  rewrite (C39_deterministic_partial other_order same_order full _ _ other_is_order same_is_order S); [vm_compute; reflexivity|].
  vm_compute. repeat (constructor; [exact I|]). constructor.
Qed.
Theorem C39_refuted : exists es d, built es d /\ is_order same_order /\ is_order other_order /\
  write_to_larst same_order full d <> write_to_larst other_order full d.
Proof.
  set (os := [OPush (NUnknownDirective (lit "theorem") [] [(lit "a", lit "1"); (lit "b", lit "2")] 3)]).
  exists (events_of os), (doc_of os). split; [apply doc_built; vm_compute; discriminate|].
  split; [exact same_is_order|]. split; [exact other_is_order|]. vm_compute. discriminate.
Qed.
Print Assumptions C39_deterministic_partial.
