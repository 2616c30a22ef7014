(* Properties13.v -- C48: inline markup, from the text to the nodes and the LaTeX *)
From Verif Require Import Base Unicode Common NodeTypes Tree DocTree History Regex RegexProofs RegexGroups Patterns
  Prog Inline InlineSpec InlineProofs TextProofs Utf8Latex Writer WriterProofs MarkupSpec MarkupProofs SpanProofs ChunkProofs.

(* Reading: wherever the text is read (in a document or not, in any document, at any
   line), the nodes are those of the chunks in order, the document is not touched, and
   the line cursor moves down by the number of line ends in the text. *)
Theorem C48_markup_read l doc call d c : chunks_ok true l = true ->
  pexec call (inline_parse doc (chunks_source l)) d c =
    Ret (flat_map chunk_nodes l, d, cur_add c (length (filter (N.eqb newline) (chunks_source l)))).
Proof. apply inline_parse_chunks. Qed.
Print Assumptions C48_markup_read.

(* ---------- writing ---------- *)
Lemma runs_ok s : Forall piece_ok (runs_of s) /\ alternates (runs_of s) /\ concat (map snd (runs_of s)) = s.
Proof.
  induction s as [|c s (IH1 & IH2 & IH3)]; [repeat split; constructor|]. cbn [runs_of]. destruct (runs_of s) as [|[b w] l] eqn:E.
  - split; [|split; [exact I|]].
    + constructor; [|constructor]. split; [discriminate|]. intros x [<-|[]]. reflexivity.
    + cbn in *. now rewrite <- IH3.
  - apply Forall_cons_iff in IH1 as [[Hw Hc] IH1]. cbn [fst snd] in *. destruct (Bool.eqb b (is_whitespace c)) eqn:Eb.
    + apply Bool.eqb_prop in Eb. split; [|split].
      * constructor; [|exact IH1]. split; [discriminate|]. cbn [fst snd]. intros x [<-|Hx]; auto.
      * exact IH2.
      * cbn in *. now rewrite IH3.
    + apply Bool.eqb_false_iff in Eb. split; [|split].
      * constructor; [|constructor; [split; auto|exact IH1]]. split; [discriminate|]. intros x [<-|[]]. reflexivity.
      * split; [congruence|exact IH2].
      * cbn in *. now rewrite IH3.
Qed.
Lemma words_acc s : forall acc, match s with [] => True | c :: _ => is_whitespace c = true end ->
  words_latex s acc = unicode_text_to_latex (rev acc) ++ words_latex s [].
Proof.
  intros acc H. destruct s as [|c t]; cbn [words_latex rev].
  - now rewrite app_nil_r.
  - rewrite H. reflexivity.
Qed.
Lemma words_word w s acc : (forall c, In c w -> is_whitespace c = false) -> words_latex (w ++ s) acc = words_latex s (rev w ++ acc).
Proof.
  revert acc. induction w as [|c w IH]; intros acc H; [reflexivity|]. cbn [app words_latex rev].
  rewrite (H c) by now left. rewrite IH by (intros; apply H; now right). now rewrite <- app_assoc.
Qed.
Lemma words_space w s : (forall c, In c w -> is_whitespace c = true) -> words_latex (w ++ s) [] = w ++ words_latex s [].
Proof.
  induction w as [|c w IH]; intros H; [reflexivity|]. cbn [app words_latex rev].
  rewrite (H c) by now left. rewrite IH by (intros; apply H; now right). reflexivity.
Qed.
Lemma pieces_words segs : Forall piece_ok segs -> alternates segs ->
  concat (map plain_latex segs) = words_latex (concat (map snd segs)) [].
Proof.
  induction segs as [|[b w] segs IH]; intros F A; [reflexivity|]. apply Forall_cons_iff in F as [(Hw & Hc) F]. cbn [fst snd] in Hw, Hc.
  assert (A' : alternates segs) by (cbn [alternates] in A; destruct segs as [|[b' w'] segs]; [exact I|apply A]).
  cbn [map concat snd]. rewrite IH by assumption. destruct b; cbn [plain_latex fst snd].
  - now rewrite words_space.
  - rewrite words_word by exact Hc. rewrite app_nil_r, (words_acc _ (rev w)), rev_involutive; [reflexivity|].
    destruct segs as [|[b' w'] segs]; [exact I|]. apply Forall_cons_iff in F as [(Hw' & Hc') F]. cbn [fst snd] in Hw', Hc'.
    cbn [map concat snd]. destruct w' as [|c w']; [congruence|]. cbn [app]. rewrite (Hc' c) by now left.
    cbn [alternates] in A. destruct A as [A _]. destruct b'; congruence.
Qed.
(* what a node that stands in a text is written as *)
Definition writes (ord : hash_order) (full : bool) (x : TreeNodeType) (s : str) : Prop :=
  forall refs, pre_string ord full x refs = Ret s /\ post_string full x refs = Ret [].
Lemma role_writes ord full r t : writes ord full (role_means r t) (role_latex r t).
Proof.
  intros refs. unfold role_means, role_latex.
  destruct (str_eqb r (lit "emphasis")); [split; reflexivity|]. destruct (str_eqb r (lit "strong")); [split; reflexivity|].
  destruct (str_eqb r (lit "literal") || str_eqb r (lit "code")); [split; reflexivity|]. destruct (str_eqb r (lit "subscript")); [split; reflexivity|].
  destruct (str_eqb r (lit "superscript")); [split; reflexivity|].
  destruct (str_eqb r (lit "title-reference")); [split; [|reflexivity]; cbn [pre_string]; unfold brackets, braces; now rewrite <- ?app_assoc|].
  destruct (str_eqb r (lit "math")); [split; reflexivity|].
  destruct (str_eqb r (lit "RFC") || str_eqb r (lit "rfc-reference")); [split; [|reflexivity]|split; reflexivity].
  cbn [pre_string]. unfold braces. rewrite <- ?app_assoc. reflexivity.
Qed.
Lemma chunk_writes ord full c : written_chunk c = true ->
  exists ss, Forall2 (writes ord full) (chunk_nodes c) ss /\ concat ss = chunk_latex c.
Proof.
  intros H. destruct c; try discriminate H; cbn [chunk_nodes chunk_latex].
  1:{ exists (map plain_latex (runs_of s)). destruct (runs_ok s) as (H1 & H2 & H3). split.
      - clear. induction (runs_of s) as [|[[] w] l IH]; [constructor|constructor; [intros refs; split; reflexivity|exact IH]..].
      - rewrite pieces_words by assumption. now rewrite H3. }
  all: match goal with |- exists ss, Forall2 _ [?x] ss /\ _ = ?s => exists [s]; split; [constructor; [|constructor]|cbn [concat]; apply app_nil_r] end.
  all: try (apply role_writes).
  all: intros refs; split; [|reflexivity]; cbn [pre_string]; unfold brackets, braces, command; rewrite <- ?app_assoc; reflexivity.
Qed.
Lemma chunks_writes ord full l : forallb written_chunk l = true ->
  exists ss, Forall2 (writes ord full) (flat_map chunk_nodes l) ss /\ concat ss = chunks_latex l.
Proof.
  induction l as [|c l IH]; intros H; [exists []; split; [constructor|reflexivity]|]. cbn [forallb] in H. apply andb_prop in H as [Hc H].
  destruct (chunk_writes ord full c Hc) as (s1 & F1 & E1). destruct (IH H) as (s2 & F2 & E2). exists (s1 ++ s2).
  cbn [flat_map]. split; [now apply Forall2_app|]. rewrite concat_app, E1, E2. reflexivity.
Qed.

(* Writing: a paragraph whose children are leaves with these data, whatever their
   identifiers and labels, is written as the LaTeX of the chunks. *)
Theorem C48_markup_written ord full l id refs cls indent ns :
  forallb written_chunk l = true -> map node_data ns = flat_map chunk_nodes l -> Forall (fun n => node_children n = None) ns ->
  exists out, write_node ord full (Node id refs cls (NParagraph indent) (Some ns)) = Ret out /\
    concat out = chunks_latex l ++ [newline; newline].
Proof.
  intros Hl Hd Hk. destruct (chunks_writes ord full l Hl) as (ss & F & E).
  assert (G : exists out, write_children ord full ns = Ret out /\ concat out = concat ss).
  { rewrite <- Hd in F. clear - F Hk. remember (map node_data ns) as xs eqn:Ex. revert ns Ex Hk. induction F as [|x s xs ss Hx F IH]; intros ns Ex Hk.
    - destruct ns; [|discriminate]. exists []. split; reflexivity.
    - destruct ns as [|n ns]; [discriminate|]. cbn [map] in Ex. injection Ex as -> ->. apply Forall_cons_iff in Hk as [Hn Hk].
      destruct (IH ns eq_refl Hk) as (out & Eo & Ec). destruct (Hx (node_refnames n)) as [Hp Hq].
      destruct n as [i rn k x [cs|]]; [discriminate Hn|]. cbn [node_data node_refnames] in Hp, Hq. cbn [write_children write_node]. rewrite Hp. cbn [obind]. rewrite Hq. cbn [obind]. rewrite Eo. cbn [obind].
      eexists. split; [reflexivity|]. cbn [app concat]. now rewrite Ec. }
  destruct G as (out & Eo & Ec). rewrite write_node_eq. cbn [node_data node_refnames kids node_children pre_string post_string obind]. rewrite Eo. cbn [obind].
  eexists. split; [reflexivity|]. cbn [concat]. rewrite concat_app, Ec, E. cbn [concat app]. reflexivity.
Qed.
Print Assumptions C48_markup_written.

(* ---------- a text with everything in it ---------- *)
Definition sample : list chunk :=
  [Txt (lit "Rule: 12*3 in max_len; see "); Emph (lit "the & of"); Txt (lit ", "); Strong (lit "x_1"); Txt (lit " and" ++ [newline]); Verb (lit "a|b*"); Txt (lit "; ");
   Role (lit "math") (lit "a < b"); Txt (lit " then "); Link (lit "Here"); Txt (lit ". "); Phrase (lit "Far There"); Txt (lit " in "); Cite (lit "Knuth84");
   Txt (lit ", "); Note (lit "12"); Txt (lit " "); Role (lit "code") (lit "f(x)"); Txt (lit "! "); Role (lit "rfc-reference") (lit "2822"); Txt (lit " "); Role (lit "poi") (lit "p q"); Txt (lit " ");
   Cited (lit "Das Kapital"); Txt (lit " "); RoleAfter (lit "H 2") (lit "subscript")].
Definition get (p : prog (list TreeNodeType)) :=
  match pexec (fun _ _ _ _ _ => OutOfFuel) p new_doctree (MkCursor 0 0) with Ret x => Some x | _ => None end.
Example C48_ex :
  chunks_ok true sample = true /\ forallb written_chunk sample = true /\
  chunks_source sample = lit "Rule: 12*3 in max_len; see *the & of*, **x_1** and" ++ [newline] ++
    lit "``a|b*``; :math:`a < b` then Here_. `Far There`_ in [Knuth84]_, [12]_ :code:`f(x)`! :rfc-reference:`2822` :poi:`p q` `Das Kapital` `H 2`:subscript:" /\
  chunks_latex sample = lit "Rule: 12*3 in max\_ len; see \textit{the \& of}, \textbf{x\_1} and" ++ [newline] ++
    lit "\texttt{a|b*}; \(a < b\) then \ref{here}. \hyperref[far there]{Far There} in \cite{Knuth84}, \footnotemark \texttt{f(x)}! " ++
    lit "\href{https://www.faqs.org/rfcs/rfc2822.html}{RFC 2822} \poi{p q} \hyperref[das kapital]{Das Kapital} \textsubscript{H 2}" /\
  (* without its condition the claim is false: the quotes of a title reference and of
     a later phrase reference are taken together *)
  chunks_ok true [Cited (lit "a"); Txt (lit " and "); Phrase (lit "b")] = false /\
  option_map (fun x => fst (fst x)) (get (inline_parse true (chunks_source [Cited (lit "a"); Txt (lit " and "); Phrase (lit "b")]))) =
    Some [NReference (Some (lit "a` and `b")) (RInternal (lit "a` and `b"))].
Proof.
  split; [vm_compute; reflexivity|]. split; [vm_compute; reflexivity|]. split; [vm_compute; reflexivity|].
  split; [vm_compute; reflexivity|]. split; vm_compute; reflexivity.
Qed.
