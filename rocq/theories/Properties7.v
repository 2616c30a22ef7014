(* Properties7.v -- C28, C29: inline parsing. *)
From Verif Require Import Base Unicode Common NodeTypes Tree DocTree Regex Utf8Latex Prog Inline InlineSpec
  InlineProofs Writer.
Require Import Lia.

(* C28: inline parsing of any text, with or without a document, either panics or
   ends having cut the whole text into non-empty consecutive pieces, with no text
   left, and having moved the cursor by the line breaks of the text.  It never
   runs forever (OutOfFuel). *)
Theorem C28_inline_parsing_ends : forall call doc s d c,
  pexec call (inline_pieces doc s) d c = Panic \/
  exists pieces d', pexec call (inline_pieces doc s) d c = Ret ((pieces, []), d', cur_add c (newlines s)) /\
    concat (map fst pieces) = s /\ Forall (fun p => fst p <> []) pieces.
Proof.
  intros call doc s d c. destruct (runs_exec false _ call _ d c (inline_pieces_ok false doc s d c ltac:(discriminate)))
    as [([ps rest] & d' & c' & E & H1 & H2 & H3 & H4)|[_ E]]; [right|left; exact E].
  cbn [fst snd] in *. subst rest c'. exists ps, d'. split; [exact E|]. split; [exact H2|].
  eapply Forall_impl; [|exact H4]. intros p [Hp _]. exact Hp.
Qed.
(* C28: it does not panic on a text that names no PEP role, as long as the
   counter of anonymous references has room *)
Theorem C28_inline_parsing_never_panics : forall call doc s d c,
  ~ infix (lit "PEP") s -> ~ infix (lit "pep-reference") s ->
  (n_of_anon_references (hyperref d) + N.of_nat (length s) <= u32_max)%N ->
  exists pieces d', pexec call (inline_pieces doc s) d c = Ret ((pieces, []), d', cur_add c (newlines s)) /\
    concat (map fst pieces) = s /\ Forall (fun p => fst p <> []) pieces.
Proof.
  intros call doc s d c H1 H2 H3.
  destruct (runs_exec true _ call _ d c (inline_pieces_ok true doc s d c ltac:(auto)))
    as [([ps rest] & d' & c' & E & H4 & H5 & H6 & H7)|[E _]]; [|discriminate].
  cbn [fst snd] in *. subst rest c'. exists ps, d'. split; [exact E|]. split; [exact H5|].
  eapply Forall_impl; [|exact H7]. intros p [Hp _]. exact Hp.
Qed.
(* C28: the nodes are the ones made from the pieces, in order, and all are inline
   nodes *)
Theorem C28_nodes_of_the_pieces : forall call doc s d c pieces rest d' c',
  pexec call (inline_pieces doc s) d c = Ret ((pieces, rest), d', c') ->
  pexec call (inline_parse doc s) d c = Ret (flat_map snd pieces, d', c') /\
  forallb is_inline (flat_map snd pieces) = true.
Proof.
  intros call doc s d c ps rest d' c' E. unfold inline_parse. rewrite pexec_bind, E. split; [reflexivity|].
  destruct (runs_exec false _ call _ d c (inline_pieces_ok false doc s d c ltac:(discriminate)))
    as [(x & d1 & c1 & E1 & H1 & H2 & H3 & H4)|[_ E1]]; rewrite E in E1; [|discriminate].
  apply BlockProofs.Ret_inj in E1. injection E1 as <- <- <-. now apply forallb_flat.
Qed.
(* the panic is real: a PEP number of more than four digits *)
Theorem C28_pep_panics_refuted : forall call d c,
  pexec call (inline_parse false (lit ":PEP:`12345`")) d c = Panic.
Proof. intros. vm_compute. reflexivity. Qed.
(* boolean tests for the examples *)
Fixpoint infixb (x s : str) : bool := starts_with x s || match s with [] => false | _ :: t => infixb x t end.
Definition plainb (s : str) : bool := forallb (fun c => negb (existsb (N.eqb c) markup_chars)) s.
Lemma infixb_spec x s : infixb x s = false -> ~ infix x s.
Proof.
  intros H (a & b & ->). revert H. induction a as [|c a IH]; cbn [app].
  - destruct (x ++ b) eqn:E; cbn [infixb]; rewrite <- E.
    + replace (starts_with x (x ++ b)) with true; [discriminate|]. symmetry. clear. induction x as [|y x IH]; cbn; auto. now rewrite N.eqb_refl.
    + replace (starts_with x (x ++ b)) with true; [discriminate|]. symmetry. clear. induction x as [|y x IH]; cbn; auto. now rewrite N.eqb_refl.
  - cbn [infixb]. intros H. apply orb_false_elim in H as [_ H]. auto.
Qed.
Lemma plainb_spec s : plainb s = true -> plain s.
Proof.
  unfold plainb. intros H c Hc Hm. rewrite forallb_forall in H. apply H in Hc. apply negb_true_iff in Hc.
  assert (E : existsb (N.eqb c) markup_chars = true) by (apply existsb_exists; exists c; split; [exact Hm|apply N.eqb_refl]).
  congruence.
Qed.
Definition no_parser : parse_call := fun _ _ _ _ _ => Panic.
Example C28_holds_of_markup :
  pexec no_parser (inline_pieces true (lit "Some *emph*, `x <y>`_ see [1]_")) new_doctree (MkCursor 3 0) =
  Ret (([(lit "Some", [NText (lit "Some")]); (lit " ", [NWhiteSpace (lit " ")]);
         (lit "*emph*", [NEmphasis (lit "emph")]); (lit ",", [NText (lit ",")]); (lit " ", [NWhiteSpace (lit " ")]);
         (lit "`x <y>`_ ", [NReference (Some (lit "x")) (RURI (lit "y"))]);
         (lit "see", [NText (lit "see")]); (lit " ", [NWhiteSpace (lit " ")]);
         (lit "[1]_", [NFootnoteReference (lit "1") (lit "1") FManual])], []), new_doctree, MkCursor 3 0) /\
  ~ infix (lit "PEP") (lit "Some *emph*, `x <y>`_ see [1]_") /\
  ~ infix (lit "pep-reference") (lit "Some *emph*, `x <y>`_ see [1]_").
Proof.
  split; [vm_compute; reflexivity|]. split; apply infixb_spec; vm_compute; reflexivity.
Qed.

(* C29: a text with none of the characters * ` _ | : @ is cut into its words and
   the white space between them; the nodes are, in order, a text node with the
   LaTeX form of each word and a white-space node with each run of white space;
   nothing else happens to the document. *)
Theorem C29_plain_text_survives : forall call doc s d c, plain s ->
  exists segs, Forall piece_ok segs /\ alternates segs /\ concat (map snd segs) = s /\
    pexec call (inline_parse doc s) d c = Ret (map plain_node segs, d, cur_add c (newlines s)).
Proof.
  intros call doc s d c HP. destruct (plain_loop doc call (S (length s)) s d c ltac:(lia) HP) as (segs & H1 & H2 & H3 & _ & H4).
  exists segs. split; [exact H1|]. split; [exact H2|]. split; [exact H3|].
  unfold inline_parse, inline_pieces. rewrite pexec_bind, H4. cbn [obind pexec]. do 3 f_equal.
  clear. induction segs as [|x segs IH]; cbn; auto. now rewrite IH.
Qed.
(* C29: written out as the content of a paragraph, they give the words' LaTeX with
   the white space unchanged *)
Theorem C29_plain_text_written : forall ord full segs ids id indent,
  length ids = length segs ->
  exists chunks,
    write_node ord full (Node id None None (NParagraph indent)
      (Some (map (fun x => Node (fst x) None None (plain_node (snd x)) None) (combine ids segs)))) = Ret chunks /\
    concat chunks = concat (map plain_latex segs) ++ [newline; newline].
Proof.
  intros ord full segs ids id indent HL. cbn [write_node pre_string post_string obind].
  set (go := fix go (l : list TreeNode) : outcome (list str) := match l with
     | [] => Ret []
     | c :: t => let! a := write_node ord full c in let! b := go t in Ret (a ++ b) end).
  assert (HG : exists mid, go (map (fun x => Node (fst x) None None (plain_node (snd x)) None) (combine ids segs)) = Ret mid /\
     concat mid = concat (map plain_latex segs)).
  { revert segs HL. induction ids as [|i ids IH]; intros [|x segs] HL; try discriminate HL.
    - exists []. auto.
    - injection HL as HL. destruct (IH segs HL) as (mid & E1 & E2). cbn [combine map fst snd].
      exists (plain_latex x :: [] :: mid). split; [|cbn [concat map]; now rewrite E2].
      transitivity (let! a := write_node ord full (Node i None None (plain_node x) None) in
                    let! b := go (map (fun x => Node (fst x) None None (plain_node (snd x)) None) (combine ids segs)) in Ret (a ++ b)).
      { reflexivity. }
      rewrite E1. destruct x as [[|] w]; reflexivity. }
  destruct HG as (mid & E1 & E2). rewrite E1. cbn [obind]. eexists. split; [reflexivity|].
  rewrite concat_cons, concat_app, E2. reflexivity.
Qed.
Example C29_holds_of_a_sentence :
  plain (lit "100% of it, & more.") /\
  pexec no_parser (inline_parse true (lit "100% of it, & more.")) new_doctree (MkCursor 0 0) =
  Ret (map plain_node [(false, lit "100%"); (true, lit " "); (false, lit "of"); (true, lit " "); (false, lit "it,");
                       (true, lit " "); (false, lit "&"); (true, lit " "); (false, lit "more.")],
       new_doctree, MkCursor 0 0).
Proof. split; [apply plainb_spec; vm_compute; reflexivity|vm_compute; reflexivity]. Qed.

Print Assumptions C28_inline_parsing_ends.
Print Assumptions C28_inline_parsing_never_panics.
Print Assumptions C28_nodes_of_the_pieces.
Print Assumptions C29_plain_text_survives.
Print Assumptions C29_plain_text_written.
