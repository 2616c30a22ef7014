(* Properties22.v -- C59: a list table keeps its rows, its cells and their order *)
From Coq Require Import Permutation Lia ZifyBool ZifyNat ZifyN.
From Verif Require Import Base Unicode Regex Patterns Common Converters NodeTypes Tree DocTree History Blocks Prog ParseLoop
  Inline Body Directives Parser Spec InlineSpec Utf8Latex Writer Transforms SimpleSpec MarkupSpec Properties12 Properties14 Properties18.

(* ---------- what a table should become ---------- *)
(* a row: its cells in order, an ampersand between two of them, two backslashes after the last one *)
Fixpoint table_row (cells : list str) : str :=
  match cells with
  | [] => []
  | [c] => c ++ lit "\\" ++ nl1
  | c :: more => c ++ lit "&" ++ nl1 ++ table_row more
  end.
(* one paragraph column *)
Definition table_column (hundredths : N) : str := lit "p{" ++ as_hundredths hundredths ++ lit "\textwidth}".

Lemma element_inside d1 : forall prev gap0 e gap d2, elements_ok prev gap0 (d1 ++ (e, gap) :: d2) = true -> element_ok e = true.
Proof.
  induction d1 as [|[e1 g1] d1 IH]; intros prev gap0 e gap d2 H; cbn [app elements_ok] in H.
  - now repeat (apply andb_true_iff in H as [H _]).
  - apply andb_true_iff in H as [_ H]. eapply IH, H.
Qed.
Lemma row_shape cells : cells <> [] -> table_row (map (fun cell => chunks_latex cell ++ nl2) cells) = row_latex cells.
Proof.
  unfold row_latex. induction cells as [|c more IH]; [congruence|]. intros _. cbn [map]. destruct more as [|c2 more].
  - cbn [map table_row join]. reflexivity.
  - specialize (IH ltac:(discriminate)). cbn [map] in IH |- *.
    change (table_row (?a :: ?b :: ?l)) with (a ++ lit "&" ++ nl1 ++ table_row (b :: l)). rewrite IH. change (para_latex c) with (chunks_latex c ++ nl2).
    change (join ?s (?a :: ?b :: ?l)) with (a ++ s ++ join s (b :: l)). rewrite <- !app_assoc. reflexivity.
Qed.
Lemma rows_shape rows : rows_ok rows = true ->
  (forall cells g, In (cells, g) rows -> 1 <= length cells <= fold_right (fun r m => Nat.max (length (fst r)) m) 0 rows) /\
  (exists cells g, In (cells, g) rows /\ length cells = fold_right (fun r m => Nat.max (length (fst r)) m) 0 rows) /\
  concat (map (fun row => table_row (map (fun cell => chunks_latex cell ++ nl2) (fst row))) rows) = flat_map (fun r => row_latex (fst r)) rows.
Proof.
  induction rows as [|[cells gap] rows IH]; [discriminate|]. cbn [rows_ok]. intros H. apply andb_true_iff in H as [Hc H].
  assert (Hne : cells <> []) by (destruct cells; discriminate). assert (H1 : 1 <= length cells) by (destruct cells; [congruence|cbn; lia]).
  cbn [map concat flat_map fold_right fst]. rewrite (row_shape cells Hne). destruct rows as [|r rows].
  - cbn [fold_right map concat flat_map]. split; [|split; [|reflexivity]].
    + intros c g [Q|[]]. injection Q as -> ->. lia.
    + exists cells, gap. split; [now left|lia].
  - destruct (IH H) as (I1 & (c2 & g2 & I2 & I3) & I4). set (rs := r :: rows) in *. split; [|split].
    + intros c g [Q|Q]; [injection Q as -> ->; lia|]. specialize (I1 _ _ Q). lia.
    + destruct (Nat.le_gt_cases (fold_right (fun r m => Nat.max (length (fst r)) m) 0 rs) (length cells)).
      * exists cells, gap. split; [now left|lia].
      * exists c2, g2. split; [now right|lia].
    + now rewrite I4.
Qed.
Lemma nearest_close n : (0 < n)%N -> (2 * (nearest 100 n * n) <= 200 + n /\ 200 <= 2 * (nearest 100 n * n) + n)%N.
Proof.
  intros Hn. pose proof (N.div_mod 100 n ltac:(lia)) as E. pose proof (N.mod_lt 100 n ltac:(lia)) as Hl. unfold nearest.
  set (q := (100 / n)%N) in *. set (r := (100 mod n)%N) in *. clearbody q r. destruct (N.ltb_spec (2 * r) n); nia.
Qed.

(* A list table anywhere in a document becomes one tabular environment with as
   many columns as its longest row has cells, all of them the same part of the
   width of the text, rounded to hundredths; with one row for every item, in
   order; and in every row the cells in order. *)
Theorem C59_tables_partial ord o d1 t gap d2 : (forall l, Permutation (ord l) l) ->
  simple (d1 ++ (Block (Tabular t), gap) :: d2) = true ->
  exists states out before after n w,
    (forall cells g, In (cells, g) (t_rows t) -> 1 <= length cells <= n) /\
    (exists cells g, In (cells, g) (t_rows t) /\ length cells = n) /\
    (2 * (w * N.of_nat n) <= 200 + N.of_nat n /\ 200 <= 2 * (w * N.of_nat n) + N.of_nat n)%N /\
    translated ord o (document_source (d1 ++ (Block (Tabular t), gap) :: d2)) (REOF states) out /\
    concat out = before ++
      lit "\begin{tabular}" ++ (match t_title t with [] => [] | title => lit "[title=" ++ title ++ lit "]" end) ++
      lit "{" ++ concat (repeat (table_column w) n) ++ lit "}" ++ nl1 ++
      concat (map (fun row => table_row (map (fun cell => chunks_latex cell ++ nl2) (fst row))) (t_rows t)) ++ nl1 ++
      lit "\end{tabular}" ++ nl2 ++ after.
Proof.
  intros Hord H. destruct (C47_simple_documents ord o _ Hord H) as (states & out & Ht & E).
  exists states, out, ((if print_full_document o then lit "\documentclass{aplus}" ++ nl1 ++ lit "\begin{document}" ++ nl2 else []) ++ elements_latex [] d1),
    (elements_latex (styles d1) d2 ++ (if print_full_document o then lit "\end{document}" ++ nl1 else [])), (columns t), (nearest 100 (N.of_nat (columns t))).
  assert (Hok : table_ok t = true).
  { unfold simple in H. apply andb_true_iff in H as [H _]. apply andb_true_iff in H as [_ H]. exact (element_inside _ _ _ _ _ _ H). }
  assert (Hr : rows_ok (t_rows t) = true) by (unfold table_ok in Hok; now apply andb_true_iff in Hok as [_ Hok]).
  destruct (rows_shape _ Hr) as (R1 & R2 & R3). split; [exact R1|]. split; [exact R2|]. split.
  { apply nearest_close. unfold columns. destruct R2 as (cells & g & Q & E2). specialize (R1 _ _ Q). lia. }
  split; [exact Ht|]. rewrite E. unfold document_latex. rewrite elements_latex_app. cbn [elements_latex element_latex style_of app latex]. rewrite app_nil_r.
  unfold table_latex, table_begin, table_rows. rewrite <- R3.
  assert (Ec : concat (repeat (table_column (nearest 100 (N.of_nat (columns t)))) (columns t)) =
    flat_map (fun _ => lit "p{" ++ as_hundredths (nearest 100 (N.of_nat (columns t))) ++ lit "\textwidth}") (repeat tt (columns t))).
  { fold (table_column (nearest 100 (N.of_nat (columns t)))). generalize (table_column (nearest 100 (N.of_nat (columns t)))) as x. intros x. induction (columns t) as [|m IH]; [reflexivity|]. cbn [repeat concat flat_map]. now rewrite IH. }
  rewrite Ec. rewrite <- !app_assoc. reflexivity.
Qed.
(* What is lost.  The widths a table asks for are written as multiples of the
   width of the text, and whether they fit the number of columns is not checked;
   header rows, stub columns and the alignment are not written; six columns are
   wider than the text; the title is not escaped; an empty cell swallows the
   cells after it. *)
Theorem C59_tables_refuted :
  run_lines [lit ".. list-table:: A & b"; lit "   :widths: 10 20"; lit "   :header-rows: 1"; lit "   :stub-columns: 1"; lit "   :align: left"; lit "   :width: 50%"; []; lit "   * - a"; lit "   * - c"] =
    Some (true, lit "\begin{tabular}[title=A & b]{" ++ table_column 1000 ++ table_column 2000 ++ lit "}" ++ nl1 ++ table_row [lit "a" ++ nl2] ++ table_row [lit "c" ++ nl2] ++ nl1 ++ lit "\end{tabular}" ++ nl2) /\
  run_lines [lit ".. list-table::"; lit "   :widths: auto"; []; lit "   * - a"; lit "     - b"] =
    Some (true, lit "\begin{tabular}{}" ++ nl1 ++ table_row [lit "a" ++ nl2; lit "b" ++ nl2] ++ nl1 ++ lit "\end{tabular}" ++ nl2) /\
  run_lines [lit ".. list-table::"; []; lit "   * -"; lit "     - b"; lit "   * - c"; lit "     -"] =
    Some (true, lit "\begin{tabular}{" ++ table_column 100 ++ lit "}" ++ nl1 ++ lit "\\" ++ nl1 ++ table_row [lit "c" ++ nl2] ++ nl1 ++ lit "\end{tabular}" ++ nl2) /\
  run_lines [lit ".. list-table::"; []; lit "   * - a"; lit "     - b"; lit "     - c"; lit "     - d"; lit "     - e"; lit "     - f"] =
    Some (true, lit "\begin{tabular}{" ++ concat (repeat (table_column 17) 6) ++ lit "}" ++ nl1 ++ table_row (map (fun c => c ++ nl2) [lit "a"; lit "b"; lit "c"; lit "d"; lit "e"; lit "f"]) ++ nl1 ++ lit "\end{tabular}" ++ nl2).
Proof. split; [vm_compute; reflexivity|]. split; [vm_compute; reflexivity|]. split; vm_compute; reflexivity. Qed.
Definition prices : list_table :=
  {| t_title := lit "Prices"; t_settings := [(lit "header-rows", lit "1")]; t_row := 42%N; t_cell := 45%N;
     t_rows := [([[Txt (lit "fruit")]; [Txt (lit "price & weight")]; [Emph (lit "note")]], 1); ([[Txt (lit "apple" ++ nl1 ++ lit "or pear")]; [Txt (lit "two")]], 0); ([[Txt (lit "plum")]], 0)] |}.
Example C59_ex : let d := [(Block (Para [Txt (lit "See:")]), 1); (Block (Tabular prices), 2); (Block (Para [Txt (lit "or")]), 1); (Block (Quote 2 (BCons (Tabular prices) 1 (BCons (Para [Txt (lit "quoted")]) 0 BNil))), 0)] in
  simple d = true /\
  document_source d = [lit "See:"; []; lit ".. list-table:: Prices"; lit "   :header-rows: 1"; [];
    lit "   * - fruit"; lit "     - price & weight"; lit "     - *note*"; []; lit "   * - apple"; lit "       or pear"; lit "     - two"; lit "   * - plum"; []; []; lit "or"; [];
    lit "  .. list-table:: Prices"; lit "     :header-rows: 1"; [];
    lit "     * - fruit"; lit "       - price & weight"; lit "       - *note*"; []; lit "     * - apple"; lit "         or pear"; lit "       - two"; lit "     * - plum"; []; lit "  quoted"] /\
  run_lines (document_source d) = Some (true, document_latex false d) /\
  table_latex prices = lit "\begin{tabular}[title=Prices]{p{0.33\textwidth}p{0.33\textwidth}p{0.33\textwidth}}" ++ nl1 ++
    lit "fruit" ++ nl2 ++ lit "&" ++ nl1 ++ lit "price \& weight" ++ nl2 ++ lit "&" ++ nl1 ++ lit "\textit{note}" ++ nl2 ++ lit "\\" ++ nl1 ++
    lit "apple" ++ nl1 ++ lit "or pear" ++ nl2 ++ lit "&" ++ nl1 ++ lit "two" ++ nl2 ++ lit "\\" ++ nl1 ++
    lit "plum" ++ nl2 ++ lit "\\" ++ nl2 ++ lit "\end{tabular}" ++ nl2.
Proof. split; [vm_compute; reflexivity|]. split; [vm_compute; reflexivity|]. split; vm_compute; reflexivity. Qed.
Print Assumptions C59_tables_partial.
Print Assumptions C59_tables_refuted.
