(* Spec.v -- small, model-independent definitions used in the statements of
   the theorems: what the English properties talk about. *)
From Coq Require Export Sorting.Sorted.
From Verif Require Import Base Common NodeTypes Tree.
Local Open Scope N_scope.

(* ---------- C18/C19: the standard Roman numeral of a number ---------- *)
Definition roman_digit (one five ten : string) (d : N) : str :=
  lit (match d with
       | 0 => ""
       | 1 => one
       | 2 => one ++ one
       | 3 => one ++ one ++ one
       | 4 => one ++ five
       | 5 => five
       | 6 => five ++ one
       | 7 => five ++ one ++ one
       | 8 => five ++ one ++ one ++ one
       | _ => one ++ ten
       end)%string.
Definition roman_thousands (m : string) (d : N) : str :=
  lit (match d with
       | 0 => "" | 1 => m | 2 => m ++ m | 3 => m ++ m ++ m | _ => m ++ m ++ m ++ m
       end)%string.
(* standard upper- and lower-case numerals of 1..4999 *)
Definition upper_roman (n : N) : str :=
  roman_thousands "M" (n / 1000) ++ roman_digit "C" "D" "M" (n / 100 mod 10)
  ++ roman_digit "X" "L" "C" (n / 10 mod 10) ++ roman_digit "I" "V" "X" (n mod 10).
Definition lower_roman (n : N) : str :=
  roman_thousands "m" (n / 1000) ++ roman_digit "c" "d" "m" (n / 100 mod 10)
  ++ roman_digit "x" "l" "c" (n / 10 mod 10) ++ roman_digit "i" "v" "x" (n mod 10).

(* the value of a string of decimal digits *)
Definition decimal_value (s : str) : N := fold_left (fun a c => a * 10 + (c - 48)) s 0.
Definition is_digits (s : str) : Prop := s <> [] /\ Forall (fun c => 48 <= c <= 57) s.

(* ---------- C45: dropping carriage returns before line feeds ---------- *)
Fixpoint drop_cr (s : str) : str :=
  match s with
  | [] => []
  | c :: t =>
      match t with
      | d :: _ => if (c =? 13) && (d =? 10) then drop_cr t else c :: drop_cr t
      | [] => [c]
      end
  end.

(* all characters are white space / none is *)
Definition all_ws (s : str) : Prop := Forall (fun c => is_whitespace c = true) s.
Definition no_ws (s : str) : Prop := Forall (fun c => is_whitespace c = false) s.

(* ---------- C23: unsigned decimal numerals ---------- *)
Definition digits (s : str) : Prop := Forall (fun c => 48 <= c <= 57) s.
(* numeral text ip fp: text is an unsigned decimal numeral with integer digits
   ip and fraction digits fp *)
Inductive numeral : str -> str -> str -> Prop :=
| num_int ip : ip <> [] -> digits ip -> numeral ip ip []
| num_dot ip fp : ip <> [] -> digits ip -> digits fp -> numeral (ip ++ lit "." ++ fp) ip fp
| num_frac fp : fp <> [] -> digits fp -> numeral (lit "." ++ fp) [] fp.

(* ---------- C21/C22: enumerators ---------- *)
Definition open_of (d : EnumDelims) : str := match d with Parens => lit "(" | _ => [] end.
Definition close_of (d : EnumDelims) : str := match d with Period => lit "." | _ => lit ")" end.
(* `enum_line w d body line`: line is indented by w and starts with the
   enumerator body between the delimiters d, followed by a space or the end *)
Definition enum_line (w : str) (d : EnumDelims) (body line : str) : Prop :=
  all_ws w /\ exists rest, line = w ++ open_of d ++ body ++ close_of d ++ rest /\
    (rest = [] \/ exists r, rest = 32 :: r).

(* a Roman marker that is the standard numeral of m has the value m *)
Definition roman_std_lower (body : str) (n : N) : Prop := forall m, 1 <= m <= 4999 -> body = lower_roman m -> n = m.
Definition roman_std_upper (body : str) (n : N) : Prop := forall m, 1 <= m <= 4999 -> body = upper_roman m -> n = m.
(* `denotes body item start k n`: the marker text means number n in style k *)
Inductive denotes (item start : N) (first : bool) (lk : option EnumKind) : str -> EnumKind -> N -> Prop :=
| den_arabic body : body <> [] -> digits body ->
    denotes item start first lk body Arabic (decimal_value body)
| den_lroman body n : Forall (fun c => In c (lit "ivxlcdm")) body -> roman_std_lower body n ->
    denotes item start first lk body LowerRoman n
| den_uroman body n : Forall (fun c => In c (lit "IVXLCDM")) body -> roman_std_upper body n ->
    denotes item start first lk body UpperRoman n
| den_lalpha n : 1 <= n <= 26 -> denotes item start first lk [96 + n] LowerAlpha n
| den_ualpha n : 1 <= n <= 26 -> denotes item start first lk [64 + n] UpperAlpha n
| den_auto : denotes item start first lk (lit "#")
    (if first then Arabic else match lk with Some k => k | None => Arabic end) (item + start).

(* ---------- documents and positions (C04-C09) ---------- *)
(* the node of document n at a path of child indices *)
Fixpoint node_at (n : TreeNode) (path : list nat) : option TreeNode :=
  match path with
  | [] => Some n
  | i :: rest =>
      match node_children n with
      | Some cs => match nth_error cs i with Some c => node_at c rest | None => None end
      | None => None
      end
  end.
(* n with the node at that path replaced by m *)
Fixpoint put_at (n : TreeNode) (path : list nat) (m : TreeNode) : TreeNode :=
  match path with
  | [] => m
  | i :: rest =>
      match node_children n with
      | Some cs => match nth_error cs i with
                   | Some c => with_children n (Some (set_nth cs i (put_at c rest m)))
                   | None => n
                   end
      | None => n
      end
  end.
(* all nodes of a document, parents before children, in document order *)
Fixpoint preorder (n : TreeNode) : list TreeNode :=
  match n with
  | Node _ _ _ _ None => [n]
  | Node _ _ _ _ (Some cs) => n :: flat_map preorder cs
  end.
(* where the focus is: child indices from the root *)
Fixpoint focus_path (z : TreeZipper) : list nat :=
  match z with
  | Zip _ (Some p) (Some i) => focus_path p ++ [i]
  | _ => []
  end.
(* the whole document: what is focused after walking to the root *)
Definition seen_from_root (z : TreeZipper) (root : TreeNode) : Prop := z_walk_to_root z = Ret (Zip root None None).
(* a node without its children: everything it says about itself *)
Definition own_content (n : TreeNode) := (node_id n, node_refnames n, node_classes n, node_data n).
(* append a child *)
Definition add_last (p c : TreeNode) : TreeNode :=
  with_children p (match node_children p with Some cs => Some (cs ++ [c]) | None => None end).

(* C05: the first node that is stopped at on the way from the focus to the root *)
Inductive climbs (stop : TreeNodeType -> bool) : TreeZipper -> TreeZipper -> Prop :=
| climb_here z : stop (node_data (z_node z)) = true -> climbs stop z z
| climb_root z : focus_on_parent z = Ret (Err z) -> climbs stop z z
| climb_up z p z' : stop (node_data (z_node z)) = false -> focus_on_parent z = Ret (Ok p) ->
    climbs stop p z' -> climbs stop z z'.
Definition document_or_section_of (level : nat) (x : TreeNodeType) : bool :=
  match x with NDocument => true | NSection _ l _ => (l <=? level)%nat | _ => false end.

(* ---------- C10: levels of section styles ---------- *)
(* the distinct styles of a list, in order of first appearance *)
Fixpoint uniq (l : list SectionLineStyle) : list SectionLineStyle :=
  match l with
  | [] => []
  | s :: t => s :: filter (fun x => negb (style_eqb x s)) (uniq t)
  end.
Fixpoint index_of (s : SectionLineStyle) (l : list SectionLineStyle) : nat :=
  match l with
  | [] => 0
  | x :: t => if style_eqb s x then 0 else S (index_of s t)
  end%nat.
(* after the titles `seen`, a title of style s is on this level: one more than
   the number of styles that appeared before the first s *)
Definition level_after (seen : list SectionLineStyle) (s : SectionLineStyle) : nat := S (index_of s (uniq seen)).

(* ---------- C14: the sequence of footnote symbols ---------- *)
Definition ten_symbols : str := (* * dagger double-dagger section pilcrow # spade heart diamond club *)
  [42; 0x2020; 0x2021; 0xA7; 0xB6; 35; 0x2660; 0x2665; 0x2666; 0x2663].
(* symbol number n (from 0): the symbols in turn, doubled in the second round, ... *)
Definition symbol_spec (n : N) (label : str) : Prop :=
  exists round place c, n = 10 * N.of_nat round + N.of_nat place /\
    nth_error ten_symbols place = Some c /\ label = repeat c (S round).

(* ---------- C09: some nesting rules of reStructuredText, by hand ---------- *)
Definition inline_kinds : list NodeKind :=
  [KAbbreviation; KAbsoluteURI; KAcronym; KAutomaticSectionNumbering; KCitationReference; KEmphasis;
   KFootnoteReference; KGenerated; KImage; KInline; KInterpretedText; KLiteral; KMath; KProblematic;
   KReference; KStrongEmphasis; KSubscript; KSubstitutionReference; KSuperscript; KTarget; KText;
   KTitleReference; KWhiteSpace].
Definition nesting_rules (parent child : NodeKind) : Prop :=
  (* items only in their own lists *)
  (child = KBulletListItem -> parent = KBulletList) /\
  (child = KEnumeratedListItem -> parent = KEnumeratedList) /\
  (child = KDefinitionListItem -> parent = KDefinitionList) /\
  (child = KFieldListItem -> parent = KFieldList) /\
  (child = KOptionListItem -> parent = KOptionList) /\
  (* lists contain their items and blank lines only *)
  (parent = KBulletList -> child = KBulletListItem \/ child = KEmptyLine) /\
  (parent = KEnumeratedList -> child = KEnumeratedListItem \/ child = KEmptyLine) /\
  (parent = KDefinitionList -> child = KDefinitionListItem \/ child = KEmptyLine) /\
  (parent = KFieldList -> child = KFieldListItem \/ child = KEmptyLine) /\
  (parent = KOptionList -> child = KOptionListItem \/ child = KEmptyLine) /\
  (parent = KListTable -> child = KBulletList) /\
  (* sections in documents and sections *)
  (child = KSection -> parent = KDocument \/ parent = KSection) /\
  (* paragraphs contain inline elements; text is never a direct child of a body element *)
  (parent = KParagraph -> In child inline_kinds) /\
  (child = KText -> parent <> KDocument /\ parent <> KSection /\ parent <> KBlockQuote /\
     parent <> KBulletListItem /\ parent <> KEnumeratedListItem /\ parent <> KAdmonition) /\
  (child = KAttribution -> parent = KBlockQuote) /\
  (* questionnaires *)
  (parent = KAplusQuestionnaire -> In child [KEmptyLine; KParagraph; KAplusPickOne; KAplusPickAny; KAplusFreeText]) /\
  (child = KAplusPickChoice -> parent = KAplusPickChoices) /\
  (child = KAplusQuestionnaireHint -> parent = KAplusQuestionnaireHints).

(* ---------- C16: labels waiting for a node ---------- *)
Definition is_blank_data (x : TreeNodeType) : bool := match x with NEmptyLine | NWhiteSpace _ => true | _ => false end.
