(* MarkupSpec.v -- what C48 says: texts with inline markup in them, and the nodes
   and the LaTeX they mean.  Nothing of the parser is used here. *)
From Verif Require Import Base Unicode Common NodeTypes Spec InlineSpec Utf8Latex.

(* A text is a list of chunks. *)
Inductive chunk :=
| Txt (s : str)        (* plain text *)
| Emph (t : str)       (* *t* *)
| Strong (t : str)     (* **t** *)
| Verb (t : str)       (* ``t`` *)
| Cited (t : str)      (* `t` *)
| Role (r t : str)     (* :r:`t` *)
| RoleAfter (t r : str) (* `t`:r: *)
| Link (name : str)    (* name_ *)
| Phrase (t : str)     (* `t`_ *)
| Cite (key : str)     (* [key]_ *)
| Note (number : str)  (* [number]_ *)
| Subst (t : str).     (* |t| *)

Definition chunk_source (c : chunk) : str :=
  match c with
  | Txt s => s
  | Emph t => lit "*" ++ t ++ lit "*"
  | Strong t => lit "**" ++ t ++ lit "**"
  | Verb t => lit "``" ++ t ++ lit "``"
  | Cited t => lit "`" ++ t ++ lit "`"
  | Role r t => lit ":" ++ r ++ lit ":`" ++ t ++ lit "`"
  | RoleAfter t r => lit "`" ++ t ++ lit "`:" ++ r ++ lit ":"
  | Link name => name ++ lit "_"
  | Phrase t => lit "`" ++ t ++ lit "`_"
  | Cite key | Note key => lit "[" ++ key ++ lit "]_"
  | Subst t => lit "|" ++ t ++ lit "|"
  end.
Definition chunks_source (l : list chunk) : str := flat_map chunk_source l.

(* ---------- nodes ---------- *)
(* The node of a role.  The PEP role is left out (C28_pep_panics_refuted). *)
Definition role_means (r t : str) : TreeNodeType :=
  if str_eqb r (lit "emphasis") then NEmphasis t
  else if str_eqb r (lit "strong") then NStrongEmphasis t
  else if str_eqb r (lit "literal") || str_eqb r (lit "code") then NLiteral t
  else if str_eqb r (lit "subscript") then NSubscript t
  else if str_eqb r (lit "superscript") then NSuperscript t
  else if str_eqb r (lit "title-reference") then NTitleReference t (normalize_refname t)
  else if str_eqb r (lit "math") then NMath (unicode_math_to_latex t) None None
  else if str_eqb r (lit "RFC") || str_eqb r (lit "rfc-reference") then
    NReference (Some (lit "RFC " ++ t)) (RURI (lit "https://www.faqs.org/rfcs/rfc" ++ t ++ lit ".html"))
  else NInterpretedText r t.
(* the words and the white space of a plain text *)
Fixpoint runs_of (s : str) : list (bool * str) :=
  match s with
  | [] => []
  | c :: t => match runs_of t with
              | (b, w) :: l => if Bool.eqb b (is_whitespace c) then (b, c :: w) :: l else (is_whitespace c, [c]) :: (b, w) :: l
              | [] => [(is_whitespace c, [c])]
              end
  end.
Definition chunk_nodes (c : chunk) : list TreeNodeType :=
  match c with
  | Txt s => map plain_node (runs_of s)
  | Emph t => [NEmphasis (unicode_text_to_latex t)]
  | Strong t => [NStrongEmphasis (unicode_text_to_latex t)]
  | Verb t => [NLiteral (unicode_text_to_latex t)]
  | Cited t => [NTitleReference t (normalize_refname t)]
  | Role r t | RoleAfter t r => [role_means r t]
  | Link name => [NReference None (RInternal (normalize_refname name))]
  | Phrase t => [NReference (Some t) (RInternal (normalize_refname t))]
  | Cite key => [NCitationReference key key]
  | Note n => [NFootnoteReference n n FManual]
  | Subst t => [NSubstitutionReference (normalize_refname t) None]
  end.

(* ---------- LaTeX ---------- *)
(* the words of a text in LaTeX, the white space between them as it is *)
Fixpoint words_latex (s word : str) : str :=
  match s with
  | [] => unicode_text_to_latex (rev word)
  | c :: t => if is_whitespace c then unicode_text_to_latex (rev word) ++ c :: words_latex t []
              else words_latex t (c :: word)
  end.
Definition command (name body : str) : str := lit "\" ++ name ++ lit "{" ++ body ++ lit "}".
(* The content of a role is written as it is; math goes through the conversion of
   mathematical characters twice, once when parsed and once when written. *)
Definition role_latex (r t : str) : str :=
  if str_eqb r (lit "emphasis") then command (lit "textit") t
  else if str_eqb r (lit "strong") then command (lit "textbf") t
  else if str_eqb r (lit "literal") || str_eqb r (lit "code") then command (lit "texttt") t
  else if str_eqb r (lit "subscript") then command (lit "textsubscript") t
  else if str_eqb r (lit "superscript") then command (lit "textsuperscript") t
  else if str_eqb r (lit "title-reference") then lit "\hyperref[" ++ normalize_refname t ++ lit "]{" ++ t ++ lit "}"
  else if str_eqb r (lit "math") then lit "\(" ++ unicode_math_to_latex (unicode_math_to_latex t) ++ lit "\)"
  else if str_eqb r (lit "RFC") || str_eqb r (lit "rfc-reference") then
    lit "\href{https://www.faqs.org/rfcs/rfc" ++ t ++ lit ".html}{RFC " ++ t ++ lit "}"
  else command r t.
Definition chunk_latex (c : chunk) : str :=
  match c with
  | Txt s => words_latex s []
  | Emph t => command (lit "textit") (unicode_text_to_latex t)
  | Strong t => command (lit "textbf") (unicode_text_to_latex t)
  | Verb t => command (lit "texttt") (unicode_text_to_latex t)
  | Role r t | RoleAfter t r => role_latex r t
  | Link name => command (lit "ref") (normalize_refname name)
  | Cited t | Phrase t => lit "\hyperref[" ++ normalize_refname t ++ lit "]{" ++ t ++ lit "}"
  | Cite key => command (lit "cite") key
  | Note _ => lit "\footnotemark"
  | Subst _ => []   (* not written: the program stops with a panic *)
  end.
Definition chunks_latex (l : list chunk) : str := flat_map chunk_latex l.
Definition written_chunk (c : chunk) : bool := match c with Subst _ => false | _ => true end.

(* ---------- which texts ---------- *)
Definition no_markup_chars (l : str) : bool := forallb (fun c => negb (existsb (N.eqb c) markup_chars)) l.
Definition one_line (l : str) : bool := negb (existsb (N.eqb newline) l).
Definition last_char (s : str) : char := last s 32%N.
(* the text between two delimiters: without the delimiter, not empty, no white
   space at either end, no backslash at the end *)
Definition inside (delimiter : char) (t : str) : bool :=
  negb (existsb (N.eqb delimiter) t) && one_line t &&
  match t with c :: _ => negb (is_whitespace c) | [] => false end &&
  negb (is_whitespace (last_char t)) && negb (N.eqb (last_char t) 92%N).
Definition name_ok (r : str) : bool := match r with [] => false | _ => forallb is_ascii_alnum r end.
Definition role_name_ok (r : str) : bool :=
  match r with c :: t => is_ascii_alnum c && forallb (fun c => is_ascii_alnum c || N.eqb c 45%N) t | [] => false end &&
  negb (str_eqb r (lit "PEP")) && negb (str_eqb r (lit "pep-reference")).
(* what may come directly after markup *)
Definition closing (c : char) : bool := is_whitespace c || existsb (N.eqb c) (34%N :: lit "-.,;!?/')]}>").
Definition followed (l : list chunk) : bool :=
  match l with [] => true | Txt (c :: _) :: _ => closing c | _ => false end.
Definition ends_white (s : str) : bool := is_whitespace (last s 48%N).
(* the text has an opening quote of markup `_ in it *)
Fixpoint has_ref_end (s : str) : bool :=
  match s with a :: ((b :: _) as t) => (N.eqb a 96%N && N.eqb b 95%N) || has_ref_end t | _ => false end.
(* Plain text.  In each word: none of * ` | among the first two characters, no @,
   a colon only at the end, and an underscore only before a letter or a digit.
   n counts the characters of the word so far. *)
Fixpoint plain_text (n : nat) (s : str) : bool :=
  match s with
  | [] => true
  | c :: t =>
      if is_whitespace c then plain_text 0 t
      else negb (existsb (N.eqb c) (lit "*`|") && (n <=? 1)) && negb (N.eqb c 64%N) &&
           (negb (N.eqb c 58%N) || match t with [] => true | d :: _ => is_whitespace d end) &&
           (negb (N.eqb c 95%N) || match t with [] => false | d :: _ => is_ascii_alnum d end) &&
           plain_text (S n) t
  end.
Definition chunk_ok (c : chunk) : bool :=
  match c with
  | Txt s => negb (str_eqb s []) && plain_text 0 s
  | Emph t | Strong t => inside 42%N t
  | Verb t => inside 96%N t
  | Cited t => inside 96%N t
  | Role r t | RoleAfter t r => role_name_ok r && inside 96%N t
  | Link name => name_ok name
  | Phrase t => inside 96%N t && negb (existsb (N.eqb 60%N) t)
  | Cite key => name_ok key && negb (forallb is_ascii_digit key)
  | Note n => negb (str_eqb n []) && forallb is_ascii_digit n
  | Subst t => inside 124%N t
  end.
(* Markup starts a text or comes after white space.  A phrase in back quotes must not
   be followed, anywhere, by the end of a phrase reference: the parser would take
   everything up to there for one reference. *)
Fixpoint chunks_ok (fresh : bool) (l : list chunk) : bool :=
  match l with
  | [] => true
  | Txt s :: l' => chunk_ok (Txt s) && match l' with Txt _ :: _ => false | _ => true end && chunks_ok (ends_white s) l'
  | c :: l' => fresh && chunk_ok c && followed l' &&
      match c with Cited _ | RoleAfter _ _ => negb (has_ref_end (chunks_source l')) | _ => true end && chunks_ok false l'
  end.
