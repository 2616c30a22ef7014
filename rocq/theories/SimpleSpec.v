(* SimpleSpec.v -- what C47 says: a family of reStructuredText documents, how
   they are written as source lines, and the LaTeX they mean.  Nothing of the
   parser or the writer is used here; words are escaped by the function C30 is
   about, titles are labelled by the one C17 is about. *)
From Verif Require Import Base Unicode Common Converters NodeTypes Spec InlineSpec Utf8Latex DirectiveSpec.
From Verif Require Export MarkupSpec.

(* ---------- characters and lines ---------- *)
Definition is_ascii_punct (c : char) : bool :=
  in_range 33 47 c || in_range 58 64 c || in_range 91 96 c || in_range 123 126 c.
(* a character no marker starts with: no white space, no ASCII punctuation, no
   dash or bullet of other scripts *)
Definition starter (c : char) : bool :=
  negb (is_whitespace c) && negb (is_ascii_punct c) && negb (existsb (N.eqb c) [0x2014; 0x2022; 0x2023; 0x2043]%N).
Definition starts_word (l : str) : bool := match l with c :: _ => starter c | [] => false end.
(* punctuation a text may start with: once or twice, and then a starter *)
Definition opener (c : char) : bool := is_ascii_punct c && negb (existsb (N.eqb c) (lit ".:(#-")).
Definition starts_text (l : str) : bool :=
  starts_word l ||
  match l with
  | c :: t => opener c && (starts_word t || match t with d :: u => N.eqb c d && starts_word u | [] => false end)
  | [] => false
  end.
(* what follows the letters and digits a line starts with *)
Fixpoint past_word (l : str) : str :=
  match l with c :: t => if is_ascii_alnum c then past_word t else l | [] => [] end.
Fixpoint word_of (l : str) : str :=
  match l with c :: t => if is_ascii_alnum c then c :: word_of t else [] | [] => [] end.
(* a number, a letter, or a word of roman digits *)
Definition counter (w : str) : bool :=
  (length w =? 1) || forallb is_ascii_digit w ||
  forallb (fun c => existsb (N.eqb c) (lit "ivxlcdm")) w || forallb (fun c => existsb (N.eqb c) (lit "IVXLCDM")) w.
(* the line starts like the item of an enumerated list: such a word, a period or
   parenthesis, a space *)
Definition like_enumerator (l : str) : bool :=
  counter (word_of l) &&
  match past_word l with
  | c :: t => (N.eqb c 46 || N.eqb c 41) && match t with [] => true | d :: _ => N.eqb d 32 end
  | [] => false
  end.
(* the first line of a paragraph, or a title *)
Definition text_line (l : str) : bool := starts_text l && negb (like_enumerator l) && one_line l.
(* the lines of a text *)
Fixpoint split_lines (s : str) : list str :=
  match s with
  | [] => [[]]
  | c :: t => match split_lines t with
              | l :: ls => if N.eqb c newline then [] :: l :: ls else (c :: l) :: ls
              | [] => []
              end
  end.
Definition text := list chunk.
Definition text_lines (t : text) : list str := split_lines (chunks_source t).
(* a paragraph: text with inline markup (C48); where a line ends and the next one
   starts, there is a plain character, not markup *)
Definition para_ok (t : text) : bool :=
  chunks_ok true t && forallb written_chunk t && negb (ends_white (chunks_source t)) &&
  match text_lines t with
  | [] => false
  | l :: more => text_line l && forallb starts_text more
  end.
(* a text without spaces around it *)
Definition snug (l : str) : bool := str_eqb (trim l) l.

(* ---------- directives without contents of their own ---------- *)
(* the name of a directive: a letter, a letter or digit, and then letters, digits
   and single hyphens between them *)
Fixpoint name_rest (l : str) : bool :=
  match l with
  | [] => true
  | c :: t => if is_ascii_alnum c then name_rest t
              else N.eqb c 45 && match t with d :: u => is_ascii_alnum d && name_rest u | [] => false end
  end.
Definition directive_name (l : str) : bool :=
  match l with a :: b :: t => is_ascii_alpha a && is_ascii_alnum b && name_rest t | _ => false end.
(* options: names and values *)
Definition settings := list (str * str).
Definition after_space (v : str) : str := match v with [] => [] | _ => 32%N :: v end.
Definition setting_line (kv : str * str) : str := lit ":" ++ fst kv ++ lit ":" ++ after_space (snd kv).
Definition setting_ok (kv : str * str) : bool :=
  match fst kv with [] => false | _ => true end &&
  forallb (fun c => is_ascii_alnum c || N.eqb c 45 || N.eqb c 95) (fst kv) &&
  one_line (snd kv) && snug (snd kv).
Definition setting (k : string) (opts : settings) : option str := last_value (lit k) opts None.
(* a text after the marker, which is not read as an option *)
Definition argument_ok (l : str) : bool :=
  one_line l && snug l && match l with c :: _ => negb (N.eqb c 58) | [] => true end.
Inductive leaf :=
| Listing (older : bool) (lang : str) (opts : settings) (ls : list str)     (* code-block, or sourcecode *)
| Code (lang : str) (opts : settings) (ls : list str)                       (* code *)
| Picture (uri : str) (opts : settings)                                     (* image *)
| Input (key : str) (opts : settings)                                       (* ae-input *)
| Output (key : str) (opts : settings)                                      (* ae-output *)
| Formulas (opts : settings) (first : list str) (more : list (list str)).   (* math: lines of each *)
Definition leaf_name (l : leaf) : str :=
  match l with
  | Listing older _ _ _ => if older then lit "sourcecode" else lit "code-block"
  | Code _ _ _ => lit "code" | Picture _ _ => lit "image" | Formulas _ _ _ => lit "math"
  | Input _ _ => lit "ae-input" | Output _ _ => lit "ae-output"
  end.
Definition leaf_argument (l : leaf) : str :=
  match l with Listing _ lang _ _ | Code lang _ _ => lang | Picture uri _ => uri | Formulas _ _ _ => [] | Input key _ | Output key _ => key end.
Definition leaf_settings (l : leaf) : settings :=
  match l with Listing _ _ opts _ | Code _ opts _ => opts | Picture _ opts | Input _ opts | Output _ opts => opts | Formulas opts _ _ => opts end.
(* the lines below, as they would be without indentation *)
Definition leaf_body (l : leaf) : list str :=
  match l with
  | Listing _ _ _ ls | Code _ _ ls => ls
  | Picture _ _ | Input _ _ | Output _ _ => []
  | Formulas _ first more => first ++ flat_map (cons []) more
  end.
Definition formula_ok (ls : list str) : bool :=
  match ls with c :: _ => true | [] => false end &&
  forallb (fun l => negb (blank l) && one_line l) ls && snug (join [newline] ls).
Definition one_of (l : str) (names : list str) : bool := existsb (str_eqb l) names.
(* an option that is absent, or one of these *)
Definition limited (v : option str) (names : list string) : bool := match v with Some v => one_of v (map lit names) | None => true end.
(* file, clickable, or dropdown: and a word *)
Definition input_type (v : str) : bool :=
  one_of v (map lit ["file"; "clickable"]%string) ||
  (str_eqb (firstn 9 v) (lit "dropdown:") && forallb (fun c => negb (N.eqb c 58)) (skipn 9 v)).
Definition is_some {A} (o : option A) : bool := match o with Some _ => true | None => false end.
Definition nonempty (l : str) : bool := match l with [] => false | _ => true end.
Definition leaf_ok (l : leaf) : bool :=
  argument_ok (leaf_argument l) && forallb setting_ok (leaf_settings l) &&
  match l with
  | Listing _ _ _ ls | Code _ _ ls =>
      match ls with (c :: _) :: _ => negb (is_whitespace c) | _ => false end && forallb one_line ls &&
      match last ls [] with [] => false | _ => true end
  | Picture uri _ => match uri with [] => false | _ => true end
  | Input key opts => nonempty key && limited (setting "clear" opts) ["both"; "left"; "right"]%string &&
      match setting "type" opts with Some v => input_type v | None => true end
  | Output key opts => nonempty key && is_some (setting "config" opts) && is_some (setting "inputs" opts)
  | Formulas _ first more => forallb formula_ok (first :: more)
  end.

(* ---------- directives with blocks inside ---------- *)
Inductive box :=
| Standard (name : str) (opts : settings)       (* note, warning, ... *)
| Titled (title : str) (opts : settings)        (* admonition *)
| Only (condition : str)                        (* only *)
| Custom (name arg : str) (opts : settings)     (* a name the program does not know; at most one option *)
| Exercise (key grade : str) (points : option N) (opts : settings)   (* submit *)
| Interest (title : str) (opts : settings).     (* point-of-interest *)
Definition standard_names : list str :=
  map lit ["attention"; "caution"; "danger"; "error"; "hint"; "important"; "note"; "tip"; "warning"]%string.
Definition other_names : list str :=
  map lit ["admonition"; "image"; "figure"; "code"; "math"; "list-table"; "footnotes"; "citations"; "class"; "code-block"; "sourcecode";
           "only"; "questionnaire"; "submit"; "ae-input"; "ae-output"; "point-of-interest"]%string.
Definition box_name (x : box) : str :=
  match x with
  | Standard name _ => name | Titled _ _ => lit "admonition" | Only _ => lit "only" | Custom name _ _ => name
  | Exercise _ _ _ _ => lit "submit" | Interest _ _ => lit "point-of-interest"
  end.
(* the argument of an exercise: its key, and a letter and a number after a space *)
Definition exercise_argument (key grade : str) (points : option N) : str :=
  key ++ after_space (grade ++ match points with Some p => dec p | None => [] end).
Definition box_argument (x : box) : str :=
  match x with
  | Standard _ _ => [] | Titled title _ => title | Only c => c | Custom _ arg _ => arg
  | Exercise key grade points _ => exercise_argument key grade points | Interest title _ => title
  end.
Definition box_settings (x : box) : settings :=
  match x with Standard _ opts | Titled _ opts | Custom _ _ opts | Exercise _ _ _ opts | Interest _ opts => opts | Only _ => [] end.
Definition lowercase_name (l : str) : bool := forallb (fun c => in_range 97 122 c || in_range 48 57 c || N.eqb c 45) l.
Definition box_ok (x : box) : bool :=
  argument_ok (box_argument x) && forallb setting_ok (box_settings x) &&
  match x with
  | Standard name _ => one_of name standard_names
  | Titled title _ => match title with [] => false | _ => true end
  | Only c => match c with [] => false | _ => true end
  | Custom name _ opts => (length opts <=? 1) && directive_name name && lowercase_name name && negb (one_of name (standard_names ++ other_names))
  | Exercise key grade points opts =>
      nonempty key && forallb is_ascii_alnum key && (length grade <=? 1) && forallb is_ascii_upper grade &&
      match points with Some p => N.leb p u32_max | None => true end &&
      is_some (setting "config" opts) && limited (setting "radar-tokenizer" opts) ["python"; "scala"; "javascript"; "css"; "html"]%string
  | Interest _ _ => true
  end.

(* ---------- names of targets ---------- *)
(* letters, digits and spaces, and signs between them; the last two are letters or digits *)
Definition target_char (c : char) : bool := is_ascii_alnum c || N.eqb c 32.
Fixpoint target_rest (l : str) : bool :=
  match l with
  | [] => false
  | [c] => is_ascii_alnum c
  | c :: ((d :: t) as u) =>
      (target_char c || (existsb (N.eqb c) (lit "-+._") && target_char d && negb (Nat.eqb (length t) 0))) && target_rest u
  end.
Definition target_name (l : str) : bool := match l with c :: t => is_ascii_alnum c && target_rest t | [] => false end.

(* ---------- questionnaires ---------- *)
(* a text of one line *)
Definition phrase_ok (t : text) : bool :=
  chunks_ok true t && forallb written_chunk t && one_line (chunks_source t) && snug (chunks_source t) && nonempty (chunks_source t).
Inductive verdict := Wrong | Right | Neutral.
Record choice := { c_ticked : bool; c_verdict : verdict; c_label : str; c_answer : text }.
(* a hint is for an answer; `h_other`: it has a ! in front *)
Record hint := { h_other : bool; h_label : str; h_text : text }.
Inductive question :=
| Pick (any : bool) (points : N) (opts : settings) (assignment : option text) (choices : list choice) (hints : list hint)
| Free (points : N) (method : str) (opts : settings) (assignment : text) (answer : str) (hints : list hint).
(* what is inside: paragraphs and questions, with the number of empty lines after each *)
Inductive part := Prose (t : text) | Asked (q : question).
Record quiz := { q_key : str; q_grade : str; q_points : option N; q_settings : settings; q_parts : list (part * nat) }.

Definition verdict_sign (v : verdict) : str := match v with Wrong => [] | Right => lit "*" | Neutral => lit "?" end.
Definition choice_line (c : choice) : str :=
  (if c_ticked c then lit "+" else []) ++ verdict_sign (c_verdict c) ++ c_label c ++ lit ". " ++ chunks_source (c_answer c).
Definition section_sign : char := 167%N.
Definition hint_line (h : hint) : str :=
  (if h_other h then lit "!" else []) ++ h_label h ++ [32%N; section_sign; 32%N] ++ chunks_source (h_text h).
Definition question_name (q : question) : str :=
  match q with Pick any _ _ _ _ _ => if any then lit "pick-any" else lit "pick-one" | Free _ _ _ _ _ _ => lit "freetext" end.
Definition question_points (q : question) : N := match q with Pick _ n _ _ _ _ | Free n _ _ _ _ _ => n end.
Definition question_argument (q : question) : str :=
  match q with Pick _ n _ _ _ _ => dec n | Free n method _ _ _ _ => dec n ++ after_space method end.
Definition question_settings (q : question) : settings := match q with Pick _ _ opts _ _ _ | Free _ _ opts _ _ _ => opts end.
Definition question_hints (q : question) : list hint := match q with Pick _ _ _ _ _ hs | Free _ _ _ _ _ hs => hs end.
(* the lines below the marker and the options, without their indentation *)
Definition question_body (q : question) : list str :=
  match q with
  | Pick _ _ _ a cs _ => match a with Some t => text_lines t ++ [[]] | None => [] end ++ map choice_line cs
  | Free _ _ _ t answer _ => text_lines t ++ [[]; answer]
  end ++
  match question_hints q with [] => [] | hs => [] :: map hint_line hs end.

(* no white space, and none of these in front *)
Definition label_ok (signs : str) (l : str) : bool :=
  forallb (fun c => negb (is_whitespace c) && negb (N.eqb c section_sign)) l && match l with c :: _ => negb (existsb (N.eqb c) signs) | [] => false end.
Definition choice_ok (any : bool) (c : choice) : bool :=
  label_ok (lit "+*?") (c_label c) && phrase_ok (c_answer c) && match c_verdict c with Neutral => any | _ => true end.
Definition hint_ok (h : hint) : bool :=
  label_ok (lit "!") (h_label h) && phrase_ok (h_text h) && forallb (fun c => negb (N.eqb c section_sign)) (chunks_source (h_text h)).
(* the first word of a text; a line that starts with a word that ends with a full stop would be an answer *)
Fixpoint first_word (l : str) : str := match l with c :: t => if is_whitespace c then [] else c :: first_word t | [] => [] end.
Definition no_label (t : text) : bool := negb (N.eqb (last (first_word (chunks_source t)) 0%N) 46).
Definition question_ok (q : question) : bool :=
  argument_ok (question_argument q) && forallb setting_ok (question_settings q) && N.leb (question_points q) u32_max && forallb hint_ok (question_hints q) &&
  match q with
  | Pick any _ opts a cs _ =>
      match a with Some t => para_ok t && no_label t | None => true end &&
      match cs with [] => false | _ => forallb (choice_ok any) cs end &&
      (negb (any && is_some (setting "randomized" opts)) || negb (is_some (setting "correct-count" opts)) || is_some (match setting "correct-count" opts with Some v => parse_u32 v | None => None end))
  | Free _ method _ t answer _ =>
      forallb (fun c => negb (is_whitespace c)) method && para_ok t && one_line answer && snug answer && nonempty answer
  end.
(* a part that is not the last is followed by an empty line *)
Fixpoint parts_ok (ps : list (part * nat)) : bool :=
  match ps with
  | [] => true
  | (x, gap) :: ps' =>
      match x with Prose t => para_ok t | Asked q => question_ok q end && (match ps' with [] => true | _ => 1 <=? gap end) && parts_ok ps'
  end.
Definition all_points (ps : list (part * nat)) : N :=
  fold_right N.add 0%N (map (fun x => match fst x with Prose _ => 0%N | Asked q => question_points q end) ps).
Definition quiz_argument (q : quiz) : str := exercise_argument (q_key q) (q_grade q) (q_points q).
Definition quiz_ok (q : quiz) : bool :=
  argument_ok (quiz_argument q) && forallb setting_ok (q_settings q) &&
  nonempty (q_key q) && forallb is_ascii_alnum (q_key q) && (length (q_grade q) <=? 1) && forallb is_ascii_upper (q_grade q) &&
  match q_points q with Some p => N.leb p u32_max | None => true end &&
  match q_parts q with [] => false | _ => parts_ok (q_parts q) end && N.leb (all_points (q_parts q)) u32_max.

(* ---------- footnotes and citations ---------- *)
Inductive note :=
| Citation (label : str)      (* .. [label] *)
| Footnote (label : str).     (* .. [number] *)
Definition note_label (m : note) : str := match m with Citation l | Footnote l => l end.
Definition note_marker (m : note) : str := lit ".. [" ++ note_label m ++ lit "]".
(* a number; or a letter, and then letters, digits and single hyphens *)
Definition note_ok (m : note) : bool :=
  match m with
  | Citation l => match l with a :: t => is_ascii_alpha a && name_rest t | [] => false end
  | Footnote l => nonempty l && forallb is_ascii_digit l
  end.

(* ---------- list tables ---------- *)
(* the rows with the empty lines after each; each cell a paragraph; the bullets of rows and cells *)
Record list_table := { t_title : str; t_settings : settings; t_row : char; t_cell : char; t_rows : list (list text * nat) }.
(* as many columns as the longest row has cells *)
Definition columns (t : list_table) : nat := fold_right (fun r m => Nat.max (length (fst r)) m) 0 (t_rows t).

(* ---------- numbers of items ---------- *)
Inductive numbering := Auto | Digits | Roman (upper : bool) | Letters (upper : bool).
Definition number (s : numbering) (n : N) : str :=
  match s with
  | Auto => lit "#"
  | Digits => dec n
  | Roman true => upper_roman n
  | Roman false => lower_roman n
  | Letters true => [64 + n]%N
  | Letters false => [96 + n]%N
  end.
(* a letter that is also a Roman digit is read as one (C58) *)
Definition roman_letter (n : N) : bool := existsb (N.eqb (96 + n)) (lit "ivxlcdm").
Definition number_ok (s : numbering) (n : N) : bool :=
  match s with
  | Auto | Digits => N.leb n usize_max
  | Roman _ => N.leb 1 n && N.leb n 4999
  | Letters _ => N.leb 1 n && N.leb n 26 && negb (roman_letter n)
  end.
Definition kind_of (s : numbering) : EnumKind :=
  match s with
  | Auto | Digits => Arabic
  | Roman true => UpperRoman | Roman false => LowerRoman
  | Letters true => UpperAlpha | Letters false => LowerAlpha
  end.
Definition same_delims (a b : EnumDelims) : bool :=
  match a, b with Period, Period | Parens, Parens | RParen, RParen => true | _, _ => false end.
Definition same_kind (a b : EnumKind) : bool :=
  match a, b with
  | Automatic, Automatic | Arabic, Arabic | LowerAlpha, LowerAlpha | UpperAlpha, UpperAlpha | LowerRoman, LowerRoman | UpperRoman, UpperRoman => true
  | _, _ => false
  end.
(* an item that goes on a list whose next item has this number *)
Definition goes_on (d : EnumDelims) (k : EnumKind) (next : N) (d' : EnumDelims) (s : numbering) (n : N) : bool :=
  same_delims d d' && match s with Auto => true | _ => same_kind k (kind_of s) && N.eqb n next end.

(* ---------- documents ---------- *)
(* Every block, item and element comes with the number of empty lines after it. *)
Inductive block :=
| Para (t : text)                               (* a paragraph *)
| Bullets (c : char) (its : items)              (* a bullet list *)
| Numbered (d : EnumDelims) (s : numbering) (first : N) (its : items)
                                                (* items numbered first, first + 1, ...; or all marked # *)
| Fields (names : list str) (its : items)       (* a field list: a name for each item *)
| Quote (extra : nat) (bs : blocks)             (* a block quote, indented by this much more *)
| Said (extra : nat) (bs : blocks) (who : str) (hang : nat) (more : list str)
                                                (* a block quote and who said it; the further lines of that are indented by this much more *)
| Boxed (x : box) (bs : blocks)                 (* blocks in a directive, indented by three *)
| Entry (m : note) (t : text) (gap : nat) (more : blocks)
                                                (* a footnote or citation: first paragraph, more blocks *)
| Figure (uri : str) (opts : settings) (caption : text) (gap : nat) (more : blocks)
                                                (* an image with a caption, more blocks *)
| Quiz (q : quiz)                               (* a questionnaire *)
| Tabular (t : list_table)                      (* a list table *)
| Remark (t : str)                              (* a comment of one line *)
| Leaf (l : leaf)                               (* a directive as above *)
with blocks :=
| BNil
| BCons (b : block) (gap : nat) (bs : blocks)
with items :=
| INil
| ICons (t : text) (gap : nat) (more : blocks) (its : items).  (* first paragraph, more blocks *)
(* a definition: the term, what it is said to be, the blocks that define it and by how much they are indented *)
Record definition := { d_term : str; d_kinds : list str; d_extra : nat; d_body : blocks }.
Inductive element :=
| Under_title (t : str) (c : char) (n : nat)    (* a title and n characters c below it *)
| Over_title (t : str) (c : char) (n : nat)     (* the same line above and below *)
| Marked (names : list (str * nat)) (over : bool) (t : str) (c : char) (n : nat)
                                                (* targets, with the empty lines after each, and one of these titles *)
| Rule (c : char) (n : nat)                     (* a transition *)
| Verbatim (t : text) (ls : list str)           (* a paragraph that ends with two colons, and a literal block *)
| Quoted (t : text) (q : char) (ls : list (nat * str))
                                                (* the same with a quoted block: after the sign q, spaces and a text *)
| Terms (ds : list definition)                  (* a definition list *)
| Columned (title : str) (opts : settings) (first : blocks) (more : list (nat * nat * blocks))
                                                (* a point of interest in columns: the first one, and for each further one the
                                                   empty lines before and after the line ::newcol and what is in it *)
| Block (b : block).
Definition document := list (element * nat).

(* ---------- source lines ---------- *)
Definition pad (k : nat) (l : str) : str := repeat 32%N k ++ l.
Definition item_lines (k : nat) (c : char) (ls : list str) : list str :=
  match ls with
  | [] => []
  | l :: more => pad k (c :: 32%N :: l) :: map (pad (k + 2)) more
  end.
Definition entry_lines (k : nat) (m : note) (ls : list str) : list str :=
  match ls with
  | [] => []
  | l :: more => pad k (note_marker m ++ 32%N :: l) :: map (pad (k + 3)) more
  end.
(* the enumerator of an item: 1. or 1) or (1) *)
Definition enumerator (d : EnumDelims) (s : numbering) (n : N) : str := open_of d ++ number s n ++ close_of d.
Definition numbered_lines (k : nat) (m : str) (ls : list str) : list str :=
  match ls with
  | [] => []
  | l :: more => pad k (m ++ 32%N :: l) :: map (pad (k + S (length m))) more
  end.
Definition field_marker (name : str) : str := lit ":" ++ name ++ lit ":".
(* lines of which the empty ones are left empty *)
Definition shifted (k : nat) (l : str) : str := match l with [] => [] | _ => pad k l end.
Definition marker_line (name arg : str) : str := lit ".. " ++ name ++ lit "::" ++ after_space arg.
Definition below (body : list str) : list str := match body with [] => [] | _ => [] :: body end.
Definition directive_source (k : nat) (name arg : str) (opts : settings) (body : list str) : list str :=
  pad k (marker_line name arg) :: map (shifted (k + 3)) (map setting_line opts ++ below body).
Definition leaf_source (k : nat) (l : leaf) : list str :=
  directive_source k (leaf_name l) (leaf_argument l) (leaf_settings l) (leaf_body l).
Definition part_source (k : nat) (x : part) : list str :=
  match x with
  | Prose t => map (pad k) (text_lines t)
  | Asked q => directive_source k (question_name q) (question_argument q) (question_settings q) (question_body q)
  end.
Definition parts_source (k : nat) (ps : list (part * nat)) : list str :=
  flat_map (fun x => part_source k (fst x) ++ repeat [] (snd x)) ps.
Definition quiz_source (k : nat) (q : quiz) : list str :=
  pad k (marker_line (lit "questionnaire") (quiz_argument q)) :: map (pad (k + 3)) (map setting_line (q_settings q)) ++ [] :: parts_source (k + 3) (q_parts q).
Definition cell_source (c : char) (t : text) : list str := item_lines 0 c (text_lines t).
Definition row_source (t : list_table) (cells : list text) : list str := item_lines 0 (t_row t) (flat_map (cell_source (t_cell t)) cells).
Definition rows_source (t : list_table) (rows : list (list text * nat)) : list str :=
  flat_map (fun r => row_source t (fst r) ++ repeat [] (snd r)) rows.
Definition table_source (k : nat) (t : list_table) : list str :=
  directive_source k (lit "list-table") (t_title t) (t_settings t) (rows_source t (t_rows t)).
Fixpoint source (k : nat) (b : block) : list str :=
  match b with
  | Para t => map (pad k) (text_lines t)
  | Bullets c its => items_source k c its
  | Numbered d s first its => numbered_source k d s first its
  | Fields names its => fields_source k names its
  | Quote extra bs => blocks_source (k + extra) bs
  | Said extra bs who hang more => blocks_source (k + extra) bs ++ [] :: pad (k + extra) (lit "-- " ++ who) :: map (pad (k + extra + hang)) more
  | Boxed x bs =>
      pad k (marker_line (box_name x) (box_argument x)) :: map (pad (k + 3)) (map setting_line (box_settings x)) ++ [] :: blocks_source (k + 3) bs
  | Entry m t gap more => entry_lines k m (text_lines t) ++ repeat [] gap ++ blocks_source (k + 3) more
  | Figure uri opts t gap more =>
      pad k (marker_line (lit "figure") uri) :: map (pad (k + 3)) (map setting_line opts) ++ [] ::
      map (pad (k + 3)) (text_lines t) ++ repeat [] gap ++ blocks_source (k + 3) more
  | Quiz q => quiz_source k q
  | Tabular t => table_source k t
  | Remark t => [pad k (lit ".. " ++ t)]
  | Leaf l => leaf_source k l
  end
with blocks_source (k : nat) (bs : blocks) : list str :=
  match bs with
  | BNil => []
  | BCons b gap bs => source k b ++ repeat [] gap ++ blocks_source k bs
  end
with items_source (k : nat) (c : char) (its : items) : list str :=
  match its with
  | INil => []
  | ICons t gap more its => item_lines k c (text_lines t) ++ repeat [] gap ++ blocks_source (k + 2) more ++ items_source k c its
  end
with numbered_source (k : nat) (d : EnumDelims) (s : numbering) (n : N) (its : items) : list str :=
  match its with
  | INil => []
  | ICons t gap more its =>
      let m := enumerator d s n in
      numbered_lines k m (text_lines t) ++ repeat [] gap ++ blocks_source (k + S (length m)) more ++ numbered_source k d s (N.succ n) its
  end
with fields_source (k : nat) (names : list str) (its : items) : list str :=
  match its with
  | INil => []
  | ICons t gap more its =>
      let m := field_marker (hd [] names) in
      numbered_lines k m (text_lines t) ++ repeat [] gap ++ blocks_source (k + S (length m)) more ++ fields_source k (tl names) its
  end.
Definition term_line (x : definition) : str := join (lit " : ") (d_term x :: d_kinds x).
Definition terms_source (ds : list definition) : list str :=
  flat_map (fun x => term_line x :: blocks_source (d_extra x) (d_body x)) ds.
Definition target_line (name : str) : str := lit ".. _" ++ name ++ lit ":".
Definition targets_source (names : list (str * nat)) : list str := flat_map (fun x => target_line (fst x) :: repeat [] (snd x)) names.
Definition title_source (over : bool) (t : str) (c : char) (n : nat) : list str :=
  (if over then [repeat c n] else []) ++ [t; repeat c n].
Definition quoted_line (q : char) (x : nat * str) : str := q :: pad (fst x) (snd x).
(* the line between two columns *)
Definition newcol : str := pad 3 (lit "::newcol").
Definition columns_source (more : list (nat * nat * blocks)) : list str :=
  flat_map (fun x => repeat [] (fst (fst x)) ++ newcol :: repeat [] (snd (fst x)) ++ blocks_source 3 (snd x)) more.
Definition element_source (e : element) : list str :=
  match e with
  | Under_title t c n => [t; repeat c n]
  | Over_title t c n => [repeat c n; t; repeat c n]
  | Marked names over t c n => targets_source names ++ title_source over t c n
  | Rule c n => [repeat c n]
  | Verbatim t ls => split_lines (chunks_source t ++ lit ":") ++ [] :: map (shifted 3) ls
  | Quoted t q ls => split_lines (chunks_source t ++ lit ":") ++ [] :: map (quoted_line q) ls
  | Terms ds => terms_source ds
  | Columned title opts first more => source 0 (Boxed (Interest title opts) first) ++ columns_source more
  | Block b => source 0 b
  end.
Definition document_source (d : document) : list str :=
  flat_map (fun x => element_source (fst x) ++ repeat [] (snd x)) d.

(* ---------- LaTeX ---------- *)
Definition nl1 : str := [newline].
Definition nl2 : str := [newline; newline].
Definition para_latex (t : text) : str := chunks_latex t ++ nl2.
(* a number rounded to hundredths, with two digits after the point *)
Definition nearest (n d : N) : N := if N.ltb (2 * (n mod d)) d then (n / d)%N else (n / d + 1)%N.
Definition hundredths (f : fnum) : N := nearest (100 * mantissa f) (10 ^ N.of_nat (scale f)).
Definition as_hundredths (h : N) : str := dec (h / 100) ++ lit "." ++ dec (h / 10 mod 10) ++ dec (h mod 10).
Definition two_decimals (f : fnum) : str := as_hundredths (hundredths f).
(* what a value says as a length, a percentage or an alignment: C23 *)
Definition meant {A} (f : str -> option A) (v : option str) : option A := match v with Some s => f s | None => None end.
Definition shown {A} (f : A -> str) (o : option A) : list str := match o with Some a => [f a] | None => [] end.
Definition image_latex (uri : str) (opts : settings) (align : option str) : str :=
  let given := shown (fun v => v) (setting "alt" opts)
    ++ shown (fun l => lit "height=" ++ length_display l) (meant str_to_length (setting "height" opts))
    ++ shown (fun l => lit "width=" ++ length_display l) (meant str_to_length (setting "width" opts))
    ++ shown (fun p => lit "scale=" ++ two_decimals p ++ lit "%") (meant str_to_percentage (setting "scale" opts))
    ++ shown (fun a => lit "align=" ++ html_align_display a) (meant str_to_html_alignment align) in
  lit "\includegraphics" ++ match given with [] => [] | _ => lit "[" ++ join (lit ",") given ++ lit "]" end ++
  lit "{" ++ uri ++ lit "}" ++ nl1.
Definition picture_latex (uri : str) (opts : settings) : str := image_latex uri opts (setting "align" opts).
(* a figure: its alignment is that of the environment, its name labels it *)
Definition figure_begin (uri : str) (opts : settings) : str := lit "\begin{center}" ++ nl1 ++ image_latex uri opts None.
Definition figure_end (opts : settings) : str :=
  match setting "name" opts with Some n => lit "\label{" ++ normalize_refname n ++ lit "}" ++ nl1 | None => [] end ++
  lit "\end{center}" ++ nl2.
Definition caption_latex (t : text) : str := lit "\captionof{figure}{" ++ chunks_latex t ++ lit "}" ++ nl1.
(* formulas with a name are labelled with it; several of them are numbered from 1 *)
Definition formula_latex (label : option str) (ls : list str) : str :=
  match label with Some n => lit "\rstlabel{" ++ n ++ lit "}" ++ nl1 | None => [] end ++
  lit "\begin{equation}" ++ nl1 ++ unicode_math_to_latex (join nl1 ls) ++ nl1 ++ lit "\end{equation}" ++ nl2.
Fixpoint formulas_latex (name : option str) (i : N) (fs : list (list str)) : str :=
  match fs with
  | [] => []
  | f :: fs => formula_latex (match name with Some n => Some (n ++ dec i) | None => None end) f ++ formulas_latex name (N.succ i) fs
  end.
(* active elements: options, each with a comma after it *)
Definition each_comma (given : list str) : str :=
  match given with [] => [] | _ => lit "[" ++ flat_map (fun v => v ++ lit ",") given ++ lit "]" end.
Definition as_given (k : string) (opts : settings) : list str := shown (fun v => lit k ++ lit "=" ++ v) (setting k opts).
Definition as_length (k : string) (opts : settings) : list str :=
  shown (fun l => lit k ++ lit "=" ++ length_display l) (meant str_to_length (setting k opts)).
Definition flag (k : string) (opts : settings) : list str := shown (fun _ => lit k) (setting k opts).
Definition or_else (v : option str) (d : str) : str := match v with Some v => v | None => d end.
Definition status_of (opts : settings) : str :=
  match setting "status" opts with
  | Some v => if one_of v (map lit ["ready"; "hidden"; "enrollment"; "enrollment_ext"; "maintenance"]%string) then v else lit "unlisted"
  | None => lit "unlisted"
  end.
Definition input_latex (key : str) (opts : settings) : str :=
  let given := as_given "default" opts ++ as_given "class" opts ++ as_length "width" opts ++ as_length "height" opts
    ++ as_given "clear" opts ++ as_given "type" opts
    ++ match setting "type" opts with Some v => if str_eqb v (lit "clickable") then as_given "file" opts else [] | None => [] end in
  lit "\aeinput" ++ each_comma given ++ lit "{" ++ key ++ lit "}{" ++ or_else (setting "title" opts) [] ++ lit "}" ++ nl2.
Definition output_latex (key : str) (opts : settings) : str :=
  let given := as_given "config" opts ++ as_given "class" opts ++ as_length "width" opts ++ as_length "height" opts
    ++ (if limited (setting "clear" opts) ["both"; "left"; "right"]%string then as_given "clear" opts else [])
    ++ [lit "type=" ++ match setting "type" opts with Some v => if str_eqb v (lit "image") then v else lit "text" | None => lit "text" end]
    ++ shown (fun n => lit "submissions=" ++ dec n) (meant parse_u32 (setting "submissions" opts))
    ++ flag "scale-size" opts
    ++ [lit "status=" ++ if str_eqb (status_of opts) (lit "enrollment_ext") then lit "enrollment-ext" else status_of opts] in
  lit "\aeoutput" ++ each_comma given ++ lit "{" ++ key ++ lit "}{" ++ or_else (setting "inputs" opts) [] ++ lit "}{" ++ or_else (setting "title" opts) [] ++ lit "}" ++ nl2.
Definition leaf_latex (l : leaf) : str :=
  match l with
  | Input key opts => input_latex key opts
  | Output key opts => output_latex key opts
  | Listing _ lang _ ls =>
      lit "\begin{codeblock}[" ++ match lang with [] => lit "python" | _ => lang end ++ lit "]" ++ nl1 ++
      join nl1 ls ++ nl1 ++ lit "\end{codeblock}" ++ nl2
  (* the lines of the code are not written *)
  | Code lang _ _ => lit "\begin{codeblock}" ++ match lang with [] => [] | _ => lit "[" ++ lang ++ lit "]" end ++ nl1 ++ lit "\end{codeblock}" ++ nl2
  | Picture uri opts => picture_latex uri opts
  | Formulas opts f [] => formula_latex (setting "name" opts) f
  | Formulas opts f more => formulas_latex (setting "name" opts) 1 (f :: more)
  end.
Definition box_env (x : box) : str :=
  match x with
  | Standard name _ | Custom name _ _ => name | Titled _ _ => lit "admonition" | Only _ => lit "only"
  | Exercise _ _ _ _ => lit "submit" | Interest _ _ => lit "poi"
  end.
(* an option that says something *)
Definition if_any (k : string) (v : str) : list str := match v with [] => [] | _ => [lit k ++ lit "=" ++ v] end.
Definition number_in (k : string) (opts : settings) (default : N) : N :=
  match meant parse_u32 (setting k opts) with Some n => n | None => default end.
Definition exercise_options (opts : settings) : list str :=
  if_any "config" (or_else (setting "config" opts) [])
  ++ [lit "submissions=" ++ dec (number_in "submissions" opts 10); lit "points-to-pass=" ++ dec (number_in "points-to-pass" opts 0)]
  ++ if_any "class" (or_else (setting "class" opts) []) ++ if_any "title" (or_else (setting "title" opts) [])
  ++ if_any "category" (or_else (setting "category" opts) (lit "submit"))
  ++ [lit "status=" ++ status_of opts]
  ++ flag "ajax" opts ++ flag "allow-assistant-viewing" opts ++ flag "allow-assistant-grading" opts ++ flag "quiz" opts
  ++ match or_else (setting "lti" opts) [] with [] => [] | _ => [lit "lti"] end
  ++ match or_else (setting "lti_resource_link_id" opts) [] with [] => [] | v => [lit "resource_link_id=" ++ v] end
  ++ flag "lti_open_in_iframe" opts ++ flag "lti_aplus_get_and_post" opts.
Definition interest_options (opts : settings) : list str :=
  as_given "id" opts ++ as_given "previous" opts ++ as_given "next" opts ++ flag "hidden" opts ++ as_given "class" opts
  ++ as_length "height" opts ++ as_given "columns" opts ++ as_given "bgimg" opts
  ++ flag "not_in_slides" opts ++ flag "not_in_book" opts ++ flag "no_poi_box" opts.
(* what follows the name of the environment *)
Definition box_details (x : box) : str :=
  match x with
  | Standard _ _ => []
  | Titled title _ => lit "{" ++ title ++ lit "}"
  | Only c => lit "[" ++ c ++ lit "]"
  | Custom _ arg opts =>
      match opts with (k, v) :: _ => lit "[" ++ k ++ lit "=" ++ v ++ lit "]" | [] => [] end ++
      match arg with [] => [] | _ => lit "{" ++ arg ++ lit "}" end
  | Exercise key _ points opts =>
      lit "[" ++ join (lit ",") (exercise_options opts) ++ lit "]{" ++ key ++ lit "}{" ++
      dec (match points with Some p => p | None => 10 end) ++ lit "}"
  | Interest title opts => each_comma (interest_options opts) ++ lit "{" ++ title ++ lit "}" ++ nl1
  end.
Definition box_latex (x : box) (inside : str) : str :=
  lit "\begin{" ++ box_env x ++ lit "}" ++ box_details x ++ nl1 ++ inside ++ lit "\end{" ++ box_env x ++ lit "}" ++ nl2.
Definition note_begin (m : note) : str :=
  match m with Citation l => lit "\bibitem{" ++ l ++ lit "}" ++ nl1 | Footnote _ => lit "\footnote{" ++ nl1 end.
Definition note_end (m : note) : str := match m with Citation _ => nl1 | Footnote _ => lit "}" ++ nl2 end.
(* questionnaires: the points are those given, or those of the questions together *)
Definition choice_latex (c : choice) : str :=
  match c_verdict c with Wrong => lit "\wrong " | Right => lit "\right " | Neutral => lit "\undet " end ++
  chunks_latex (c_answer c) ++ lit " \label{" ++ c_label c ++ lit "}" ++ nl1.
(* `reference`: to the answer *)
Definition hint_latex (reference : hint -> str) (h : hint) : str :=
  lit "\feedback{" ++ (if h_other h then [] else lit "!") ++ reference h ++ lit "}{" ++ chunks_latex (h_text h) ++ lit "}" ++ nl1.
Definition pick_options (any : bool) (opts : settings) : list str :=
  shown (fun v => lit "id=" ++ v) (setting "class" opts) ++ flag "required" opts ++ as_given "key" opts ++
  if any then
    flag "partial-points" opts ++
    match setting "randomized" opts, meant parse_u32 (setting "correct-count" opts) with
    | Some _, Some n => [lit "randomized"; lit "correct-count=" ++ dec n]
    | _, _ => []
    end ++ flag "preserve-questions-between-attempts" opts
  else [].
Definition question_latex (q : question) : str :=
  match q with
  | Pick any n opts a cs hs =>
      lit "\begin{pick}" ++ each_comma (pick_options any opts) ++ lit "{" ++ (if any then lit "any" else lit "one") ++ lit "}{" ++ dec n ++ lit "}" ++ nl1 ++
      match a with Some t => para_latex t | None => [] end ++
      lit "\begin{answers}" ++ nl1 ++ flat_map choice_latex cs ++ lit "\end{answers}" ++ nl2 ++
      flat_map (hint_latex (fun h => lit "\ref{" ++ h_label h ++ lit "}")) hs ++ nl1 ++ lit "\end{pick}" ++ nl2
  | Free n method _ t answer hs =>
      lit "\begin{freetext}{" ++ method ++ lit "}{" ++ dec n ++ lit "}{" ++ answer ++ lit "}" ++ nl1 ++
      para_latex t ++ flat_map (hint_latex (fun _ => [])) hs ++ nl1 ++ lit "\end{freetext}" ++ nl2
  end.
Definition part_latex (x : part) : str := match x with Prose t => para_latex t | Asked q => question_latex q end.
Definition quiz_begin (q : quiz) : str :=
  lit "\begin{quiz}{" ++ q_key q ++ lit "}{" ++ dec (match q_points q with Some p => p | None => all_points (q_parts q) end) ++ lit "}" ++ nl1.
Definition quiz_latex (q : quiz) : str :=
  quiz_begin q ++ flat_map (fun x => part_latex (fst x)) (q_parts q) ++ lit "\end{quiz}" ++ nl2.
(* columns of the same width; the other settings are not written (C59) *)
Definition table_begin (t : list_table) : str :=
  lit "\begin{tabular}" ++ match t_title t with [] => [] | title => lit "[title=" ++ title ++ lit "]" end ++
  lit "{" ++ flat_map (fun _ => lit "p{" ++ as_hundredths (nearest 100 (N.of_nat (columns t))) ++ lit "\textwidth}") (repeat tt (columns t)) ++ lit "}" ++ nl1.
Definition row_latex (cells : list text) : str := join (lit "&" ++ nl1) (map para_latex cells) ++ lit "\\" ++ nl1.
Definition table_rows (t : list_table) : str := flat_map (fun r => row_latex (fst r)) (t_rows t) ++ nl1.
Definition table_latex (t : list_table) : str := table_begin t ++ table_rows t ++ lit "\end{tabular}" ++ nl2.
Fixpoint latex (b : block) : str :=
  match b with
  | Para t => para_latex t
  | Bullets _ its => lit "\begin{itemize}" ++ nl1 ++ items_latex its ++ lit "\end{itemize}" ++ nl2
  | Numbered _ _ _ its => lit "\begin{enumerate}" ++ nl1 ++ items_latex its ++ lit "\end{enumerate}" ++ nl2
  | Fields names its => lit "\begin{itemize}" ++ nl1 ++ fields_latex names its ++ lit "\end{itemize}" ++ nl2
  | Quote _ bs => lit "\begin{quotation}" ++ nl1 ++ blocks_latex bs ++ lit "\end{quotation}" ++ nl2
  | Said _ bs who _ more => lit "\begin{quotation}" ++ nl1 ++ blocks_latex bs ++ lit "-- " ++ join (lit " ") (who :: more) ++ nl1 ++ lit "\end{quotation}" ++ nl2
  | Boxed x bs => box_latex x (blocks_latex bs)
  | Entry m t _ more => note_begin m ++ para_latex t ++ blocks_latex more ++ note_end m
  | Figure uri opts t _ more => figure_begin uri opts ++ caption_latex t ++ blocks_latex more ++ figure_end opts
  | Quiz q => quiz_latex q
  | Tabular t => table_latex t
  | Remark t => lit "% " ++ t ++ nl2
  | Leaf l => leaf_latex l
  end
with blocks_latex (bs : blocks) : str :=
  match bs with BNil => [] | BCons b _ bs => latex b ++ blocks_latex bs end
with items_latex (its : items) : str :=
  match its with
  | INil => []
  | ICons t _ more its => lit "\item " ++ para_latex t ++ blocks_latex more ++ items_latex its
  end
with fields_latex (names : list str) (its : items) : str :=
  match its with
  | INil => []
  | ICons t _ more its =>
      lit "\item \textbf{" ++ hd [] names ++ lit "}" ++ nl2 ++ para_latex t ++ blocks_latex more ++ nl1 ++ fields_latex (tl names) its
  end.
Definition definition_latex (x : definition) : str :=
  lit "\item \textbf{" ++ d_term x ++ lit "}" ++
  match d_kinds x with [] => [] | _ => lit ": " ++ join (lit ", ") (d_kinds x) end ++ nl2 ++ blocks_latex (d_body x) ++ nl1.
(* levels: the first style of a document makes chapters, the next one sections, ... *)
Definition heading (level : nat) : str :=
  match level with 1 => lit "chapter" | 2 => lit "section" | 3 => lit "subsection" | _ => lit "subsubsection" end.
Definition title_latex (level : nat) (t : str) : str :=
  lit "\rstlabel{" ++ normalize_refname t ++ lit "}" ++ nl1 ++
  lit "\" ++ heading level ++ lit "{" ++ t ++ lit "}" ++ nl2.
Definition title_style (over : bool) (c : char) : SectionLineStyle := if over then OverAndUnder c else Under c.
Definition targets_latex (names : list (str * nat)) : str :=
  flat_map (fun x => lit "\rstlabel{" ++ normalize_refname (fst x) ++ lit "}" ++ nl1) names.
Definition style_of (e : element) : option SectionLineStyle :=
  match e with Under_title _ c _ => Some (Under c) | Over_title _ c _ => Some (OverAndUnder c) | Marked _ over _ c _ => Some (title_style over c) | _ => None end.
Definition columns_latex (more : list (nat * nat * blocks)) : str := flat_map (fun x => lit "\newcol" ++ nl2 ++ blocks_latex (snd x)) more.
(* `gap`: the empty lines after the element; the last lines of a literal block *)
Definition element_latex (seen : list SectionLineStyle) (e : element) (gap : nat) : str :=
  match e with
  | Under_title t c _ => title_latex (level_after seen (Under c)) t
  | Over_title t c _ => title_latex (level_after seen (OverAndUnder c)) t
  | Marked names over t c _ => targets_latex names ++ title_latex (level_after seen (title_style over c)) t
  | Rule _ _ => lit "\hrulefill" ++ nl2
  | Verbatim t ls =>
      para_latex t ++ lit "\begin{codeblock}" ++ nl1 ++ unicode_text_to_latex (join nl1 (ls ++ repeat [] gap)) ++ nl1 ++ lit "\end{codeblock}" ++ nl2
  | Quoted t _ ls =>
      para_latex t ++ lit "\begin{codeblock}" ++ nl1 ++ unicode_text_to_latex (join nl1 (map snd ls)) ++ nl1 ++ lit "\end{codeblock}" ++ nl2
  | Terms ds => lit "\begin{itemize}" ++ nl1 ++ flat_map definition_latex ds ++ lit "\end{itemize}" ++ nl2
  | Columned title opts first more => box_latex (Interest title opts) (blocks_latex first ++ columns_latex more)
  | Block b => latex b
  end.
Definition styles (d : document) : list SectionLineStyle :=
  flat_map (fun x => match style_of (fst x) with Some s => [s] | None => [] end) d.
Fixpoint elements_latex (seen : list SectionLineStyle) (d : document) : str :=
  match d with
  | [] => []
  | (e, gap) :: d' => element_latex seen e gap ++
      elements_latex (seen ++ match style_of e with Some s => [s] | None => [] end) d'
  end.
(* the whole file: with or without the frame of a full document *)
Definition document_latex (full : bool) (d : document) : str :=
  (if full then lit "\documentclass{aplus}" ++ nl1 ++ lit "\begin{document}" ++ nl2 else []) ++
  elements_latex [] d ++
  (if full then lit "\end{document}" ++ nl1 else []).

(* ---------- which documents ---------- *)
Fixpoint count (its : items) : N := match its with INil => 0%N | ICons _ _ _ its => N.succ (count its) end.
Fixpoint numbers_ok (s : numbering) (n : N) (its : items) : bool :=
  match its with INil => true | ICons _ _ _ its => number_ok s n && numbers_ok s (N.succ n) its end.
(* what may come after what at the same indentation: a list is not followed by
   a list with the same bullet, nor a numbered one by one that goes on with the next number, nor a field list by a field list (they would be one list); a quote comes after
   a paragraph, a title or a quote that ended with who said it (elsewhere its lines would belong to what precedes); after a definition list nothing but a paragraph (C55) *)
Inductive tag := TNone | TText | TList (c : char) | TNumbers (d : EnumDelims) (k : EnumKind) (next : N) | TFields | TTerms | TQuote | TBox | TRemark | TLeaf.
Definition tag_of (b : block) : tag :=
  match b with Para _ | Said _ _ _ _ _ => TText | Bullets c _ => TList c | Numbered d s first its => TNumbers d (kind_of s) (first + count its) | Fields _ _ => TFields | Quote _ _ => TQuote | Boxed _ _ | Entry _ _ _ _ | Figure _ _ _ _ _ | Quiz _ | Tabular _ => TBox | Remark _ => TRemark | Leaf _ => TLeaf end.
Definition may_follow (prev : tag) (b : block) : bool :=
  match prev, b with
  | TList c, Bullets c' _ => negb (N.eqb c c')
  | TNumbers d k next, Numbered d' s first _ => negb (goes_on d k next d' s first)
  | TFields, Fields _ _ => false
  | TTerms, Para _ => true
  | TTerms, _ => false
  | (TList _ | TNumbers _ _ _ | TFields | TQuote | TBox | TRemark | TLeaf), (Quote _ _ | Said _ _ _ _ _) => false
  | _, _ => true
  end.
Definition is_bnil (bs : blocks) : bool := match bs with BNil => true | _ => false end.
Definition is_inil (its : items) : bool := match its with INil => true | _ => false end.
(* a directive, or who said a quote, has to be followed by an empty line or by nothing at all *)
Definition needs_gap (b : block) : bool := match b with Leaf _ | Said _ _ _ _ _ => true | _ => false end.
(* an item of a numbered list is followed by an empty line or has a second one:
   if the next line has a number, the item is not read as one (C22) *)
Fixpoint spaced (its : items) : bool :=
  match its with
  | INil | ICons _ _ _ INil => true
  | ICons t gap _ its => ((1 <=? gap) || (2 <=? length (text_lines t))) && spaced its
  end.
(* no directives with blocks inside: those end too late in a numbered list or in
   another one of the standard ones (C49); no attributions (C62); and footnotes and citations have one line only (C53) *)
Fixpoint boxless (b : block) : bool :=
  match b with
  | Para _ | Remark _ | Leaf _ => true
  | Bullets _ its | Numbered _ _ _ its | Fields _ its => items_boxless its
  | Quote _ bs => blocks_boxless bs
  | Said _ _ _ _ _ | Boxed _ _ | Figure _ _ _ _ _ | Quiz _ | Tabular _ => false
  | Entry _ t _ more => is_bnil more && (length (text_lines t) <=? 1)
  end
with blocks_boxless (bs : blocks) : bool :=
  match bs with BNil => true | BCons b _ bs => boxless b && blocks_boxless bs end
with items_boxless (its : items) : bool :=
  match its with INil => true | ICons _ _ more its => blocks_boxless more && items_boxless its end.
Definition nested_alone (x : box) : bool := match x with Standard _ _ => true | _ => false end.
(* the name of a field: plain text without colons *)
Definition field_name (l : str) : bool := phrase_ok [Txt l] && forallb (fun c => negb (N.eqb c 58) && negb (N.eqb c 92)) l.
Fixpoint items_count (its : items) : nat := match its with INil => 0 | ICons _ _ _ its => S (items_count its) end.
Definition bullet_chars : str := lit "*+-".
(* no empty lines after the last row *)
Fixpoint rows_ok (rows : list (list text * nat)) : bool :=
  match rows with
  | [] => false
  | (cells, gap) :: rows' =>
      match cells with [] => false | _ => forallb para_ok cells end && match rows' with [] => gap =? 0 | _ => rows_ok rows' end
  end.
Definition table_ok (t : list_table) : bool :=
  argument_ok (t_title t) && forallb setting_ok (t_settings t) && match setting "widths" (t_settings t) with None => true | Some _ => false end &&
  existsb (N.eqb (t_row t)) bullet_chars && existsb (N.eqb (t_cell t)) bullet_chars && rows_ok (t_rows t).
Fixpoint block_ok (b : block) : bool :=
  match b with
  | Para t => para_ok t
  | Bullets c its => existsb (N.eqb c) bullet_chars && negb (is_inil its) && items_ok its
  | Numbered d s first its =>
      negb (is_inil its) && items_ok its && items_boxless its && spaced its && numbers_ok s first its && match s with Auto => N.eqb first 1 | _ => true end && N.leb (first + count its) usize_max
  | Fields names its => negb (is_inil its) && items_ok its && forallb field_name names && (length names =? items_count its)
  | Quote extra bs => (1 <=? extra) && negb (is_bnil bs) && blocks_ok TQuote bs
  | Said extra bs who hang more => (1 <=? extra) && negb (is_bnil bs) && blocks_ok TQuote bs && forallb starts_word (who :: more) && forallb one_line (who :: more) && snug (join (lit " ") (who :: more))
  | Boxed x bs => box_ok x && (negb (nested_alone x) || blocks_boxless bs) && negb (is_bnil bs) && blocks_ok TQuote bs
  | Entry m t gap more => note_ok m && para_ok t && (is_bnil more || (1 <=? gap)) && blocks_ok TQuote more
  | Figure uri opts t gap more =>
      argument_ok uri && nonempty uri && forallb setting_ok opts && para_ok t && (is_bnil more || (1 <=? gap)) && blocks_ok TQuote more
  | Quiz q => quiz_ok q
  | Tabular t => table_ok t
  | Remark t => starts_word t && one_line t && no_markup_chars t && snug t
  | Leaf l => leaf_ok l
  end
with blocks_ok (prev : tag) (bs : blocks) : bool :=
  match bs with
  | BNil => true
  | BCons b gap bs => may_follow prev b && block_ok b && ((is_bnil bs && negb (needs_gap b)) || (1 <=? gap)) && blocks_ok (tag_of b) bs
  end
with items_ok (its : items) : bool :=
  match its with
  | INil => true
  | ICons t gap more its => para_ok t && (is_bnil more || (1 <=? gap)) && blocks_ok TText more && items_ok its
  end.
(* a line of punctuation that cannot be taken for a bullet, a comment or a field *)
Definition bare_line (c : char) (n : nat) : bool := is_ascii_punct c && negb (N.eqb c 58) && (3 <=? n).
(* lines of which the first has no space before it and the last is not empty *)
Definition verbatim_ok (ls : list str) : bool :=
  match ls with (c :: _) :: _ => negb (is_whitespace c) | _ => false end && forallb one_line ls &&
  match last ls [] with [] => false | _ => true end.
(* lines that begin with a sign of punctuation *)
Definition quoted_ok (q : char) (ls : list (nat * str)) : bool :=
  is_ascii_punct q && match ls with [] => false | _ => true end &&
  forallb (fun x => one_line (snd x) && match snd x with c :: _ => negb (is_whitespace c) | [] => true end) ls.
(* a text that ends with a colon after a word *)
Definition announces (t : text) : bool :=
  match rev (chunks_source t) with c :: d :: _ => N.eqb c 58 && negb (is_whitespace d) | _ => false end.
Definition definition_ok (x : definition) : bool :=
  text_line (term_line x) && forallb (fun l => forallb (fun c => negb (N.eqb c 58)) l) (d_term x :: d_kinds x) && forallb (fun l => negb (blank l)) (d_kinds x) &&
  (1 <=? d_extra x) && negb (is_bnil (d_body x)) && blocks_ok TQuote (d_body x).
(* an empty line before the line between two columns, and something in each column *)
Definition column_ok (x : nat * nat * blocks) : bool := (1 <=? fst (fst x)) && negb (is_bnil (snd x)) && blocks_ok TQuote (snd x).
Definition element_ok (e : element) : bool :=
  match e with
  | Under_title t c n => text_line t && snug t && is_ascii_punct c && (1 <=? n)
  | Over_title t c n => text_line t && snug t && bare_line c n && (length t <=? n)
  | Marked names over t c n =>
      match names with [] => false | _ => forallb (fun x => target_name (fst x)) names end && text_line t && snug t &&
      if over then bare_line c n && (length t <=? n) else is_ascii_punct c && (1 <=? n)
  | Rule c n => bare_line c n && (4 <=? n)
  | Verbatim t ls => para_ok t && announces t && verbatim_ok ls
  | Quoted t q ls => para_ok t && announces t && quoted_ok q ls
  | Terms ds => match ds with [] => false | _ => forallb definition_ok ds end
  | Columned title opts first more => block_ok (Boxed (Interest title opts) first) && forallb column_ok more
  | Block b => block_ok b
  end.
Definition element_tag (e : element) : tag :=
  match e with Block b => tag_of b | Rule _ _ => TNone | Verbatim _ _ => TLeaf | Terms _ => TTerms | Columned _ _ _ _ => TBox | _ => TText end.
Definition is_title (e : element) : bool := match style_of e with Some _ => true | None => false end.
Definition is_terms (t : tag) : bool := match t with TTerms => true | _ => false end.
(* `prev` and `gap0`: the element before and the empty lines after it *)
Fixpoint elements_ok (prev : tag) (gap0 : nat) (d : document) : bool :=
  match d with
  | [] => true
  | (e, gap) :: d' =>
      element_ok e &&
      match e with
      | Rule _ _ => (1 <=? gap0) && (1 <=? gap) && negb (is_terms prev)
      | Quoted _ _ _ => match d' with [] => true | _ => 1 <=? gap end
      | Over_title _ _ _ | Marked _ _ _ _ _ | Terms _ | Columned _ _ _ _ => negb (is_terms prev)
      | Block b => may_follow prev b
      | _ => true
      end &&
      (match d' with [] => true | _ => is_title e || (1 <=? gap) end) &&
      elements_ok (element_tag e) gap d'
  end.
(* the lists and quotes a line is in, lists counted twice *)
Fixpoint depth (b : block) : nat :=
  match b with
  | Para _ | Remark _ | Leaf _ => 0
  | Bullets _ its => 2 + items_depth its
  | Numbered _ _ _ its => 2 + items_depth its
  | Fields _ its => 2 + items_depth its
  | Quote _ bs | Said _ bs _ _ _ | Boxed _ bs | Entry _ _ _ bs | Figure _ _ _ _ bs => 1 + blocks_depth bs
  | Quiz _ | Tabular _ => 1
  end
with blocks_depth (bs : blocks) : nat :=
  match bs with BNil => 0 | BCons b _ bs => Nat.max (depth b) (blocks_depth bs) end
with items_depth (its : items) : nat :=
  match its with INil => 0 | ICons _ _ more its => Nat.max (blocks_depth more) (items_depth its) end.
Definition element_depth (e : element) : nat :=
  match e with
  | Block b => depth b
  | Terms ds => 2 + fold_right (fun x m => Nat.max (blocks_depth (d_body x)) m) 0 ds
  | Columned _ _ first more => 1 + fold_right (fun x m => Nat.max (blocks_depth (snd x)) m) (blocks_depth first) more
  | _ => 0
  end.
Definition document_depth (d : document) : nat := fold_right (fun x m => Nat.max (element_depth (fst x)) m) 0 d.
(* not empty, well formed, and not nested deeper than the parser can leave on one line *)
Definition simple (d : document) : bool :=
  match d with [] => false | _ => true end && elements_ok TNone 0 d &&
  (document_depth d + Nat.max 1 (length (uniq (styles d))) <=? 9).
