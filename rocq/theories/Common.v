(* Common.v -- the shared enumerations and small text functions of
   /repo/src/common.rs, the options of /repo/src/rustla_options.rs and the line
   cursor of /repo/src/parser/line_cursor.rs. *)
From Verif Require Import Base Unicode.

(* common.rs:96-101 AplusQuestionnaireType *)
Inductive AplusQuestionnaireType := PickOne | PickAny | FreeText.

(* common.rs:104-108 SectionLineStyle *)
Inductive SectionLineStyle :=
| OverAndUnder (c : char)
| Under (c : char).
Definition style_eqb (a b : SectionLineStyle) : bool :=
  match a, b with
  | OverAndUnder x, OverAndUnder y => N.eqb x y
  | Under x, Under y => N.eqb x y
  | _, _ => false
  end.

(* common.rs:112-117 EnumDelims *)
Inductive EnumDelims := Period | Parens | RParen.
Definition delims_eqb (a b : EnumDelims) : bool :=
  match a, b with
  | Period, Period | Parens, Parens | RParen, RParen => true
  | _, _ => false
  end.

(* common.rs:121-129 EnumKind *)
Inductive EnumKind := Arabic | LowerAlpha | UpperAlpha | LowerRoman | UpperRoman | Automatic.
Definition kind_eqb (a b : EnumKind) : bool :=
  match a, b with
  | Arabic, Arabic | LowerAlpha, LowerAlpha | UpperAlpha, UpperAlpha
  | LowerRoman, LowerRoman | UpperRoman, UpperRoman | Automatic, Automatic => true
  | _, _ => false
  end.

(* common.rs:136-147 FootnoteKind *)
Inductive FootnoteKind := FManual | FAutoNumbered | FSimpleRefName | FAutoSymbol.

(* common.rs:171-176 LinkTarget *)
Inductive LinkTarget :=
| LInternal (s : str)
| LExternal (s : str)
| LIndirect (s : str).

(* common.rs:179-184 Reference *)
Inductive Reference :=
| RInternal (s : str)
| RURI (s : str)
| REMail (s : str).

(* common.rs:190-195 InterpretedTextKind *)
Inductive InterpretedTextKind := IDefault | IRoleThenContent | IContentThenRole.

(* An f64 that was read from a decimal numeral: mantissa / 10^scale.
   Simplification: exact, the rounding of f64 is not modelled. *)
Record fnum := FNum { mantissa : N; scale : nat }.

(* common.rs:206-243 Length *)
Inductive LengthUnit := Em | Ex | Mm | Cm | In_ | Px | Pt | Pc.
Record Length := MkLength { len_unit : LengthUnit; len_num : fnum }.

(* common.rs:199-203 MetricType *)
Inductive MetricType :=
| Percentage (p : fnum)
| Lenght (l : Length).

(* Display for f64 holding a decimal: integer part, and the fraction without
   trailing zeros if there is one. *)
Fixpoint pad_left (n : nat) (s : str) : str :=
  match n with 0 => s | S n' => if length s <? n then pad_left n' (48%N :: s) else s end.
Fixpoint zeros (n : nat) : str := match n with 0 => [] | S n' => 48%N :: zeros n' end.
Definition strip_zeros (s : str) : str :=
  rev ((fix go s := match s with c :: t => if N.eqb c 48 then go t else s | [] => [] end) (rev s)).
Definition fnum_display (f : fnum) : str :=
  let d := dec (mantissa f) in
  let d := zeros (S (scale f) - length d) ++ d in      (* at least scale+1 digits *)
  let ip := firstn (length d - scale f) d in
  let fp := strip_zeros (skipn (length d - scale f) d) in
  match fp with [] => ip | _ => ip ++ lit "." ++ fp end.

(* common.rs:245-259 Display for Length *)
Definition unit_str (u : LengthUnit) : str :=
  match u with
  | Em => lit "em" | Ex => lit "ex" | Mm => lit "mm" | Cm => lit "cm"
  | In_ => lit "in" | Px => lit "px" | Pt => lit "pt" | Pc => lit "pc"
  end.
Definition length_display (l : Length) : str := fnum_display (len_num l) ++ unit_str (len_unit l).

(* common.rs:262-267 TableColWidths.  A width is either a number from the
   document or a quotient computed by the parser; Q-like pair num/den. *)
Record frac := Frac { fr_num : N; fr_den : N }.
Inductive TableColWidths := Columns (ws : list frac) | AutoWidths.

(* common.rs:271-287 HorizontalAlignment *)
Inductive HorizontalAlignment := HLeft | HCenter | HRight.
Definition halign_display (a : HorizontalAlignment) : str :=
  match a with
  | HLeft => lit "align=left" | HCenter => lit "align=center" | HRight => lit "align=right"
  end.

(* common.rs:301-324 HTMLAlignment *)
Inductive HTMLAlignment := ATop | AMiddle | ABottom | ALeft | ACenter | ARight.
Definition html_align_display (a : HTMLAlignment) : str :=
  match a with
  | ATop => lit "top" | AMiddle => lit "middle" | ABottom => lit "bottom"
  | ALeft => lit "left" | ACenter => lit "center" | ARight => lit "right"
  end.

(* common.rs:395-402 AplusExerciseStatus *)
Inductive AplusExerciseStatus :=
  Ready | Unlisted | Hidden | Enrollment | EnrollmentExt | Maintenance.
(* common.rs:409-416 AplusRadarTokenizer *)
Inductive AplusRadarTokenizer := Python3 | Scala | JavaScript | CSS | HTML | NoTokenizer.
(* common.rs:422-431 AplusActiveElementClear *)
Inductive AplusActiveElementClear := ClBoth | ClLeft | ClRight.
(* common.rs:439-448 AplusActiveElementInputType *)
Inductive AplusActiveElementInputType := AEFile | AEClickable | AEDropdown (s : str).
(* common.rs:453-456 AplusActiveElementOutputType *)
Inductive AplusActiveElementOutputType := AEText | AEImage.

(* common.rs:495 FOOTNOTE_SYMBOLS *)
Definition FOOTNOTE_SYMBOLS : str :=
  [42; 0x2020; 0x2021; 0xA7; 0xB6; 35; 0x2660; 0x2665; 0x2666; 0x2663]%N.

(* common.rs:16-23 str_to_lines *)
Definition str_to_lines (s : str) : list str := lines s.

(* common.rs:41-47 normalize_refname *)
Definition normalize_refname (name : str) : str :=
  to_lowercase (join (lit " ") (split_whitespace name)).

(* common.rs:54-72 strip_indent.  None is Err; the `unwrap` on a line that
   runs out of characters panics.  (`i < amount` always holds in the loop.) *)
Fixpoint strip_loop (s : str) (amount : nat) {struct amount} : outcome (option str) :=
  match amount with
  | 0 => Ret (Some s)
  | S n => match s with
           | [] => Panic
           | c :: t => if negb (is_whitespace c) then Ret None else strip_loop t n
           end
  end.
Definition strip_indent (line : str) (amount : nat) : outcome (option str) :=
  match line with [] => Ret (Some line) | _ => strip_loop line amount end.

(* ---------- rustla_options.rs ---------- *)
(* rustla_options.rs:76-84 OutputStream, 13-24 ruSTLaOptions *)
Inductive OutputStream := StdOut | ToFile.
Record Options := MkOptions {
  output_stream : OutputStream;
  print_full_document : bool;
  generate_class_file : bool }.
(* rustla_options.rs:42-48: one round of the argument loop *)
Definition option_step (o : Options) (arg : str) : Options :=
  if str_eqb arg (lit "--to-stdout")
  then MkOptions StdOut (print_full_document o) (generate_class_file o)
  else if str_eqb arg (lit "--to-file")
  then MkOptions ToFile (print_full_document o) (generate_class_file o)
  else if str_eqb arg (lit "--full-doc")
  then MkOptions (output_stream o) true (generate_class_file o)
  else if str_eqb arg (lit "--aplus-cls")
  then MkOptions (output_stream o) (print_full_document o) true
  else o.
(* rustla_options.rs:30-57 new *)
Definition options_new (args : list str) : Options :=
  fold_left option_step args (MkOptions StdOut false false).

(* ---------- line_cursor.rs ---------- *)
(* line_cursor.rs:13-22.  usize overflow is not modelled. *)
Record LineCursor := MkCursor { cur_offset : nat; cur_baseline : nat }.
(* line_cursor.rs:45-54 increment_by *)
Definition cur_add (c : LineCursor) (n : nat) : LineCursor :=
  MkCursor (cur_offset c + n) (cur_baseline c).
(* line_cursor.rs:57-59 sum_total *)
Definition cur_sum (c : LineCursor) : nat := cur_offset c + cur_baseline c.
