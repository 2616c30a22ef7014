(* Converters.v -- /repo/src/parser/converters.rs and
   Parser::is_enumerated_list_item (/repo/src/parser/state_machine/mod.rs). *)
From Verif Require Import Base Common Regex Patterns.
Local Open Scope N_scope.

(* converters.rs:211-247 alpha_to_usize: "A" | "a" => 1, ..., "Z" | "z" => 26 *)
Definition alpha_to_usize (s : str) : option N :=
  match s with
  | [c] => if is_ascii_lower c then Some (c - 96)
           else if is_ascii_upper c then Some (c - 64) else None
  | _ => None
  end.

(* converters.rs:284-300: the value of the buffer, upper-case letters
   C=67 D=68 I=73 L=76 M=77 V=86 X=88 *)
Definition upper_buffer_value (b : str) : option N :=
  if str_eqb b (lit "M") then Some 1000
  else if str_eqb b (lit "CM") then Some 900
  else if str_eqb b (lit "D") then Some 500
  else if str_eqb b (lit "CD") then Some 400
  else if str_eqb b (lit "C") then Some 100
  else if str_eqb b (lit "XC") then Some 90
  else if str_eqb b (lit "L") then Some 50
  else if str_eqb b (lit "XL") then Some 40
  else if str_eqb b (lit "X") then Some 10
  else if str_eqb b (lit "IX") then Some 9
  else if str_eqb b (lit "V") then Some 5
  else if str_eqb b (lit "IV") then Some 4
  else if str_eqb b (lit "I") then Some 1
  else None.
(* converters.rs:258-282: does c1 absorb the following c2? *)
Definition upper_takes (c1 c2 : char) : bool :=
  if c1 =? ch "C" then (c2 =? ch "M") || (c2 =? ch "D")
  else if c1 =? ch "X" then (c2 =? ch "C") || (c2 =? ch "L")
  else if c1 =? ch "I" then (c2 =? ch "X") || (c2 =? ch "V")
  else false.
Definition ROMAN_MAX : N := 4999.
(* converters.rs:251-325 upper_roman_to_usize: the while loop *)
Fixpoint upper_roman_loop (s : str) (num_val : N) : option N :=
  match s with
  | [] => Some num_val
  | c1 :: t =>
      let single :=
        match upper_buffer_value [c1] with
        | None => None
        | Some v => if num_val + v <=? ROMAN_MAX then upper_roman_loop t (num_val + v) else None
        end in
      match t with
      | c2 :: t' =>
          if upper_takes c1 c2 then
            match upper_buffer_value [c1; c2] with
            | None => None
            | Some v => if num_val + v <=? ROMAN_MAX then upper_roman_loop t' (num_val + v) else None
            end
          else single
      | [] => single
      end
  end.
Definition upper_roman_to_usize (s : str) : option N := upper_roman_loop s 0.

(* converters.rs:362-378 *)
Definition lower_buffer_value (b : str) : option N :=
  if str_eqb b (lit "m") then Some 1000
  else if str_eqb b (lit "cm") then Some 900
  else if str_eqb b (lit "d") then Some 500
  else if str_eqb b (lit "cd") then Some 400
  else if str_eqb b (lit "c") then Some 100
  else if str_eqb b (lit "xc") then Some 90
  else if str_eqb b (lit "l") then Some 50
  else if str_eqb b (lit "xl") then Some 40
  else if str_eqb b (lit "x") then Some 10
  else if str_eqb b (lit "ix") then Some 9
  else if str_eqb b (lit "v") then Some 5
  else if str_eqb b (lit "iv") then Some 4
  else if str_eqb b (lit "i") then Some 1
  else None.
(* converters.rs:336-360 *)
Definition lower_takes (c1 c2 : char) : bool :=
  if c1 =? ch "c" then (c2 =? ch "m") || (c2 =? ch "d")
  else if c1 =? ch "x" then (c2 =? ch "c") || (c2 =? ch "l")
  else if c1 =? ch "i" then (c2 =? ch "x") || (c2 =? ch "v")
  else false.
(* converters.rs:329-403 lower_roman_to_usize *)
Fixpoint lower_roman_loop (s : str) (num_val : N) : option N :=
  match s with
  | [] => Some num_val
  | c1 :: t =>
      let single :=
        match lower_buffer_value [c1] with
        | None => None
        | Some v => if num_val + v <=? ROMAN_MAX then lower_roman_loop t (num_val + v) else None
        end in
      match t with
      | c2 :: t' =>
          if lower_takes c1 c2 then
            match lower_buffer_value [c1; c2] with
            | None => None
            | Some v => if num_val + v <=? ROMAN_MAX then lower_roman_loop t' (num_val + v) else None
            end
          else single
      | [] => single
      end
  end.
Definition lower_roman_to_usize (s : str) : option N := lower_roman_loop s 0.

(* converters.rs:11-74 enum_str_to_int_and_kind *)
Definition enum_str_to_int_and_kind (s : str) (detected_kind list_kind : EnumKind)
    (in_list_item : bool) (list_item_number list_start_index : option N)
    : outcome (option (N * EnumKind)) :=
  let item := match list_item_number with Some n => n | None => 0 end in
  let start := match list_start_index with Some n => n | None => 1 end in
  if str_eqb s (lit "i") && (item =? 0) then Ret (Some (1, LowerRoman))
  else if str_eqb s (lit "I") && (item =? 0) then Ret (Some (1, UpperRoman))
  else match detected_kind with
       | Arabic => match parse_usize s with
                   | Some n => Ret (Some (n, Arabic))
                   | None => Panic
                   end
       | LowerAlpha | UpperAlpha =>
           Ret (match alpha_to_usize s with Some n => Some (n, detected_kind) | None => None end)
       | LowerRoman | UpperRoman =>
           Ret (match lower_roman_to_usize s with Some n => Some (n, detected_kind) | None => None end)
       | Automatic =>
           Ret (Some (item + start,
                      if (item =? 0) && negb in_list_item then Arabic else list_kind))
       end.

(* converters.rs:79-206 enum_captures_to_int_kind_and_delims.  The branches
   for the three delimiter styles are tried in the order parens, rparen,
   period; `b` is the number of the first of the six groups of a style, and
   `upper_i` the literal that the upper-case Roman branch compares with (it is
   "I" for parens but "i" for the other two, lines 108, 147, 186). *)
Inductive branch_result :=
| NoBranch
| Early (n : N) (k : EnumKind)                 (* `return Some((1, ...))` *)
| Value (n : option N) (k : EnumKind).
Definition enum_branch (cs : caps) (b : nat) (upper_i : str) (list_kind : option EnumKind)
    (in_list_item : bool) (item start : N) : branch_result :=
  match cap b cs with
  | Some s => Value (parse_usize s) Arabic
  | None =>
  match cap (b + 1) cs with
  | Some s => if str_eqb s (lit "i") && (item =? 0) then Early 1 LowerRoman
              else Value (lower_roman_to_usize s) LowerRoman
  | None =>
  match cap (b + 2) cs with
  | Some s => if str_eqb s upper_i && (item =? 0) then Early 1 UpperRoman
              else Value (upper_roman_to_usize s) UpperRoman
  | None =>
  match cap (b + 3) cs with
  | Some s => Value (alpha_to_usize s) LowerAlpha
  | None =>
  match cap (b + 4) cs with
  | Some s => Value (alpha_to_usize s) UpperAlpha
  | None =>
  match cap (b + 5) cs with
  | Some _ =>
      Value (if item + start <=? usize_max then Some (item + start) else None)
            (if (item =? 0) && negb in_list_item then Arabic
             else match list_kind with Some k => k | None => Arabic end)
  | None => NoBranch
  end end end end end end.
Definition finish_enum (n : option N) (k : EnumKind) (d : EnumDelims) (observing_next_line : bool)
    : outcome (option (N * EnumKind * EnumDelims)) :=
  match n with
  | None => Ret None
  | Some n => if observing_next_line
              then if n + 1 <=? usize_max then Ret (Some (n + 1, k, d)) else Panic
              else Ret (Some (n, k, d))
  end.
Definition enum_captures_to_int_kind_and_delims (cs : caps) (list_kind : option EnumKind)
    (in_list_item observing_next_line : bool) (item start : N)
    : outcome (option (N * EnumKind * EnumDelims)) :=
  match enum_branch cs 2 (lit "I") list_kind in_list_item item start with
  | Early n k => Ret (Some (n, k, Parens))
  | Value n k => finish_enum n k Parens observing_next_line
  | NoBranch =>
  match enum_branch cs 8 (lit "i") list_kind in_list_item item start with
  | Early n k => Ret (Some (n, k, RParen))
  | Value n k => finish_enum n k RParen observing_next_line
  | NoBranch =>
  match enum_branch cs 14 (lit "i") list_kind in_list_item item start with
  | Early n k => Ret (Some (n, k, Period))
  | Value n k => finish_enum n k Period observing_next_line
  | NoBranch => Panic
  end end end.

(* f64::from_str on a numeral of the form matched by number_re *)
Fixpoint read_fnum (s : str) (seen_dot : bool) (m : N) (sc : nat) : fnum :=
  match s with
  | [] => FNum m sc
  | c :: t => if c =? ch "." then read_fnum t true m sc
              else read_fnum t seen_dot (m * 10 + (c - 48)) (if seen_dot then S sc else sc)
  end.
Definition parse_f64 (s : str) : fnum := read_fnum s false 0 0%nat.

Definition unit_of_str (u : str) : option LengthUnit :=
  if str_eqb u (lit "em") then Some Em
  else if str_eqb u (lit "ex") then Some Ex
  else if str_eqb u (lit "mm") then Some Mm
  else if str_eqb u (lit "cm") then Some Cm
  else if str_eqb u (lit "in") then Some In_
  else if str_eqb u (lit "px") then Some Px
  else if str_eqb u (lit "pt") then Some Pt
  else if str_eqb u (lit "pc") then Some Pc
  else None.
(* converters.rs:407-449 str_to_length *)
Definition str_to_length (s : str) : option Length :=
  match captures LENGTH_RE (trim s) with
  | None => None
  | Some cs =>
      match cap 1 cs, cap 2 cs with
      | Some num, Some u =>
          match unit_of_str u with
          | Some u => Some (MkLength u (parse_f64 num))
          | None => None
          end
      | _, _ => None
      end
  end.
(* converters.rs:453-480 str_to_percentage *)
Definition str_to_percentage (s : str) : option fnum :=
  match captures PERCENTAGE_RE (trim s) with
  | None => None
  | Some cs => match cap 1 cs with Some num => Some (parse_f64 num) | None => None end
  end.

(* converters.rs:484-495 str_to_html_alignment *)
Definition str_to_html_alignment (s : str) : option HTMLAlignment :=
  let s := trim s in
  if str_eqb s (lit "top") then Some ATop
  else if str_eqb s (lit "middle") then Some AMiddle
  else if str_eqb s (lit "bottom") then Some ABottom
  else if str_eqb s (lit "left") then Some ALeft
  else if str_eqb s (lit "center") then Some ACenter
  else if str_eqb s (lit "right") then Some ARight
  else None.
(* converters.rs:499-506 str_to_horizontal_alignment *)
Definition str_to_horizontal_alignment (s : str) : option HorizontalAlignment :=
  let s := trim s in
  if str_eqb s (lit "left") then Some HLeft
  else if str_eqb s (lit "center") then Some HCenter
  else if str_eqb s (lit "right") then Some HRight
  else None.

(* state_machine/mod.rs:291-350 Parser::is_enumerated_list_item *)
Definition is_enumerated_list_item (src : list str) (cur : LineCursor) (base_indent : nat)
    (enum_indent : nat) (number : N) (kind : EnumKind) (delims : EnumDelims)
    (list_kind : EnumKind) (in_list_item : bool) (item start : N) : outcome bool :=
  match nth_error src (S (cur_offset cur)) with
  | None => Ret true
  | Some next_line =>
      let next_indent := (indent_of next_line + base_indent)%nat in
      if blank next_line || (enum_indent <? next_indent)%nat then Ret true
      else if (next_indent =? enum_indent)%nat then
        match captures ENUMERATOR next_line with
        | None => Ret false
        | Some cs =>
            let! r := enum_captures_to_int_kind_and_delims cs (Some list_kind) in_list_item
                        true item start in
            match r with
            | None => Ret false
            | Some (n, k, d) =>
                Ret ((n =? number + 1) && kind_eqb k kind && delims_eqb d delims)
            end
        end
      else Ret true
  end.
