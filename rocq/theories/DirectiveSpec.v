(* DirectiveSpec.v -- what a user writes under a directive marker: argument lines
   and option lines.  Nothing here mentions the patterns or loops of the parser. *)
From Verif Require Import Base Spec.

(* text without white space around it *)
Definition starts_inked (s : str) : Prop := exists c t, s = c :: t /\ is_whitespace c = false.
Definition ends_inked (s : str) : Prop := exists c t, s = t ++ [c] /\ is_whitespace c = false.
(* `trimmed s t`: t is s without the white space around it *)
Definition trimmed (s t : str) : Prop :=
  exists w e, s = w ++ t ++ e /\ all_ws w /\ all_ws e /\ (t = [] \/ starts_inked t /\ ends_inked t).

(* an option line: white space, a colon, a name, a colon, and then nothing or a
   space and a value.  A name begins and ends with a character that is not white
   space, does not end in a backslash, and has no line feed inside. *)
Definition option_name (name : str) : Prop :=
  starts_inked name /\ ends_inked name /\ (forall t, name <> t ++ [92%N]) /\
  (forall a t b, name = a :: t ++ [b] -> ~ In 10%N t).
Definition option_syntax (indent name rest line : str) : Prop :=
  line = indent ++ lit ":" ++ name ++ lit ":" ++ rest /\ all_ws indent /\ option_name name /\
  (rest = [] \/ exists r, rest = 32%N :: r).
Definition option_like (line : str) : Prop := exists indent name rest, option_syntax indent name rest line.
(* the line sets option key to value, at the given indent.  If the line can be read
   with a name without colons, that reading is the one meant. *)
Definition sets_option (indent : nat) (line key value : str) : Prop :=
  exists w name rest, option_syntax w name rest line /\ length w = indent /\
    trimmed name key /\ trimmed rest value /\
    forall w' name' rest', option_syntax w' name' rest' line -> ~ In 58%N name' -> name' = name /\ rest' = rest.
(* the value a list of settings leaves an option with: the last one *)
Fixpoint last_value (k : str) (l : list (str * str)) (v : option str) : option str :=
  match l with
  | [] => v
  | (k', v') :: l' => last_value k l' (if str_eqb k k' then Some v' else v)
  end.

(* a line of arguments below the marker line: indented by exactly indent, not
   blank, and what it says does not look like an option *)
Definition argument_line (indent : nat) (line text : str) : Prop :=
  trimmed line text /\ starts_inked text /\ ~ option_like text /\
  exists w rest, line = w ++ rest /\ all_ws w /\ length w = indent /\ starts_inked rest.
(* an argument on the marker line, after the marker's `first` characters *)
Definition marker_argument (first : nat) (line text : str) : Prop :=
  exists marker, (line = marker ++ text /\ length marker = first) /\ ~ all_ws text /\ ~ option_like text.
