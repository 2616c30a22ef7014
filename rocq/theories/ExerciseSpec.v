(* ExerciseSpec.v -- what C51 says: how the argument of an exercise or a
   questionnaire is divided into a key, a difficulty and a number of points. *)
From Verif Require Import Base.

(* the text does not start with such a character *)
Definition not_before (p : char -> bool) (s : str) : Prop := match s with [] => True | c :: _ => p c = false end.
(* the longest key of letters and digits, then spaces, then a capital letter if
   there is one, then all digits that follow; the rest is not used *)
Definition exercise_parts (s key grade points : str) : Prop := exists gap rest,
  s = key ++ gap ++ grade ++ points ++ rest /\
  forallb is_ascii_alnum key = true /\ not_before is_ascii_alnum (gap ++ grade ++ points ++ rest) /\
  forallb (N.eqb 32) gap = true /\ not_before (N.eqb 32) (grade ++ points ++ rest) /\
  (grade = [] /\ not_before is_ascii_upper (points ++ rest) \/ exists c, grade = [c] /\ is_ascii_upper c = true) /\
  forallb is_ascii_digit points = true /\ not_before is_ascii_digit rest.
