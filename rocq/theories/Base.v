(* Base.v -- strings, outcomes and the pieces of the Rust standard library
   that rustla calls.  No proofs here. *)
From Coq Require Export List Arith NArith ZArith Bool Lia String Ascii.
From Coq Require Import DecimalNat DecimalN DecimalPos.
Export ListNotations.
(* String is imported only for literals: keep the list names in front. *)
Export List.
Global Open Scope list_scope.
Global Open Scope nat_scope.

(* A Rust `char` is a Unicode scalar value; a `String` a sequence of them. *)
Definition char := N.
Definition str := list char.

(* ASCII string literals. *)
Fixpoint lit (s : string) : str :=
  match s with
  | EmptyString => []
  | String a t => N_of_ascii a :: lit t
  end.

(* An ASCII character literal. *)
Definition ch (s : string) : char :=
  match s with String a _ => N_of_ascii a | EmptyString => 0%N end.

Definition newline : char := 10%N.

(* The result of running code that may panic, or that ran out of the fuel the
   model gives to its loops. *)
Inductive outcome (A : Type) : Type :=
| Ret (a : A)
| Panic
| OutOfFuel.
Arguments Ret {A} a.
Arguments Panic {A}.
Arguments OutOfFuel {A}.

Definition obind {A B} (m : outcome A) (f : A -> outcome B) : outcome B :=
  match m with
  | Ret a => f a
  | Panic => Panic
  | OutOfFuel => OutOfFuel
  end.
Notation "'let!' x ':=' m 'in' k" := (obind m (fun x => k))
  (at level 200, x pattern, m at level 100, k at level 200).
Notation "'let?' x ':=' m 'in' k" := (match m with Some x => k | None => None end)
  (at level 200, x pattern, m at level 100, k at level 200).

(* `Option::unwrap` / `expect` *)
Definition unwrap {A} (o : option A) : outcome A :=
  match o with Some a => Ret a | None => Panic end.

(* `a - b` on usize in a debug build: panics on underflow. *)
Definition checked_sub (a b : nat) : outcome nat :=
  if b <=? a then Ret (a - b) else Panic.

(* ---------- string equality ---------- *)
Fixpoint str_eqb (a b : str) : bool :=
  match a, b with
  | [], [] => true
  | x :: a', y :: b' => N.eqb x y && str_eqb a' b'
  | _, _ => false
  end.

Definition str_mem (x : str) (l : list str) : bool := existsb (str_eqb x) l.

(* ---------- char::is_whitespace (Unicode White_Space) ---------- *)
Definition is_whitespace (c : char) : bool :=
  ((9 <=? c) && (c <=? 13) || (c =? 32) || (c =? 0x85) || (c =? 0xA0)
   || (c =? 0x1680) || ((0x2000 <=? c) && (c <=? 0x200A))
   || (c =? 0x2028) || (c =? 0x2029) || (c =? 0x202F) || (c =? 0x205F)
   || (c =? 0x3000))%N.

(* char::is_ascii_alphabetic, is_ascii_digit, ... *)
Definition in_range (lo hi c : N) : bool := ((lo <=? c) && (c <=? hi))%N.
Definition is_ascii_lower (c : char) : bool := in_range 97 122 c.
Definition is_ascii_upper (c : char) : bool := in_range 65 90 c.
Definition is_ascii_digit (c : char) : bool := in_range 48 57 c.
Definition is_ascii_alpha (c : char) : bool := is_ascii_lower c || is_ascii_upper c.
Definition is_ascii_alnum (c : char) : bool := is_ascii_alpha c || is_ascii_digit c.

Fixpoint in_ranges (rs : list (N * N)) (c : char) : bool :=
  match rs with
  | [] => false
  | (lo, hi) :: t => in_range lo hi c || in_ranges t c
  end.

(* ---------- byte length of the UTF-8 encoding (`str::len`) ---------- *)
Definition utf8_len (c : char) : nat :=
  if (c <? 0x80)%N then 1 else if (c <? 0x800)%N then 2
  else if (c <? 0x10000)%N then 3 else 4.
Definition byte_len (s : str) : nat := fold_right (fun c n => utf8_len c + n) 0 s.

(* ---------- str::trim and friends ---------- *)
Fixpoint trim_start (s : str) : str :=
  match s with
  | c :: t => if is_whitespace c then trim_start t else s
  | [] => []
  end.
Definition trim_end (s : str) : str := rev (trim_start (rev s)).
Definition trim (s : str) : str := trim_end (trim_start s).

(* `s.trim().is_empty()` *)
Definition blank (s : str) : bool := forallb is_whitespace s.

(* `s.chars().take_while(|c| c.is_whitespace()).count()` *)
Fixpoint indent_of (s : str) : nat :=
  match s with
  | c :: t => if is_whitespace c then S (indent_of t) else 0
  | [] => 0
  end.

(* str::split_whitespace; `cur` is the current word, reversed. *)
Fixpoint split_ws_aux (s : str) (cur : str) : list str :=
  match s with
  | [] => match cur with [] => [] | _ => [rev cur] end
  | c :: t =>
      if is_whitespace c
      then match cur with [] => split_ws_aux t [] | _ => rev cur :: split_ws_aux t [] end
      else split_ws_aux t (c :: cur)
  end.
Definition split_whitespace (s : str) : list str := split_ws_aux s [].

(* [&str]::join *)
Fixpoint join (sep : str) (l : list str) : str :=
  match l with
  | [] => []
  | [x] => x
  | x :: t => x ++ sep ++ join sep t
  end.

(* str::starts_with / ends_with *)
Fixpoint starts_with (p s : str) : bool :=
  match p, s with
  | [], _ => true
  | a :: p', b :: s' => N.eqb a b && starts_with p' s'
  | _ :: _, [] => false
  end.
Definition ends_with (p s : str) : bool := starts_with (rev p) (rev s).

(* str::split(char): always at least one piece *)
Fixpoint split_on_aux (sep : char) (s cur : str) : list str :=
  match s with
  | [] => [rev cur]
  | c :: t => if N.eqb c sep then rev cur :: split_on_aux sep t []
              else split_on_aux sep t (c :: cur)
  end.
Definition split_on (sep : char) (s : str) : list str := split_on_aux sep s [].

(* str::lines: split at \n, drop the final empty piece, strip one trailing \r
   from each line that was ended by \n. *)
Definition strip_cr (line_rev : str) : str :=
  match line_rev with
  | c :: t => if N.eqb c 13 then rev t else rev line_rev
  | [] => []
  end.
Fixpoint lines_aux (s cur : str) : list str :=
  match s with
  | [] => match cur with [] => [] | _ => [rev cur] end
  | c :: t => if N.eqb c newline then strip_cr cur :: lines_aux t []
              else lines_aux t (c :: cur)
  end.
Definition lines (s : str) : list str := lines_aux s [].

(* Display for unsigned integers *)
Fixpoint uint_to_str (d : Decimal.uint) : str :=
  match d with
  | Decimal.Nil => []
  | Decimal.D0 d => 48%N :: uint_to_str d
  | Decimal.D1 d => 49%N :: uint_to_str d
  | Decimal.D2 d => 50%N :: uint_to_str d
  | Decimal.D3 d => 51%N :: uint_to_str d
  | Decimal.D4 d => 52%N :: uint_to_str d
  | Decimal.D5 d => 53%N :: uint_to_str d
  | Decimal.D6 d => 54%N :: uint_to_str d
  | Decimal.D7 d => 55%N :: uint_to_str d
  | Decimal.D8 d => 56%N :: uint_to_str d
  | Decimal.D9 d => 57%N :: uint_to_str d
  end.
Definition dec (n : N) : str := uint_to_str (N.to_uint n).
Definition dec_nat (n : nat) : str := dec (N.of_nat n).

(* `str::parse` for an unsigned integer type with maximum `mx`: optional `+`, at
   least one ASCII digit, overflow checked digit by digit. *)
Definition u32_max : N := 4294967295%N.
Definition usize_max : N := 18446744073709551615%N.
Fixpoint parse_digits (mx : N) (s : str) (acc : N) : option N :=
  match s with
  | [] => Some acc
  | c :: t =>
      if is_ascii_digit c then
        let acc' := (acc * 10 + (c - 48))%N in
        if (acc' <=? mx)%N then parse_digits mx t acc' else None
      else None
  end.
Definition parse_uint (mx : N) (s : str) : option N :=
  match s with
  | [] => None
  | c :: t => if N.eqb c 43 then match t with [] => None | _ => parse_digits mx t 0 end
              else parse_digits mx s 0
  end.
Definition parse_u32 : str -> option N := parse_uint u32_max.
Definition parse_usize : str -> option N := parse_uint usize_max.

(* u32 addition, debug build: panics on overflow *)
Definition u32_add (a b : N) : outcome N :=
  if (a + b <=? u32_max)%N then Ret (a + b)%N else Panic.

(* ASCII part of to_lowercase (see Unicode.v for the whole map) *)
Definition ascii_lower (c : char) : char := if is_ascii_upper c then (c + 32)%N else c.

Global Arguments N.add : simpl never.
Global Arguments N.sub : simpl never.
Global Arguments N.mul : simpl never.
Global Arguments N.leb : simpl never.
Global Arguments N.ltb : simpl never.
Global Arguments N.div : simpl never.
Global Arguments N.modulo : simpl never.
