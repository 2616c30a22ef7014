(* BlockSpec.v -- what a reader of reStructuredText expects of the block
   reading functions, stated without the functions themselves. *)
From Verif Require Import Base.

(* `ls` are the n lines of `src` from `start` on. *)
Definition run_of (src : list str) (start n : nat) (ls : list str) : Prop :=
  start + n <= length src /\ ls = firstn n (skipn start src).

(* A run from `start` of length n is the maximal run of lines that do not
   satisfy `stop`: it contains no stopping line and either ends the source or
   is followed by one.  The first `free` lines are exempt. *)
Definition maximal_run (stop : str -> Prop) (src : list str) (start free n : nat) : Prop :=
  start + n <= length src /\ free <= n /\
  (forall i l, free <= i < n -> nth_error src (start + i) = Some l -> ~ stop l) /\
  (start + n = length src \/
   exists l, nth_error src (start + n) = Some l /\ stop l).

(* Lines that end a text block. *)
Definition ends_text_block (indent_allowed : bool) (alignment : option nat)
    (until_blank : bool) (l : str) : Prop :=
  if blank l then until_blank = true
  else (indent_allowed = false /\ indent_of l <> 0) \/
       (exists a, alignment = Some a /\ indent_of l <> a).

(* Lines that end an indented block: a line of text that is not indented, or
   not indented as the block is; or a blank line, if reading until one. *)
Definition ends_indented_block (until_blank : bool) (block_indent : option nat)
    (force : bool) (l : str) : Prop :=
  if blank l then until_blank = true
  else indent_of l = 0 \/
       (exists b, block_indent = Some b /\
          (if force then indent_of l <> b else indent_of l < b)).

(* `t` is `l` without its first n characters, all of which were white space. *)
Definition dedented (n : nat) (l t : str) : Prop :=
  exists w, Forall (fun c => is_whitespace c = true) w /\
    ((l = w ++ t /\ length w = n) \/ (l = w /\ t = [] /\ length w <= n)).

(* The indentation used for the first line: given, or that of the block; and
   the number of lines taken without looking at their indentation. *)
Definition first_given (block_indent first_indent : option nat) : option nat :=
  match first_indent with Some f => Some f | None => block_indent end.
Definition free_lines (o : option nat) : nat := match o with Some _ => 1 | None => 0 end.
