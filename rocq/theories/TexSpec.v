(* TexSpec.v -- how TeX reads a line of input: the specification side of
   C30-C33.  It does not mention the model of rustla. *)
From Verif Require Import Base.
Local Open Scope N_scope.

(* Characters with their standard LaTeX meaning: letters form command names,
   the ten special characters are not text. *)
Definition tex_letter : char -> bool := is_ascii_alpha.
Definition tex_blank (c : char) : bool := (c =? 32) || (c =? 9) || (c =? 10).
Definition tex_special (c : char) : bool := existsb (N.eqb c) (lit "#$%&~_^{}\").

Inductive tok : Type :=
| Tchar (c : char)      (* a character read as itself *)
| Tword (name : str)    (* a command such as \alpha *)
| Tsym (c : char).      (* a command such as \% *)

(* Reading position: ordinary text, just after a backslash, inside a command
   name (reversed), or skipping the blanks that follow a command word. *)
Inductive tmode : Type := Plain | Slash | Name (n : str) | Skip.

Fixpoint tokens (m : tmode) (s : str) : list tok :=
  match s with
  | [] => match m with Slash => [Tword []] | Name n => [Tword (rev n)] | _ => [] end
  | c :: t =>
      let ordinary := if c =? ch "\" then tokens Slash t else Tchar c :: tokens Plain t in
      match m with
      | Plain => ordinary
      | Skip => if tex_blank c then tokens Skip t else ordinary
      | Slash => if tex_letter c then tokens (Name [c]) t
                 else Tsym c :: tokens (if c =? 32 then Skip else Plain) t
      | Name n => if tex_letter c then tokens (Name (c :: n)) t
                  else Tword (rev n) :: (if tex_blank c then tokens Skip t else ordinary)
      end
  end.

(* The character of running text that a token typesets; None if it is not
   plain text.  (\~ is LaTeX's tilde accent over the next letter, not a
   tilde.) *)
Definition typeset (k : tok) : option char :=
  match k with
  | Tchar c => if tex_special c then None else Some c
  | Tword n => if str_eqb n (lit "textbackslash") then Some (ch "\")
               else if str_eqb n (lit "textasciicircum") then Some (ch "^") else None
  | Tsym c => if existsb (N.eqb c) (lit "#$%&_{}") then Some c else None
  end.
Fixpoint all_some {A} (l : list (option A)) : option (list A) :=
  match l with
  | [] => Some []
  | Some a :: t => match all_some t with Some r => Some (a :: r) | None => None end
  | None :: _ => None
  end.
(* what LaTeX typesets for an input line of plain text *)
Definition tex_reads (s : str) : option str := all_some (map typeset (tokens Plain s)).

(* reStructuredText escapes: a backslash stands for the character after it (a
   final one for itself).  Each character of the text, with the source text
   that follows it. *)
Fixpoint unescaped (s : str) : list (char * str) :=
  match s with
  | [] => []
  | c :: t =>
      if c =? ch "\"
      then match t with d :: t' => (d, t') :: unescaped t' | [] => [(c, [])] end
      else (c, t) :: unescaped t
  end.
Definition plain_text (s : str) : str := map fst (unescaped s).

(* the ten special characters and the commands that stand for them in rustla's
   output *)
Definition escape_of (c : char) : option str :=
  if c =? ch "\" then Some (lit "\textbackslash")
  else if c =? ch "^" then Some (lit "\textasciicircum")
  else if tex_special c then Some [ch "\"; c] else None.
(* the text written for one character: itself, or its escape, possibly with a
   separating space *)
Inductive written_as : char -> str -> Prop :=
| wa_plain c : escape_of c = None -> written_as c [c]
| wa_escape c e : escape_of c = Some e -> written_as c e
| wa_escape_sp c e : escape_of c = Some e -> written_as c (e ++ [32]).

(* nesting depth of braces; None when one is closed that was not opened.
   Braces written \{ and \} do not count. *)
Definition brace_step (k : tok) (d : nat) : option nat :=
  match k with
  | Tchar c => if c =? ch "{" then Some (S d)
               else if c =? ch "}" then match d with S d' => Some d' | O => None end
               else Some d
  | _ => Some d
  end.
Fixpoint brace_depth (ks : list tok) (d : nat) : option nat :=
  match ks with
  | [] => Some d
  | k :: t => match brace_step k d with Some d' => brace_depth t d' | None => None end
  end.

(* depth of raw braces, however they are written *)
Fixpoint raw_depth (s : str) (d : nat) : option nat :=
  match s with
  | [] => Some d
  | c :: t =>
      if c =? ch "{" then raw_depth t (S d)
      else if c =? ch "}" then match d with S d' => raw_depth t d' | O => None end
      else raw_depth t d
  end.

(* does a character of sp occur in s with (escaped = true) or without (escaped
   = false) a backslash that escapes it?  `odd` says whether an unpaired
   backslash stands directly before s *)
Fixpoint occurs (escaped : bool) (sp : str) (odd : bool) (s : str) : bool :=
  match s with
  | [] => false
  | c :: t =>
      if c =? ch "\" then occurs escaped sp (negb odd) t
      else (Bool.eqb odd escaped && existsb (N.eqb c) sp) || occurs escaped sp false t
  end.

(* the lower-case Greek letters and their LaTeX commands *)
Definition greek : list (N * string) :=
  [(0x3B1, "alpha"); (0x3B2, "beta"); (0x3B3, "gamma"); (0x3B4, "delta"); (0x3B6, "zeta");
   (0x3B7, "eta"); (0x3B8, "theta"); (0x3B9, "iota"); (0x3BA, "kappa"); (0x3BB, "lambda");
   (0x3BC, "mu"); (0x3BD, "nu"); (0x3BE, "xi"); (0x3C0, "pi"); (0x3C1, "rho"); (0x3C3, "sigma");
   (0x3C4, "tau"); (0x3C5, "upsilon"); (0x3C7, "chi"); (0x3C8, "psi"); (0x3C9, "omega")]%string.

(* ---------- environments (C33) ---------- *)
(* Reading \begin{e} and \end{e}: ordinary text, a command that may still
   become \begin or \end, or the name of an environment being opened or
   closed. *)
Inductive emode : Type := EText | ECmd (acc : str) | EName (opening : bool) (acc : str).
(* one character; the list is the stack of open environments; None is a closing
   command that does not match *)
Definition env_step (m : emode) (st : list str) (c : char) : option (emode * list str) :=
  match m with
  | EText => Some (if c =? ch "\" then ECmd [] else EText, st)
  | ECmd acc =>
      if tex_letter c then
        let acc' := acc ++ [c] in
        Some (if starts_with acc' (lit "begin") || starts_with acc' (lit "end") then ECmd acc' else EText, st)
      else match acc with
           | [] => Some (EText, st)
           | _ =>
               Some (if (c =? ch "{") && str_eqb acc (lit "begin") then EName true []
                     else if (c =? ch "{") && str_eqb acc (lit "end") then EName false []
                     else if c =? ch "\" then ECmd [] else EText, st)
           end
  | EName opening acc =>
      if c =? ch "}" then
        if opening then Some (EText, acc :: st)
        else match st with
             | e :: st' => if str_eqb e acc then Some (EText, st') else None
             | [] => None
             end
      else Some (EName opening (acc ++ [c]), st)
  end.
Fixpoint env_run (s : str) (m : emode) (st : list str) : option (emode * list str) :=
  match s with
  | [] => Some (m, st)
  | c :: t => match env_step m st c with Some (m', st') => env_run t m' st' | None => None end
  end.
(* every \begin{e} has its \end{e}, properly nested, and the text does not end
   in the middle of a command that could become one of them *)
Definition env_balanced (s : str) : Prop := env_run s EText [] = Some (EText, []).
