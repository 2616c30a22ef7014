(* Regex.v -- the matching semantics of the `regex` crate that rustla relies on:
   leftmost-first (Perl-like) matching with capture groups.  All of rustla's
   patterns but one begin with `^`, so the matcher is anchored at the start of
   the text; `find_from` tries every start position for the remaining one. *)
From Verif Require Import Base.

Inductive re : Type :=
| Eps                              (* the empty pattern *)
| Cls (p : char -> bool)           (* one character of a class *)
| Cat (a b : re)
| Alt (a b : re)                   (* a preferred to b *)
| Star (greedy : bool) (r : re)    (* r*  (greedy) or  r*?  (lazy) *)
| Grp (n : nat) (r : re)           (* capture group number n *)
| Eot.                             (* $ : end of text *)

(* A capture: group number, start offset (in characters), matched text. *)
Definition caps := list (nat * (nat * str)).

Section Matcher.
  Context {R : Type}.
  Definition kont := nat -> str -> caps -> option R.

  Definition orelse (a : option R) (b : unit -> option R) : option R :=
    match a with Some x => Some x | None => b tt end.

  (* Iterating a matcher `m` at most n times, then continuing with k.  An
     iteration must consume something. *)
  Section Loop.
    Variable m : nat -> str -> caps -> kont -> option R.
    Variable greedy : bool.
    Variable k : kont.
    Fixpoint star_loop (n : nat) (i : nat) (s : str) (cs : caps) {struct n} : option R :=
      match n with
      | 0 => k i s cs
      | S n' =>
          let more := fun _ : unit =>
            m i s cs (fun i1 s1 cs1 => if i <? i1 then star_loop n' i1 s1 cs1 else None) in
          if greedy then orelse (more tt) (fun _ => k i s cs)
          else orelse (k i s cs) more
      end.
  End Loop.

  (* Backtracking search.  `i` is the current offset, `s` the rest of the
     text. *)
  Fixpoint rmatch (r : re) (i : nat) (s : str) (cs : caps) (k : kont) {struct r} : option R :=
    match r with
    | Eps => k i s cs
    | Cls p => match s with
               | c :: t => if p c then k (S i) t cs else None
               | [] => None
               end
    | Cat a b => rmatch a i s cs (fun i1 s1 cs1 => rmatch b i1 s1 cs1 k)
    | Alt a b => orelse (rmatch a i s cs k) (fun _ => rmatch b i s cs k)
    | Star greedy r1 => star_loop (rmatch r1) greedy k (length s) i s cs
    | Grp n r1 =>
        rmatch r1 i s cs
          (fun i1 s1 cs1 => k i1 s1 ((n, (i, firstn (i1 - i) s)) :: cs1))
    | Eot => match s with [] => k i s cs | _ => None end
    end.
End Matcher.

(* The length of the overall match and the captures; group 0 is the whole
   match. *)
Definition rexec (r : re) (s : str) : option (nat * caps) :=
  rmatch r 0 s [] (fun i _ cs => Some (i, (0, (0, firstn i s)) :: cs)).

(* Regex::is_match for an anchored pattern *)
Definition is_match (r : re) (s : str) : bool :=
  match rexec r s with Some _ => true | None => false end.

(* Captures::get(n).map(|m| m.as_str()) -- the last value a group took *)
Fixpoint cap (n : nat) (cs : caps) : option str :=
  match cs with
  | [] => None
  | (m, (_, t)) :: cs' => if m =? n then Some t else cap n cs'
  end.
(* Captures::get(n).map(|m| m.start()), in characters *)
Fixpoint cap_start (n : nat) (cs : caps) : option nat :=
  match cs with
  | [] => None
  | (m, (i, _)) :: cs' => if m =? n then Some i else cap_start n cs'
  end.

(* Regex::captures *)
Definition captures (r : re) (s : str) : option caps :=
  match rexec r s with Some (_, cs) => Some cs | None => None end.
Definition whole (cs : caps) : str :=
  match cap 0 cs with Some t => t | None => [] end.

(* Unanchored search: the first start offset at which the pattern matches. *)
Fixpoint find_from (r : re) (s : str) (off : nat) : option (nat * caps) :=
  match rexec r s with
  | Some (_, cs) => Some (off, cs)
  | None => match s with [] => None | _ :: t => find_from r t (S off) end
  end.

(* ---------- derived constructs ---------- *)
Definition Chr (c : char) : re := Cls (N.eqb c).
Definition Plus (greedy : bool) (r : re) : re := Cat r (Star greedy r).
Definition Opt (r : re) : re := Alt r Eps.             (* r? *)
Fixpoint Lit (s : str) : re :=
  match s with [] => Eps | [c] => Chr c | c :: t => Cat (Chr c) (Lit t) end.
Fixpoint Seq (l : list re) : re :=
  match l with [] => Eps | [r] => r | r :: t => Cat r (Seq t) end.
Fixpoint Alts (l : list re) : re :=
  match l with [] => Cls (fun _ => false) | [r] => r | r :: t => Alt r (Alts t) end.
Definition cls_of (s : str) : char -> bool := fun c => existsb (N.eqb c) s.

(* ---------- declarative meaning ----------
   `rel r s t`: r can match a prefix of s, leaving t. *)
Inductive rel : re -> str -> str -> Prop :=
| rel_eps s : rel Eps s s
| rel_cls p c t : p c = true -> rel (Cls p) (c :: t) t
| rel_cat a b s t u : rel a s t -> rel b t u -> rel (Cat a b) s u
| rel_altl a b s t : rel a s t -> rel (Alt a b) s t
| rel_altr a b s t : rel b s t -> rel (Alt a b) s t
| rel_star0 g r s : rel (Star g r) s s
| rel_star1 g r s t u :
    rel r s t -> length t < length s -> rel (Star g r) t u -> rel (Star g r) s u
| rel_grp n r s t : rel r s t -> rel (Grp n r) s t
| rel_eot : rel Eot [] [].

(* The same with captures: `relc r i s t new`: r matches a prefix of s (which
   starts at offset i), leaving t, and records the captures `new`, latest
   first. *)
Inductive relc : re -> nat -> str -> str -> caps -> Prop :=
| relc_eps i s : relc Eps i s s []
| relc_cls p i c t : p c = true -> relc (Cls p) i (c :: t) t []
| relc_cat a b i s t u n1 n2 :
    relc a i s t n1 -> relc b (i + (length s - length t)) t u n2 ->
    relc (Cat a b) i s u (n2 ++ n1)
| relc_altl a b i s t n : relc a i s t n -> relc (Alt a b) i s t n
| relc_altr a b i s t n : relc b i s t n -> relc (Alt a b) i s t n
| relc_star0 g r i s : relc (Star g r) i s s []
| relc_star1 g r i s t u n1 n2 :
    relc r i s t n1 -> length t < length s ->
    relc (Star g r) (i + (length s - length t)) t u n2 ->
    relc (Star g r) i s u (n2 ++ n1)
| relc_grp n r i s t n1 :
    relc r i s t n1 -> relc (Grp n r) i s t ((n, (i, firstn (length s - length t) s)) :: n1)
| relc_eot i : relc Eot i [] [] [].
