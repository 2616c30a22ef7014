(* InlineSpec.v -- what C28 and C29 say about inline parsing. *)
From Verif Require Import Base Unicode NodeTypes Utf8Latex.

Definition infix (x s : str) : Prop := exists a b, s = a ++ x ++ b.

(* the characters every piece of inline markup contains one of *)
Definition markup_chars : str := lit "*`_|:@".
Definition plain (s : str) : Prop := forall c, In c s -> ~ In c markup_chars.

(* a text cut into words (false) and white space (true) *)
Definition piece_ok (x : bool * str) : Prop := snd x <> [] /\ forall c, In c (snd x) -> is_whitespace c = fst x.
Fixpoint alternates (l : list (bool * str)) : Prop :=
  match l with (a, _) :: (((b, _) :: _) as l') => a <> b /\ alternates l' | _ => True end.
(* the node of a piece, and its LaTeX *)
Definition plain_node (x : bool * str) : TreeNodeType :=
  if fst x then NWhiteSpace (snd x) else NText (unicode_text_to_latex (snd x)).
Definition plain_latex (x : bool * str) : str :=
  if fst x then snd x else unicode_text_to_latex (snd x).
