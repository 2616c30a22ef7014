(* ListSpec.v -- what C64 says about the items of a list *)
From Verif Require Import Base Common Converters NodeTypes Tree.

(* the children of a bullet list that are items have its bullet, and stand where it stands *)
Definition bullet_of (x y : TreeNodeType) : Prop :=
  match x, y with
  | NBulletList b i t, NBulletListItem b' i' t' => b' = b /\ i' = i /\ t' = t
  | _, _ => True
  end.
Definition bullets_agree (x : TreeNodeType) (l : list TreeNodeType) : Prop := Forall (bullet_of x) l.
(* the fields of a field list stand where it stands *)
Definition field_of (x y : TreeNodeType) : Prop :=
  match x, y with
  | NFieldList i, NFieldListItem _ _ i' _ => i' = i
  | _, _ => True
  end.
Definition fields_agree (x : TreeNodeType) (l : list TreeNodeType) : Prop := Forall (field_of x) l.
(* the numbered items among the children: delimiters, style, number and position *)
Definition numbers_of (l : list TreeNodeType) : list (EnumDelims * EnumKind * N * nat) :=
  flat_map (fun y => match y with NEnumeratedListItem delims kind n i _ => [(delims, kind, n, i)] | _ => [] end) l.
Definition in_sequence (delims : EnumDelims) (kind : EnumKind) (start : N) (i : nat) (n : nat) : list (EnumDelims * EnumKind * N * nat) :=
  map (fun j => (delims, kind, (start + N.of_nat j)%N, i)) (seq 0 n).
(* a numbered list has items with the numbers from its first number on, in its
   style, as many as it counts *)
Definition numbers_follow (x : TreeNodeType) (l : list TreeNodeType) : Prop :=
  match x with
  | NEnumeratedList delims kind start n i => numbers_of l = in_sequence delims kind start i (N.to_nat n)
  | _ => True
  end.
