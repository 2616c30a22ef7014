(* PointsSpec.v -- the points of a questionnaire and of its questions *)
From Verif Require Import Base Common NodeTypes Tree.

(* the points a node asks for, if it is a question *)
Definition question_points (x : TreeNodeType) : option N :=
  match x with
  | NAplusPickOne _ points _ _ _ _ => Some points
  | NAplusPickAny _ points _ _ _ _ _ _ _ => Some points
  | NAplusFreeText _ points _ _ _ _ _ _ _ => Some points
  | _ => None
  end.
(* the points of all questions directly in a list of nodes *)
Fixpoint points_of (l : list TreeNodeType) : N :=
  match l with
  | [] => 0%N
  | x :: l' => (match question_points x with Some p => p | None => 0 end + points_of l')%N
  end.
(* what the children of a node say *)
Definition child_data (n : TreeNode) : list TreeNodeType :=
  match node_children n with Some cs => map node_data cs | None => [] end.
(* the total kept with a questionnaire, and whether it was given a maximum *)
Definition questionnaire_total (x : TreeNodeType) : option N :=
  match x with
  | NAplusQuestionnaire _ total _ _ _ _ _ _ _ _ _ _ _ _ _ _ _ _ => Some total
  | _ => None
  end.
Definition given_maximum (x : TreeNodeType) : option N :=
  match x with
  | NAplusQuestionnaire _ _ _ maximum _ _ _ _ _ _ _ _ _ _ _ _ _ _ => maximum
  | _ => None
  end.
Definition questionnaire_key (x : TreeNodeType) : str :=
  match x with
  | NAplusQuestionnaire _ _ key _ _ _ _ _ _ _ _ _ _ _ _ _ _ _ => key
  | _ => []
  end.
