(* AttributionSpec.v -- what C68 says about who a quote is attributed to *)
From Verif Require Import Base Common NodeTypes.

Definition is_attribution (x : TreeNodeType) : bool := match x with NAttribution _ => true | _ => false end.
Definition unattributed (l : list TreeNodeType) : Prop := Forall (fun y => is_attribution y = false) l.
(* the children l of a node x: who said it stands nowhere but at the end of a block quote, once *)
Definition attributed_last (x : TreeNodeType) (l : list TreeNodeType) : Prop :=
  unattributed l \/ exists extra before who, x = NBlockQuote extra /\ l = before ++ [NAttribution who] /\ unattributed before.
