(* ConformanceBase.v -- how Conformance.v runs a test of /repo/src/parser/tests. *)
From Verif Require Import Base Common NodeTypes Tree DocTree Transforms Prog ParseLoop Parser.

Definition kind_eq_dec (a b : NodeKind) : {a = b} + {a <> b}.
Proof. decide equality. Defined.
(* doctree.shared_child(i).unwrap() along a path *)
Fixpoint at_path (n : TreeNode) (p : list nat) : option TreeNode :=
  match p with
  | [] => Some n
  | i :: p' => match node_children n with
               | Some cs => match nth_error cs i with Some c => at_path c p' | None => None end
               | None => None
               end
  end.
(* parse the lines, walk to the root, look at the nodes *)
Definition conforms (transforms : bool) (src : list str) (expected : list (list nat * NodeKind)) : bool :=
  match parse_source 3000 src with
  | Ret (_, d) =>
      match (let! d := if transforms then perform_transforms d else Ret d in d_walk_to_root d) with
      | Ret d =>
          forallb (fun e => match at_path (z_node (tree d)) (fst e) with
                            | Some n => if kind_eq_dec (node_kind n) (snd e) then true else false
                            | None => false
                            end) expected
      | _ => false
      end
  | _ => false
  end.
