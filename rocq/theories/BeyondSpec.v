(** The constructs of accepted texts that the trees of C35 and C52 leave out.  Not modelled code. *)
From Coq Require Import List Arith Bool.
From Verif Require Import Chars Token Node NodeView.
Import ListNotations.
Local Open Scope nat_scope.

(** The node is such a construct; its parts are not looked into. *)
Definition beyond (x : node) : bool :=
  match x with
  (* a:b or a:b:c between brackets *)
  | Subscript _ _ _ (Some _) _ _ _ => true
  (* ( *a ), which is not Python *)
  | AtomTuple _ _ _ (Some (TestListComp _ _ [StarExpr _ _ _ _] _)) _ => true
  (* [*a for b, in c], which is not Python *)
  | TestListComp _ _ [_; StarExpr _ _ _ _] [] => true
  (* parameters of a lambda, or bases of a class, with '*', '**' or '/' *)
  | VarArgsList _ _ _ _ None None None None None => false
  | VarArgsList _ _ _ _ _ _ _ _ _ => true
  (* assert a from b, which is not Python *)
  | AssertStmt _ _ _ _ (Some _) => true
  (* type comments *)
  | AssignmentStmt _ _ _ _ (Some _) | ForStmt _ _ _ _ _ _ _ (Some _) _ _ | FuncDef _ _ _ _ _ _ _ (Some _) _ => true
  | FuncBodySuite _ _ _ (Some _) _ _ _ _ => true
  (* def f: a, which is not Python *)
  | FuncDef _ _ _ _ None _ _ _ _ => true
  | _ => false
  end.
(** No node of the tree is. *)
Definition within (x : node) : bool := forallb (fun y => negb (beyond y)) (subnodes x).
