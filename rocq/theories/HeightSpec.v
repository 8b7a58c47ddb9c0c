(** How tall a tree is: paths from a node down, each step from a node to one of the nodes it holds. *)
From Coq Require Import List.
From Verif Require Import Node NodeView.

Inductive path : node -> nat -> Prop :=
| P_here x : path x 0
| P_down x y k : In (Sub y) (items x) -> path y k -> path x (S k).
