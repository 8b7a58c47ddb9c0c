(** Trees compared without positions and trivia (C64).  Not modelled code. *)
From Coq Require Import List.
From Verif Require Import Chars Token Node NodeView ExprSpec LayoutSpec.
Import ListNotations.

(** The same constructors throughout and tokens of the same kinds and texts: equal but for positions and trivia. *)
Definition same_tree (x x' : node) : Prop := alike (fun _ _ => True) x x'.

(** Parameters where '*' or '/' stands among others: the node keeps them apart and does not tell the place. *)
Definition scattered (x : node) : bool :=
  match x with
  | VarArgsList _ _ (_ :: _) _ (Some _) _ _ _ _ | VarArgsList _ _ (_ :: _) _ _ _ _ _ (Some _) => true
  | TypeList _ _ (_ :: _) _ (Some _) _ _ _ => true
  | _ => false
  end.
