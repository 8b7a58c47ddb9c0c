(** Two character tables that say the same of the characters of a text (C69).  Not modelled code. *)
From Coq Require Import NArith.
From Verif Require Import Chars.

Definition tables_agree (text : str) (U U' : unicode) : Prop :=
  forall c, In c text -> (127 < c)%N -> uni_alphabetic U c = uni_alphabetic U' c /\ uni_numeric U c = uni_numeric U' c.
Definition ascii_text (text : str) : Prop := forall c, In c text -> (c <= 127)%N.
