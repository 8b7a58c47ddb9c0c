(** The language of the parser, exactly: the specification side of C59 besides the grammar (CodedGrammar.v).
    Not modelled code. *)
From Coq Require Import List.
From Verif Require Import Chars Token.
Import ListNotations.

(** The name 'match', on which the parser panics where a statement begins. *)
Definition is_match (t : token) : Prop := tk_kind t = T_AtomName /\ text_of t = $"match".
(** No statement begins with it: it is neither the first token nor the first one of a line or a block. *)
Definition opens_line (k : kind) : Prop := k = T_Newline \/ k = T_Indent \/ k = T_Dedent.
Definition calm (ts : list token) : Prop := forall a t u b, ts = a ++ t :: u :: b -> opens_line (tk_kind t) -> ~ is_match u.
Definition no_match (ts : list token) : Prop := (forall t b, ts = t :: b -> ~ is_match t) /\ calm ts.
