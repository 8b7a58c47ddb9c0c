(** Which part of the character tables matters: C69. *)
From Coq Require Import List Arith NArith Bool Lia.
From Verif Require Import Chars SourceBuffer Token Tokenizer LexSpec Node ParserState Parser ParseSpec LayoutSpec TableSpec TableProofs
  PropertiesParse1.
Import ListNotations.
Local Open Scope nat_scope.

(** C69.  Tables that agree on the characters of the text above ASCII give the same tokens, and the same outcome of every function
    of the parser, with any amount of fuel: the same tree, error, panic and remaining state. *)
Theorem C69_tables_local : forall text U U', tables_agree text U U' ->
  scanned U text = scanned U' text /\ forall n f, run U n f (fresh text) = run U' n f (fresh text).
Proof. exact tables_local. Qed.
Print Assumptions C69_tables_local.
(** So nothing depends on the tables for an ASCII text. *)
Theorem C69_ascii : forall text U U', ascii_text text ->
  scanned U text = scanned U' text /\ forall n f, run U n f (fresh text) = run U' n f (fresh text).
Proof. exact ascii_tables. Qed.
Print Assumptions C69_ascii.

(** A table in which pi (U+03C0) is a letter, and one in which a-umlaut is one too; a text with the one and not the other; and the
    same text rejected by a table that differs in pi. *)
Definition with_pi : unicode := {| uni_alphabetic := fun c => (c =? 960)%N; uni_numeric := fun _ => false |}.
Definition with_both : unicode := {| uni_alphabetic := fun c => (c =? 960)%N || (c =? 228)%N; uni_numeric := fun c => (c =? 178)%N |}.
Definition pi_text : str := [960%N] ++ $"r = 2" ++ [LF].
Example C69_case : tables_agree pi_text with_pi with_both /\ ok (run with_pi 100 F_file_input (fresh pi_text)) = true /\
  ok (run ascii_only 100 F_file_input (fresh pi_text)) = false.
Proof.
  split; [|split; vm_compute; reflexivity]. intros c I L. unfold pi_text in I. cbn in I.
  repeat (destruct I as [<-|I]; [try lia; split; reflexivity|]). contradiction I.
Qed.
