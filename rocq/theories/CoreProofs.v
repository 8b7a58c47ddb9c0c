(** The core of Python (CoreGrammar.v): within Python, and within the language of the parser.  Proofs of C60. *)
From Coq Require Import List NArith.
From Verif Require Import Chars Token TokenSpec LexSpec ParserState Node Parser ParseBasics ParseSpec LayoutSpec PythonGrammar PythonSpec CodedGrammar CodedSpec CodedInputs Include CoreGrammar.
Import ListNotations.

Lemma core_python : forall r ks, fits core (R r) ks -> fits python (R r) ks.
Proof. apply (include core python (N.to_nat 400)). intros r. destruct r; vm_compute; reflexivity. Qed.
Lemma core_coded : forall r ks, fits core (R r) ks -> fits coded (R r) ks.
Proof. apply (include core coded (N.to_nat 400)). intros r. destruct r; vm_compute; reflexivity. Qed.

Theorem core_files : forall U text ts, scanned U text = map inl ts -> fits core (R file_input) (map tk_kind ts) -> no_match ts ->
  sentence file_input (map tk_kind ts) /\ exists x s', parsed U F_file_input (fresh text) x s'.
Proof.
  intros U text ts S F N. split; [apply core_python; exact F|]. apply core_coded in F.
  destruct (proj2 (files_exact U text)) as (x & s' & P & _); eauto.
Qed.
Theorem core_expressions : forall U text ts, scanned U text = map inl ts -> fits core (R eval_input) (map tk_kind ts) ->
  sentence eval_input (map tk_kind ts) /\ exists x s', parsed U F_eval_input (fresh text) x s'.
Proof.
  intros U text ts S F. split; [apply core_python; exact F|]. apply core_coded in F.
  destruct (proj2 (expressions_exact U text)) as (x & s' & P & _); eauto.
Qed.
Theorem core_function_types : forall U text ts, scanned U text = map inl ts -> fits core (R func_type_input) (map tk_kind ts) ->
  sentence func_type_input (map tk_kind ts) /\ exists x s', parsed U F_func_type_input (fresh text) x s'.
Proof.
  intros U text ts S F. split; [apply core_python; exact F|]. apply core_coded in F.
  destruct (proj2 (function_types_exact U text)) as (x & s' & P & _); eauto.
Qed.
