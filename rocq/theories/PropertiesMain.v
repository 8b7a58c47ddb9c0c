(** C51: the demonstration program. *)
From Coq Require Import List Arith Lia.
From Verif Require Import Chars SourceBuffer Token Tokenizer Node ParserState Parser Monotone Main.
Import ListNotations.
Local Open Scope nat_scope.

Lemma main_prints : forall U fuel, 10 <= fuel -> main U fuel = Some [$"PythonCore written in Rust!"; $"Oh yeah!"].
Proof.
  intros U fuel L. assert (B : main U 10 = Some [$"PythonCore written in Rust!"; $"Oh yeah!"]) by (vm_compute; reflexivity).
  rewrite <- B. unfold main. cbv zeta.
  replace (bind (advance U) (fun _ => run U fuel F_atom_expr) (parser_new (lexer_new $"__init__")))
    with (bind (advance U) (fun _ => run U 10 F_atom_expr) (parser_new (lexer_new $"__init__"))); [reflexivity|].
  unfold bind. destruct (advance U (parser_new (lexer_new $"__init__"))) as [[] s| | |] eqn:A; try reflexivity.
  symmetry. apply run_fixed; [exact L|]. vm_compute in A. injection A as <-. vm_compute. discriminate.
Qed.

(** C51.  The program prints its greeting and then the report of success, whatever Unicode tables the
    character tests use; it never prints "Failed!", panics or runs on. *)
Theorem C51_main : forall U fuel, 10 <= fuel -> main U fuel = Some [$"PythonCore written in Rust!"; $"Oh yeah!"].
Proof. exact main_prints. Qed.
Print Assumptions C51_main.
Example C51_case : main ascii_only 10 <> None /\ main ascii_only 0 = None.
Proof. vm_compute. split; [discriminate|reflexivity]. Qed.
