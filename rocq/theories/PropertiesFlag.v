(** C72: what a call depends on. *)
From Coq Require Import List Arith.
From Verif Require Import Chars SourceBuffer Token Tokenizer LexSpec Node NodeView ParserState Parser ParseSpec SessionSpec FlagSpec FlagProofs.
Import ListNotations.
Local Open Scope nat_scope.

(** C72.  The kind of 'except' noted by earlier calls makes no difference to the outcome of any function but the two that are called
    within a try statement: to the tree, the error, the panic, nor to where the parser is left. *)
Theorem C72_flag_forgotten : forall U n f s s', reads_flag f = false -> ps_lexer s = ps_lexer s' -> ps_symbol s = ps_symbol s' ->
  same_but_flag (run U n f s) (run U n f s').
Proof. intros U n f s s' R L S. exact (run_like U n f R s s' L S). Qed.
Print Assumptions C72_flag_forgotten.
(** Input functions depend on the tokenizer alone. *)
Theorem C72_inputs : forall U n f s s', input_fn f = true -> ps_lexer s = ps_lexer s' -> same_but_flag (run U n f s) (run U n f s').
Proof. exact run_input. Qed.
Print Assumptions C72_inputs.
(** So do whole sessions: a parser that has been used is as good as a new one at the same place. *)
Theorem C72_sessions : forall U s cs t s', session U s cs t -> ps_lexer s = ps_lexer s' ->
  exists t', session U s' cs t' /\ ps_lexer t = ps_lexer t'.
Proof. intros U s cs t s' H L. exact (session_like U s cs t H s' L). Qed.
Print Assumptions C72_sessions.

(** Cases: a parser that has noted 'except' reads a try statement with 'except*' as a new one does; the functions left out do differ. *)
Definition noted (c : except_status) (s : parser) : parser := mk_parser (ps_lexer s) (ps_symbol s) c.
Definition star_text : str := $"try: a" ++ [LF] ++ $"except* b: c" ++ [LF].
Example C72_case : exists x s, run ascii_only 80 F_file_input (fresh star_text) = Ok x s /\
  exists s', run ascii_only 80 F_file_input (noted Except (fresh star_text)) = Ok x s' /\ length (tokens x) = 11.
Proof. eexists. eexists. split; [vm_compute; reflexivity|]. eexists. split; vm_compute; reflexivity. Qed.
Definition clause : parser := match advance ascii_only (fresh $"except* b: c") with Ok _ s => s | _ => fresh [] end.
Example C72_left_out : (exists x s, run ascii_only 80 F_except_clause clause = Ok x s) /\
  exists e, run ascii_only 80 F_except_clause (noted Except clause) = Err e.
Proof. split; [eexists; eexists; vm_compute; reflexivity|eexists; vm_compute; reflexivity]. Qed.
