(** The steps of the parser: C67. *)
From Coq Require Import List Arith Bool Lia.
From Verif Require Import Chars SourceBuffer Token Tokenizer LexSpec Node ParserState Parser ParseSpec LayoutSpec Meter MeterParser MeterSame MeterProofs
  ExprSpec PropertiesExpr.
Import ListNotations.
Local Open Scope nat_scope.

(** C67.  Counting changes nothing. *)
Theorem C67_meter_same : forall U n f s c, fst (run_metered U n f s c) = run U n f s.
Proof. exact run_same. Qed.
Print Assumptions C67_meter_same.

(** Whenever the parser returns, with a tree, an error or a panic, it has made at most 62 calls and rounds for every token it took,
    and taken no more tokens than the text has, but one. *)
Theorem C67_steps_linear : forall U text n f o c, input_fn f = true -> run_metered U n f (fresh text) start_meter = (o, c) -> o <> Fuel ->
  steps c <= 62 * taken c + 60 /\ taken c <= length (scanned U text) + 1.
Proof. exact steps_linear. Qed.
Print Assumptions C67_steps_linear.
Theorem C67_steps_by_length : forall U text n f o c, input_fn f = true -> run_metered U n f (fresh text) start_meter = (o, c) -> o <> Fuel ->
  steps c <= 186 * length text + 370.
Proof. exact steps_by_length. Qed.
Print Assumptions C67_steps_by_length.
(** If it accepts the whole text, it has taken every token once. *)
Theorem C67_taken_once : forall U text n f x s' c, f = F_file_input \/ f = F_eval_input \/ f = F_func_type_input ->
  run_metered U n f (fresh text) start_meter = (Ok x s', c) -> taken c = length (scanned U text).
Proof. exact taken_once. Qed.
Print Assumptions C67_taken_once.

(** Cases: an accepted text, with its steps; a slice that ends with the text, for which the end is taken twice. *)
Definition counted (f : fn) (text : str) : meter := snd (run_metered ascii_only 400 f (fresh text) start_meter).
Definition long_text : str := $"while a:" ++ [LF] ++ $"    f(lambda x: [x], (1))" ++ [LF] ++ $"    g = h + 2, k" ++ [LF].
Example C67_case : fst (run_metered ascii_only 400 F_file_input (fresh long_text) start_meter) <> Fuel /\
  taken (counted F_file_input long_text) = length (scanned ascii_only long_text) /\ counted F_file_input long_text = mk_meter 278 29.
Proof. split; [vm_compute; discriminate|split; vm_compute; reflexivity]. Qed.
Example C67_end_twice : taken (counted F_eval_input $"a[b:c") = length (scanned ascii_only $"a[b:c") + 1 /\
  fst (run_metered ascii_only 400 F_eval_input (fresh $"a[b:c") start_meter) <> Fuel.
Proof. split; [vm_compute; reflexivity|vm_compute; discriminate]. Qed.
