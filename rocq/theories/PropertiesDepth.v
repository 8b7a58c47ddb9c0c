(** C65: how deep the calls of the parser nest. *)
From Coq Require Import List Arith.
From Verif Require Import Chars SourceBuffer Token Tokenizer LexSpec Node ParserState Parser ParseSpec LayoutSpec
  DepthSpec DepthProofs DepthAmount DepthText.
Import ListNotations.
Local Open Scope nat_scope.

(** C65.  The calls nest no deeper than the tokens, up to the factor 40: with so much stack the parser gives what it gives with any
    more.  Left out: texts with slices. *)
Theorem C65_depth_by_nesting_partial : forall U text m f n d N, input_fn f = true -> without_slices U text -> nested_within U text m ->
  6 * length text + 8 <= n -> 40 * m + 34 <= d -> 192 * length text + 287 <= N ->
  run_deep U n d f (fresh text) = run U N f (fresh text).
Proof. exact depth_nesting. Qed.
Print Assumptions C65_depth_by_nesting_partial.

(** For every text, the number of all brackets, indents and nesting words is such a bound. *)
Theorem C65_depth_by_amount : forall U text m f n d N, input_fn f = true -> amounts_to U text m ->
  6 * length text + 8 <= n -> 40 * m + 34 <= d -> 192 * length text + 287 <= N ->
  run_deep U n d f (fresh text) = run U N f (fresh text).
Proof. exact depth_amount. Qed.
Print Assumptions C65_depth_by_amount.

(** With slices the nesting is no bound: texts of nesting 1 need any depth, although the parser returns on them. *)
Theorem C65_depth_by_nesting_refuted : forall U k, exists text, nested_within U text 1 /\
  (forall n d, d < k -> run_deep U n d F_eval_input (fresh text) = Fuel) /\
  exists N, returned (run U N F_eval_input (fresh text)).
Proof. exact slices_unbounded. Qed.
Print Assumptions C65_depth_by_nesting_refuted.

(** The bound is sharp up to the factor: nested parentheses take 17 calls each. *)
Theorem C65_nesting_needed : forall U k, exists text, without_slices U text /\ nested_within U text (S k) /\
  forall n d, d < 17 * S k -> run_deep U n d F_eval_input (fresh text) = Fuel.
Proof. exact parens_needed. Qed.
Print Assumptions C65_nesting_needed.

(** All three measures can be read off the tokens of a text without lexical errors. *)
Theorem C65_measured : forall U text ts t, scanned U text = map inl (ts ++ [t]) -> tk_kind t = T_EOF ->
  nested_within U text (tallest start_place (map tk_kind (ts ++ [t]))) /\
  (sliced start_place (map tk_kind (ts ++ [t])) = false -> without_slices U text) /\
  amounts_to U text (amount T_Newline (map tk_kind (ts ++ [t]))).
Proof. exact nesting_computed. Qed.
Print Assumptions C65_measured.

(** Examples. *)
Definition tokens_of (text : str) : list token :=
  flat_map (fun ev => match ev with inl t => [t] | inr _ => [] end) (scanned ascii_only text).
Definition kinds_of_text (text : str) : list kind := map tk_kind (tokens_of text).
(** A block, a call with a lambda and a list; a second statement of the same shape adds nothing to the nesting. *)
Definition nested_text : str := $"while a:" ++ [LF] ++ $"    f(lambda x: [x], (1))" ++ [LF] ++ $"    g(lambda y: [y], (2))" ++ [LF].
Example C65_nested : nested_within ascii_only nested_text 4 /\ without_slices ascii_only nested_text /\ amounts_to ascii_only nested_text 9.
Proof.
  assert (S : scanned ascii_only nested_text = map inl (removelast (tokens_of nested_text) ++ [List.last (tokens_of nested_text) dedent_token]))
    by (vm_compute; reflexivity).
  destruct (C65_measured _ _ _ _ S) as (A & B & C); [vm_compute; reflexivity|].
  split; [|split]; [|apply B; vm_compute; reflexivity|].
  - replace 4 with (tallest start_place (map tk_kind (removelast (tokens_of nested_text) ++ [List.last (tokens_of nested_text) dedent_token])))
      by (vm_compute; reflexivity). exact A.
  - replace 9 with (amount T_Newline (map tk_kind (removelast (tokens_of nested_text) ++ [List.last (tokens_of nested_text) dedent_token])))
      by (vm_compute; reflexivity). exact C.
Qed.
(** Depth 194 is enough, and the text is accepted; depth 60 is not enough. *)
Example C65_case : (exists x s', run_deep ascii_only 500 194 F_file_input (fresh nested_text) = Ok x s') /\
  run_deep ascii_only 500 60 F_file_input (fresh nested_text) = Fuel.
Proof. split; [eexists _, _; vm_compute; reflexivity|vm_compute; reflexivity]. Qed.
(** One slice after the other, on one level: each is read inside the one before it. *)
Definition slices_text : str := $"a[b:c] a[b:c] a[b:c] a[b:c]" ++ [LF].
Example C65_slices : tallest start_place (kinds_of_text slices_text) = 1 /\ sliced start_place (kinds_of_text slices_text) = true /\
  run_deep ascii_only 500 74 F_eval_input (fresh slices_text) = Fuel /\ returned (run_deep ascii_only 500 114 F_eval_input (fresh slices_text)).
Proof. split; [|split; [|split]]; vm_compute; [reflexivity..|exact I]. Qed.
