(** The language of the parser, exactly: C59. *)
From Coq Require Import List Arith Bool NArith Lia.
From Verif Require Import Chars SourceBuffer Token Tokenizer LexSpec TokenSpec Node NodeView ParserState Parser ParseBasics ParseSpec ParseCorollaries Completeness TermStable
  LayoutSpec PythonGrammar PythonSpec Recognise CodedGrammar CodedSpec CodedBlocks CodedInputs PropertiesLayout PropertiesPrint PropertiesParse1 PropertiesParse2 PropertiesPython.
Import ListNotations.
Local Open Scope nat_scope.

(** C59.  A file is accepted, with a plain tree, exactly if its tokens are a sentence of the EBNF grammar in CodedGrammar and
    none of its statements begins with the name 'match'; expressions and function types likewise. *)
Theorem C59_files_exact : forall U text,
  (exists x s', parsed U F_file_input (fresh text) x s' /\ plain x) <->
  (exists ts, scanned U text = map inl ts /\ fits coded (R file_input) (map tk_kind ts) /\ no_match ts).
Proof. exact files_exact. Qed.
Print Assumptions C59_files_exact.
Theorem C59_expressions_exact : forall U text,
  (exists x s', parsed U F_eval_input (fresh text) x s' /\ plain x) <->
  (exists ts, scanned U text = map inl ts /\ fits coded (R eval_input) (map tk_kind ts)).
Proof. exact expressions_exact. Qed.
Print Assumptions C59_expressions_exact.
Theorem C59_function_types_exact : forall U text,
  (exists x s', parsed U F_func_type_input (fresh text) x s' /\ plain x) <->
  (exists ts, scanned U text = map inl ts /\ fits coded (R func_type_input) (map tk_kind ts)).
Proof. exact function_types_exact. Qed.
Print Assumptions C59_function_types_exact.

(** An interactive input takes the tokens of one line; what follows is not looked at. *)
Theorem C59_single_exact : forall U text,
  (exists x s', parsed U F_single_input (fresh text) x s' /\ plain x) <->
  (exists ts l, history U text (map inl ts) l /\ fits coded (R single_input) (map tk_kind ts) /\ forall t b, ts = t :: b -> ~ is_match t).
Proof. exact single_exact. Qed.
Print Assumptions C59_single_exact.

(** So names, numbers, strings and layout do not matter: texts with tokens of the same kinds are accepted or not alike. *)
Theorem C59_kinds_decide : forall U1 text1 U2 text2 ts1 ts2,
  scanned U1 text1 = map inl ts1 -> scanned U2 text2 = map inl ts2 -> map tk_kind ts1 = map tk_kind ts2 -> no_match ts2 ->
  (exists x s', parsed U1 F_file_input (fresh text1) x s' /\ plain x) ->
  exists x s', parsed U2 F_file_input (fresh text2) x s' /\ plain x.
Proof. exact kinds_decide. Qed.
Print Assumptions C59_kinds_decide.

(** Both conditions are needed: there are texts accepted that are no sentences, ... *)
Definition judged_coded (r : rule) (text : str) : option bool :=
  match token_kinds text with Some ks => whole coded (N.to_nat 2000) r (map Word ks) | None => None end.
Lemma judged_fits r text b : judged_coded r text = Some b -> forall ts, scanned ascii_only text = map inl ts ->
  fits coded (R r) (map tk_kind ts) <-> b = true.
Proof.
  unfold judged_coded. intros J ts E. destruct (token_kinds text) as [ks|] eqn:K; [|discriminate].
  rewrite (token_kinds_map _ _ _ K E) in J. apply whole_exact in J. tauto.
Qed.
Definition odd (text : str) : Prop :=
  accepted text /\ forall ts, scanned ascii_only text = map inl ts -> ~ fits coded (R file_input) (map tk_kind ts).
Lemma by_both text : ok (run ascii_only 400 F_file_input (fresh text)) = true -> judged_coded file_input text = Some false -> odd text.
Proof.
  intros H J. split; [apply accepted_run; exact H|]. intros ts E F. apply (judged_fits _ _ _ J ts E) in F. discriminate F.
Qed.
Definition odd_texts : list str := map ended [ $"a[1:2 = 3]"; $"f(1:2 ; 3)"; $"try: a" ++ [LF] ++ $"except *E: b" ].
Theorem C59_plain_needed : Forall odd odd_texts.
Proof. unfold odd_texts. cbn [map]. repeat (apply Forall_cons; [apply by_both; vm_compute; reflexivity|]). apply Forall_nil. Qed.
Print Assumptions C59_plain_needed.
(** ... and sentences that are rejected, with a panic, because of the name 'match'. *)
Definition match_text : str := ended ($"match = 1").
Lemma by_tokens r text : judged_coded r text = Some true -> exists ts, scanned ascii_only text = map inl ts /\ fits coded (R r) (map tk_kind ts).
Proof.
  intros J. assert (E : exists ts, scanned ascii_only text = map inl ts).
  { unfold judged_coded in J. destruct (token_kinds text) as [ks|] eqn:K; [|discriminate]. clear J. unfold token_kinds in K. revert ks K.
    induction (scanned ascii_only text) as [|[t|e] evs IH]; intros ks K; [exists []; reflexivity| |discriminate K].
    cbn [fold_right] in K. destruct (fold_right _ _ evs) as [ks'|]; [|discriminate]. destruct (IH ks' eq_refl) as (ts & ->). exists (t :: ts). reflexivity. }
  destruct E as (ts & E). exists ts. split; [exact E|]. apply (judged_fits _ _ _ J ts E). reflexivity.
Qed.
Lemma stuck_rejects f text : ok (TermStable.outcome_of ascii_only f (fresh text)) = false -> rejects ascii_only f (fresh text).
Proof.
  intros H n x s' R. destruct (run_ok_mono _ _ _ _ _ _ R) as (k & Z).
  destruct (proj1 (outcome_of_spec ascii_only text f (fresh text) _ ltac:(eapply on_text_okay, (fresh_on_text ascii_only))) eq_refl) as (n0 & Y).
  specialize (Y (Nat.max n0 k) (Nat.le_max_l _ _)). rewrite (Z (Nat.max n0 k) (Nat.le_max_r _ _)) in Y. rewrite <- Y in H. discriminate H.
Qed.
Theorem C59_no_match_needed : refused match_text /\ exists ts, scanned ascii_only match_text = map inl ts /\ fits coded (R file_input) (map tk_kind ts).
Proof. split; [apply stuck_rejects; vm_compute; reflexivity|]. apply by_tokens. vm_compute. reflexivity. Qed.
Print Assumptions C59_no_match_needed.

(** Texts it speaks of, by both ways: what the parser accepts and what the recogniser of the grammar says. *)
Definition agree (text : str) : bool :=
  match judged_coded file_input text with Some b => Bool.eqb b (accepts F_file_input text) | None => false end.
Definition good_texts : list str := map ended
  [ $"a = b # type: x"; $"a = yield b, = c"; $"{a: b, **c}"; $"f(::3)[1, ::]"; $"for a, *b in c: pass"; $"[a for *a in b if lambda: c]";
    $"with (a, b as c,): d"; $"lambda a, /, b, *c, d=1, **e,: f"; $"class A(b, *c): a"; $"def f -> a: b"; $"from .a.b import (c, d as e)";
    $"try: a" ++ [LF] ++ $"except: b" ++ [LF] ++ $"else: c" ++ [LF] ++ $"finally: d"; $"a;b;"; $"x.match(1)" ].
Definition bad_texts : list str := map ended
  [ $"a, = b, # type: x"; $"{a: b, c: d, e: f}"; $"(a,)"; $"f(a=1)"; $"for a in b: pass"; $"with (a), b: c"; $"with (a).b: c"; $"lambda *, a: a";
    $"def f(a): b"; $"async def f(): a"; $"import a"; $"yield"; $"a;;b"; $"if a := b: c"; $"a[1:2]" ].
Example C59_case : forallb agree (good_texts ++ bad_texts) = true /\ forallb (accepts F_file_input) good_texts = true /\
  existsb (accepts F_file_input) bad_texts = false /\
  accepts F_single_input ($"a = 1; b" ++ [LF] ++ $"? ) c") = true /\ accepts F_single_input ($"a = 1; b") = false.
Proof. repeat split; vm_compute; reflexivity. Qed.
