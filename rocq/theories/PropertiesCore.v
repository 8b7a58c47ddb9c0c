(** Texts of Python that are accepted: C60. *)
From Coq Require Import List Arith Bool NArith.
From Verif Require Import Chars SourceBuffer Token Tokenizer LexSpec TokenSpec Node ParserState Parser ParseBasics ParseSpec ParseCorollaries Completeness TermStable
  LayoutSpec PythonGrammar PythonSpec Recognise CodedGrammar CodedSpec CoreGrammar CoreProofs PropertiesLayout PropertiesPrint PropertiesParse1 PropertiesParse2 PropertiesPython PropertiesCoded.
Import ListNotations.
Local Open Scope nat_scope.

(** C60.  A text whose tokens are a sentence of the core of Python, a grammar that leaves out alternatives of Python's rules
    (CoreGrammar), is Python and is accepted, if no statement begins with the name 'match'. *)
Theorem C60_core_files_partial : forall U text ts, scanned U text = map inl ts -> fits core (R file_input) (map tk_kind ts) -> no_match ts ->
  sentence file_input (map tk_kind ts) /\ exists x s', parsed U F_file_input (fresh text) x s'.
Proof. exact core_files. Qed.
Print Assumptions C60_core_files_partial.
Theorem C60_core_expressions_partial : forall U text ts, scanned U text = map inl ts -> fits core (R eval_input) (map tk_kind ts) ->
  sentence eval_input (map tk_kind ts) /\ exists x s', parsed U F_eval_input (fresh text) x s'.
Proof. exact core_expressions. Qed.
Print Assumptions C60_core_expressions_partial.
Theorem C60_core_function_types_partial : forall U text ts, scanned U text = map inl ts -> fits core (R func_type_input) (map tk_kind ts) ->
  sentence func_type_input (map tk_kind ts) /\ exists x s', parsed U F_func_type_input (fresh text) x s'.
Proof. exact core_function_types. Qed.
Print Assumptions C60_core_function_types_partial.

(** Not every sentence of Python is accepted: for each alternative left out there is one that is rejected. *)
Definition missed (r : rule) (f : fn) (text : str) : Prop :=
  (exists ts, scanned ascii_only text = map inl ts /\ sentence r (map tk_kind ts)) /\ rejects ascii_only f (fresh text).
Definition judged_by (G : rule -> ebnf) (r : rule) (text : str) : option bool :=
  match token_kinds text with Some ks => whole G (N.to_nat 2000) r (map Word ks) | None => None end.
Lemma judged_in G r text : judged_by G r text = Some true -> exists ts, scanned ascii_only text = map inl ts /\ fits G (R r) (map tk_kind ts).
Proof.
  intros J. unfold judged_by in J. destruct (token_kinds text) as [ks|] eqn:K; [|discriminate].
  assert (E : exists ts, scanned ascii_only text = map inl ts).
  { clear J. unfold token_kinds in K. revert ks K.
    induction (scanned ascii_only text) as [|[t|e] evs IH]; intros ks K; [exists []; reflexivity| |discriminate K].
    cbn [fold_right] in K. destruct (fold_right _ _ evs) as [ks'|]; [|discriminate]. destruct (IH ks' eq_refl) as (ts & ->). exists (t :: ts). reflexivity. }
  destruct E as (ts & E). exists ts. split; [exact E|]. rewrite (token_kinds_map _ _ _ K E) in J. apply whole_exact in J. tauto.
Qed.
Lemma by_outcome r f text : judged_by python r text = Some true -> ok (TermStable.outcome_of ascii_only f (fresh text)) = false -> missed r f text.
Proof. intros J H. split; [apply judged_in; exact J|apply stuck_rejects; exact H]. Qed.
Definition missed_texts : list str := map ended
  [ $"def f(a): pass"; $"def f(a, b=1, *c, d: int = 2, **e): pass"; $"async def f(): pass"; $"@a" ++ [LF] ++ $"class B: pass"; $"lambda *, a: a"; $"lambda *a,: a"; $"lambda a,: a";
    $"x = *a, b"; $"a, = b, = c"; $"x = b, # type: c"; $"del a,"; $"del (a), b,"; $"assert a, b"; $"from a import b,"; $"from a import (b,)";
    $"if a := b: pass"; $"while a := b: pass"; $"for a in b: pass"; $"for a, b in c: pass"; $"[a for a in b]"; $"for a, in b, c,: pass"; $"with (a), b: pass"; $"with (a).b: pass"; $"with a: # type: b" ++ [LF] ++ $" pass";
    $"[a for a, in b if lambda: lambda: c]"; $"{}"; $"(a,)"; $"[a,]"; $"f(a=1)"; $"f(*a)"; $"f(**a)"; $"f(a for b, in c)"; $"f(a,)"; $"a[1,]"; $"a[1:2]"; $"a[:]"; $"a[::, 1]";
    $"{a: b, c: d, e: f}"; $"{a: b, c: d,}"; $"{a: b for c, in d}"; $"{a for b, in c}"; $"class A(b.c): pass"; $"class A(b,): pass"; $"yield"; $"(yield)"; $"(yield a,)";
    $"import a"; $"match = 1" ].
Theorem C60_python_accepted_refuted : Forall (missed file_input F_file_input) missed_texts.
Proof. unfold missed_texts. cbn [map]. repeat (apply Forall_cons; [apply by_outcome; vm_compute; reflexivity|]). apply Forall_nil. Qed.
Print Assumptions C60_python_accepted_refuted.

(** A text it speaks of. *)
Definition core_sample : str :=
  $"from .a.b import c as d, e" ++ [LF] ++ $"class A(B, m=C, *r):" ++ [LF] ++ $"    x: int = 1," ++ [LF] ++ $"    def f() -> int:" ++ [LF] ++
  $"        if a and not b < c: return f(x, -y ** 2)[1:2:3, g]" ++ [LF] ++ $"        elif d: x += yield y, *z" ++ [LF] ++
  $"        else: raise E(1) from None" ++ [LF] ++ $"        for a, *b in [d, e if f else g]: del a.b, c; continue" ++ [LF] ++
  $"try:" ++ [LF] ++ $"    with a as b, c: x = y = {1: 2, **z}" ++ [LF] ++ $"except E as e: h(lambda p, /, q=1, *r, **s: [i for i, in p if q])" ++ [LF] ++
  $"finally: global g; assert 'a' 'b' is not {...}" ++ [LF] ++ $"x.match(1)" ++ [LF].
Example C60_case : judged_by core file_input core_sample = Some true /\ ok (run ascii_only 400 F_file_input (fresh core_sample)) = true /\
  judged_by core eval_input ($"a if b else (c := d)") = Some true /\ judged_by core func_type_input ($"(int, *a, **b) -> c") = Some true.
Proof. vm_compute. auto. Qed.
