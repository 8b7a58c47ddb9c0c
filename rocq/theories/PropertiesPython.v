(** The accepted texts and the grammar of Python: C58. *)
From Coq Require Import List Arith Bool NArith Lia.
From Verif Require Import Chars SourceBuffer Token Tokenizer LexSpec TokenSpec Node NodeView ParserState Parser ParseBasics ParseSpec
  LayoutSpec PythonGrammar PythonSpec Recognise PythonProofs PythonInputs PropertiesLayout PropertiesPrint.
Import ListNotations.
Local Open Scope nat_scope.

(** C58.  The tokens of an accepted file, expression or function type are a sentence of the grammar of Python, where the tree
    shows none of the departures listed in PythonSpec. *)
Theorem C58_accepted_is_python_partial : forall U text n f r x s', whole_input f r -> run U n f (fresh text) = Ok x s' -> regular x ->
  exists ts, scanned U text = map inl ts /\ sentence r (map tk_kind ts).
Proof. exact accepted_python. Qed.
Print Assumptions C58_accepted_is_python_partial.

(** An accepted interactive input begins with such tokens. *)
Theorem C58_single_is_python_partial : forall U text n x s', run U n F_single_input (fresh text) = Ok x s' -> regular x ->
  exists ts l, history U text (map inl ts) l /\ sentence single_input (map tk_kind ts).
Proof. exact accepted_single. Qed.
Print Assumptions C58_single_is_python_partial.

(** The functions for phrases, from any state: what they read is a phrase of the rule named in [main]. *)
Theorem C58_phrase_is_python_partial : forall U n f e s x s', main f = Some e -> run U n f s = Ok x s' -> regular x ->
  exists l, reads U s l s' /\ fits python e (map (fun t => tk_kind (snd t)) l).
Proof. exact phrase_python. Qed.
Print Assumptions C58_phrase_is_python_partial.

(** Without the condition on the tree this is false, for every clause of it: texts with Python's own tokens that no version
    of Python accepts are accepted. *)
Definition token_kinds (text : str) : option (list kind) :=
  fold_right (fun ev o => match ev, o with inl t, Some ks => Some (tk_kind t :: ks) | _, _ => None end) (Some []) (scanned ascii_only text).
Definition foreign (f : fn) (r : rule) (text : str) : Prop :=
  (exists n x s', run ascii_only n f (fresh text) = Ok x s') /\
  forall ts, scanned ascii_only text = map inl ts -> ~ sentence r (map tk_kind ts).
Lemma token_kinds_map text ks ts : token_kinds text = Some ks -> scanned ascii_only text = map inl ts -> ks = map tk_kind ts.
Proof.
  unfold token_kinds. intros H E. rewrite E in H. clear E. revert ks H.
  induction ts as [|t ts IH]; cbn [map fold_right]; intros ks H; [congruence|].
  destruct (fold_right _ _ (map inl ts)) as [ks'|] eqn:V; [|discriminate]. injection H as <-. f_equal. auto.
Qed.
Definition judged (r : rule) (text : str) : option bool :=
  match token_kinds text with Some ks => whole python (N.to_nat 2000) r (map Word ks) | None => None end.
Lemma by_judge f r text : accepts f text = true -> judged r text = Some false -> foreign f r text.
Proof.
  unfold accepts, judged, foreign. intros A J. split.
  - destruct (run ascii_only 60 f (fresh text)) as [x s'| | |] eqn:V; try discriminate. eauto.
  - intros ts E S. destruct (token_kinds text) as [ks|] eqn:K; [|discriminate].
    rewrite (token_kinds_map _ _ _ K E) in J. apply whole_exact in J. apply J in S. discriminate.
Qed.
Definition ended (text : str) : str := text ++ [LF].
Definition foreign_texts : list str := map ended
  [ $"assert a from b"; $"def f: pass"; $"lambda *a=1: b"; $"lambda **a=1: b"; $"a(1:2:3)"; $"a[1:2 = 3]"; $"del a < b"; $"for a := b, in c: pass";
    $"[a for a < b, in c]"; $"class A(b, /): pass"; $"class A(*a=1): pass"; $"try: a" ++ [LF] ++ $"except *: b" ].
Theorem C58_accepted_is_python_refuted : Forall (foreign F_file_input file_input) foreign_texts.
Proof. unfold foreign_texts. cbn [map]. repeat (apply Forall_cons; [apply by_judge; vm_compute; reflexivity|]). apply Forall_nil. Qed.
Print Assumptions C58_accepted_is_python_refuted.

(** Texts the theorem speaks of. *)
Definition tree_of (f : fn) (text : str) : option node := match run ascii_only 60 f (fresh text) with Ok x _ => Some x | _ => None end.
Definition fine (f : fn) (text : str) : Prop := match tree_of f text with Some x => regular x | None => False end.
Definition sample : str := $"while a and not b:" ++ [LF] ++ $"    x = [f(1, y), {2, *z}]; del c" ++ [LF] ++ $"    try: d" ++ [LF] ++
  $"    except E as e: raise" ++ [LF] ++ $"else: lambda p, q=1, *r: p" ++ [LF] ++ $"def f() -> int: return a[1:2:3]" ++ [LF].
Lemma by_list f text l : option_map subnodes (tree_of f text) = Some l -> Forall decent l -> fine f text.
Proof. unfold fine, regular. destruct (tree_of f text); cbn; [|discriminate]. intros [= ->]. auto. Qed.
Ltac fine := eapply by_list; [vm_compute; reflexivity|]; repeat first [apply Forall_nil | apply Forall_cons; [cbv; intuition (auto; lia)|]].
Example C58_case : fine F_file_input laid_out /\ fine F_file_input sample /\ judged file_input sample = Some true.
Proof. split; [fine|]. split; [fine|vm_compute; reflexivity]. Qed.
Example C58_inputs : fine F_eval_input ($"a if b else c") /\ fine F_func_type_input ($"(int, *str) -> a") /\
  fine F_single_input ($"a = yield b; c" ++ [LF]).
Proof. split; [fine|]. split; fine. Qed.
