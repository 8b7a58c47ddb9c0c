(** Texts written down again, and the token sequences there are: C55, C56, C57. *)
From Coq Require Import List Arith Bool Lia.
From Verif Require Import Chars SourceBuffer Token Tokenizer LexSpec TokenSpec Node NodeView TreeSpec ParserState Parser ParseBasics ParseSpec
  ExprSpec LayoutSpec PrintSpec SequenceSpec PrintProofs NewlineProofs PropertiesLayout.
Import ListNotations.
Local Open Scope nat_scope.

(** C55.  The tokens of a text without lexical errors, written down in the fixed layout of PrintSpec (one space between
    tokens, one for each level of indentation, no comments), are read back. *)
Theorem C55_written_out_scanned : forall U text fs, map event_face (scanned U text) = map Some fs ->
  map event_face (scanned U (written_out fs)) = map Some fs.
Proof. exact written_out_scanned. Qed.
Print Assumptions C55_written_out_scanned.

(** Every entry point treats the two texts alike. *)
Theorem C55_written_out_parsed : forall U text fs f n, map event_face (scanned U text) = map Some fs -> input_fn f = true ->
  same_outcome (corresponding U text U (written_out fs)) (run U n f (fresh text)) (run U n f (fresh (written_out fs))).
Proof. exact written_out_parsed. Qed.
Print Assumptions C55_written_out_parsed.

(** For an accepted text the tokens can be read off the tree alone, in the order of [written] (C47): the tree determines a text
    that is parsed to the same tree, places and trivia aside. *)
Theorem C55_tree_written_out : forall U text n f x s', f = F_file_input \/ f = F_eval_input \/ f = F_func_type_input ->
  run U n f (fresh text) = Ok x s' ->
  exists ts x' s'', written x ts /\ scanned U text = map inl ts /\
    run U n f (fresh (written_out (map face ts))) = Ok x' s'' /\
    alike (corresponding U text U (written_out (map face ts))) x x'.
Proof. exact tree_written_out. Qed.
Print Assumptions C55_tree_written_out.

(** Writing down twice is writing down once. *)
Theorem C55_written_out_again : forall U text fs fs', map event_face (scanned U text) = map Some fs ->
  map event_face (scanned U (written_out fs)) = map Some fs' -> written_out fs' = written_out fs.
Proof. exact written_out_again. Qed.
Print Assumptions C55_written_out_again.

Definition faces (text : str) : list (kind * payload) :=
  flat_map (fun ev => match event_face ev with Some x => [x] | None => [] end) (scanned ascii_only text).
Example C55_case : map event_face (scanned ascii_only laid_out) = map Some (faces laid_out) /\
  written_out (faces laid_out) = $"while a :" ++ [LF] ++ $" f ( 1 )" ++ [LF].
Proof. split; vm_compute; reflexivity. Qed.
(** Blank lines, a type comment inside brackets, strings and a dedent over two blocks: *)
Definition mixed : str := $"if a:" ++ [LF] ++ $"    if b:" ++ [LF] ++ $"        c = [1, # type: int" ++ [LF] ++ $"'x y' , rF" ++ [DQ] ++ $"#" ++ [DQ] ++
  $"]" ++ [LF] ++ $"d += 0xff   # last" ++ [LF].
Definition mixed_out : str := $"if a :" ++ [LF] ++ $" if b :" ++ [LF] ++ $"  c = [ 1 , # type:" ++ [LF] ++ $"'x y' , rF" ++ [DQ] ++ $"#" ++ [DQ] ++
  $" ]" ++ [LF] ++ $"d += 0xff" ++ [LF].
Example C55_mixed : map event_face (scanned ascii_only mixed) = map Some (faces mixed) /\ written_out (faces mixed) = mixed_out /\
  faces mixed_out = faces mixed.
Proof. split; [vm_compute; reflexivity|]. split; vm_compute; reflexivity. Qed.
Example C55_tree : exists x s', run ascii_only 60 F_file_input (fresh laid_out) = Ok x s'.
Proof. eexists _, _. vm_compute. reflexivity. Qed.

(** C56.  Exactly the sequences of SequenceSpec are the tokens of some text without lexical errors. *)
Theorem C56_streams_exact : forall U fs,
  (exists text, map event_face (scanned U text) = map Some fs) <-> stream U Start 0 [] fs.
Proof. exact streams_exact. Qed.
Print Assumptions C56_streams_exact.

(** The tokens before the first lexical error are the beginning of such a sequence, which could have ended there. *)
Theorem C56_stream_prefix : forall U text ts l, history U text (map inl ts) l -> Forall (fun t => tk_kind t <> T_EOF) ts ->
  stream U Start 0 [] (map face ts ++ [(T_EOF, NoPayload)]).
Proof. exact stream_prefix. Qed.
Print Assumptions C56_stream_prefix.

(** In particular a Newline follows a token of its line: never another Newline, an Indent or a Dedent, and it is never first. *)
Theorem C56_newline_after_token : forall U text evs l t l', history U text evs l -> get_symbol U l = LOk t l' -> tk_kind t = T_Newline ->
  (forall ev, In ev evs -> exists u, ev = inl u) ->
  exists evs' u, evs = evs' ++ [inl u] /\ ~ (tk_kind u = T_Newline \/ tk_kind u = T_Indent \/ tk_kind u = T_Dedent).
Proof. exact newline_after_token. Qed.
Print Assumptions C56_newline_after_token.

Example C56_case : stream ascii_only Start 0 [] (faces mixed).
Proof. apply C56_streams_exact. exists mixed. vm_compute. reflexivity. Qed.
Example C56_newlines :
  map fst (faces mixed) = [PyIf; T_AtomName; PyColon; T_Newline; T_Indent; PyIf; T_AtomName; PyColon; T_Newline; T_Indent; T_AtomName; PyAssign;
    PyLeftBracket; T_AtomNumber; PyComa; T_TypeComment; T_AtomString; PyComa; T_AtomString; PyRightBracket; T_Newline; T_Dedent; T_Dedent;
    T_AtomName; PyPlusAssign; T_AtomNumber; T_Newline; T_EOF].
Proof. vm_compute. reflexivity. Qed.
(** Not every sequence is one: none begins with a Newline, a Dedent or two Indents. *)
Example C56_not : forall rest, ~ stream ascii_only Start 0 [] ((T_Newline, NoPayload) :: rest) /\
  ~ stream ascii_only Start 0 [] ((T_Dedent, NoPayload) :: rest) /\
  ~ stream ascii_only Start 0 [] ((T_Indent, NoPayload) :: (T_Indent, NoPayload) :: rest).
Proof.
  intros rest. split; [|split].
  - apply layout_first; [auto|discriminate].
  - apply layout_first; [auto|discriminate].
  - intros H. inversion H as [? ? ? NS|? ? ? ? ? ? ? SS|? ? ? SS|? ? ? ? SS|? ? H1|? ? H1|? j ? J H1 E]; subst.
    + destruct SS as [X|[X|[X|(X & _)]]]; discriminate X.
    + revert H1. apply layout_first; auto.
    + revert H1. apply layout_first; auto.
    + lia.
Qed.

(** C57.  The Newline tokens an input node keeps besides those of its statements: none for a file, at most one after an expression
    or a function type. *)
Theorem C57_file_newlines : forall U text n x s', run U n F_file_input (fresh text) = Ok x s' ->
  exists a b xs t, x = FileInput a b xs [] t.
Proof. exact file_newlines. Qed.
Print Assumptions C57_file_newlines.
Theorem C57_eval_newlines : forall U text n x s', run U n F_eval_input (fresh text) = Ok x s' ->
  exists a b y nl t, x = EvalInput a b y nl t /\ length nl <= 1.
Proof. exact eval_newlines. Qed.
Print Assumptions C57_eval_newlines.
Theorem C57_func_type_newlines : forall U text n x s', run U n F_func_type_input (fresh text) = Ok x s' ->
  exists a b y nl t, x = FuncTypeInput a b y nl t /\ length nl <= 1.
Proof. exact func_type_newlines. Qed.
Print Assumptions C57_func_type_newlines.

(** An interactive input is accepted only if it is a line of simple statements: neither an empty line nor any compound statement is. *)
Theorem C57_single_simple_only : forall U text n x s', run U n F_single_input (fresh text) = Ok x s' ->
  exists a b c d xs ts nl, x = SingleInput a b (Some (SimpleStmtList c d xs ts nl)) None.
Proof. exact single_simple_only. Qed.
Print Assumptions C57_single_simple_only.
Theorem C57_single_no_compound : forall U text n x s' t rest, run U n F_single_input (fresh text) = Ok x s' -> scanned U text = inl t :: rest ->
  ~ In (tk_kind t) [T_Newline; PyIf; PyWhile; PyFor; PyTry; PyWith; PyDef; PyClass; PyAsync; PyMatrice].
Proof. exact single_no_compound. Qed.
Print Assumptions C57_single_no_compound.

Definition accepts (f : fn) (text : str) : bool := match run ascii_only 60 f (fresh text) with Ok _ _ => true | _ => false end.
Example C57_case : accepts F_single_input ($"a = 1; b" ++ [LF]) = true /\ accepts F_single_input ($"if a: pass" ++ [LF; LF]) = false /\
  accepts F_single_input [LF] = false /\ accepts F_file_input ($"a" ++ [LF; LF; LF] ++ $"b" ++ [LF]) = true /\
  accepts F_eval_input ($"a" ++ [LF; LF; LF]) = true /\ accepts F_func_type_input ($"() -> a" ++ [LF]) = true.
Proof. vm_compute. auto 10. Qed.
Example C57_one : exists a b y nl t s', run ascii_only 60 F_eval_input (fresh ($"a" ++ [LF; LF; LF])) = Ok (EvalInput a b y [nl] t) s'.
Proof. eexists _, _, _, _, _, _. vm_compute. reflexivity. Qed.
