(** Modules of statements: C52, C53. *)
From Coq Require Import List Arith Bool Lia.
From Verif Require Import Chars SourceBuffer Token Tokenizer LexSpec TokenSpec RenderSpec Node NodeView ParserState Parser ParseBasics ParseSpec
  GrammarSpec ExprSpec ExprPrint StmtSpec StmtText StmtExact PropertiesExpr.
Import ListNotations.
Local Open Scope nat_scope.

(** C52.  The lines of any module of statements, with any indentation of the blocks and any blanks
    between the tokens, are parsed to that module; *)
Theorem C52_parsed : forall U m xs, module_fits m -> writes_module U m xs ->
  exists a b ys t s', parsed U F_file_input (fresh (RenderSpec.text_of xs)) (FileInput a b ys [] t) s' /\
    module_of (FileInput a b ys [] t) = Some m.
Proof. exact module_parsed. Qed.
Print Assumptions C52_parsed.

(** so two modules never share a text, *)
Theorem C52_unambiguous : forall U m1 m2 xs ys, module_fits m1 -> module_fits m2 -> writes_module U m1 xs -> writes_module U m2 ys ->
  RenderSpec.text_of xs = RenderSpec.text_of ys -> m1 = m2.
Proof. exact module_unambiguous. Qed.
Print Assumptions C52_unambiguous.

(** and the text with four blanks for every block and one between tokens is parsed back to the module. *)
Theorem C52_canonical_text : forall U m, module_fits m -> module_writable U m ->
  exists a b ys t s', parsed U F_file_input (fresh (module_text m)) (FileInput a b ys [] t) s' /\
    module_of (FileInput a b ys [] t) = Some m.
Proof. exact module_text_parsed. Qed.
Print Assumptions C52_canonical_text.
Theorem C52_text_injective : forall U m1 m2, module_fits m1 -> module_fits m2 -> module_writable U m1 -> module_writable U m2 ->
  module_text m1 = module_text m2 -> m1 = m2.
Proof. exact module_text_injective. Qed.
Print Assumptions C52_text_injective.

(** The tokens of the lines are all that matters. *)
Theorem C52_by_tokens : forall U m xs ts, module_fits m -> program U [0] xs (ts ++ [(T_EOF, NoPayload)]) -> map strip ts = module_tokens m ->
  exists a b ys t s', parsed U F_file_input (fresh (RenderSpec.text_of xs)) (FileInput a b ys [] t) s' /\
    module_of (FileInput a b ys [] t) = Some m.
Proof. exact program_parsed. Qed.
Print Assumptions C52_by_tokens.

(** A module with nested blocks:
<<
class a ( b ) :
    def c ( ) -> d :
        for a , in b :
            if c < d : continue
            else :
                try :
                    a , b = yield c
                except * d as b :
                    return
                finally :
                    raise a from b
        else : pass ; c += d ,
>> *)
Definition one (e : ast) : listing := Listing [(false, e)] false.
Definition tried : stmt :=
  TryStmt (Block (Last (Simple (Smalls (Assign (Listing [(false, nm $"a"); (false, nm $"b")] false) (Yields (one (nm $"c"))) []) [] false))))
    (Handler true (Bound (nm $"d") (Text $"b")) (Block (Last (Simple (Smalls (Return None) [] false)))) NoHandler) Absent
    (Present (Block (Last (Simple (Smalls (Raise (Some (nm $"a", Some (nm $"b")))) [] false))))).
Definition looped : stmt :=
  ForStmt false (Listing [(false, nm $"a")] true) (one (nm $"b"))
    (Block (Last (IfStmt (Infix PyLess (nm $"c") (nm $"d")) (Inline (Smalls Continue [] false)) NoElif (Present (Block (Last tried))))))
    (Present (Inline (Smalls Pass [Augment PyPlusAssign (one (nm $"c")) (Values (Listing [(false, nm $"d")] true))] false))).
Definition nested : list stmt :=
  [ClassDef (Text $"a") (Some [(Text $"b", None)]) (Block (Last (FuncDef (Text $"c") (Some (nm $"d")) (Block (Last looped)))))].
Definition nested_text : str := concat (map (fun l => l ++ [LF])
  [$"class a ( b ) :"; $"    def c ( ) -> d :"; $"        for a , in b :"; $"            if c < d : continue"; $"            else :";
   $"                try :"; $"                    a , b = yield c"; $"                except * d as b :"; $"                    return";
   $"                finally :"; $"                    raise a from b"; $"        else : pass ; c += d ,"]).
Example C52_case : module_text nested = nested_text.
Proof. vm_compute. reflexivity. Qed.
Example C52_fits : module_fits nested /\ module_writable ascii_only nested.
Proof.
  split.
  - split; [|vm_compute; discriminate]. apply Forall_cons; [|apply Forall_nil].
    repeat first
      [ progress cbn [stmt_fits suite_fits block_fits elifs_fit handlers_fit clause_fits on_some snd fst what_fits nested looped tried]
      | match goal with
        | |- _ /\ _ => split
        | |- Forall _ (_ :: _) => apply Forall_cons
        | |- Forall _ [] => apply Forall_nil
        | |- True => exact I
        | |- smalls_fit _ => unfold smalls_fit; cbn [sm_first sm_more]
        | |- small_fits _ => progress cbn [small_fits chain_fits]
        | |- listing_fits _ _ => split; [discriminate|cbn [ls_items one]]
        | |- element_fits _ _ => unfold element_fits; cbn [fst snd]
        | |- StmtSpec.fits _ _ => split; [cbn; repeat split; try discriminate; try lia; cbn; tauto|cbn; lia]
        | |- source_fits _ _ => progress cbn [source_fits]
        | |- unstarred _ => repeat constructor
        | |- is_augmented _ => cbn; tauto
        | |- no_match _ => intros p (l' & E); vm_compute in E; first [discriminate E | injection E as <- _; vm_compute; discriminate]
        | |- ends_target _ => left; reflexivity
        end
      | reflexivity | (intro; discriminate) | (intros; discriminate)].
  - unfold module_writable. let l := eval vm_compute in (module_tokens nested) in change (module_tokens nested) with l.
    repeat (apply Forall_cons; [intros C; first [discriminate C | apply letter; cbn; tauto]|]). apply Forall_nil.
Qed.
(** The parser run on it, and on the same module with other blanks, a comment, a blank line and a line continued in brackets. *)
Definition parsed_module (s : str) : option (list stmt) :=
  match run ascii_only 400 F_file_input (fresh s) with Ok x _ => module_of x | _ => None end.
Example C52_run : parsed_module nested_text = Some nested.
Proof. vm_compute. reflexivity. Qed.
Example C52_run_loose : parsed_module (concat (map (fun l => l ++ [LF])
  [$"# a class"; $"class a("; $"  b):"; $" def c()->d:"; $"   for a,in b:"; $"      if c<d:continue"; []; $"      else:";
   $"       try:"; $"        a,b=yield c"; $"       except*d as b: # rest"; $"         return";
   $"       finally:"; $"               raise a from b"; $"   else:pass;c+=d,"])) = Some nested.
Proof. vm_compute. reflexivity. Qed.
(** 'except' and 'except*' in one statement are refused, but so is an 'except' behind a handler that contains a statement with
    'except*', which Python allows. *)
Definition handler_of (st : bool) (b : suite) (hs : handlers) : handlers := Handler st (Exactly (nm $"a")) b hs.
Definition pass_suite : suite := Inline (Smalls Pass [] false).
Definition inner : stmt := TryStmt pass_suite (handler_of true pass_suite NoHandler) Absent Absent.
Definition outer (second : bool) : list stmt :=
  [TryStmt pass_suite (handler_of false (Block (Last inner)) (handler_of second pass_suite NoHandler)) Absent Absent].
Example C52_mixed : module_note None (outer false) = None /\ module_note None (outer true) = Some (Some true) /\
  parsed_module (module_text (outer false)) = None /\ parsed_module (module_text (outer true)) = Some (outer true).
Proof. vm_compute. repeat split; reflexivity. Qed.

(** C53.  The parser returns a module for exactly the texts whose tokens are those of the module and newlines of their own:
    every text, with comments, blank lines, continued lines and any layout. *)
Theorem C53_exact : forall U text m,
  (exists x s', parsed U F_file_input (fresh text) x s' /\ module_of x = Some m) <->
  (module_fits m /\ exists ts t l, history U text (map inl ts ++ [inl t]) l /\ tk_kind t = T_EOF /\ laid m (map face ts)).
Proof. exact text_exact. Qed.
Print Assumptions C53_exact.

(** Texts with the same tokens, layout aside, have the same module. *)
Theorem C53_layout : forall U text1 text2 ts1 t1 l1 ts2 t2 l2 m,
  history U text1 (map inl ts1 ++ [inl t1]) l1 -> history U text2 (map inl ts2 ++ [inl t2]) l2 ->
  tk_kind t1 = T_EOF -> tk_kind t2 = T_EOF -> map face ts1 = map face ts2 -> Forall (fun t => tk_kind t <> T_EOF) ts1 ->
  (exists x s', parsed U F_file_input (fresh text1) x s' /\ module_of x = Some m) ->
  exists x s', parsed U F_file_input (fresh text2) x s' /\ module_of x = Some m.
Proof. exact same_module. Qed.
Print Assumptions C53_layout.

(** For lines of known tokens this decides the module. *)
Theorem C53_lines : forall U m xs ts, program U [0] xs (ts ++ [(T_EOF, NoPayload)]) ->
  (exists x s', parsed U F_file_input (fresh (RenderSpec.text_of xs)) x s' /\ module_of x = Some m) <->
  (module_fits m /\ laid m (map strip ts)).
Proof. exact program_exact. Qed.
Print Assumptions C53_lines.

(** The module [nested] and its two texts: both are parsed to it, so by [C53_exact] both have its tokens; the mixed handlers above
    do not fit, so no text at all is parsed to them. *)
Example C53_case : exists ts t l, history ascii_only nested_text (map inl ts ++ [inl t]) l /\ tk_kind t = T_EOF /\ laid nested (map face ts).
Proof.
  apply (C53_exact ascii_only nested_text nested). destruct (C52_canonical_text ascii_only nested (proj1 C52_fits) (proj2 C52_fits)) as (a & b & ys & t & s' & P & M).
  rewrite C52_case in P. eauto.
Qed.
Example C53_case_none : forall U text x s', parsed U F_file_input (fresh text) x s' -> module_of x <> Some (outer false).
Proof.
  intros U text x s' P M. assert (H : module_fits (outer false)) by (apply (C53_exact U text (outer false)); eauto).
  destruct H as (_ & N). apply N. vm_compute. reflexivity.
Qed.
