(** C71, C73: one parser called again and again. *)
From Coq Require Import List Arith.
From Verif Require Import Chars SourceBuffer Token Tokenizer LexSpec Node NodeView ParserState Parser ParseSpec LayoutSpec TreeSpec
  SessionSpec SessionProofs.
Import ListNotations.
Local Open Scope nat_scope.

(** C71.  What holds: whatever the calls, the tokens of their trees are those of the text in order, but for the one symbol each call
    leaves the parser at.  Missing, since false: that this symbol is read by the next call. *)
Theorem C71_session_partial : forall U text cs s', session U (fresh text) cs s' ->
  exists evs, turns (map snd cs) evs /\ history U text evs (ps_lexer s').
Proof. exact session_turns. Qed.
Print Assumptions C71_session_partial.
(** Behind the first line of interactive input the symbol is always lost. *)
Theorem C71_second_loses_partial : forall U text x cs s', session U (fresh text) ((F_single_input, x) :: cs) s' ->
  exists ts d evs, written x ts /\ turns (map snd cs) evs /\ history U text (map inl ts ++ d :: evs) (ps_lexer s').
Proof. exact second_loses. Qed.
Print Assumptions C71_second_loses_partial.

(** The full claim fails: two lines read, the name in the second one is in neither tree. *)
Definition two_lines : str := $"a" ++ [LF] ++ $"b" ++ [LF].
Theorem C71_no_token_lost_refuted : exists x y s' t,
  session ascii_only (fresh two_lines) [(F_single_input, x); (F_single_input, y)] s' /\
  In (inl t) (scanned ascii_only two_lines) /\ tk_kind t = T_AtomName /\ ~ In t (tokens x) /\ ~ In t (tokens y).
Proof.
  eexists. eexists. eexists. eexists. split; [|split; [|split; [|split]]].
  - eapply SE_call; [reflexivity|exists 60; vm_compute; reflexivity|]. eapply SE_call; [reflexivity|exists 60; vm_compute; reflexivity|]. apply SE_none.
  - vm_compute. right. right. left. reflexivity.
  - reflexivity.
  - vm_compute. intros [H|[H|[]]]; discriminate H.
  - vm_compute. intros [H|[]]; discriminate H.
Qed.
Print Assumptions C71_no_token_lost_refuted.
(** Nor are errors kept: the tokenizer rejects the text, both calls succeed and go beyond the error. *)
Definition bad_line : str := $"a" ++ [LF] ++ $"0x b" ++ [LF].
Theorem C71_no_error_lost_refuted : exists x y s' e t,
  session ascii_only (fresh bad_line) [(F_single_input, x); (F_single_input, y)] s' /\
  In (inr e) (scanned ascii_only bad_line) /\ In t (tokens y) /\ tk_kind t = T_AtomName.
Proof.
  eexists. eexists. eexists. eexists. eexists. split; [|split; [|split]].
  - eapply SE_call; [reflexivity|exists 60; vm_compute; reflexivity|]. eapply SE_call; [reflexivity|exists 60; vm_compute; reflexivity|]. apply SE_none.
  - vm_compute. right. right. left. reflexivity.
  - vm_compute. left. reflexivity.
  - reflexivity.
Qed.
Print Assumptions C71_no_error_lost_refuted.

(** A case with three calls, the last of them for the rest of the text, which is then without its first token [c]. *)
Definition kinds_of_calls (fs : list fn) (text : str) : list (list kind) :=
  (fix go fs s := match fs with [] => [] | f :: fs => match run ascii_only 60 f s with Ok x s' => map tk_kind (tokens x) :: go fs s' | _ => [] end end) fs (fresh text).
Example C71_case : kinds_of_calls [F_single_input; F_single_input; F_file_input] ($"a" ++ [LF] ++ $"not b" ++ [LF] ++ $"c - 1" ++ [LF]) =
  [[T_AtomName; T_Newline]; [T_AtomName; T_Newline]; [PyMinus; T_AtomNumber; T_Newline; T_EOF]].
Proof. vm_compute. reflexivity. Qed.

(** C73.  After a call that took the text to its end, the only calls that succeed are those for a file; they give the empty file and
    leave the tokenizer where it is ... *)
Theorem C73_end_final : forall U text cs f x s ds s', f = F_file_input \/ f = F_eval_input \/ f = F_func_type_input ->
  session U (fresh text) (cs ++ [(f, x)]) s -> session U s ds s' -> Forall empty_file ds /\ ps_lexer s' = ps_lexer s.
Proof. exact end_final. Qed.
Print Assumptions C73_end_final.
(** ... and they do succeed, so that there may be any number of them. *)
Theorem C73_end_again : forall U text cs f x s, f = F_file_input \/ f = F_eval_input \/ f = F_func_type_input ->
  session U (fresh text) (cs ++ [(f, x)]) s -> exists y s', parsed U F_file_input s y s' /\ empty_file (F_file_input, y) /\ ps_lexer s' = ps_lexer s.
Proof. exact end_again. Qed.
Print Assumptions C73_end_again.
Example C73_case : kinds_of_calls [F_single_input; F_eval_input; F_file_input; F_file_input; F_eval_input] ($"a" ++ [LF] ++ $"not b" ++ [LF]) =
  [[T_AtomName; T_Newline]; [T_AtomName; T_Newline; T_EOF]; [T_EOF]; [T_EOF]].
Proof. vm_compute. reflexivity. Qed.
