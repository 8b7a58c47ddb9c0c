(** What the parser accepts is Python: the proofs of C58 for whole inputs. *)
From Coq Require Import List Arith Lia Bool NArith.
From Verif Require Import Chars SourceBuffer Token Tokenizer LexBasics LexSpec WellFormed CallLemmas HistoryProofs TokenSpec ParserState Node NodeView Parser ParseBasics ParseSpec
  GrammarSpec SoundBasics Soundness ParseCorollaries EndProofs YieldProofs LayoutSpec PrintSpec SequenceSpec PrintProofs NewlineProofs SchemaSpec SchemaProofs PythonGrammar PythonSpec Recognise PythonProofs.
Import ListNotations.
Local Open Scope nat_scope.
Local Open Scope ebnf_scope.

(** ** Inputs *)
Lemma lines_python c l la xs ts c' : lines c l la xs ts c' -> Forall regular xs -> fits python (Star (one_of T_Newline, stmt end_of)) (kinds l).
Proof.
  induction 1 as [c la|c p t l la xs ts c' K H IH|c l1 x c1 l2 la xs ts c' HB H IH]; intros G; [apply fits_end| |].
  - kindly. change (T_Newline :: kinds l) with ([T_Newline] ++ kinds l). apply fits_more; [|auto]. fitting.
  - conj_down. rewrite kinds_app. apply fits_more; [|auto].
    pose proof (proj1 blocks_python _ _ _ _ _ _ HB) as HP. unfold Q in HP. feed. mains. fitting.
Qed.
Lemma Input_python f r c l p t x c' : whole_input f r -> Input f c l (p, Some t) x c' -> regular x ->
  sentence r (kinds l ++ [tk_kind t]).
Proof.
  intros F H G. unfold sentence. destruct F as [[-> ->]|[[-> ->]|[-> ->]]]; inversion H; subst.
  - parts G. match goal with HL : lines _ _ _ _ _ _ |- _ => pose proof (lines_python _ _ _ _ _ _ HL ltac:(assumption)) end.
    kindly. fitting.
  - parts G. known. feed. mains. match goal with HN : Forall _ _ |- _ => pose proof (strings_fit _ _ HN) end. kindly. fitting.
  - parts G. known. feed. mains. match goal with HN : Forall _ _ |- _ => pose proof (strings_fit _ _ HN) end. kindly. fitting.
Qed.
Theorem accepted_python : forall U text n f r x s', whole_input f r -> run U n f (fresh text) = Ok x s' -> regular x ->
  exists ts, scanned U text = map inl ts /\ sentence r (map tk_kind ts).
Proof.
  intros U text n f r x s' F H G.
  assert (IF : f = F_file_input \/ f = F_eval_input \/ f = F_func_type_input) by (unfold whole_input in F; tauto).
  assert (SO : sort_of f = Whole) by (destruct IF as [->|[->| ->]]; reflexivity).
  apply run_sound in H. unfold sound in H. rewrite SO in H. destruct H as (s1 & l & A & R & HI).
  assert (H0 : history U text [] (ps_lexer (fresh text))) by constructor.
  pose proof (advance_history U text [] (fresh text) s1 H0 A) as S1.
  pose proof (reads_history U text _ _ _ R [] S1) as S2. cbn [app] in S2.
  pose proof (reads_no_eof U text _ _ _ R [] S1 (Input_quiet _ _ _ _ _ _ HI)) as NE.
  assert (V : exists t, ps_symbol s' = inl t /\ tk_kind t = T_EOF /\ view s' = (fst (view s'), Some t)).
  { clear - IF HI. remember (view s') as v eqn:EV.
    assert (W : exists p t, v = (p, Some t) /\ tk_kind t = T_EOF) by
      (destruct IF as [->|[->| ->]]; inversion HI; subst; eauto).
    destruct W as (p & t & -> & K). exists t. unfold view in EV. split; [destruct (ps_symbol s'); congruence|].
    split; [exact K|reflexivity]. }
  destruct V as (t & SY & K & EX). rewrite EX in HI. unfold seen in S2. rewrite SY in S2.
  exists (map snd l ++ [t]). split; [exact (history_scanned U text _ t _ S2 K NE)|].
  rewrite map_app, map_map. exact (Input_python _ _ _ _ _ _ _ _ F HI G).
Qed.

(** The tokens read by an interactive input. *)
Theorem accepted_single : forall U text n x s', run U n F_single_input (fresh text) = Ok x s' -> regular x ->
  exists ts l, history U text (map inl ts) l /\ sentence single_input (map tk_kind ts).
Proof.
  intros U text n x s' H G. destruct (single_read U text n x s' H) as (a & b & y & l & la & -> & D & (l' & FS)).
  exists (map snd l), l'. split; [exact FS|]. rewrite map_map. parts G. apply E_P in D. feed. mains.
  unfold sentence. change (fits python single_input (kinds l)). fitting.
Qed.

(** The functions for phrases. *)
Theorem phrase_python : forall U n f e s x s', main f = Some e -> run U n f s = Ok x s' -> regular x ->
  exists l, reads U s l s' /\ fits python e (map (fun t => tk_kind (snd t)) l).
Proof.
  intros U n f e s x s' M H G. apply run_sound in H. unfold sound in H.
  destruct (sort_of f) eqn:S; [destruct H as (l & R & _ & D)|destruct H as (l & R & D)|destruct f; discriminate|destruct H];
    exists l; (split; [exact R|]).
  - apply E_P in D. exact (D G e (or_introl M)).
  - apply blocks_python in D. exact (D G e (or_introl M)).
Qed.
