(** What becomes of the tokens when one parser is called again and again (C71). *)
From Coq Require Import List Arith Lia Permutation.
From Verif Require Import Chars SourceBuffer Token Tokenizer LexSpec Node NodeView ParserState Parser ParseBasics ParseSpec
  GrammarSpec TreeSpec SoundBasics Soundness SpanProofs OrderProofs EndProofs YieldProofs FirstSets CompleteBasics Completeness HistoryProofs NewlineProofs SessionSpec.
Import ListNotations.
Local Open Scope nat_scope.

Lemma call_read : forall U text f s x s' evs, input_fn f = true -> parsed U f s x s' -> history U text evs (ps_lexer s) ->
  exists ts, history U text (evs ++ map inl ts ++ [ps_symbol s']) (ps_lexer s') /\
    (keeps_symbol x = false /\ written x ts \/ exists t, keeps_symbol x = true /\ ps_symbol s' = inl t /\ written x (ts ++ [t])).
Proof.
  intros U text f s x s' evs IF (n & H) H0.
  assert (SO : sort_of f = Whole) by (destruct f; try discriminate IF; reflexivity).
  apply run_sound in H. unfold sound in H. rewrite SO in H. destruct H as (s1 & l & A & R & I).
  assert (W : written x (map snd l ++ extra f (view s') x)).
  { destruct (proj1 tiled_written_all _ _ _ _ (Input_lies _ _ _ _ _ _ I 0)) as (ts & W & J).
    rewrite <- (written_exact x ts (extra f (view s') x) l (view s') W J); [assumption| |].
    + eapply stored_after_input; eauto.
    + apply weights_permutation. intros w. rewrite weigh_app. eapply Input_extra; eauto. }
  pose proof (advance_history U text evs s s1 H0 A) as S1.
  pose proof (reads_history U text _ _ _ R evs S1) as S2. unfold seen in S2. rewrite <- app_assoc in S2.
  exists (map snd l). split; [exact S2|].
  assert (V : keeps_symbol x = false /\ extra f (view s') x = [] \/ exists t, keeps_symbol x = true /\ ps_symbol s' = inl t /\ extra f (view s') x = [t]).
  { clear - I. remember (view s') as v eqn:EV. assert (Q : forall t, snd v = Some t -> ps_symbol s' = inl t).
    { intros t E. subst v. unfold view in E. destruct (ps_symbol s'); cbn [snd] in E; congruence. }
    destruct I; cbn [extra keeps_symbol snd] in *; auto; right; eauto. }
  destruct V as [(K & E)|(t & K & SY & E)]; rewrite E in W; [left; rewrite app_nil_r in W; auto|right; eauto].
Qed.
Lemma session_history : forall U text s cs s', session U s cs s' -> forall evs, history U text evs (ps_lexer s) ->
  exists more, turns (map snd cs) more /\ history U text (evs ++ more) (ps_lexer s').
Proof.
  intros U text s cs s' H. induction H as [s|s f x s1 cs s' IF P S IH]; intros evs H.
  - exists []. split; [constructor|]. rewrite app_nil_r. exact H.
  - destruct (call_read U text f s x s1 evs IF P H) as (ts & H1 & C). destruct (IH _ H1) as (more & T & H2).
    rewrite <- !app_assoc in H2. cbn [app] in H2. exists (map inl ts ++ ps_symbol s1 :: more). split; [|exact H2].
    cbn [map snd]. destruct C as [(K & W)|(t & K & E & W)]; [apply TU_lost; assumption|]. rewrite E. apply TU_kept; assumption.
Qed.
Theorem session_turns : forall U text cs s', session U (fresh text) cs s' ->
  exists evs, turns (map snd cs) evs /\ history U text evs (ps_lexer s').
Proof. intros U text cs s' H. destruct (session_history U text _ _ _ H [] (H_start U text)) as (evs & T & H1). eauto. Qed.

(** The second line of a session never has its first token. *)
Theorem second_loses : forall U text x cs s', session U (fresh text) ((F_single_input, x) :: cs) s' ->
  exists ts d evs, written x ts /\ turns (map snd cs) evs /\ history U text (map inl ts ++ d :: evs) (ps_lexer s').
Proof.
  intros U text x cs s' H. destruct (session_turns U text _ _ H) as (evs & T & H1).
  inversion H as [|? ? ? ? ? ? IF (n & P) S]; subst.
  destruct (single_simple_only U text n x _ P) as (a & b & c & d & xs & ts & nl & ->).
  cbn [map snd] in T. inversion T as [|? ? us e more K W T1|? ? us t more K W T1]; subst; [eauto 8|discriminate K].
Qed.

(** ** At the end of the text *)
Definition at_end (U : unicode) (l : lexer) : Prop := get_symbol U l = LOk (Tok T_EOF (At (lx_pos l)) None NoPayload) l.
Lemma history_end : forall U text evs t l, history U text (evs ++ [inl t]) l -> tk_kind t = T_EOF -> at_end U l.
Proof.
  intros U text evs t l H K. inversion H as [Z|evs0 l0 t0 l1 H0 G Z|evs0 l0 e l1 H0 G Z].
  - destruct evs; discriminate Z.
  - apply app_inj_tail in Z. destruct Z as (-> & Z). injection Z as ->. subst. exact (proj2 (eof_absorbs _ _ _ _ _ _ H0 G K)).
  - apply app_inj_tail in Z. destruct Z as (_ & Z). discriminate Z.
Qed.
Lemma begins_none : forall ks, ~ begins ks [].
Proof. intros ks (p & t & l & E & _). discriminate E. Qed.
Lemma call_at_end : forall U text f s x s' evs, input_fn f = true -> parsed U f s x s' -> history U text evs (ps_lexer s) -> at_end U (ps_lexer s) ->
  empty_file (f, x) /\ ps_lexer s' = ps_lexer s.
Proof.
  intros U text f s x s' evs IF (n & H) H0 AE.
  assert (SO : sort_of f = Whole) by (destruct f; try discriminate IF; reflexivity).
  apply run_sound in H. unfold sound in H. rewrite SO in H. destruct H as (s1 & l & A & R & I).
  pose proof (advance_history U text evs s s1 H0 A) as S1.
  pose proof (reads_no_eof U text _ _ _ R evs S1 (Input_quiet _ _ _ _ _ _ I)) as NE.
  unfold advance in A. rewrite AE in A. injection A as <-.
  inversion R as [? ? R1 R2|? t ? l' ? RS RA RR]; subst.
  2:{ inversion NE as [|? ? N1 _]; subst. cbn [ps_symbol] in RS. injection RS as <-. destruct (N1 eq_refl). }
  cbn [ps_lexer] in R1. split; [|congruence].
  remember [] as l eqn:EL. destruct I; subst; try discriminate.
  - split; [reflexivity|]. cbn [snd]. match goal with L : lines _ _ _ _ _ _ |- _ => remember [] as l eqn:EL in L; destruct L; subst end.
    + cbn [rev]. eauto.
    + discriminate.
    + exfalso. match goal with D : B _ _ _ _ _ _, E : _ ++ _ = [] |- _ => apply B_first in D; apply app_eq_nil in E; destruct E as (-> & _); exact (begins_none _ D) end.
  - exfalso. apply app_eq_nil in EL. destruct EL as (E1 & _). rewrite E1 in H. apply E_first in H. exact (begins_none _ H).
  - exfalso. apply app_eq_nil in EL. destruct EL as (E1 & _). rewrite E1 in H. apply E_first in H. exact (begins_none _ H).
  - exfalso. match goal with D : E _ _ _ _ |- _ => apply E_first in D; exact (begins_none _ D) end.
  - exfalso. match goal with D : B _ _ _ _ _ _ |- _ => apply B_first in D; exact (begins_none _ D) end.
Qed.
Lemma session_at_end : forall U text s cs s', session U s cs s' -> forall evs, history U text evs (ps_lexer s) -> at_end U (ps_lexer s) ->
  Forall empty_file cs /\ ps_lexer s' = ps_lexer s.
Proof.
  intros U text s cs s' H. induction H as [s|s f x s1 cs s' IF P S IH]; intros evs H AE; [auto|].
  destruct (call_at_end U text f s x s1 evs IF P H AE) as (EF & L). destruct (IH evs) as (F & L'); [rewrite L; exact H|rewrite L; exact AE|].
  split; [constructor; assumption|congruence].
Qed.
Lemma whole_at_end : forall U text f s x s' evs, f = F_file_input \/ f = F_eval_input \/ f = F_func_type_input ->
  parsed U f s x s' -> history U text evs (ps_lexer s) -> exists evs', history U text evs' (ps_lexer s') /\ at_end U (ps_lexer s').
Proof.
  intros U text f s x s' evs F (n & H) H0.
  assert (SO : sort_of f = Whole) by (destruct F as [->|[->| ->]]; reflexivity).
  apply run_sound in H. unfold sound in H. rewrite SO in H. destruct H as (s1 & l & A & R & I).
  pose proof (advance_history U text evs s s1 H0 A) as S1.
  pose proof (reads_history U text _ _ _ R evs S1) as S2. unfold seen in S2.
  assert (V : exists t, ps_symbol s' = inl t /\ tk_kind t = T_EOF).
  { clear - F I. remember (view s') as v eqn:EV.
    assert (W : exists p t, v = (p, Some t) /\ tk_kind t = T_EOF) by (destruct F as [->|[->| ->]]; inversion I; subst; eauto).
    destruct W as (p & t & -> & K). exists t. unfold view in EV. split; [destruct (ps_symbol s'); congruence|exact K]. }
  destruct V as (t & SY & K). eexists. split; [exact S2|]. rewrite SY in S2. exact (history_end U text _ t _ S2 K).
Qed.
Lemma last_call : forall U text cs f x s, session U (fresh text) (cs ++ [(f, x)]) s ->
  exists s0 evs, parsed U f s0 x s /\ history U text evs (ps_lexer s0).
Proof.
  intros U text cs f x s S. assert (H : history U text [] (ps_lexer (fresh text))) by constructor. revert H. generalize (@nil (token + err)) as evs.
  generalize dependent (fresh text). induction cs as [|(g & y) cs IH]; intros p S evs H; cbn [app] in S; inversion S as [|? ? ? s1 ? ? IF P S1]; subst.
  - inversion S1; subst. eauto.
  - destruct (call_read U text g p y s1 evs IF P H) as (ts & H1 & _). exact (IH _ S1 _ H1).
Qed.
(** After a call that took the whole text: only calls for a file succeed, each gives the empty file, the tokenizer stays where it is. *)
Theorem end_final : forall U text cs f x s ds s', f = F_file_input \/ f = F_eval_input \/ f = F_func_type_input ->
  session U (fresh text) (cs ++ [(f, x)]) s -> session U s ds s' -> Forall empty_file ds /\ ps_lexer s' = ps_lexer s.
Proof.
  intros U text cs f x s ds s' F S D.
  pose proof (last_call U text cs f x s S) as Q.
  destruct Q as (s0 & evs & P & H). destruct (whole_at_end U text f s0 x s evs F P H) as (evs' & H' & AE).
  exact (session_at_end U text s ds s' D evs' H' AE).
Qed.
(** And calls for a file do succeed there, as often as one likes. *)
Theorem end_again : forall U text cs f x s, f = F_file_input \/ f = F_eval_input \/ f = F_func_type_input ->
  session U (fresh text) (cs ++ [(f, x)]) s -> exists y s', parsed U F_file_input s y s' /\ empty_file (F_file_input, y) /\ ps_lexer s' = ps_lexer s.
Proof.
  intros U text cs f x s F S.
  pose proof (last_call U text cs f x s S) as Q.
  destruct Q as (s0 & evs & P & H). destruct (whole_at_end U text f s0 x s evs F P H) as (evs' & H' & AE).
  set (e := Tok T_EOF (At (lx_pos (ps_lexer s))) None NoPayload). set (s1 := mk_parser (ps_lexer s) (inl e) (ps_except s)).
  assert (A : advance U s = Ok tt s1) by (unfold advance; rewrite AE; reflexivity).
  exists (FileInput (pos s1) (pos s1) [] [] e), s1. split; [|split; [split; [reflexivity|cbn [snd]; eauto]|reflexivity]].
  destruct (run_complete U F_file_input s (FileInput (pos s1) (pos s1) [] [] e) s1) as (k & Z).
  { exists s1, []. split; [exact A|]. split; [apply reads_refl|]. change (view s1) with (pos s1, Some e).
    apply (I_file _ [] (pos s1) e [] []); [constructor|reflexivity]. }
  exists k. apply Z. lia.
Qed.
