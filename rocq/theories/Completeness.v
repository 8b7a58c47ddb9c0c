(** The parser accepts exactly the phrases of the grammar, with exactly their trees. *)
From Coq Require Import List Arith Lia.
From Verif Require Import Chars SourceBuffer Token Tokenizer Node ParserState Expressions Statements
  Blocks Parser LexBasics GrammarSpec ParseBasics SoundBasics Soundness FirstSets CompleteBasics CompleteExpr
  CompleteBlocks.
Import ListNotations.
Local Open Scope nat_scope.

Ltac feedB2 :=
  repeat match goal with
  | G : B ?f ?c ?l ?la ?x ?c', R : readx ?U ?s ?l ?s' |- _ =>
      let H := fresh "RUN" in
      pose proof (B_complete U f c l la x c' G s s' R ltac:(viewing)) as H; unfold C in H;
      apply (B_sees U f c l la x c' s s') in G; [| exact R]; seeing G
  end.

Lemma lines_loop : forall U c l la xs ts c', lines c l la xs ts c' ->
  forall s s', readx U s l s' -> view s' = la ->
  exists k, ev (fun n => forall p j ns0 ts0,
    while_ (k + j) (file_input_step U (run U n) p) (ns0, ts0) (flag c s)
    = while_ j (file_input_step U (run U n) p) (ns0 ++ xs, ts0 ++ ts) (flag c' s')).
Proof.
  intros U c l la xs ts c' G. induction G; intros s s' R V.
  - apply readx_nil in R. subst. exists 0. apply ev_always. intros. rewrite !app_nil_r. reflexivity.
  - unread. destruct (IHG _ _ R V) as (k & EV). exists (S k). gather. intros.
    cbn [Nat.add]. erewrite while_turn; [|unfold file_input_step; sim].
    match goal with W : forall p j ns ts, while_ _ _ _ _ = _ |- _ => rewrite W end. rewrite <- !app_assoc. reflexivity.
  - unread. set_view V. destruct (IHG _ _ R eq_refl) as (k & EV). feedB2.
    exists (S k). gather. intros.
    cbn [Nat.add]. erewrite while_turn; [|unfold file_input_step; sim].
    match goal with W : forall p j ns ts, while_ _ _ _ _ = _ |- _ => rewrite W end. rewrite <- !app_assoc. reflexivity.
Qed.

Lemma newlines_run : forall U msg p s l s' s2 m c, readx U s l s' -> Forall (fun n => tk_kind (snd n) = T_Newline) l ->
  length l + 2 < m -> newlines_step U msg p (map snd l) (flag c s') = Ok (false, map snd l) s2 ->
  while_ m (newlines_step U msg p) [] (flag c s) = Ok (map snd l) s2.
Proof.
  intros U msg p s l s' s2 m c R F L H.
  eapply tokens_run; [eapply (tokens_each U (fun t => tk_kind t = T_Newline));
    [apply flag_readx; exact R|exact F]| | |].
  - cbv beta. intros. unfold newlines_step. sim.
  - rewrite map_length. unfold ptok in *. lia.
  - exact H.
Qed.

Lemma Input_complete : forall U f c l la x c', Input f c l la x c' ->
  forall s0 s s', advance U s0 = Ok tt (flag c s) -> readx U s l s' -> view s' = la -> C U f s0 x (flag c' s').
Proof.
  intros U f c l la x c' G s0 s s' A R V. destruct G.
  - set_view V. starts. destruct (lines_loop U _ _ _ _ _ _ H s s' R ltac:(viewing)) as (k & EV).
    pose proof (ev_above (S (S (S k)))).
    unfold C; apply ev_S; gather. cbn [run body]. open_fn. sim. eapply bind_run.
    { eapply (while_split _ k); [lia|]. match goal with W : forall p j ns ts, while_ _ _ _ _ = _ |- _ => rewrite W end. apply while_stop; [lia|]. open_fn; sim. }
    cbn [app]. sim.
  - set_view V. unread. starts. feedE. pose proof (ev_above (length l2 + 3)). unfold C; apply ev_S; gather.
    cbn [run body]. open_fn. sim. eapply bind_run; [eapply newlines_run; [eassumption|assumption|lia|open_fn; sim]|].
    sim.
  - set_view V. unread. starts. feedE. pose proof (ev_above (length l2 + 3)). unfold C; apply ev_S; gather.
    cbn [run body]. open_fn. sim. eapply bind_run; [eapply newlines_run; [eassumption|assumption|lia|open_fn; sim]|].
    sim.
  - set_view V. unread. starts. parseB.
  - assert (Z : l <> []) by (apply E_first in H; destruct H as (? & ? & ? & -> & _); discriminate).
    set_view V. starts. feedE. parseB.
    destruct (is T_AtomName x0) eqn:Q; cbn [andb]; [|sim].
    rewrite (no_match U s l s' x0); [sim|assumption..|apply is_true; exact Q].
  - set_view V. starts. feedB2. parseB.
Qed.

Theorem run_complete : forall U f s x s', sound U f s x s' -> C U f s x s'.
Proof.
  intros U f s x s' H. unfold sound in H. destruct (sort_of f) eqn:S.
  - destruct H as (l & R & X & G). apply (E_complete U _ _ _ _ G); [split; assumption|reflexivity].
  - destruct H as (l & R & G).
    assert (RX : readx U s l (flag (ps_except s) s')).
    { split; [|reflexivity]. eapply reads_core_r; [exact R|reflexivity|reflexivity]. }
    pose proof (B_complete U _ _ _ _ _ _ G s _ RX eq_refl) as Z. rewrite flag_self in Z.
    change (flag (ps_except s') (flag (ps_except s) s')) with (flag (ps_except s') s') in Z.
    rewrite flag_self in Z. exact Z.
  - destruct H as (s1 & l & A & R & G).
    assert (RX : readx U s1 l (flag (ps_except s1) s')).
    { split; [|reflexivity]. eapply reads_core_r; [exact R|reflexivity|reflexivity]. }
    assert (A' : advance U s = Ok tt (flag (ps_except s1) s1)) by (rewrite flag_self; exact A).
    pose proof (Input_complete U _ _ _ _ _ _ G s s1 _ A' RX eq_refl) as Z.
    change (flag (ps_except s') (flag (ps_except s1) s')) with (flag (ps_except s') s') in Z.
    rewrite flag_self in Z. exact Z.
  - contradiction.
Qed.

(** The parser yields [x] from [s], ending in [s'], exactly when [s] reads a phrase with tree [x]. *)
Theorem run_exact : forall U f s x s',
  (exists fuel, run U fuel f s = Ok x s') <-> sound U f s x s'.
Proof.
  intros. split.
  - intros (fuel & H). eapply run_sound; eauto.
  - intros H. destruct (run_complete U f s x s' H) as (k & Z). exists k. apply Z. lia.
Qed.

(** More fuel does not change a successful result. *)
Theorem run_ok_mono : forall U fuel f s x s', run U fuel f s = Ok x s' ->
  exists k, forall n, k <= n -> run U n f s = Ok x s'.
Proof. intros. apply run_complete. eapply run_sound; eauto. Qed.
