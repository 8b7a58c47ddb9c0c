(** Termination of the parser: the measure, the ranks, and the rules for each construct. *)
From Coq Require Import List Arith ZArith Lia.
From Verif Require Import Chars SourceBuffer Token Tokenizer Node ParserState Expressions Statements
  Blocks Parser WellFormed CallLemmas CallTheorem GrammarSpec ParseBasics SoundBasics Soundness FirstSets.
Import ListNotations.
Local Open Scope nat_scope.

(** A token other than the end of the text. *)
Definition solid (s : parser) : Prop := exists t, ps_symbol s = inl t /\ tk_kind t <> T_EOF.
Definition solidb (s : parser) : bool :=
  match ps_symbol s with inl t => negb (kind_eqb (tk_kind t) T_EOF) | inr _ => false end.
Lemma solid_b : forall s, solid s <-> solidb s = true.
Proof.
  intros s. unfold solid, solidb. split.
  - intros (t & -> & N). destruct (kind_eqb (tk_kind t) T_EOF) eqn:Q; auto.
    apply kind_eqb_eq in Q. contradiction.
  - destruct (ps_symbol s) as [t|]; [|discriminate]. intros H. exists t. split; auto. intros Z.
    rewrite Z in H. discriminate.
Qed.

(** What is left to read: the effort of the tokenizer, and the token already taken. *)
Definition left (s : parser) : nat := 2 * effort (ps_lexer s) + (if solidb s then 1 else 0).

(** How far a function is above those that consume a token first. *)
Definition rank (f : fn) : nat :=
  match f with
  | F_atom | F_trailer | F_comp_if | F_sync_comp_for | F_yield_expr | F_vfp_def => 0
  | F_atom_expr | F_comp_for | F_var_args_assignments => 1
  | F_power | F_comp_iter | F_var_args_list => 2
  | F_factor | F_lambda_def _ => 3
  | F_term => 4 | F_arith => 5 | F_shift => 6 | F_and_expr => 7 | F_xor_expr => 8 | F_expr => 9
  | F_star_expr | F_comparison => 10
  | F_not_test => 11 | F_and_test => 12 | F_or_test => 13
  | F_no_cond_test | F_test => 14
  | F_named_expression | F_subscript | F_testlist | F_dictorset_maker | F_argument => 15
  | F_testlist_comp | F_subscript_list | F_arglist | F_exprlist | F_testlist_star_expr | F_type_list => 16
  | F_with_item => 16
  | F_expr_stmt => 17
  | F_yield_stmt => 1 | F_flow_stmt => 2
  | F_import_stmt => 1
  | F_import_as_names | F_dotted_as_name => 1 | F_dotted_as_names => 2
  | F_tfp_def_assign => 1
  | F_small_stmt => 18 | F_simple_stmt => 19
  | F_suite | F_func_body_suite | F_stmt => 20
  | F_decorators => 1 | F_decorated => 2 | F_compound_stmt => 3
  | F_except_stmt => 1
  | F_eval_input | F_file_input | F_single_input | F_func_type_input => 21
  | _ => 0
  end.

(** The fuel needed. *)
Definition need (f : fn) (s : parser) : nat := 32 * (left s + 1) + rank f.

Lemma rank_small : forall f, rank f < 32.
Proof. destruct f; cbn [rank]; lia. Qed.

(** The functions whose successful result has consumed a token. *)
Definition eats (f : fn) : bool :=
  match f with
  | F_lambda_def _ | F_typed_args_list | F_match
  | F_eval_input | F_file_input | F_single_input | F_func_type_input => false
  | _ => true
  end.

Section Measure.
Variables (U : unicode) (text : str).

Definition okay (s : parser) : Prop := lx_ok text (ps_lexer s).

Lemma effort_eof : forall l t l', lx_ok text l -> ok_call text l t l' -> tk_kind t = T_EOF -> effort l' <= effort l.
Proof.
  intros l t l' OK C K. destruct (oc_eof _ _ _ _ C K) as (B & P & _).
  pose proof (oc_balance _ _ _ _ C) as BA. rewrite K in BA. unfold balance in BA. cbn [balance_step] in BA.
  pose proof (oc_pos _ _ _ _ C) as PO.
  destruct (ok_at _ _ OK) as (R & _). destruct (ok_at _ _ (oc_ok _ _ _ _ C)) as (R' & _).
  unfold effort. rewrite B, R, R', !skipn_length. destruct (lx_bol l); lia.
Qed.

Lemma advance_left : forall s, okay s ->
  exists s1, advance U s = Ok tt s1 /\ okay s1 /\ left s1 <= left s /\ (solid s -> left s1 < left s) /\
    ps_except s1 = ps_except s.
Proof.
  intros s OK. pose proof (get_symbol_ok U text (ps_lexer s) OK) as G. unfold advance.
  destruct (get_symbol U (ps_lexer s)) as [t l'|e l'|]; [| |contradiction].
  - eexists. split; [reflexivity|]. split; [exact (oc_ok _ _ _ _ G)|].
    unfold left. cbn [ps_lexer].
    assert (H : (effort l' < effort (ps_lexer s) \/ tk_kind t = T_EOF /\ effort l' <= effort (ps_lexer s))).
    { destruct (oc_effort _ _ _ _ G); auto. right. split; auto. eapply effort_eof; eauto. }
    change (solidb (mk_parser l' (inl t) (ps_except s))) with (negb (kind_eqb (tk_kind t) T_EOF)).
    split; [|split; [|reflexivity]].
    + destruct H as [H|(K & H)].
      * destruct (negb _), (solidb s); lia.
      * rewrite K. change (negb (kind_eqb T_EOF T_EOF)) with false. cbv iota. destruct (solidb s); lia.
    + intros SO. apply solid_b in SO. rewrite SO. destruct H as [H|(K & H)].
      * destruct (negb _); lia.
      * rewrite K. change (negb (kind_eqb T_EOF T_EOF)) with false. cbv iota. lia.
  - eexists. split; [reflexivity|]. split; [exact (ec_ok _ _ _ _ G)|].
    pose proof (ec_effort _ _ _ _ G). unfold left. cbn [ps_lexer].
    change (solidb (mk_parser l' (inr e) (ps_except s))) with false.
    split; [|split; [|reflexivity]].
    + destruct (solidb s); lia.
    + intros SO. apply solid_b in SO. rewrite SO. lia.
Qed.

Lemma left_core : forall s s', ps_lexer s = ps_lexer s' -> ps_symbol s = ps_symbol s' -> left s = left s'.
Proof. intros s s' A B. unfold left, solidb. rewrite A, B. reflexivity. Qed.

Lemma reads_left : forall s l s', reads U s l s' -> okay s ->
  okay s' /\ left s' <= left s /\ ((exists p t l', l = (p, t) :: l' /\ tk_kind t <> T_EOF) -> left s' < left s).
Proof.
  induction 1 as [s s' A B|s t s1 l s' S A R IH]; intros OK.
  - split; [unfold okay in *; congruence|]. rewrite (left_core s s'); auto. split; auto.
    intros (p & t & l' & Z & _). discriminate.
  - destruct (advance_left s OK) as (s2 & A' & O2 & L1 & L2 & _). rewrite A in A'. injection A' as <-.
    destruct (IH O2) as (O3 & L3 & _). split; auto. split; [lia|].
    intros (p & u & l' & Z & N). injection Z as _ <- _. assert (solid s) by (exists t; auto).
    specialize (L2 H). lia.
Qed.

Definition post (f : fn) (s s' : parser) : Prop :=
  okay s' /\ left s' <= left s /\ (eats f = true -> left s' < left s).

Lemma no_eof_firsts : forall f, ~ In T_EOF (firsts f).
Proof. intros f H. destruct f; cbn in H; intuition discriminate. Qed.

Lemma begins_solid : forall f l, begins (firsts f) l -> exists p t l', l = (p, t) :: l' /\ tk_kind t <> T_EOF.
Proof. intros f l (p & t & l' & -> & I). exists p, t, l'. split; auto. intros Z. rewrite Z in I. eapply no_eof_firsts; eauto. Qed.

Lemma sound_post : forall f s x s', okay s -> sound U f s x s' -> post f s s'.
Proof.
  intros f s x s' OK S. unfold sound in S. destruct (sort_of f) eqn:SO.
  - destruct S as (l & R & _ & D). destruct (reads_left _ _ _ R OK) as (A & B & C). split; auto. split; auto.
    intros EA. apply C. apply E_first in D.
    destruct f; try discriminate EA; try discriminate SO; cbn [first_ok] in D; eapply begins_solid; eauto.
  - destruct S as (l & R & D). destruct (reads_left _ _ _ R OK) as (A & B & C). split; auto. split; auto.
    intros _. apply C. apply B_first in D. eapply begins_solid; eauto.
  - destruct S as (s1 & l & A1 & R & _). destruct (advance_left s OK) as (s2 & A2 & O2 & L2 & _).
    rewrite A1 in A2. injection A2 as <-.
    destruct (reads_left _ _ _ R O2) as (A & B & _). split; auto. split; [lia|].
    destruct f; discriminate.
  - contradiction.
Qed.

(** ** Rules.  [wp X Y m s Q]: [m] run on [s] gives an error, or a result in [Q], or panics and
    [X] holds, or does not return and [Y] holds. *)
Definition wp (X Y : Prop) {A} (m : M A) (s : parser) (Q : A -> parser -> Prop) : Prop :=
  match m s with Ok a s' => Q a s' | Err _ => True | Panic => X | Fuel => Y end.

Lemma wp_bind : forall (X Y : Prop) A C (m : M A) (k : A -> M C) s Q,
  wp X Y m s (fun a s1 => wp X Y (k a) s1 Q) -> wp X Y (bind m k) s Q.
Proof. intros X Y A C m k s Q. unfold wp, bind. destruct (m s); auto. Qed.
Lemma wp_ret : forall (X Y : Prop) A (a : A) s (Q : A -> parser -> Prop), Q a s -> wp X Y (ret a) s Q.
Proof. intros. exact H. Qed.
Lemma wp_fail : forall (X Y : Prop) A msg p s (Q : A -> parser -> Prop), wp X Y (fail msg p) s Q.
Proof. intros. exact I. Qed.
Lemma wp_fail_here : forall (X Y : Prop) A msg s (Q : A -> parser -> Prop), wp X Y (fail_here msg) s Q.
Proof. intros. exact I. Qed.
Lemma wp_position : forall (X Y : Prop) s (Q : nat -> parser -> Prop), Q (pos s) s -> wp X Y position s Q.
Proof. intros. exact H. Qed.
Lemma wp_get : forall (X Y : Prop) s (Q : except_status -> parser -> Prop), Q (ps_except s) s -> wp X Y get_except s Q.
Proof. intros. exact H. Qed.
Lemma wp_on : forall (X Y : Prop) A (e : M A) k s (Q : A -> parser -> Prop),
  (forall t, ps_symbol s = inl t -> wp X Y (k t) s Q) -> ((forall t, ps_symbol s <> inl t) -> wp X Y e s Q) ->
  wp X Y (on_symbol e k) s Q.
Proof.
  intros X Y A e k s Q H1 H2. unfold wp, on_symbol in *. destruct (ps_symbol s) as [t|]; [exact (H1 t eq_refl)|apply H2; discriminate].
Qed.
Lemma wp_weak : forall (X Y : Prop) A (m : M A) s (Q Q' : A -> parser -> Prop),
  wp X Y m s Q -> (forall a s', Q a s' -> Q' a s') -> wp X Y m s Q'.
Proof. intros X Y A m s Q Q' H W. unfold wp in *. destruct (m s); auto. Qed.

Lemma wp_advance : forall (X Y : Prop) s (Q : unit -> parser -> Prop), okay s ->
  (forall s1, okay s1 -> left s1 <= left s -> (solid s -> left s1 < left s) -> advance U s = Ok tt s1 -> Q tt s1) ->
  wp X Y (advance U) s Q.
Proof.
  intros X Y s Q OK H. destruct (advance_left s OK) as (s1 & A & O & L & SL & _).
  unfold wp. rewrite A. auto.
Qed.

Lemma wp_set : forall (X Y : Prop) x s (Q : unit -> parser -> Prop), okay s ->
  (forall s1, okay s1 -> left s1 = left s -> reads U s [] s1 -> Q tt s1) -> wp X Y (set_except x) s Q.
Proof.
  intros X Y x s Q OK H. unfold wp, set_except. apply H; auto. constructor; reflexivity.
Qed.

Lemma wp_while : forall (X Y : Prop) A (step : A -> M (bool * A)) (I : parser -> Prop) (Q : A -> parser -> Prop),
  (forall a s, I s -> wp X Y (step a) s (fun r s' =>
      if fst r then I s' /\ left s' < left s else Q (snd r) s')) ->
  forall n a s, left s < n -> I s -> wp X Y (while_ n step a) s Q.
Proof.
  intros X Y A step I Q St. induction n as [|n IH]; intros a s L H; [lia|].
  cbn [while_]. apply wp_bind. eapply wp_weak; [apply St; exact H|].
  intros [[] a'] s'; cbn [fst snd].
  - intros (H' & L'). apply IH; auto. lia.
  - intros q. exact q.
Qed.
End Measure.
