(** The depth of the recursion is bounded by the number of all brackets, indents and nesting words (C65). *)
From Coq Require Import List Arith ZArith Bool Lia.
From Verif Require Import Chars SourceBuffer Token Tokenizer LexSpec LexBasics Node ParserState Expressions Statements
  Blocks Parser WellFormed CallLemmas CallTheorem GrammarSpec ParseBasics SoundBasics Soundness FirstSets
  Monotone TermBasics TermExpr TermStmt TermStable DepthSpec DepthProofs.
Import ListNotations.
Local Open Scope nat_scope.

(** [words] counts all of them, [blocks] and [around] stay empty. *)
Definition at_ (u : nat) (q : kind) : place := {| blocks := 0; words := u; pending := 0; around := []; last := q |}.
Definition called (f : fn) (s : parser) : Prop :=
  match f with
  | F_lambda_def _ => exists t, ps_symbol s = inl t /\ tk_kind t = PyLambda
  | F_eval_input | F_file_input | F_single_input | F_func_type_input => False
  | _ => True
  end.

Section Amount.
Variables (U : unicode) (text : str) (m : nat).

Definition suits (u : nat) (q : kind) (s : parser) : Prop :=
  forall l s', reads U s l s' -> u + amount q (map (fun x => tk_kind (snd x)) l) <= m.
Lemma suits_height : forall u q s, suits u q s -> u <= m.
Proof. intros u q s H. pose proof (H [] s (reads_refl U s)) as E. cbn [map amount] in E. lia. Qed.
Lemma suits_advance : forall u q s t s1, suits u q s -> ps_symbol s = inl t -> advance U s = Ok tt s1 ->
  suits (u + if opening (tk_kind t) || deepens q (tk_kind t) then 1 else 0) (tk_kind t) s1.
Proof.
  intros u q s t s1 F S A l s' R. pose proof (F _ _ (reads_cons U s t s1 l s' S A R)) as E. cbn [map amount snd] in E. lia.
Qed.
Lemma suits_core : forall u q s s1, suits u q s -> reads U s [] s1 -> suits u q s1.
Proof. intros u q s s1 F R l s' R'. apply (F l s'). exact (reads_app U _ _ _ R _ _ R'). Qed.

Definition stack (f : fn) (u : nat) (q : kind) (s : parser) : nat := 40 * (m - u) + level f (at_ u q) s + 1.
Definition left_at (u : nat) (s' : parser) : Prop := exists c q, suits c q s' /\ u <= c.

Variables (n n' d : nat) (rec rec' : fn -> M node).
Hypothesis NN : n <= n'.
Hypothesis G : good U rec.
Hypothesis R : forall f u q s, called f s -> okay text s -> left s < n -> suits u q s -> stack f u q s <= d ->
  rwp (rec f) (rec' f) s (fun _ s' => left_at u s').
Hypothesis RI : forall s t, ps_symbol s = inl t -> tk_kind t = PyImport ->
  rec F_import_stmt s = Fuel /\ rec' F_import_stmt s = Fuel.

Lemma rwp_call : forall f u q s (Q : node -> parser -> Prop), called f s -> okay text s -> left s < n -> suits u q s -> stack f u q s <= d ->
  (forall x s' c q', okay text s' -> left s' <= left s -> (eats f = true -> left s' < left s) -> suits c q' s' -> u <= c -> Q x s') ->
  rwp (rec f) (rec' f) s Q.
Proof.
  intros f u q s Q Y O L F N H. destruct (R f u q s Y O L F N) as (E & P). split; [exact E|]. intros x s' K.
  destruct (P x s' K) as (c & q' & F' & W). apply G in K. destruct (sound_post _ _ _ _ _ _ O K) as (A & B & C). eapply H; eauto.
Qed.

Ltac token_kinds_ T := match type of T with
  | is ?k ?t = true => apply is_true in T
  | is_one_of _ ?t = true => unfold is_one_of in T; cbn [existsb] in T; token_kinds_ T
  | (_ || _)%bool = true => apply orb_prop in T; destruct T as [T|T]; token_kinds_ T
  | false = true => discriminate T
  end.
Ltac known s := match goal with
  | S : ps_symbol s = inl ?t, K : tk_kind ?t = _ |- _ => idtac
  | S : ps_symbol s = inl ?t, T : is _ ?t = true |- _ => pose proof (is_true _ _ T)
  | S : ps_symbol s = inl ?t, T : (_ && is _ ?t)%bool = true |- _ => apply andb_prop in T; let T1 := fresh "T" in destruct T as (_ & T1); pose proof (is_true _ _ T1)
  | S : ps_symbol s = inl ?t, T : is_one_of _ ?t = true |- _ => let K := fresh "K" in pose proof T as K; token_kinds_ K
  | _ => idtac
  end.
Ltac walked := match goal with
  | F : suits ?u ?q ?s, S : ps_symbol ?s = inl ?t, A : advance U ?s = Ok tt ?s1 |- _ =>
      let F1 := fresh "F" in let HT := fresh "HT" in
      pose proof (suits_advance u q s t s1 F S A) as F1; clear A;
      try (match goal with K : tk_kind t = _ |- _ => rewrite K in F1 | S' : ps_symbol s = inl ?t', K : tk_kind ?t' = _ |- _ =>
             let E := fresh in assert (E : t' = t) by congruence; rewrite E in K; rewrite K in F1; clear E end);
      unfold deepens in F1;
      cbn [opening nesting_word sign negation orb andb] in F1; rewrite ?orb_false_r in F1;
      try (match type of F1 with context [if ?b then _ else _] => destruct b eqn:? end);
      pose proof (suits_height _ _ _ F1) as HT
  end.
Ltac choices := repeat match goal with
  | S : ps_symbol ?s = inl ?t, N : context [match ps_symbol ?s with _ => _ end] |- _ => rewrite S in N
  | K : tk_kind ?t = _, N : context [sign (tk_kind ?t)] |- _ => rewrite K in N
  | K : ?b = true, N : context [if ?b then _ else _] |- _ => rewrite K in N
  | K : ?b = false, N : context [if ?b then _ else _] |- _ => rewrite K in N
  | K : tk_kind ?t = _, N : context [negation (tk_kind ?t)] |- _ => rewrite K in N
  end.
Ltac suffices_ := unfold stack, at_ in *; cbn [level last] in *;
  unfold sees_kind in *; choices; cbn [sign negation] in *;
  repeat match goal with
  | |- context [if ?b then _ else _] => destruct b
  | |- context [match ?b with inl _ => _ | inr _ => _ end] => destruct b
  | N : context [if ?b then _ else _] |- _ => destruct b
  end; lia.
Ltac step1 :=
  match goal with
  | |- rwp (bind _ _) (bind _ _) _ _ => apply rwp_bind
  | |- rwp (ret _) _ _ _ => apply rwp_same, wp_ret
  | |- rwp (fail _ _) _ _ _ => apply rwp_same; exact I
  | |- rwp (fail_here _) _ _ _ => apply rwp_same; exact I
  | |- rwp panic _ _ _ => apply rwp_same; exact I
  | |- rwp position _ _ _ => apply rwp_same, wp_position
  | |- rwp get_except _ _ _ => apply rwp_same, wp_get
  | F : suits ?u ?q ?s |- rwp (set_except _) _ ?s _ => apply rwp_same, (wp_set U text); [assumption|];
      let Z := fresh in intros ? ? ? Z; apply (suits_core u q s _ F) in Z
  | |- rwp (advance U) _ ?s _ => apply rwp_same, (wp_advance U text); [assumption|intros ? ? ? ? ?; less; known s; walked]
  | |- rwp (expect _ _ _ _ _) _ _ _ => unfold expect
  | |- rwp (on_symbol _ _) _ _ _ => apply rwp_on; [intros ? ?|intros _]
  | F : suits ?u ?q ?s |- rwp (rec ?f) _ ?s _ =>
      apply (rwp_call f u q s); [first [exact I|eexists; split; [eassumption|apply is_true; assumption]]|assumption|lia|exact F|suffices_|
        let EQ := fresh "EQ" in let F1 := fresh "F" in intros ? ? ? ? ? ? EQ F1 ?; first [specialize (EQ eq_refl) | clear EQ];
        let HT := fresh "HT" in pose proof (suits_height _ _ _ F1) as HT]
  | F : suits ?u ?q ?s |- rwp (while_ n ?step ?a) (while_ n' ?step' ?a) ?s ?Q =>
      apply (rwp_while _ step step' (fun s1 => okay text s1 /\ left s1 <= left s /\ exists c q9, suits c q9 s1 /\ u <= c) Q);
      [ let F1 := fresh "F" in intros ? ? (? & ? & ? & ? & F1 & ?); let HT := fresh "HT" in pose proof (suits_height _ _ _ F1) as HT
      | lia | exact NN | split; [assumption|split; [lia|exists u, q; split; [exact F|lia]]] ]
  | |- rwp (if ?b then _ else _) _ _ _ => let H := fresh "T" in destruct b eqn:H
  | |- rwp (match ?x with _ => _ end) _ _ _ => destruct x
  | |- forall _, _ => intro
  | |- (if fst (true, _) then _ else _) => cbn [fst snd]; split; [split; [assumption|split; [lia|eexists _, _; split; [eassumption|lia]]]|lia]
  | |- (if fst (false, _) then _ else _) => cbn [fst snd]
  | |- left_at _ _ => unfold left_at; eexists _, _; split; [eassumption|lia]
  | |- True => exact I
  | |- rwp ?m _ _ _ => lazymatch m with advance _ => fail | while_ _ _ _ => fail | _ => idtac end;
      let rec head t := lazymatch t with ?f _ => head f | _ => t end in
      let h := head m in unfold h
  end; cbv beta iota.

Lemma body_amount : forall f u q s, called f s -> okay text s -> left s < n -> suits u q s -> stack f u q s <= S d ->
  rwp (body U n rec f) (body U n' rec' f) s (fun _ s' => left_at u s').
Proof.
  intros f u q s Y O L F N. destruct f; cbn [body]; cbn [called] in Y; try contradiction Y.
  all: try (destruct Y as (t0 & S0 & K0)).
  all: repeat step1.
  - destruct (RI s t) as (A & B); auto; [apply is_true; assumption|]. unfold rwp. rewrite A, B. split; [reflexivity|discriminate].
Qed.

Lemma body_amount_input : forall f u q s s1, sort_of f = Whole -> okay text s -> left s < n -> advance U s = Ok tt s1 -> suits u q s1 ->
  40 * (m - u) + 33 <= d -> rwp (body U n rec f) (body U n' rec' f) s (fun _ _ => True).
Proof.
  intros f u q s s1 SO O L A F N. destruct f; try discriminate SO; clear SO; cbn [body].
  all: unfold p_file_input, p_single_input, p_eval_input, p_func_type_input; apply rwp_bind;
    apply rwp_same, (wp_advance U text); [assumption|]; intros s1' O1 L1 _ A1; rewrite A in A1; injection A1 as <-; clear A.
  all: pose proof (suits_height _ _ _ F); repeat step1.
Qed.
End Amount.

Lemma amount_run : forall U text m n d N f u q s, n + d <= N -> called f s -> okay text s -> left s < n -> suits U m u q s -> stack m f u q s <= d ->
  rwp (run_deep U n d f) (run U N f) s (fun _ s' => left_at U m u s').
Proof.
  intros U text m n d. induction d as [|d IH]; intros N f u q s NN Y O L F D; [unfold stack in D; lia|].
  destruct N as [|N]; [lia|]. cbn [run_deep run].
  apply (body_amount U text m n N d (run_deep U n d) (run U N) ltac:(lia) (deep_sound U n d)) with (q := q); auto.
  - intros; eapply IH; eauto; lia.
  - intros; split; [eapply deep_import; eauto|eapply run_import; eauto].
Qed.
Lemma amount_input : forall U text m n d N f u q s s1, n + d <= N -> sort_of f = Whole -> okay text s -> left s < n ->
  advance U s = Ok tt s1 -> suits U m u q s1 -> 40 * (m - u) + 34 <= d -> run_deep U n d f s = run U N f s.
Proof.
  intros U text m n d N f u q s s1 NN SO O L A F D. destruct d as [|d]; [lia|]. destruct N as [|N]; [lia|]. cbn [run_deep run].
  apply (body_amount_input U text m n N d (run_deep U n d) (run U N) ltac:(lia) (deep_sound U n d)
    ltac:(intros; eapply amount_run; eauto; lia)
    f u q s s1 SO O L A F ltac:(lia)).
Qed.
