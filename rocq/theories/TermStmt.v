(** Termination of the statement functions: a call that does not return has reached [import] at
    the start of a small statement, one that panics the name [match] at the start of a statement. *)
From Coq Require Import List Arith ZArith Lia.
From Verif Require Import Chars SourceBuffer Token Tokenizer LexBasics Node ParserState Expressions Statements
  Blocks Parser WellFormed CallLemmas CallTheorem GrammarSpec ParseBasics SoundBasics Soundness FirstSets
  TermBasics TermExpr.
Import ListNotations.
Local Open Scope nat_scope.

(** ** The ends of phrases *)
Definition ends (ks : list kind) (l : list ptok) : Prop :=
  exists l0 p t, l = l0 ++ [(p, t)] /\ In (tk_kind t) ks.

Lemma ends_app : forall ks l1 l2, ends ks l2 -> ends ks (l1 ++ l2).
Proof. intros ks l1 l2 (l0 & p & t & -> & I). exists (l1 ++ l0), p, t. rewrite app_assoc. auto. Qed.
Lemma ends_cons : forall ks a l2, ends ks l2 -> ends ks (a :: l2).
Proof. intros ks a l2 H. apply (ends_app ks [a]). exact H. Qed.
Lemma ends_one : forall ks p t, In (tk_kind t) ks -> ends ks [(p, t)].
Proof. intros. exists [], p, t. auto. Qed.
Lemma ends_sub : forall a b l, ends a l -> sub_kinds a b = true -> ends b l.
Proof. intros a b l (l0 & p & t & -> & I) S. exists l0, p, t. split; auto. eapply sub_kinds_in; eauto. Qed.

Lemma simple_ends : forall l la x, E F_simple_stmt l la x -> ends [T_Newline; T_Dedent] l.
Proof.
  intros l la x H. inversion H; subst; clear H; try discriminate;
  repeat first [ apply ends_one; match goal with K : tk_kind _ = _ |- _ => rewrite K; cbn; tauto end
               | apply ends_cons; [] | apply ends_app ].
Qed.

Ltac at_end :=
  repeat first [ assumption
               | match goal with H : ends _ ?l |- ends _ ?l => exact H end
               | apply ends_one; match goal with K : tk_kind _ = _ |- _ => rewrite K; cbn; tauto end
               | apply ends_cons | apply ends_app ].

Lemma ends_last : forall ks l, ends ks l -> l = [] \/ ends ks l.
Proof. auto. Qed.

Lemma B_ends_all :
  (forall f c l la x c', B f c l la x c' -> f <> F_except_clause -> ends [T_Newline; T_Dedent] l) /\
  (forall f c l la o c', B_opt f c l la o c' -> f <> F_except_clause ->
     match o with Some _ => ends [T_Newline; T_Dedent] l | None => l = [] end) /\
  (forall f c l la xs c', B_many f c l la xs c' -> f <> F_except_clause ->
     match xs with [] => l = [] | _ => ends [T_Newline; T_Dedent] l end).
Proof.
  apply B_mutual; intros;
    repeat match goal with
    | H : E F_simple_stmt _ _ _ |- _ => apply simple_ends in H
    | H : ?f <> F_except_clause -> _ |- _ => specialize (H ltac:(discriminate))
    | H : match ?o with _ => _ end |- _ => destruct o; cbv iota in H
    end; subst; rewrite ?app_nil_r in *; cbn [app] in *; try congruence; try (at_end; fail).
  - apply H1. intros ->. cbn in H. intuition discriminate.
  - apply ends_cons. apply H2. intros ->. cbn in H0. intuition discriminate.
  - apply ends_app. apply H2. intros ->. cbn in H0. intuition discriminate.
  - auto.
  - specialize (H0 H3). specialize (H2 H3). destruct xs; subst; rewrite ?app_nil_r; at_end.
Qed.

Lemma B_ends : forall f c l la x c', B f c l la x c' -> f <> F_except_clause -> ends [T_Newline; T_Dedent] l.
Proof. exact (proj1 B_ends_all). Qed.

(** ** Where a statement may start *)
Definition boundary : list kind := [T_Newline; T_Indent; T_Dedent; PySemiColon; PyColon; T_TypeComment].

Section Trace.
Variable U : unicode.

(** [s'] is reached from [s] by reading tokens, the last one in [boundary]. *)
Definition after1 (s s' : parser) : Prop := exists l, reads U s l s' /\ ends boundary l.
(** ... or by reading nothing. *)
Definition after (s s' : parser) : Prop := exists l, reads U s l s' /\ (l = [] \/ ends boundary l).
Definition from (s s' : parser) : Prop := exists l, reads U s l s'.

Definition sees (bad : token -> Prop) (s : parser) : Prop := exists t, ps_symbol s = inl t /\ bad t.
Definition hit (bad : token -> Prop) (s : parser) : Prop := exists s', after s s' /\ sees bad s'.
Definition hit1 (bad : token -> Prop) (s : parser) : Prop := exists s', after1 s s' /\ sees bad s'.

Definition is_import (t : token) : Prop := tk_kind t = PyImport.
Definition is_match (t : token) : Prop := tk_kind t = T_AtomName /\ text_of t = $"match".

(** The functions that may meet a small statement in their first token. *)
Definition starter (f : fn) : bool :=
  match f with
  | F_stmt | F_simple_stmt | F_small_stmt | F_import_stmt | F_suite | F_func_body_suite => true
  | _ => false
  end.
Definition hits (f : fn) (bad : token -> Prop) (s : parser) : Prop :=
  match sort_of f with
  | Whole => exists s1, advance U s = Ok tt s1 /\ hit bad s1
  | _ => if starter f then hit bad s else hit1 bad s
  end.

Lemma after1_from : forall s s1 s2, from s s1 -> after1 s1 s2 -> after1 s s2.
Proof. intros s s1 s2 (l & R) (l' & R' & En). exists (l ++ l'). split; [eapply reads_app; eauto|apply ends_app; auto]. Qed.
Lemma from_trans : forall s s1 s2, from s s1 -> from s1 s2 -> from s s2.
Proof. intros s s1 s2 (l & R) (l' & R'). exists (l ++ l'). eapply reads_app; eauto. Qed.
Lemma after1_after : forall s s1 s2, after1 s s1 -> after s1 s2 -> after1 s s2.
Proof.
  intros s s1 s2 (l & R & En) (l' & R' & [-> | En']).
  - exists (l ++ []). split; [eapply reads_app; eauto|]. rewrite app_nil_r. auto.
  - exists (l ++ l'). split; [eapply reads_app; eauto|apply ends_app; auto].
Qed.
Lemma after_trans : forall s s1 s2, after s s1 -> after s1 s2 -> after s s2.
Proof.
  intros s s1 s2 (l & R & En) (l' & R' & [-> | En']).
  - exists (l ++ []). split; [eapply reads_app; eauto|]. rewrite app_nil_r. auto.
  - exists (l ++ l'). split; [eapply reads_app; eauto|right; apply ends_app; auto].
Qed.
Lemma after1_is_after : forall s s1, after1 s s1 -> after s s1.
Proof. intros s s1 (l & R & En). exists l. auto. Qed.
Lemma after_from : forall s s1, after s s1 -> from s s1.
Proof. intros s s1 (l & R & _). exists l. auto. Qed.
Lemma after1_is_from : forall s s1, after1 s s1 -> from s s1.
Proof. intros s s1 (l & R & _). exists l. auto. Qed.
Lemma after_refl : forall s, after s s.
Proof. intros s. exists []. split; [apply reads_refl|auto]. Qed.
Lemma from_refl : forall s, from s s.
Proof. intros s. exists []. apply reads_refl. Qed.

Lemma hit_after : forall bad s s1, after s s1 -> hit bad s1 -> hit bad s.
Proof. intros bad s s1 A (s2 & B & C). exists s2. split; auto. eapply after_trans; eauto. Qed.
Lemma hit_after1 : forall bad s s1, after1 s s1 -> hit bad s1 -> hit1 bad s.
Proof. intros bad s s1 A (s2 & B & C). exists s2. split; auto. eapply after1_after; eauto. Qed.
Lemma hit1_from : forall bad s s1, from s s1 -> hit1 bad s1 -> hit1 bad s.
Proof. intros bad s s1 A (s2 & B & C). exists s2. split; auto. eapply after1_from; eauto. Qed.
Lemma hit1_hit : forall bad s, hit1 bad s -> hit bad s.
Proof. intros bad s (s2 & B & C). exists s2. split; auto. apply after1_is_after; auto. Qed.
Lemma hit_here : forall (bad : token -> Prop) s t, ps_symbol s = inl t -> bad t -> hit bad s.
Proof. intros bad s t S K. exists s. split; [apply after_refl|exists t; auto]. Qed.
Lemma from_advance : forall s t s1, ps_symbol s = inl t -> advance U s = Ok tt s1 -> from s s1.
Proof. intros. exists [(pos s, t)]. eapply reads_one; eauto. Qed.
Lemma after1_advance : forall s t s1, ps_symbol s = inl t -> advance U s = Ok tt s1 ->
  In (tk_kind t) boundary -> after1 s s1.
Proof. intros. exists [(pos s, t)]. split; [eapply reads_one; eauto|apply ends_one; auto]. Qed.
End Trace.

Lemma wp_conseq : forall (X Y X' Y' : Prop) A (m : M A) s (Q : A -> parser -> Prop),
  wp X Y m s Q -> (X -> X') -> (Y -> Y') -> wp X' Y' m s Q.
Proof. intros X Y X' Y' A m s Q H HX HY. unfold wp in *. destruct (m s); auto. Qed.

(** The functions below which statements are parsed. *)
Definition nests (f : fn) : bool :=
  match f with F_match => false | _ => negb (pure f) end.
(** The functions whose phrases end a line or a block. *)
Definition closes (f : fn) : bool :=
  match f with
  | F_simple_stmt => true
  | F_except_clause => false
  | _ => match sort_of f with Block => true | _ => false end
  end.

Section Statements.
Variables (U : unicode) (text : str) (n : nat) (rec : fn -> M node).
Hypothesis G : good U rec.
Hypothesis RP : forall f s, pure f = true -> okay text s -> need f s <= n -> wp False False (rec f) s (fun _ _ => True).
Hypothesis RN : forall f s, nests f = true -> okay text s -> need f s <= n ->
  wp (hits U f is_match s) (hits U f is_import s) (rec f) s (fun _ _ => True).
Hypothesis RM : forall s, rec F_match s = Panic.
Hypothesis RI : forall s t, ps_symbol s = inl t -> tk_kind t = PyImport -> rec F_import_stmt s = Fuel.

Lemma sound_from : forall f s x s', sort_of f <> Whole -> sound U f s x s' -> from U s s'.
Proof.
  intros f s x s' N S. unfold sound in S. destruct (sort_of f); [| |contradiction N; reflexivity|contradiction].
  - destruct S as (l & R & _). exists l. auto.
  - destruct S as (l & R & _). exists l. auto.
Qed.
Lemma sound_closes : forall f s x s', closes f = true -> sound U f s x s' -> after1 U s s'.
Proof.
  intros f s x s' C S. unfold sound in S. destruct (sort_of f) eqn:SO; [| | |contradiction].
  - destruct f; try discriminate. destruct S as (l & R & _ & D). exists l. split; auto.
    apply simple_ends in D. eapply ends_sub; [exact D|reflexivity].
  - destruct S as (l & R & D). exists l. split; auto.
    eapply ends_sub; [eapply B_ends; [exact D|]|reflexivity]. intros ->. discriminate.
  - destruct f; discriminate.
Qed.

Lemma wp_recP : forall (X Y : Prop) f s (Q : node -> parser -> Prop), pure f = true -> okay text s ->
  need f s <= n -> sort_of f <> Whole ->
  (forall x s', okay text s' -> left s' <= left s -> (eats f = true -> left s' < left s) -> from U s s' -> Q x s') ->
  wp X Y (rec f) s Q.
Proof.
  intros X Y f s Q P O N W H. apply wp_conseq with (X := False) (Y := False); try contradiction.
  eapply wp_weak; [apply wp_eq; apply RP; auto|]. intros x s' (_ & E). apply G in E.
  destruct (sound_post _ _ _ _ _ _ O E) as (A & B & C). apply H; auto. eapply sound_from; eauto.
Qed.

Lemma wp_recN : forall (X Y : Prop) f s (Q : node -> parser -> Prop), nests f = true -> okay text s ->
  need f s <= n -> sort_of f <> Whole ->
  (hits U f is_match s -> X) -> (hits U f is_import s -> Y) ->
  (forall x s', okay text s' -> left s' <= left s -> (eats f = true -> left s' < left s) ->
     (if closes f then after1 U s s' else from U s s') -> Q x s') ->
  wp X Y (rec f) s Q.
Proof.
  intros X Y f s Q P O N W HX HY H. eapply wp_conseq; [|exact HX|exact HY].
  eapply wp_weak; [apply wp_eq; apply RN; auto|]. intros x s' (_ & E). apply G in E.
  destruct (sound_post _ _ _ _ _ _ O E) as (A & B & C). apply H; auto.
  destruct (closes f) eqn:CL; [eapply sound_closes; eauto|eapply sound_from; eauto].
Qed.

Ltac get_from := first [assumption | apply after1_is_from; assumption | apply after_from; assumption | apply from_refl].
Ltac get_after := first [assumption | apply after1_is_after; assumption | apply after_refl].
Ltac base :=
  match goal with
  | |- wp (hit U _ ?b) _ _ _ _ => b
  | |- wp (hit1 U _ ?b) _ _ _ _ => b
  end.
Ltac hit_it :=
  let H := fresh in intro H; unfold hits in H; cbn [sort_of starter] in H; cbv iota in H;
  match goal with
  | H : hit U _ ?s |- hit U _ _ => revert H; apply hit_after; get_after
  | H : hit1 U _ ?s |- hit U _ _ => apply hit1_hit; revert H; apply hit1_from; get_from
  | H : hit U _ ?s |- hit1 U _ _ => revert H; apply hit_after1; assumption
  | H : hit1 U _ ?s |- hit1 U _ _ => revert H; apply hit1_from; get_from
  end.
Ltac in_boundary :=
  match goal with H : is _ ?t = true |- In (tk_kind ?t) boundary => apply is_true in H; rewrite H; cbn; tauto end.
(** Replaces a relation between the last two states by one with the base. *)
Ltac rebase b :=
  repeat match goal with
  | H : advance U ?s = Ok tt ?v, S : ps_symbol ?s = inl ?t |- _ =>
      first
      [ let Q := fresh in assert (Q : after1 U b v)
          by (apply after1_from with (s1 := s); [get_from|apply (after1_advance U _ t); [exact S|exact H|in_boundary]])
      | let Q := fresh in assert (Q : from U b v)
          by (apply from_trans with (s1 := s); [get_from|apply (from_advance U _ t); [exact S|exact H]]) ];
      clear H
  end.

Ltac step1 :=
  match goal with
  | |- wp _ _ (bind _ _) _ _ => apply wp_bind
  | |- wp _ _ (ret _) _ _ => apply wp_ret
  | |- wp _ _ (fail _ _) _ _ => exact I
  | |- wp _ _ (fail_here _) _ _ => exact I
  | |- wp _ _ position _ _ => apply wp_position
  | |- wp _ _ get_except _ _ => apply wp_get
  | |- wp _ _ (set_except _) ?s _ => 
      let b := base in
      apply (wp_set U text); [assumption|];
      let R := fresh in let L := fresh in intros ? ? L R;
      match type of R with reads U s [] ?v =>
        let Q := fresh in assert (Q : from U s v) by (exists []; exact R);
        let Q2 := fresh in assert (Q2 : from U b v) by (apply from_trans with (s1 := s); [get_from|exact Q]);
        clear R Q
      end
  | |- wp _ _ (advance U) _ _ => let b := base in apply (wp_advance U text); [assumption|intros ? ? ? ? ?; less; rebase b]
  | |- wp _ _ (expect _ _ _ _ _) _ _ => unfold expect
  | |- wp _ _ (on_symbol _ _) _ _ => apply wp_on; [intros ? ?|intros _]
  | |- wp _ _ (rec ?f) ?s _ =>
      let b := base in
      apply wp_recP; [reflexivity|assumption|enough_fuel|discriminate|
        let EQ := fresh "EQ" in let F := fresh in intros ? ? ? ? EQ F;
        first [specialize (EQ eq_refl) | clear EQ];
        match type of F with from U s ?s' =>
          let Q := fresh in assert (Q : from U b s') by (apply from_trans with (s1 := s); [get_from|exact F]); clear F
        end]
  | |- wp _ _ (rec ?f) ?s _ =>
      let b := base in
      apply wp_recN; [reflexivity|assumption|enough_fuel|discriminate|hit_it|hit_it|
        let EQ := fresh "EQ" in let F := fresh in intros ? ? ? ? EQ F;
        first [specialize (EQ eq_refl) | clear EQ]; cbn [closes sort_of] in F; cbv iota in F;
        match type of F with
        | from U s ?s' =>
          let Q := fresh in assert (Q : from U b s') by (apply from_trans with (s1 := s); [get_from|exact F]); clear F
        | after1 U s ?s' =>
          let Q := fresh in assert (Q : after1 U b s') by (apply after1_from with (s1 := s); [get_from|exact F]); clear F
        end]
  | |- wp ?X ?Y (while_ n ?step ?a) ?s ?Q =>
      let b := base in
      first
      [ match goal with H : after1 U b s |- _ =>
        apply (wp_while X Y _ step (fun s1 => okay text s1 /\ left s1 <= left s /\ after1 U b s1) Q) end
      | apply (wp_while X Y _ step (fun s1 => okay text s1 /\ left s1 <= left s /\ from U b s1) Q) ];
      [ intros ? ? (? & ? & ?) | enough_fuel | split; [assumption|split; [lia|get_from]] ]
  | |- wp _ _ (if ?b then _ else _) _ _ => let H := fresh "T" in destruct b eqn:H
  | |- wp _ _ (match ?x with _ => _ end) _ _ => destruct x
  | |- forall _, _ => intro
  | |- (if fst (true, _) then _ else _) => cbn [fst snd]; split; [split; [assumption|split; [lia|first [get_from|get_after]]]|lia]
  | |- (if fst (false, _) then _ else _) => cbn [fst snd]
  | |- True => exact I
  | |- wp _ _ ?m _ _ =>
      let rec head t := lazymatch t with ?f _ => head f | _ => t end in
      let h := head m in unfold h
  end; cbv beta iota.

Lemma body_nests : forall f s, nests f = true -> sort_of f <> Whole -> okay text s -> need f s <= S n ->
  wp (hits U f is_match s) (hits U f is_import s) (body U n rec f) s (fun _ _ => True).
Proof.
  intros f s P NW O N. destruct f; try discriminate P; try (contradiction NW; reflexivity); clear P NW; cbn [body].
  all: unfold hits; cbn [sort_of starter]; cbv iota.
  all: repeat step1.
  - unfold wp. rewrite RM. apply hit_here with (t := t); auto. split; [apply is_true; assumption|].
    apply str_eqb_eq. assumption.
  - unfold wp. rewrite (RI s t); auto; [|apply is_true; assumption].
    apply hit_here with (t := t); auto. apply is_true. assumption.
Qed.

Lemma body_whole : forall f s, nests f = true -> sort_of f = Whole -> okay text s -> need f s <= S n ->
  wp (hits U f is_match s) (hits U f is_import s) (body U n rec f) s (fun _ _ => True).
Proof.
  intros f s P NW O N. destruct f; try discriminate P; try discriminate NW; clear P NW; cbn [body];
    unfold hits; cbn [sort_of]; unfold p_file_input, p_single_input; apply wp_bind;
    apply (wp_advance U text); auto; intros s1 O1 L1 _ A;
    (apply wp_conseq with (X := hit U is_match s1) (Y := hit U is_import s1);
      [|intros H; exists s1; split; [exact A|exact H]|intros H; exists s1; split; [exact A|exact H]]); clear A.
  - do 3 step1.
    match goal with |- wp ?X ?Y (while_ n ?step ?a) ?s ?Q =>
      apply (wp_while X Y _ step (fun s2 => okay text s2 /\ left s2 <= left s1 /\ after U s1 s2) Q) end.
    + intros a s2 (O2 & L2 & A2). repeat step1.
    + enough_fuel.
    + split; [assumption|split; [lia|get_after]].
  - repeat step1. unfold wp, bind. rewrite RM. apply hit_here with (t := t); auto.
    apply andb_prop in T1. destruct T1 as (T1 & T2). split; [apply is_true; assumption|].
    apply str_eqb_eq. assumption.
Qed.
End Statements.

Lemma run_import : forall U n s t, ps_symbol s = inl t -> tk_kind t = PyImport -> run U n F_import_stmt s = Fuel.
Proof.
  intros U n s t S K. induction n as [|n IH]; [reflexivity|].
  cbn [run body]. unfold p_import_stmt. rewrite bind_position. unfold on_symbol. rewrite S.
  rewrite (is_eq PyImport _ t K). exact IH.
Qed.

Lemma run_nests : forall U text n f s, nests f = true -> okay text s -> need f s <= n ->
  wp (hits U f is_match s) (hits U f is_import s) (run U n f) s (fun _ _ => True).
Proof.
  intros U text n. induction n as [|n IH]; intros f s P O N; [unfold need in N; lia|].
  destruct n as [|n]; [unfold need in N; lia|].
  assert (G : good U (run U (S n))) by (intros g x y z; apply run_sound).
  assert (RP : forall g s1, pure g = true -> okay text s1 -> need g s1 <= S n ->
    wp False False (run U (S n) g) s1 (fun _ _ => True)).
  { intros g s1 P1 O1 N1. eapply wp_weak; [eapply run_pure; eauto|]. auto. }
  assert (RM : forall s1, run U (S n) F_match s1 = Panic) by reflexivity.
  destruct (sort_of f) eqn:SO; [apply (body_nests U text (S n) (run U (S n))); auto; try congruence;
      intros; eapply run_import; eauto..| |discriminate P || (destruct f; discriminate)].
  - apply (body_whole U text (S n) (run U (S n))); auto.
Qed.

(** A call that does not return within the fuel reaches [import] where a small statement may start;
    one that panics reaches the name [match] where a statement may start. *)
Theorem stmt_returns : forall U text n f s, nests f = true -> okay text s -> need f s <= n ->
  (run U n f s = Fuel -> hits U f is_import s) /\ (run U n f s = Panic -> hits U f is_match s).
Proof.
  intros U text n f s P O N. pose proof (run_nests U text n f s P O N) as W. unfold wp in W.
  destruct (run U n f s); split; (discriminate || auto).
Qed.
