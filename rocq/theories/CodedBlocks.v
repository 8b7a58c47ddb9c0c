(** Every sentence of the grammar of the parser in plain EBNF has a derivation with look-ahead: statements that contain
    suites, and inputs. *)
From Coq Require Import List Arith Lia Bool NArith.
From Verif Require Import Chars Token LexBasics Node NodeView ParserState GrammarSpec ParseBasics PythonGrammar Recognise PythonProofs CodedGrammar CodedSpec CodedComplete.
Import ListNotations.
Local Open Scope nat_scope.
Local Open Scope ebnf_scope.

Lemma below_complete n : forall r f l la, fn_of r = Some f -> below n (R r) l -> allows r la -> exists x, E f l la x /\ plain x.
Proof.
  induction n as [n IHn] using (well_founded_induction lt_wf). intros r f l la Q (m & L & H) A.
  inversion H as [|m' r' ks H1| | | | | | | | |]; subst.
  apply (done_all (S m') (IHn (S m') L) r f l la Q); [|exact A]. exists m'. split; [lia|exact H1].
Qed.
Lemma phrases_complete r f l la : fn_of r = Some f -> fits coded (R r) (kinds l) -> allows r la -> exists x, E f l la x /\ plain x.
Proof. intros Q H A. apply fits_fitn in H. destruct H as (m & H). apply (below_complete (S m) r f l la Q); [|exact A]. exists m. split; [lia|exact H]. Qed.

(** ** Last tokens *)
Fixpoint lasts (n : nat) (e : ebnf) {struct n} : option (bool * list kind) :=
  match n with
  | O => None
  | S n =>
      match e with
      | T k => Some (false, [k])
      | R r => lasts n (coded r)
      | Seq [] => Some (true, [])
      | Seq (d :: ds) =>
          match lasts n (Seq ds) with
          | Some (true, ks) => match lasts n d with Some (b, ks') => Some (b, ks' ++ ks) | None => None end
          | o => o
          end
      | Alt ds =>
          fold_right (fun d o => match lasts n d, o with Some (b, ks), Some (b', ks') => Some (b || b', ks ++ ks') | _, _ => None end)
            (Some (false, [])) ds
      | Opt d | Star d => match lasts n d with Some (_, ks) => Some (true, ks) | None => None end
      | Plus d => lasts n d
      | But k d => match lasts n d with Some (_, ks) => Some (false, ks) | None => None end
      end
  end.
Definition finishes (b : bool) (s : list kind) (ks : list kind) : Prop :=
  (ks = [] -> b = true) /\ forall a k, ks = a ++ [k] -> In k s.
Lemma finishes_nil b s : b = true -> finishes b s [].
Proof. intros ->. split; [reflexivity|]. intros a k E. destruct a; discriminate. Qed.
Lemma finishes_app b1 s1 b2 s2 b s ks1 ks2 : finishes b1 s1 ks1 -> finishes b2 s2 ks2 ->
  (b1 = true -> b2 = true -> b = true) -> incl s2 s -> (b2 = true -> incl s1 s) -> finishes b s (ks1 ++ ks2).
Proof.
  intros [N1 L1] [N2 L2] HB I2 I1. split.
  - intros E. apply app_eq_nil in E. destruct E. auto.
  - intros a k E. destruct ks2 as [|x ks2] using rev_ind.
    + rewrite app_nil_r in E. apply (I1 (N2 eq_refl)). eapply L1. exact E.
    + rewrite app_assoc in E. apply app_inj_tail in E. destruct E as [_ <-]. apply I2. eapply L2. reflexivity.
Qed.
Lemma lasts_sound n : forall e b s ks, lasts n e = Some (b, s) -> fits coded e ks -> finishes b s ks.
Proof.
  induction n as [|n IH]; intros e b s ks; cbn [lasts]; [discriminate|].
  assert (ST : forall d b1 s1, lasts n d = Some (b1, s1) -> forall e ks, fits coded e ks -> e = Star d -> finishes true s1 ks).
  { intros d b1 s1 D e' ks' F. induction F; intros Z; try discriminate Z; [apply finishes_nil; reflexivity|]. injection Z as ->.
    eapply finishes_app; [eapply IH; [exact D|assumption]|apply IHF2; reflexivity|reflexivity|apply incl_refl|intros _; apply incl_refl]. }
  destruct e as [k|r|es|es|d|d|d|k d]; intros H F.
  - injection H as <- <-. inversion F; subst. split; [discriminate|]. intros a k' E. apply (app_inj_tail [] a) in E. destruct E as [_ <-]. now left.
  - inversion F; subst. eapply IH; eauto.
  - destruct es as [|d ds].
    + injection H as <- <-. inversion F; subst. apply finishes_nil. reflexivity.
    + destruct (lasts n (Seq ds)) as [[b2 s2]|] eqn:D2; [|discriminate].
      inversion F as [| | |e es' k1 k2 F1 F2| | | | | | |]; subst. pose proof (IH _ _ _ _ D2 F2) as B2.
      destruct b2.
      * destruct (lasts n d) as [[b1 s1]|] eqn:D; [|discriminate]. injection H as <- <-. pose proof (IH _ _ _ _ D F1) as B1.
        eapply finishes_app; [exact B1|exact B2|auto|apply incl_appr, incl_refl|intros _; apply incl_appl, incl_refl].
      * injection H as <- <-. destruct B2 as [N2 L2]. split.
        -- intros E. apply app_eq_nil in E. destruct E as [_ E]. exact (N2 E).
        -- intros a k E. destruct k2 as [|x k2] using rev_ind; [specialize (N2 eq_refl); discriminate|].
           rewrite app_assoc in E. apply app_inj_tail in E. destruct E as [_ <-]. eapply L2. reflexivity.
  - inversion F as [| | | |e es' k' I F1| | | | | |]; subst. clear F. revert b s H. induction es as [|d ds IHs]; intros b s H; [destruct I|].
    cbn [fold_right] in H. destruct (lasts n d) as [[b1 s1]|] eqn:D; [|discriminate].
    destruct (fold_right _ _ ds) as [[b2 s2]|] eqn:D2; [|discriminate]. injection H as <- <-. destruct I as [->|I].
    + pose proof (IH _ _ _ _ D F1) as [B1 B2]. split; [intros E; rewrite (B1 E); reflexivity|]. intros a k E. apply in_or_app. left. eapply B2, E.
    + specialize (IHs I _ _ eq_refl). destruct IHs as [B1 B2]. split; [intros E; rewrite (B1 E); apply orb_true_r|]. intros a k E. apply in_or_app. right. eapply B2, E.
  - destruct (lasts n d) as [[b1 s1]|] eqn:D; [|discriminate]. injection H as <- <-.
    inversion F as [| | | | |e|e k' F1| | | |]; subst; [apply finishes_nil; reflexivity|]. pose proof (IH _ _ _ _ D F1) as [B1 B2]. split; [reflexivity|exact B2].
  - destruct (lasts n d) as [[b1 s1]|] eqn:D; [|discriminate]. injection H as <- <-. eapply ST; [exact D|exact F|reflexivity].
  - inversion F as [| | | | | | | | |e k1 k2 F1 F2|]; subst. pose proof (IH _ _ _ _ H F1) as B1. pose proof (ST _ _ _ H _ _ F2 eq_refl) as B2.
    eapply finishes_app; [exact B1|exact B2|auto|apply incl_refl|intros _; apply incl_refl].
  - destruct (lasts n d) as [[b1 s1]|] eqn:D; [|discriminate]. injection H as <- <-.
    inversion F as [| | | | | | | | | |k' e k2 ks' F1 N]; subst. pose proof (IH _ _ _ _ D F1) as [B1 B2]. split; [discriminate|exact B2].
Qed.
Lemma stmt_last ks : fits coded (R stmt) ks -> exists a k, ks = a ++ [k] /\ In k [T_Newline; T_Dedent].
Proof.
  intros H. assert (Q : exists s, lasts 40 (R stmt) = Some (false, s) /\ forallb (has [T_Newline; T_Dedent]) s = true).
  { vm_compute. eexists. split; reflexivity. }
  destruct Q as (s & Q & S). generalize dependent 40. intros d Q. pose proof (lasts_sound _ _ _ _ _ Q H) as [N L].
  destruct ks as [|k ks] using rev_ind; [specialize (N eq_refl); discriminate|]. exists ks, k. split; [reflexivity|].
  rewrite forallb_forall in S. apply has_In. apply S. eapply L. reflexivity.
Qed.

(** ** Where statements begin *)
Definition pcalm (l : list ptok) : Prop := calm (map snd l).
Lemma pcalm_app a b : pcalm (a ++ b) -> pcalm a /\ pcalm b.
Proof.
  unfold pcalm, calm. rewrite map_app. intros H. split; intros x t u y E.
  - apply (H x t u (y ++ map snd b)). transitivity ((x ++ t :: u :: y) ++ map snd b); [exact (f_equal (fun z => z ++ map snd b) E)|rewrite <- app_assoc; reflexivity].
  - apply (H (map snd a ++ x) t u y). transitivity (map snd a ++ (x ++ t :: u :: y)); [exact (f_equal (fun z => map snd a ++ z) E)|rewrite <- app_assoc; reflexivity].
Qed.
Lemma pcalm_cons x a : pcalm (x :: a) -> pcalm a.
Proof. intros H. exact (proj2 (pcalm_app [x] a H)). Qed.
Lemma pcalm_next a p t l : pcalm (a ++ (p, t) :: l) -> opens_line (tk_kind t) -> ~ starts_match l.
Proof.
  intros H O (q & u & l' & -> & K & X). unfold pcalm in H. rewrite map_app in H.
  exact (H (map snd a) t u (map snd l') eq_refl O (conj K X)).
Qed.
Ltac calmly :=
  repeat match goal with
  | H : pcalm (_ ++ _) |- _ => apply pcalm_app in H; let H1 := fresh "C" in let H2 := fresh "C" in destruct H as [H1 H2]
  | H : pcalm (_ :: _) |- _ => apply pcalm_cons in H
  end.
Lemma stmt_next n l1 l2 : below n (R stmt) l1 -> pcalm (l1 ++ l2) -> ~ starts_match l2.
Proof.
  intros H C. apply F_fits in H. destruct (stmt_last _ H) as (a & k & E & I).
  destruct l1 as [|[p t] l1 _] using rev_ind; [destruct a; discriminate|].
  rewrite kinds_app in E. apply app_inj_tail in E. destruct E as [_ E]. rewrite <- app_assoc in C. cbn [app] in C.
  apply (pcalm_next _ _ _ _ C). cbn in E. rewrite E. unfold opens_line. cbn in I. intuition congruence.
Qed.

Definition block_fn (r : rule) : option fn :=
  match r with
  | stmt => Some F_stmt | compound_stmt => Some F_compound_stmt | if_stmt => Some F_if_stmt | while_stmt => Some F_while_stmt
  | for_stmt => Some F_for_stmt | try_stmt => Some F_try_stmt | with_stmt => Some F_with_stmt | funcdef => Some F_func_def
  | classdef => Some F_class_def | async_stmt => Some F_async_stmt | suite => Some F_suite | func_body_suite => Some F_func_body_suite
  | _ => None
  end.

Section Blocks.
Context (n : nat).
Notation F := (below n).
Let IH := below_complete n.
Definition block_done (f : fn) (l : list ptok) (la : look) : Prop :=
  forall c, c <> ExceptMul -> exists x c', B f c l la x c' /\ c' <> ExceptMul /\ plain x.
Context (IHB : forall r f l la, block_fn r = Some f -> F (R r) l -> allows r la -> pcalm l -> (r = stmt -> ~ starts_match l) -> block_done f l la).

Ltac nextb l :=
  lazymatch goal with |- exists _ _, B _ _ ?L ?la _ _ /\ _ =>
    let s := suffix l L in let la' := eval cbn [ahead app] in (ahead s la) in la' end.
Ltac getb r :=
  match reverse goal with H : F (R r) ?l |- _ =>
    let la' := nextb l in
    let x := fresh "x" in let HE := fresh "HE" in let HP := fresh "HP" in
    destruct (IH r _ l la' eq_refl H ltac:(allow)) as (x & HE & HP); clear H end.
Ltac getallb := repeat match reverse goal with H : F (R ?r) _ |- _ => getb r end.

Lemma suite_of l la c : F (R suite) l -> (exists t, snd la = Some t) -> pcalm l -> c <> ExceptMul ->
  exists x c', B F_suite c l la x c' /\ c' <> ExceptMul /\ plain x.
Proof. intros H (t & E) C. apply (IHB suite F_suite l la eq_refl H); [exists t; auto|exact C|discriminate]. Qed.
Lemma ahead_token l la : (exists t, snd la = Some t) -> exists t, snd (ahead l la) = Some t.
Proof. destruct l as [|[p t] l]; [auto|]. intros _. exists t. reflexivity. Qed.
Ltac some_token := repeat apply ahead_token; first [assumption | eexists; reflexivity].

Lemma else_of l la c : F (Opt else_suite) l -> (exists t, snd la = Some t) -> pcalm l -> c <> ExceptMul ->
  exists o c', B_opt F_else_stmt c l la o c' /\ c' <> ExceptMul /\ Forall plain (opt_list o) /\ (o = None -> l = []).
Proof.
  intros H T C N. apply F_opt in H. destruct H as [->|H].
  - exists None, c. split; [constructor|]. repeat split; auto; constructor.
  - unfold else_suite in H. open. calmly. match goal with H : F (R suite) ?l |- _ => destruct (suite_of l la c H T ltac:(assumption) N) as (x & c' & HB & N' & P) end.
    eexists (Some _), c'. split; [apply B_some; eapply B_else; eassumption|]. split; [exact N'|]. split; [|discriminate].
    constructor; [plainly|constructor].
Qed.
Lemma finally_of l la c : F finally_suite l -> (exists t, snd la = Some t) -> pcalm l -> c <> ExceptMul ->
  exists x c', B F_finally_stmt c l la x c' /\ c' <> ExceptMul /\ plain x.
Proof.
  intros H T C N. unfold finally_suite in H. open. calmly. match goal with H : F (R suite) ?l |- _ => destruct (suite_of l la c H T ltac:(assumption) N) as (x & c' & HB & N' & P) end.
  eexists _, c'. split; [eapply B_finally; eassumption|]. split; [exact N'|]. plainly.
Qed.
Lemma elifs_of : forall l, F (Star << PyElif, test, PyColon, suite >>) l -> forall la c, (exists t, snd la = Some t) -> pcalm l -> c <> ExceptMul ->
  exists xs c', B_many F_elif_stmt c l la xs c' /\ c' <> ExceptMul /\ Forall plain xs.
Proof.
  apply (F_star (fun l => forall la c, (exists t, snd la = Some t) -> pcalm l -> c <> ExceptMul ->
    exists xs c', B_many F_elif_stmt c l la xs c' /\ c' <> ExceptMul /\ Forall plain xs)).
  - intros la c _ _ N. exists [], c. split; [constructor|]. split; [exact N|constructor].
  - intros l1 l2 H _ IHs la c T C N. open. calmly.
    match goal with H : F (R test) ?l |- context [?l ++ (?p, ?t) :: _] => destruct (IH test _ l (p, Some t) eq_refl H ltac:(allow)) as (x & HE & HP) end.
    match goal with H : F (R suite) ?l |- _ => destruct (suite_of l (ahead l2 la) c H ltac:(some_token) ltac:(assumption) N) as (y & c1 & HB & N1 & P) end.
    destruct (IHs la c1 T ltac:(assumption) N1) as (xs & c' & HM & N' & HX).
    match goal with K1 : tk_kind ?t = PyElif, K2 : tk_kind ?u = PyColon |- context [(?p, ?t) :: ?l ++ (?q, ?u) :: ?m ++ l2] =>
      exists (ElifStmt p (fst (ahead l2 la)) t x u y :: xs), c'; split; [|split; [exact N'|]];
      [change ((p, t) :: l ++ (q, u) :: m ++ l2) with (((p, t) :: l) ++ ((q, u) :: m) ++ l2); rewrite app_assoc; eapply B_cons; [eapply B_elif; eassumption|exact HM]
      |constructor; [plainly|exact HX]] end.
Qed.
Lemma stmts_of : forall l, F (Star (R stmt)) l -> forall la c, allows stmt la -> pcalm l -> ~ starts_match l -> c <> ExceptMul ->
  exists xs c', B_many F_stmt c l la xs c' /\ c' <> ExceptMul /\ Forall plain xs.
Proof.
  apply (F_star (fun l => forall la c, allows stmt la -> pcalm l -> ~ starts_match l -> c <> ExceptMul ->
    exists xs c', B_many F_stmt c l la xs c' /\ c' <> ExceptMul /\ Forall plain xs)).
  - intros la c _ _ _ N. exists [], c. split; [constructor|]. split; [exact N|constructor].
  - intros l1 l2 H HS IHs la c A C S N. pose proof (stmt_next _ _ _ H C) as S2. apply pcalm_app in C. destruct C as [C1 C2].
    assert (S1 : ~ starts_match l1). { intros (p & t & l & -> & Z). apply S. exists p, t, (l ++ l2). split; [reflexivity|exact Z]. }
    destruct (IHB stmt F_stmt l1 (ahead l2 la) eq_refl H) with (c := c) as (x & c1 & HB & N1 & P); [allow|exact C1|auto|exact N|].
    destruct (IHs la c1 A C2 S2 N1) as (xs & c' & HM & N' & HX). exists (x :: xs), c'.
    split; [eapply B_cons; eassumption|]. split; [exact N'|constructor; assumption].
Qed.
Lemma block_of l la c : F (Plus (R stmt)) l -> allows stmt la -> pcalm l -> ~ starts_match l -> c <> ExceptMul ->
  exists xs c', B_many F_stmt c l la xs c' /\ c' <> ExceptMul /\ Forall plain xs /\ xs <> [].
Proof.
  intros H A C S N. apply F_plus in H. destruct H as (l1 & l2 & -> & H & HS).
  pose proof (stmt_next _ _ _ H C) as S2. apply pcalm_app in C. destruct C as [C1 C2].
  assert (S1 : ~ starts_match l1). { intros (p & t & l & -> & Z). apply S. exists p, t, (l ++ l2). split; [reflexivity|exact Z]. }
  destruct (IHB stmt F_stmt l1 (ahead l2 la) eq_refl H) with (c := c) as (x & c1 & HB & N1 & P); [allow|exact C1|auto|exact N|].
  destruct (stmts_of _ HS la c1 A C2 S2 N1) as (xs & c' & HM & N' & HX). exists (x :: xs), c'.
  split; [eapply B_cons; eassumption|]. split; [exact N'|]. split; [constructor; assumption|discriminate].
Qed.

Definition bdone (r : rule) : Prop :=
  forall f l la, block_fn r = Some f -> F (coded r) l -> allows r la -> pcalm l -> (r = stmt -> ~ starts_match l) -> block_done f l la.
Ltac brule := intros f l la Q H A C S; injection Q as <-; cbn [coded] in H; intros c N;
  assert (HT : exists t, snd la = Some t) by (destruct A as (? & ? & _); eauto).
Ltac keep c' := exists c'; split; [|split; [assumption|]].
Lemma simple_of l la : F (R simple_stmt) l -> (exists t, snd la = Some t) -> exists x, E F_simple_stmt l la x /\ plain x.
Proof. intros H (t & T). apply (IH simple_stmt); [reflexivity|exact H|]. exists t. auto. Qed.
Lemma bdone_stmt : bdone stmt.
Proof.
  brule. open.
  - destruct (simple_of _ la H HT) as (x & HE & HP). exists x, c. split; [apply B_stmt_simple; [exact HE|apply S; reflexivity]|auto].
  - destruct (IHB compound_stmt F_compound_stmt _ la eq_refl H) with (c := c) as (x & c' & HB & N' & P); [allow|exact C|discriminate|exact N|].
    exists x, c'. split; [apply B_stmt_compound; exact HB|auto].
Qed.
Lemma bdone_compound : bdone compound_stmt.
Proof.
  brule. open;
    match type of H with F (R ?r) ?l =>
      destruct (IHB r _ l la eq_refl H) with (c := c) as (x & c' & HB & N' & P); [allow|exact C|discriminate|exact N|];
      exists x, c'; split; [eapply B_compound; [|exact HB]; cbn; tauto|auto] end.
Qed.
Lemma bdone_async : bdone async_stmt.
Proof.
  brule. open; calmly;
    match goal with H : F (R ?r) ?l |- _ =>
      destruct (IHB r _ l la eq_refl H) with (c := c) as (x & c' & HB & N' & P); [allow|assumption|discriminate|exact N|] end.
  - eexists _, c'. split; [eapply (B_async F_with_stmt); [eassumption|cbn; tauto|exact HB]|split; [exact N'|plainly]].
  - eexists _, c'. split; [eapply (B_async F_for_stmt); [eassumption|cbn; tauto|exact HB]|split; [exact N'|plainly]].
Qed.
Ltac unpack H a b H1 H2 := apply F_cons in H; destruct H as (a & b & -> & H1 & H2).
Lemma plain_opts o : Forall plain (opt_list o) -> match o with Some x => plain x | None => True end.
Proof. destruct o; [|auto]. intros H. inversion H. assumption. Qed.
Ltac opt_plain := repeat match goal with o : option node, H : Forall plain (opt_list ?o) |- _ => apply plain_opts in H; destruct o end.
Lemma bdone_if : bdone if_stmt.
Proof.
  brule.
  unpack H l1 r1 H1 H2. unpack H2 l2 r2 H2 H3. unpack H3 l3 r3 H3 H4. unpack H4 l4 r4 H4 H5. unpack H5 l5 r5 H5 H6. unpack H6 l6 r6 H6 H7.
  apply F_nil in H7. subst r6. rewrite app_nil_r in *. apply F_T in H1. apply F_T in H3. destruct H1 as (p & t & -> & K1). destruct H3 as (q & u & -> & K2).
  cbn [app] in *. calmly.
  getb test. destruct (suite_of _ (ahead (l5 ++ l6) la) c H4) as (y & c1 & HS & N1 & PS); [some_token|assumption|assumption|].
  destruct (elifs_of _ H5 (ahead l6 la) c1) as (xs & c2 & HM & N2 & PM); [some_token|assumption|assumption|].
  destruct (else_of _ la c2 H6) as (o & c3 & HO & N3 & PO & OO); [some_token|assumption|assumption|].
  eexists _, c3. split; [eapply B_if; try eassumption|split; [exact N3|]].
  - intros _. stop.
  - opt_plain; plainly.
Qed.
Lemma bdone_while : bdone while_stmt.
Proof.
  brule.
  unpack H l1 r1 H1 H2. unpack H2 l2 r2 H2 H3. unpack H3 l3 r3 H3 H4. unpack H4 l4 r4 H4 H5. unpack H5 l5 r5 H5 H6.
  apply F_nil in H6. subst r5. rewrite app_nil_r in *. apply F_T in H1. apply F_T in H3. destruct H1 as (p & t & -> & K1). destruct H3 as (q & u & -> & K2).
  cbn [app] in *. calmly.
  getb test. destruct (suite_of _ (ahead l5 la) c H4) as (y & c1 & HS & N1 & PS); [some_token|assumption|assumption|].
  destruct (else_of _ la c1 H5) as (o & c3 & HO & N3 & PO & OO); [some_token|assumption|assumption|].
  eexists _, c3. split; [eapply B_while; try eassumption|split; [exact N3|]].
  - intros _. stop.
  - opt_plain; plainly.
Qed.
Lemma comment_of k l : F (Opt (T k)) l -> exists w, opt_token k l w.
Proof. intros H. open; [exists None; constructor|]. eexists. constructor. eassumption. Qed.
Lemma bdone_for : bdone for_stmt.
Proof.
  brule.
  unpack H l1 r1 H1 H2. unpack H2 l2 r2 H2 H3. unpack H3 l3 r3 H3 H4. unpack H4 l4 r4 H4 H5. unpack H5 l5 r5 H5 H6. unpack H6 l6 r6 H6 H7. unpack H7 l7 r7 H7 H8. unpack H8 l8 r8 H8 H9.
  apply F_nil in H9. subst r8. rewrite app_nil_r in *. apply F_T in H1. apply F_T in H3. apply F_T in H5.
  destruct H1 as (p & t & -> & K1). destruct H3 as (q & u & -> & K2). destruct H5 as (r & v & -> & K3).
  cbn [app] in *. calmly. getb exprlist.
  destruct (tests_of n IH l4 (r, Some v) H4 ltac:(allow) ltac:(stop)) as (b & HB & PB).
  destruct (comment_of _ _ H6) as (w & HW).
  destruct (suite_of _ (ahead l8 la) c H7) as (y & c1 & HS & N1 & PS); [some_token|assumption|assumption|].
  destruct (else_of _ la c1 H8) as (o & c3 & HO & N3 & PO & OO); [some_token|assumption|assumption|].
  eexists _, c3. split; [eapply B_for; try eassumption|split; [exact N3|]].
  - intros _. stop.
  - opt_plain; plainly.
Qed.
Lemma except_of l la c : F << except_clause, PyColon, suite >> l -> (exists t, snd la = Some t) -> pcalm l -> c <> ExceptMul ->
  exists x c', B F_except_stmt c l la x c' /\ c' <> ExceptMul /\ plain x.
Proof.
  intros H T C N. unpack H l1 r1 H1 H2. unpack H2 l2 r2 H2 H3. unpack H3 l3 r3 H3 H4. apply F_nil in H4. subst r3. rewrite app_nil_r in *.
  apply F_T in H2. destruct H2 as (q & u & -> & K). cbn [app] in *. calmly.
  assert (X : exists x, B F_except_clause c l1 (q, Some u) x Except /\ plain x).
  { apply F_R in H1. cbn [coded] in H1.
    assert (ST : except_step false c Except) by (destruct c; first [exact (except_first false) | exact (except_again false) | congruence]).
    open.
    - eexists. split; [eapply (B_except_clause _ _ _ [] None _ [] None); [eassumption|constructor|exact ST|apply except_any; stop]|plainly].
    - match goal with H : F (R test) ?l |- _ => destruct (IH test _ l (q, Some u) eq_refl H ltac:(allow)) as (x & HE & HP) end.
      eexists. split; [eapply (B_except_clause _ _ _ [] None); [eassumption|constructor|exact ST|eapply except_test; [eassumption|stop]]|plainly].
    - match goal with H : F (R test) ?l |- context [?l ++ (?p, ?t) :: _] => destruct (IH test _ l (p, Some t) eq_refl H ltac:(allow)) as (x & HE & HP) end.
      eexists. split; [eapply (B_except_clause _ _ _ [] None); [eassumption|constructor|exact ST|eapply except_as; eassumption]|plainly]. }
  destruct X as (x & HX & PX). destruct (suite_of _ la Except H3 T) as (y & c' & HS & N' & PS); [assumption|discriminate|].
  eexists _, c'. split; [eapply B_except_stmt; eassumption|]. split; [exact N'|plainly].
Qed.
Lemma excepts_of : forall l, F (Star << except_clause, PyColon, suite >>) l -> forall la c, (exists t, snd la = Some t) -> pcalm l -> c <> ExceptMul ->
  exists xs c', B_many F_except_stmt c l la xs c' /\ c' <> ExceptMul /\ Forall plain xs.
Proof.
  apply (F_star (fun l => forall la c, (exists t, snd la = Some t) -> pcalm l -> c <> ExceptMul ->
    exists xs c', B_many F_except_stmt c l la xs c' /\ c' <> ExceptMul /\ Forall plain xs)).
  - intros la c _ _ N. exists [], c. split; [constructor|]. split; [exact N|constructor].
  - intros l1 l2 H _ IHs la c T C N. calmly.
    destruct (except_of _ (ahead l2 la) c H) as (y & c1 & HB & N1 & P); [some_token|assumption|assumption|].
    destruct (IHs la c1 T ltac:(assumption) N1) as (xs & c' & HM & N' & HX). exists (y :: xs), c'.
    split; [eapply B_cons; eassumption|]. split; [exact N'|constructor; assumption].
Qed.
Lemma finallys_of l la c : F (Opt finally_suite) l -> (exists t, snd la = Some t) -> pcalm l -> c <> ExceptMul ->
  exists o c', B_opt F_finally_stmt c l la o c' /\ c' <> ExceptMul /\ Forall plain (opt_list o).
Proof.
  intros H T C N. apply F_opt in H. destruct H as [->|H].
  - exists None, c. split; [constructor|]. split; [exact N|constructor].
  - destruct (finally_of l la c H T C N) as (x & c' & HB & N' & P). exists (Some x), c'.
    split; [apply B_some; exact HB|]. split; [exact N'|]. constructor; [exact P|constructor].
Qed.
Lemma bdone_try : bdone try_stmt.
Proof.
  brule.
  unpack H l1 r1 H1 H2. unpack H2 l2 r2 H2 H3. unpack H3 l3 r3 H3 H4. unpack H4 l4 r4 H4 H5.
  apply F_nil in H5. subst r4. rewrite app_nil_r in *. apply F_T in H1. apply F_T in H2. destruct H1 as (p & t & -> & K1). destruct H2 as (q & u & -> & K2).
  cbn [app] in *. calmly.
  destruct (suite_of _ (ahead l4 la) ExceptNone H3) as (y & c1 & HS & N1 & PS); [some_token|assumption|discriminate|].
  apply F_alt in H4. destruct H4 as [H4|H4].
  - unpack H4 l5 r5 H4 H5. unpack H5 l6 r6 H5 H6. unpack H6 l7 r7 H6 H7. apply F_nil in H7. subst r7. rewrite app_nil_r in *. calmly.
    apply F_plus in H4. destruct H4 as (l8 & l9 & -> & H4 & H4s). calmly.
    destruct (except_of _ (ahead l9 (ahead (l6 ++ l7) la)) c1 H4) as (z & c2 & HZ & N2 & PZ); [some_token|assumption|assumption|].
    destruct (excepts_of _ H4s (ahead (l6 ++ l7) la) c2) as (xs & c3 & HM & N3 & PM); [some_token|assumption|assumption|].
    destruct (else_of _ (ahead l7 la) c3 H5) as (o3 & c4 & HO3 & N4 & PO3 & _); [some_token|assumption|assumption|].
    destruct (finallys_of _ la c4 H6) as (o4 & c5 & HO4 & N5 & PO4); [some_token|assumption|assumption|].
    eexists _, c5. split; [eapply (B_try c p t q u l3 y c1 (l8 ++ l9) (z :: xs) c3 l6 o3 c4 l7 o4 c5 la); try eassumption|split; [exact N5|]].
    + eapply B_cons; eassumption.
    + discriminate.
    + intros _. destruct o3; stop.
    + opt_plain; plainly.
  - apply F_alt in H4. destruct H4 as [H4|H4]; [|destruct (F_alt_nil _ H4)].
    destruct (finally_of _ la c1 H4) as (z & c2 & HZ & N2 & PZ); [some_token|assumption|assumption|].
    eexists _, c2. split; [eapply B_try_finally; eassumption|]. split; [exact N2|plainly].
Qed.
Lemma bdone_with : bdone with_stmt.
Proof.
  brule.
  unpack H l1 r1 H1 H2. unpack H2 l2 r2 H2 H3. unpack H3 l3 r3 H3 H4. unpack H4 l4 r4 H4 H5.
  apply F_nil in H5. subst r4. rewrite app_nil_r in *. apply F_T in H1. apply F_T in H3. destruct H1 as (p & t & -> & K1). destruct H3 as (q & u & -> & K2).
  cbn [app] in *. calmly.
  destruct (suite_of _ la c H4) as (y & c1 & HS & N1 & PS); [some_token|assumption|assumption|].
  assert (X : exists a xs ts b, with_items l2 (q, Some u) a xs ts b /\ Forall plain xs).
  { pose proof (reads_rule n IH with_item F_with_item eq_refl) as RW.
    apply F_alt in H2. destruct H2 as [H2|H2].
    - unpack H2 l5 r5 H2 H5. unpack H5 l6 r6 H5 H6. apply F_nil in H6. subst r6. rewrite app_nil_r in *.
      assert (NE : l5 <> []) by (eapply (F_not_empty 100); [exact H2|vm_compute; reflexivity]).
      apply F_but in H2. destruct H2 as [H2 NP].
      destruct (rest_of n _ _ PyComa _ RW eq_refl _ H5 (q, Some u) ltac:(allow)) as (xs & ts & HR & HX & _).
      destruct (RW l5 (ahead l6 (q, Some u)) H2 ltac:(allow)) as (f & x & If & HE & HP).
      exists None, (x :: xs), ts, None. split; [|constructor; assumption]. apply with_plain; [eapply items_intro; eassumption| |stop].
      intros (i & v & l' & E & K). destruct l5 as [|[j w] l5]; [congruence|]. injection E as -> -> _. apply NP. eexists _, _, _. split; [reflexivity|exact K].
    - apply F_alt in H2. destruct H2 as [H2|H2]; [|destruct (F_alt_nil _ H2)].
      unpack H2 l5 r5 H2 H5. unpack H5 l6 r6 H5 H6. unpack H6 l7 r7 H6 H7. unpack H7 l8 r8 H7 H8. unpack H8 l9 r9 H8 H9.
      apply F_nil in H9. subst r9. rewrite app_nil_r in *. apply F_T in H2. apply F_T in H8. destruct H2 as (i & v & -> & K3). destruct H8 as (j & w & -> & K4).
      cbn [app] in *. open.
      + destruct (rest_of n _ _ PyComa _ RW eq_refl _ H6 (j, Some w) ltac:(allow)) as (xs & ts & HR & HX & _).
        destruct (RW l6 (ahead l7 (j, Some w)) H5 ltac:(allow)) as (f & x & If & HE & HP).
        exists (Some v), (x :: xs), ts, (Some w). split; [|constructor; assumption]. rewrite app_assoc. apply with_paren; [assumption|eapply items_intro; eassumption|assumption].
      + match goal with K : tk_kind ?t = PyComa |- context [l7 ++ (?p, ?t) :: _] =>
          destruct (rest_of n _ _ PyComa _ RW eq_refl _ H6 (p, Some t) ltac:(allow)) as (xs & ts & HR & HX & _);
          destruct (RW l6 (ahead l7 (p, Some t)) H5 ltac:(allow)) as (f & x & If & HE & HP);
          exists (Some v), (x :: xs), (ts ++ [t]), (Some w) end.
        split; [|constructor; assumption]. rewrite app_assoc. apply with_paren_comma; [assumption|eapply items_intro; eassumption|assumption|assumption]. }
  destruct X as (a & xs & ts & b & HW & HX). eexists _, c1. split; [eapply B_with; eassumption|]. split; [exact N1|plainly].
Qed.
Lemma bdone_suite : bdone suite.
Proof.
  brule. apply F_alt in H. destruct H as [H|H].
  - destruct (simple_of _ la H HT) as (x & HE & HP). exists x, c. split; [apply B_suite_simple; exact HE|auto].
  - apply F_alt in H. destruct H as [H|H]; [|destruct (F_alt_nil _ H)].
    unpack H l1 r1 H1 H2. unpack H2 l2 r2 H2 H3. unpack H3 l3 r3 H3 H4. unpack H4 l4 r4 H4 H5.
    apply F_nil in H5. subst r4. rewrite app_nil_r in *. apply F_T in H1. apply F_T in H2. apply F_T in H4.
    destruct H1 as (p & t & -> & K1). destruct H2 as (q & u & -> & K2). destruct H4 as (r & v & -> & K3). cbn [app] in *.
    assert (SM : ~ starts_match l3).
    { intros (i & w & l' & -> & Z). apply (pcalm_next [(p, t)] q u _ C); [right; left; exact K2|]. exists i, w, (l' ++ [(r, v)]). split; [reflexivity|exact Z]. }
    calmly. destruct (block_of _ (r, Some v) c H3) as (xs & c' & HM & N' & HX & NE); [allow|assumption|assumption|assumption|].
    eexists _, c'. split; [eapply B_suite_block; eassumption|]. split; [exact N'|plainly].
Qed.
Lemma bdone_body : bdone func_body_suite.
Proof.
  brule. apply F_alt in H. destruct H as [H|H].
  - destruct (simple_of _ la H HT) as (x & HE & HP). exists x, c. split; [apply B_body_simple; exact HE|auto].
  - apply F_alt in H. destruct H as [H|H]; [|destruct (F_alt_nil _ H)].
    unpack H l1 r1 H1 H2. unpack H2 l0 r0 H0 H2. unpack H2 l2 r2 H2 H3. unpack H3 l3 r3 H3 H4. unpack H4 l4 r4 H4 H5.
    apply F_nil in H5. subst r4. rewrite app_nil_r in *. apply F_T in H1. apply F_T in H2. apply F_T in H4.
    destruct H1 as (p & t & -> & K1). destruct H2 as (q & u & -> & K2). destruct H4 as (r & v & -> & K3). cbn [app] in *.
    assert (SM : ~ starts_match l3).
    { intros (i & w & l' & -> & Z). apply (pcalm_next ((p, t) :: l0) q u _ C); [right; left; exact K2|]. exists i, w, (l' ++ [(r, v)]). split; [reflexivity|exact Z]. }
    calmly. destruct (block_of _ (r, Some v) c H3) as (xs & c' & HM & N' & HX & NE); [allow|assumption|assumption|assumption|].
    assert (X : exists a b, comment_line l0 a b) by (open; [exists None, None; constructor|eexists _, _; econstructor; eassumption]).
    destruct X as (a & b & HC).
    eexists _, c'. split; [eapply B_body_block; eassumption|]. split; [exact N'|plainly].
Qed.
Lemma bdone_func : bdone funcdef.
Proof.
  brule.
  unpack H l1 r1 H1 H2. unpack H2 l2 r2 H2 H3. unpack H3 l3 r3 H3 H4. unpack H4 l4 r4 H4 H5. unpack H5 l5 r5 H5 H6. unpack H6 l6 r6 H6 H7. unpack H7 l7 r7 H7 H8.
  apply F_nil in H8. subst r7. rewrite app_nil_r in *. apply F_T in H1. apply F_T in H2. apply F_T in H5.
  destruct H1 as (p & t & -> & K1). destruct H2 as (q & u & -> & K2). destruct H5 as (r & v & -> & K3). cbn [app] in *. calmly.
  destruct (comment_of _ _ H6) as (w & HW).
  destruct (IHB func_body_suite F_func_body_suite l7 la eq_refl H7) with (c := c) as (y & c' & HB & N' & PB); [destruct A as (z & Z & _); exists z; auto|assumption|discriminate|exact N|].
  assert (X : exists o, returns l4 (r, Some v) o /\ match o with Some (_, x) => plain x | None => True end).
  { clear H3 H6 H7. open; [exists None; split; [constructor|exact I]|].
    match goal with H : F (R test) ?l |- _ => destruct (IH test _ l (r, Some v) eq_refl H ltac:(allow)) as (x & HE & HP) end.
    eexists (Some (_, _)). split; [econstructor; eassumption|exact HP]. }
  destruct X as (o & HR & PR).
  assert (X : exists a, E_opt F_parameters l3 (ahead l4 (r, Some v)) a /\ match a with Some x => plain x | None => True end).
  { apply F_opt in H3. destruct H3 as [->|H3]; [exists None; split; [constructor|exact I]|].
    destruct (IH parameters _ l3 (ahead l4 (r, Some v)) eq_refl H3) as (x & HE & HP).
    - destruct l4 as [|[i m] l4]; [exists v|exists m]; split; reflexivity.
    - exists (Some x). split; [constructor; exact HE|exact HP]. }
  destruct X as (a & HA & PA).
  eexists _, c'. split; [eapply B_func; eassumption|]. split; [exact N'|]. destruct o as [[? ?]|], a; plainly.
Qed.
Lemma bdone_class : bdone classdef.
Proof.
  brule.
  unpack H l1 r1 H1 H2. unpack H2 l2 r2 H2 H3. unpack H3 l3 r3 H3 H4. unpack H4 l4 r4 H4 H5. unpack H5 l5 r5 H5 H6.
  apply F_nil in H6. subst r5. rewrite app_nil_r in *. apply F_T in H1. apply F_T in H2. apply F_T in H4.
  destruct H1 as (p & t & -> & K1). destruct H2 as (q & u & -> & K2). destruct H4 as (r & v & -> & K3). cbn [app] in *. calmly.
  destruct (suite_of _ la c H5) as (y & c1 & HS & N1 & PS); [some_token|assumption|assumption|].
  assert (X : exists a o b, bases l3 a o b /\ match o with Some x => plain x | None => True end).
  { open.
    - exists None, None, None. split; [constructor|exact I].
    - eexists _, None, _. split; [eapply (bases_some _ _ []); [eassumption|eassumption|constructor]|exact I].
    - match goal with H : F (R varargslist) ?l |- context [?l ++ [(?p, ?t)]] => destruct (IH varargslist _ l (p, Some t) eq_refl H ltac:(allow)) as (x & HE & HP) end.
      eexists _, (Some x), _. split; [eapply bases_some; [eassumption|eassumption|constructor; eassumption]|exact HP]. }
  destruct X as (a & o & b & HBA & HP).
  eexists _, c1. split; [eapply B_class; eassumption|]. split; [exact N1|]. destruct o; plainly.
Qed.
Lemma bdone_all r : bdone r.
Proof.
  destruct r; first
    [ exact bdone_stmt | exact bdone_compound | exact bdone_async | exact bdone_if | exact bdone_while | exact bdone_for | exact bdone_try
    | exact bdone_with | exact bdone_suite | exact bdone_body | exact bdone_func | exact bdone_class | intros ? ? ? Q; discriminate ].
Qed.
End Blocks.

Lemma below_blocks n : forall r f l la, block_fn r = Some f -> below n (R r) l -> allows r la -> pcalm l -> (r = stmt -> ~ starts_match l) -> block_done f l la.
Proof.
  induction n as [n IHn] using (well_founded_induction lt_wf). intros r f l la Q (m & L & H) A C SM.
  inversion H as [|m' r' ks H1| | | | | | | | |]; subst.
  apply (bdone_all (S m') (IHn (S m') L) r f l la Q); [|exact A|exact C|exact SM]. exists m'. split; [lia|exact H1].
Qed.

(** ** Inputs *)
Lemma lines_of n p t : tk_kind t = T_EOF -> forall l, below n (Star one_of T_Newline, stmt end_of) l -> pcalm l -> ~ starts_match l ->
  forall c, c <> ExceptMul -> exists xs ts c', lines c l (p, Some t) xs ts c' /\ Forall plain xs.
Proof.
  intros K. apply (F_star (n:=n) (fun l => pcalm l -> ~ starts_match l ->
    forall c, c <> ExceptMul -> exists xs ts c', lines c l (p, Some t) xs ts c' /\ Forall plain xs)).
  - intros _ _ c _. exists [], [], c. split; constructor.
  - intros l1 l2 H HS IHs C S c N. apply F_alt in H. destruct H as [H|H].
    + apply F_T in H. destruct H as (q & u & -> & KU). cbn [app] in *.
      assert (S2 : ~ starts_match l2) by (apply (pcalm_next [] q u l2 C); left; exact KU).
      apply pcalm_cons in C. destruct (IHs C S2 c N) as (xs & ts & c' & HL & HX). exists xs, (u :: ts), c'.
      split; [apply lines_newline; assumption|exact HX].
    + apply F_alt in H. destruct H as [H|H]; [|destruct (F_alt_nil _ H)].
      pose proof (stmt_next _ _ _ H C) as S2. apply pcalm_app in C. destruct C as [C1 C2].
      assert (S1 : ~ starts_match l1). { intros (q & u & l & -> & Z). apply S. exists q, u, (l ++ l2). split; [reflexivity|exact Z]. }
      assert (AL : allows stmt (ahead l2 (p, Some t))).
      { eapply (ahead_any (n:=n) 100); [exact HS|vm_compute; reflexivity|eapply allows_token; [exact K|vm_compute; reflexivity]]. }
      destruct (below_blocks n stmt F_stmt l1 (ahead l2 (p, Some t)) eq_refl H AL C1 (fun _ => S1) c N) as (x & c1 & HB & N1 & P).
      destruct (IHs C2 S2 c1 N1) as (xs & ts & c' & HL & HX). exists (x :: xs), ts, c'.
      split; [eapply lines_stmt; eassumption|constructor; assumption].
Qed.

Definition whole_rule (f : fn) : option rule :=
  match f with F_file_input => Some file_input | F_eval_input => Some eval_input | F_func_type_input => Some func_type_input | _ => None end.
Lemma kinds_snoc (l : list ptok) e p t : fits coded e (kinds (l ++ [(p, t)])) -> exists n, below n e (l ++ [(p, t)]).
Proof. intros H. apply fits_fitn in H. destruct H as (n & H). exists (S n), n. split; [lia|exact H]. Qed.
Lemma ended_by n e l p t : below n << e, Star (T T_Newline), T T_EOF >> (l ++ [(p, t)]) ->
  exists l1 l2, l = l1 ++ l2 /\ below n e l1 /\ below n (Star (T T_Newline)) l2 /\ tk_kind t = T_EOF.
Proof.
  intros H. apply F_cons in H. destruct H as (l1 & r1 & E & H1 & H2). apply F_cons in H2. destruct H2 as (l2 & r2 & -> & H2 & H3).
  apply F_cons in H3. destruct H3 as (l3 & r3 & -> & H3 & H4). apply F_nil in H4. subst r3.
  apply F_T in H3. destruct H3 as (q & u & -> & K). cbn [app] in E. rewrite app_assoc in E. apply app_inj_tail in E. destruct E as [-> E]. injection E as <- <-.
  exists l1, l2. auto.
Qed.
Lemma inputs_complete f r l p t : whole_rule f = Some r -> fits coded (R r) (kinds (l ++ [(p, t)])) ->
  (f = F_file_input -> pcalm l /\ ~ starts_match l) -> exists x c', Input f ExceptNone l (p, Some t) x c' /\ plain x.
Proof.
  intros Q H C. apply kinds_snoc in H. destruct H as (n & H). apply F_R in H.
  destruct f; try discriminate Q; injection Q as <-; cbn [coded] in H.
  - apply ended_by in H. destruct H as (l1 & l2 & -> & H & HN & K).
    destruct (below_complete n testlist F_testlist l1 (ahead l2 (p, Some t)) eq_refl H) as (x & HE & HP).
    { eapply (ahead_any (n:=n) 100); [exact HN|vm_compute; reflexivity|eapply allows_token; [exact K|vm_compute; reflexivity]]. }
    apply tokens_of in HN. eexists _, ExceptNone. split; [apply I_eval; eassumption|]. plainly.
  - apply F_cons in H. destruct H as (l1 & r1 & E & H1 & H2). apply F_cons in H2. destruct H2 as (l2 & r2 & -> & H2 & H3). apply F_nil in H3. subst r2.
    apply F_T in H2. destruct H2 as (q & u & -> & K). cbn [app] in E. apply app_inj_tail in E. destruct E as [<- E]. injection E as <- <-.
    destruct (C eq_refl) as [C1 C2]. destruct (lines_of n p t K l H1 C1 C2 ExceptNone) as (xs & ts & c' & HL & HX); [discriminate|].
    eexists _, c'. split; [apply I_file; eassumption|]. plainly.
  - apply ended_by in H. destruct H as (l1 & l2 & -> & H & HN & K).
    destruct (below_complete n func_type F_func_type l1 (ahead l2 (p, Some t)) eq_refl H) as (x & HE & HP).
    { eapply (ahead_any (n:=n) 100); [exact HN|vm_compute; reflexivity|eapply allows_token; [exact K|vm_compute; reflexivity]]. }
    apply tokens_of in HN. eexists _, ExceptNone. split; [apply I_func_type; eassumption|]. plainly.
Qed.
