(** More inputs that the parser never accepts (C42), and what becomes of the module around them. *)
From Coq Require Import List Arith Lia.
From Verif Require Import Chars SourceBuffer Token Tokenizer Node ParserState Expressions Statements Blocks Parser GrammarSpec ParseBasics ParseSpec
  SoundBasics Soundness FirstSets CompleteBasics CompleteBlocks Completeness YieldProofs FollowProofs ParseCorollaries DefectProofs.
Import ListNotations.
Local Open Scope nat_scope.

Lemma begins_ahead : forall ks l la p t, begins ks l -> ahead l la = (p, Some t) -> In (tk_kind t) ks.
Proof. intros ks l la p t (q & u & l' & -> & I) A. cbn in A. injection A as -> ->. exact I. Qed.
Lemma element_unique : forall f g l1 la1 x l2 la2 y, In f [F_star_expr; F_named_expression] -> In g [F_star_expr; F_named_expression] ->
  E f l1 la1 x -> E g l2 la2 y -> ahead l1 la1 = ahead l2 la2 -> f = g.
Proof.
  intros f g l1 la1 x l2 la2 y I J D G A. apply E_first in D. apply E_first in G.
  destruct I as [<-|[<-|[]]]; destruct J as [<-|[<-|[]]]; auto; exfalso; cbn [first_ok firsts] in *;
    destruct D as (p & t & a & -> & I); destruct G as (q & u & b & -> & J); cbn in A; injection A as -> ->;
    cbn in I, J; intuition congruence.
Qed.
Lemma comma_stop : forall U s1 l xs ts s2 c s3 u,
  E_items [F_star_expr; F_named_expression] PyComa l (view s2) xs ts -> reads U s1 l s2 ->
  takes U s2 c s3 -> tk_kind c = PyComa -> ps_symbol s3 = inl u -> ~ In (tk_kind u) first_star ->
  forall l' m q v x s', reads U s1 (l' ++ (q, v) :: m) s' -> E F_testlist_comp l' (q, Some v) x ->
  tk_kind v <> PyComa -> False.
Proof.
  intros U s1 l xs ts s2 c s3 u D R TC KC SY NF l' m q v x s' R' D' KV.
  inversion D as [fs k f l1 y l2 ys us la IF E1 RE]; subst.
  apply reads_app_inv in R. destruct R as (n1 & A1 & A2 & EX).
  assert (S1 : sound U f s1 y n1).
  { destruct IF as [<-|[<-|[]]]; exists l1; (split; [exact A1|]); (split; [exact EX|]); rewrite (reads_ahead _ _ _ _ A2); exact E1. }
  assert (N1 : exists p t, view n1 = (p, Some t) /\ tk_kind t = PyComa).
  { rewrite (reads_ahead _ _ _ _ A2). inversion RE; subst; cbn [ahead]; eauto.
    unfold view. destruct TC as (TC & _). rewrite TC. eauto. }
  apply reads_app_inv in R'. destruct R' as (n2 & B1 & B2 & EX').
  assert (V2 : view n2 = (q, Some v)) by (rewrite (reads_ahead _ _ _ _ B2); reflexivity).
  assert (ST : forall g a b e, In g [F_star_expr; F_named_expression] -> reads U s1 (a ++ b) n2 -> E g a (ahead b (q, Some v)) e ->
    exists n3, reads U s1 a n3 /\ reads U n3 b n2 /\ n3 = n1 /\ g = f).
  { intros g a b e IG RA EA. pose proof RA as RA0. apply reads_app_inv in RA. destruct RA as (n3 & C1 & C2 & EX3). exists n3.
    assert (FG : g = f).
    { eapply element_unique; [exact IG|exact IF|exact EA|exact E1|].
      rewrite <- V2, <- (reads_ahead _ _ _ _ C2), <- (reads_ahead _ _ _ _ C1), <- (reads_ahead _ _ _ _ A2), <- (reads_ahead _ _ _ _ A1). reflexivity. }
    subst g.
    assert (S3 : sound U f s1 e n3).
    { destruct IF as [<-|[<-|[]]]; exists a; (split; [exact C1|]); (split; [exact EX3|]); rewrite (reads_ahead _ _ _ _ C2), V2; exact EA. }
    destruct (derivation_unique _ _ _ _ _ _ _ S1 S3) as (_ & ->). auto. }
  inversion D'; subst; try no_binary.
  - match goal with IG : In ?g _, EA : E ?g ?a _ _, EC : E F_comp_for ?b _ _ |- _ =>
      destruct (ST g a b _ IG B1 EA) as (n3 & C1 & C2 & -> & _); apply E_first in EC; cbn [first_ok firsts] in EC end.
    destruct N1 as (p & t & N1 & KT). rewrite (reads_ahead _ _ _ _ C2) in N1.
    match goal with EC : begins _ _ |- _ => pose proof (begins_ahead _ _ _ _ _ EC N1) as J end.
    rewrite KT in J. cbn in J. intuition discriminate.
  - match goal with EI : E_items _ _ _ _ _ _ |- _ => inversion EI as [? ? g a e b ys' us' ? IG EA RB]; subst end.
    destruct (ST g a b _ IG B1 EA) as (n3 & C1 & C2 & -> & _). rewrite <- V2 in RB.
    destruct (rest_prefix U [F_star_expr; F_named_expression] PyComa) with (l := l2) (la := view s2) (xs := ys) (ts := ts) (s := n1) (s1 := s2)
      (l' := b) (la' := view n2) (xs' := ys') (ts' := ts0) (s' := n2) as [(l3 & mm & xs3 & ts3 & R3 & L3 & S3 & E3)|(t & S & K)]; auto.
    + intros g0 [<-|[<-|[]]]; reflexivity.
    + intros. eapply element_unique; eauto.
    + inversion E3; subst.
      * apply reads_ahead in R3. cbn [ahead] in R3. rewrite <- R3 in V2. destruct TC as (TC & _). rewrite S3 in TC.
        rewrite (view_inl _ _ TC) in V2. congruence.
      * apply reads_head in R3. destruct R3 as (_ & n4 & TK & R3).
        destruct TC as (TC & AD). destruct TK as (TK & AD').
        destruct (advance_core U _ _ mm AD L3) as (n5 & A5 & L5 & S5 & _). rewrite A5 in AD'. injection AD' as <-.
        match goal with IG : In ?g _, EA : E ?g ?a _ _ |- _ =>
          assert (J : In (tk_kind u) (firsts g)) by
            (destruct IG as [<-|[<-|[]]]; apply E_first in EA; (eapply begins_symbol; [|exact R3|apply begins_app; exact EA]); congruence);
          apply NF; destruct IG as [<-|[<-|[]]]; cbn in J |- *; intuition
        end.
    + rewrite V2 in S. cbn in S. congruence.
Qed.

(** A comma before the closing bracket of a tuple or list. *)
Lemma trailing_comma : forall U s b s1 l xs ts s2 c s3 u, takes U s b s1 -> In (tk_kind b) [PyLeftParen; PyLeftBracket] ->
  E_items [F_star_expr; F_named_expression] PyComa l (view s2) xs ts -> reads U s1 l s2 ->
  takes U s2 c s3 -> tk_kind c = PyComa -> ps_symbol s3 = inl u -> In (tk_kind u) [PyRightParen; PyRightBracket] ->
  rejects U F_atom s.
Proof.
  intros U s b s1 l xs ts s2 c s3 u TB KB D R TC KC SY KU. apply rejects_sound. intros y s' (l' & R' & _ & D').
  assert (NF : ~ In (tk_kind u) first_star).
  { destruct KU as [<-|[<-|[]]]; cbn; intuition discriminate. }
  assert (HD : exists p t m, l = (p, t) :: m /\ In (tk_kind t) first_star).
  { inversion D as [? ? f l1 z l2 ? ? ? IF E1 RE]; subst.
    assert (B1 : begins first_star l1).
    { destruct IF as [<-|[<-|[]]]; apply E_first in E1; cbn [first_ok firsts] in E1; (eapply begins_sub; [exact E1|reflexivity]). }
    apply (begins_app _ _ l2) in B1. exact B1. }
  destruct HD as (p & t & m & -> & IT). pose proof R as R0. apply reads_head in R0. destruct R0 as (_ & s0 & (ST & _) & _).
  inversion D'; subst; try no_binary; apply (reads_head_at _ _ _ _ _ _ _ _ TB) in R'; destruct R' as (-> & R').
  - match goal with I : In _ constants |- _ => destruct KB as [K|[K|[]]]; rewrite <- K in I; cbn in I; intuition discriminate end.
  - destruct KB as [K|[K|[]]]; congruence.
  - apply reads_head in R'. destruct R' as (_ & n & (SN & _) & _). rewrite ST in SN. injection SN as ->.
    match goal with Q : tk_kind _ = PyRightParen |- _ => rewrite Q in IT; cbn in IT; intuition discriminate end.
  - match goal with I : In _ [F_yield_expr; F_testlist_comp] |- _ => destruct I as [<-|[<-|[]]] end.
    + match goal with G : E F_yield_expr _ _ _ |- _ => apply E_first in G; cbn [first_ok] in G;
        pose proof (begins_symbol _ _ _ _ _ _ ST R' (begins_app _ _ _ G)) as J end.
      cbn in J. destruct J as [J|[]]. rewrite <- J in IT. cbn in IT. intuition discriminate.
    + eapply comma_stop; [exact D|exact R|exact TC|exact KC|exact SY|exact NF|exact R'|eassumption|congruence].
  - apply reads_head in R'. destruct R' as (_ & n & (SN & _) & _). rewrite ST in SN. injection SN as ->.
    match goal with Q : tk_kind _ = PyRightBracket |- _ => rewrite Q in IT; cbn in IT; intuition discriminate end.
  - eapply comma_stop; [exact D|exact R|exact TC|exact KC|exact SY|exact NF|exact R'|eassumption|congruence].
  - destruct KB as [K|[K|[]]]; congruence.
  - destruct KB as [K|[K|[]]]; congruence.
Qed.

(** ** Modules *)
(** A module whose next statement is rejected is rejected. *)
Lemma module_rejects : forall U s s1 l xs ts s2 t, advance U s = Ok tt s1 -> reads U s1 l s2 ->
  lines (ps_except s1) l (view s2) xs ts (ps_except s2) -> ps_symbol s2 = inl t ->
  tk_kind t <> T_EOF -> tk_kind t <> T_Newline -> rejects U F_stmt s2 -> rejects U F_file_input s.
Proof.
  intros U s s1 l xs ts s2 t A R L SY K1 K2 RJ n0 x s' H.
  assert (RX : readx U s1 l (flag (ps_except s1) s2)).
  { split; [|reflexivity]. eapply reads_core_r; [exact R|reflexivity|reflexivity]. }
  destruct (lines_loop U _ _ _ _ _ _ L s1 (flag (ps_except s1) s2) RX eq_refl) as (k & n1 & EV).
  set (n := n0 + n1 + S (S k)).
  assert (Q : run U (S n) F_file_input s = Ok x s').
  { rewrite (Monotone.run_fixed U n0 (S n) F_file_input s ltac:(unfold n; lia)); [assumption|]; rewrite H; discriminate. }
  clear H. specialize (EV n ltac:(unfold n; lia)).
  assert (N1 : is T_EOF t = false) by (unfold is; destruct (tk_kind t); reflexivity || congruence).
  assert (N2 : is T_Newline t = false) by (unfold is; destruct (tk_kind t); reflexivity || congruence).
  assert (ST : file_input_step U (run U n) (pos s1) ([] ++ xs, [] ++ ts) s2 =
    bind (run U n F_stmt) (fun x => ret (true, (([] ++ xs) ++ [x], [] ++ ts))) s2).
  { unfold file_input_step, on_symbol. rewrite SY, N1, N2. reflexivity. }
  assert (W : while_ n (file_input_step U (run U n) (pos s1)) ([], []) s1 =
    while_ (n - k) (file_input_step U (run U n) (pos s1)) ([] ++ xs, [] ++ ts) s2).
  { rewrite <- (flag_self s1) at 2. rewrite <- (flag_self s2). apply (while_split _ k); [unfold n; lia|]. rewrite EV. reflexivity. }
  destruct (n - k) as [|j] eqn:NK; [unfold n in NK; lia|]. cbn [while_] in W. unfold bind at 1 in W. rewrite ST in W.
  cbn [run body] in Q. unfold p_file_input in Q. unfold bind at 1 in Q. rewrite A in Q. rewrite bind_position in Q. unfold bind at 1 in Q.
  rewrite W in Q. unfold bind at 1 in Q. destruct (run U n F_stmt s2) eqn:RS; try discriminate Q. exact (RJ _ _ _ RS).
Qed.
