(** What one call of [get_symbol] does to the lexer state. *)
From Coq Require Import ZArith Arith Lia Sorted.
From Verif Require Import Chars SourceBuffer Token Tokenizer LexBasics ScanLemmas LineLemmas
  TokenLemmas NumberLemmas.

(** ** Cases of a whole call *)
Definition line_done (s : st) (l1 : lexer) (b1 : bool) : Prop :=
  if st_outer s then begin_line (st_lex s) (st_blank s) = inl (l1, b1) /\ lx_pending l1 = 0%Z
  else l1 = st_lex s /\ b1 = st_blank s.

Inductive final_case (U : unicode) (s : st) : lexed -> Prop :=
| FC_line_error e l1 :
    st_outer s = true -> begin_line (st_lex s) (st_blank s) = inr (e, l1) ->
    final_case U s (LErr e l1)
| FC_pending l1 b1 t l2 :
    st_outer s = true -> begin_line (st_lex s) (st_blank s) = inl (l1, b1) ->
    pending_token l1 = Some (t, l2) ->
    final_case U s (LOk t l2)
| FC_inner l1 b1 r :
    line_done s l1 b1 -> inner_case l1 (st_tr s) b1 (inr (SReturn r)) -> final_case U s r
| FC_token l1 b1 c q r :
    line_done s l1 b1 -> lx_rest l1 = c :: q -> c <> NUL -> c <> SP -> c <> TAB -> c <> #"#" -> c <> CR ->
    c <> LF -> c <> BSL ->
    token_case U (goto l1 (lx_pos l1) (lx_pos l1) (lx_rest l1)) (st_tr s) r ->
    r = lex_token U (goto l1 (lx_pos l1) (lx_pos l1) (lx_rest l1)) (st_tr s) ->
    final_case U s r.

Definition start_state (l : lexer) : st := St true (set_start l (lx_pos l)) [] false.

Lemma step_line_done : forall s s', scan_step s = inl s' ->
  exists l1 b1, line_done s l1 b1 /\ inner_case l1 (st_tr s) b1 (inl s').
Proof.
  intros [o l tr b] s'. unfold scan_step, line_done. cbn [st_outer st_lex st_tr st_blank]. destruct o.
  - destruct (begin_line l b) as [[l1 b1]|[e l1]]; [|discriminate].
    pose proof (pending_token_spec l1) as P.
    destruct (pending_token l1) as [[t l2]|]; [discriminate|].
    intros E. exists l1, b1. split; auto. rewrite <- E. apply inner_step_case.
  - intros E. exists l, b. split; auto. rewrite <- E. apply inner_step_case.
Qed.

Lemma step_final : forall s r, scan_step s = inr r ->
  match r with
  | SReturn x => forall U, final_case U s x
  | SBreak l tr => forall U, final_case U s (lex_token U l tr)
  end.
Proof.
  intros s r E.
  assert (IN : forall l1 b1, line_done s l1 b1 -> inner_step l1 (st_tr s) b1 = inr r ->
    match r with
    | SReturn x => forall U, final_case U s x
    | SBreak l tr => forall U, final_case U s (lex_token U l tr)
    end).
  { intros l1 b1 LD EI. pose proof (inner_step_case l1 (st_tr s) b1) as C. rewrite EI in C.
    destruct r as [x|l2 tr].
    - intros U. eapply FC_inner; eauto.
    - intros U. inversion C; subst. eapply FC_token; eauto. apply lex_token_case. }
  destruct s as [o l tr b]. unfold scan_step in E. cbn [st_outer st_lex st_tr st_blank] in *.
  destruct o.
  - destruct (begin_line l b) as [[l1 b1]|[e l1]] eqn:BL.
    + pose proof (pending_token_spec l1) as P.
      destruct (pending_token l1) as [[t l2]|] eqn:PT.
      * inversion E; subst. intros U. eapply FC_pending; cbn; eauto.
      * eapply IN; eauto. unfold line_done. cbn. auto.
    + inversion E; subst. intros U. apply FC_line_error; auto.
  - eapply IN; eauto. split; reflexivity.
Qed.

(** The induction principle for calls: an invariant of the loop states holds where the call ends. *)
Lemma get_symbol_invariant : forall U l (I : st -> Prop),
  I (start_state l) ->
  (forall s s' l1 b1, I s -> line_done s l1 b1 -> inner_case l1 (st_tr s) b1 (inl s') -> I s') ->
  exists s, I s /\ final_case U s (get_symbol U l).
Proof.
  intros U l I I0 step. unfold get_symbol.
  set (l0 := set_start l (lx_pos l)).
  assert (NF : scan (S (length (lx_rest l0))) true l0 [] false <> SReturn LFuel).
  { apply (scan_fuel (S (length (lx_rest l0))) (start_state l)). cbn [start_state st_lex]. fold l0. lia. }
  assert (ST : forall s s', I s -> scan_step s = inl s' -> I s').
  { intros s s' Hs E. apply step_line_done in E. destruct E as (l1 & b1 & A & B). eapply step; eauto. }
  destruct (scan_invariant I ST (S (length (lx_rest l0))) (start_state l) I0) as [E|(s' & Hs & E)].
  - exfalso. apply NF. exact E.
  - exists s'. split; auto.
    cbn [start_state st_outer st_lex st_tr st_blank] in E. fold l0 in E.
    apply step_final in E.
    destruct (scan (S (length (lx_rest l0))) true l0 [] false) as [r|l1 tr]; apply E.
Qed.

(** ** Positions in the text *)
Definition at_ (text : str) (p : nat) (r : list char) : Prop :=
  r = skipn p text /\ (p <= S (length text))%nat.

Lemma at_app : forall text p w r, at_ text p (w ++ r) -> at_ text (p + length w) r.
Proof.
  intros text p w r (E & L). split.
  - rewrite <- skipn_skipn', <- E, skipn_app, skipn_all, Nat.sub_diag. reflexivity.
  - destruct w as [|c w]; [cbn; lia|].
    pose proof (f_equal (@length _) E) as EL. rewrite app_length, skipn_length in EL. cbn in *. lia.
Qed.

Lemma at_cons_len : forall text p c r, at_ text p (c :: r) -> (p + S (length r) = length text)%nat.
Proof.
  intros text p c r (E & L). pose proof (f_equal (@length _) E) as EL.
  rewrite skipn_length in EL. cbn in EL. lia.
Qed.

Lemma at_skip : forall text p r k, at_ text p r -> (k <= S (length r))%nat -> hd NUL r <> NUL ->
  at_ text (p + k) (skipn k r).
Proof.
  intros text p r k A H N. destruct (hd_nonnul _ N) as (c & q & -> & _).
  pose proof (at_cons_len _ _ _ _ A) as L. destruct A as (E & _). split.
  - rewrite E, skipn_skipn'. reflexivity.
  - cbn [length] in H. lia.
Qed.

(** ** Levels *)
Definition levels_ok (is : list nat) : Prop :=
  exists up, is = up ++ [0%nat] /\ StronglySorted (fun a b => (b < a)%nat) is.

Lemma levels_ok_tail : forall a b is, levels_ok (a :: b :: is) -> levels_ok (b :: is) /\ (b < a)%nat.
Proof.
  intros a b is ([|x up] & E & S); cbn in E; [discriminate|]. injection E as -> E.
  apply StronglySorted_inv in S. destruct S as (S & F).
  split; [exists up; auto|]. now inversion F.
Qed.

Lemma levels_ok_push : forall a is, levels_ok is -> (hd 0%nat is < a)%nat -> levels_ok (a :: is).
Proof.
  intros a is (up & E & S) H. exists (a :: up). split; [cbn; congruence|].
  constructor; auto. destruct is as [|x is]; [constructor|]. cbn in H. constructor; auto.
  apply StronglySorted_inv in S. destruct S as (S & F). eapply Forall_impl; [|exact F].
  cbn. intros. lia.
Qed.

Lemma levels_ok_init : levels_ok [0%nat].
Proof. exists []. split; auto. repeat constructor. Qed.

Lemma levels_ok_nonempty : forall is, levels_ok is -> is <> [].
Proof. intros is (up & -> & _). destruct up; discriminate. Qed.

Lemma pop_levels_spec : forall is col p p' is', levels_ok is -> pop_levels col p is = (p', is') ->
  levels_ok is' /\ (hd 0 is' <= col)%nat /\
  (p' - Z.of_nat (length is') = p - Z.of_nat (length is))%Z /\ (length is' <= length is)%nat /\
  exists popped, is = popped ++ is' /\ Forall (fun x => (col < x)%nat) popped.
Proof.
  induction is as [|a is IH]; intros col p p' is' OK E.
  - exfalso. now apply levels_ok_nonempty in OK.
  - cbn [pop_levels] in E. destruct is as [|b is].
    + inversion E; subst. split; auto. split; [|split; [lia|split; [lia|exists []; auto]]].
      destruct OK as ([|x up] & E1 & _); inversion E1; subst; [cbn; lia|].
      destruct up; discriminate.
    + destruct (Nat.ltb_spec col a).
      * destruct (levels_ok_tail _ _ _ OK) as (OK' & LT).
        destruct (IH col (p - 1)%Z p' is' OK' E) as (A & B & C & D & po & F & G).
        repeat split; auto.
        -- cbn [length] in *. lia.
        -- cbn [length] in *. lia.
        -- exists (a :: po). cbn. rewrite F. auto.
      * inversion E; subst. split; auto. split; [cbn; lia|]. split; [lia|]. split; [lia|].
        exists []. auto.
Qed.

Inductive layout_case (l : lexer) (col : nat) : lexer -> Prop :=
| LY_same : col = hd 0%nat (lx_indents l) -> layout_case l col l
| LY_push : (hd 0 (lx_indents l) < col)%nat ->
    layout_case l col (set_layout l (lx_pending l + 1) (col :: lx_indents l))
| LY_pop popped is' p' : (col < hd 0 (lx_indents l))%nat ->
    lx_indents l = popped ++ is' -> Forall (fun x => (col < x)%nat) popped ->
    (hd 0 is' <= col)%nat -> p' = (lx_pending l - Z.of_nat (length popped))%Z ->
    levels_ok is' ->
    layout_case l col (set_layout l p' is').

Lemma layout_update_case : forall l col, levels_ok (lx_indents l) ->
  exists l', layout_update l col = inl l' /\ layout_case l col l'.
Proof.
  intros l col OK. unfold layout_update. pose proof (levels_ok_nonempty _ OK) as NE.
  destruct (lx_indents l) as [|a is] eqn:LI; [congruence|]. cbn [andb last_level hd].
  destruct (Nat.eqb_spec col a).
  - exists l. split; auto. apply LY_same. rewrite LI. auto.
  - destruct (Nat.ltb_spec a col).
    + eexists. split; [reflexivity|]. rewrite <- LI. apply LY_push. rewrite LI. auto.
    + destruct (pop_levels col (lx_pending l) (a :: is)) as [p' is'] eqn:P.
      destruct (pop_levels_spec _ _ _ _ _ OK P) as (A & B & C & D & po & F & G).
      pose proof (levels_ok_nonempty _ A) as NE'. destruct is' as [|b is']; [congruence|].
      unfold last_level. cbn [hd] in *. destruct (Nat.ltb_spec col b); [lia|].
      eexists. split; [reflexivity|]. eapply LY_pop; eauto.
      * rewrite LI. cbn. lia.
      * rewrite LI. eauto.
      * rewrite F, app_length in C. lia.
Qed.

(** ** The invariant *)
Record lx_ok (text : str) (l : lexer) : Prop :=
  { ok_at : at_ text (lx_pos l) (lx_rest l);
    ok_start : (lx_start l <= lx_pos l)%nat;
    ok_levels : levels_ok (lx_indents l);
    ok_bol : lx_bol l = true -> lx_pending l = 0%Z;
    ok_parens : lx_parens l <> [] -> lx_pending l = 0%Z;
    ok_pending : (lx_pending l <= 1)%Z /\ (lx_pending l = 1%Z -> (2 <= length (lx_indents l))%nat);
    ok_cols : Forall (fun c => (c <= 4 * lx_pos l)%nat) (lx_indents l);
    ok_count : (Z.of_nat (length (lx_indents l)) + Z.max 0 (- lx_pending l) <= Z.of_nat (lx_pos l) + 1)%Z }.

Lemma lx_ok_new : forall text, lx_ok text (lexer_new text).
Proof.
  intros text. constructor; cbn; auto using levels_ok_init; try lia; try easy.
  - split; [reflexivity|lia].
Qed.

Lemma column_from_bound : forall w k,
  (fold_left col_step w k
   <= k + 4 * length w)%nat.
Proof.
  induction w as [|c w IH]; intros k; cbn [fold_left length]; [lia|].
  etransitivity; [apply IH|]. unfold col_step. destruct (c =? SP); [lia|].
  unfold tab_size. pose proof (Nat.mul_div_le k 4 ltac:(lia)). lia.
Qed.

Lemma column_bound : forall w, (column w <= 4 * length w)%nat.
Proof. intros w. unfold column. pose proof (column_from_bound w 0). lia. Qed.

Lemma begin_line_ok : forall text l b, lx_ok text l ->
  exists l1 b1, begin_line l b = inl (l1, b1) /\ lx_ok text l1 /\ lx_bol l1 = false /\
    (lx_pos l <= lx_pos l1)%nat /\ lx_parens l1 = lx_parens l /\ lx_start l1 = lx_start l /\
    (Z.of_nat (length (lx_indents l1)) - lx_pending l1 = Z.of_nat (length (lx_indents l)) - lx_pending l)%Z /\
    (lx_parens l <> [] \/ lx_bol l = false -> lx_indents l1 = lx_indents l /\ lx_pending l1 = lx_pending l).
Proof.
  intros text l b OK. pose proof (begin_line_case l b) as C.
  destruct C as [Hb | w r Hb Hr Hw Hh Hd | w r Hb Hr Hw Hh Hbl Hi Hp].
  - exists l, b. repeat split; auto; try apply OK.
  - exists (set_bol (goto l (lx_start l) (lx_pos l + length w) r) false), (b || ignorable (hd NUL r)).
    destruct OK. split; [reflexivity|]. rewrite Hr in *.
    split; [|cbn; repeat split; auto; lia].
    constructor; unfold lx_pos, lx_rest in *; cbn -[Z.add Z.max Z.of_nat Z.sub Nat.mul] in *; auto; try lia; try easy.
    + apply at_app. assumption.
    + eapply Forall_impl; [|exact ok_cols0]. cbn. intros. lia.
  - set (l0 := set_bol (goto l (lx_start l) (lx_pos l + length w) r) false) in *.
    destruct (layout_update_case l0 (column w)) as (l' & E & LC).
    { cbn. apply OK. }
    rewrite E in *. exists l', false. split; [reflexivity|].
    destruct OK. pose proof (ok_bol0 Hb) as P0. pose proof (column_bound w) as CB.
    rewrite Hr in ok_at0. apply at_app in ok_at0.
    assert (PL : (lx_parens l <> [] \/ lx_bol l = false -> False)) by (intros [X|X]; congruence).
    destruct LC as [LE | LE | popped is' p' LE LP LF LH LQ LO]; unfold l0, lx_pos, lx_rest in *; cbn -[Z.add Z.max Z.of_nat Z.sub Nat.mul] in *.
    + split; [|repeat split; auto; try lia].
      constructor; unfold lx_pos, lx_rest; cbn -[Z.add Z.max Z.of_nat Z.sub Nat.mul]; auto; try lia; try easy.
      eapply Forall_impl; [|exact ok_cols0]. cbn. intros. lia.
    + split; [|repeat split; auto; try lia; exfalso; apply PL; auto].
      constructor; unfold lx_pos, lx_rest; cbn -[Z.add Z.max Z.of_nat Z.sub Nat.mul]; auto; try lia; try easy.
      * apply levels_ok_push; auto.
      * pose proof (levels_ok_nonempty _ ok_levels0). destruct (lx_indents l); [congruence|cbn; lia].
      * constructor; [lia|]. eapply Forall_impl; [|exact ok_cols0]. cbn. intros. lia.
    + assert (LEN : length (lx_indents l) = (length popped + length is')%nat) by (rewrite LP, app_length; lia).
      split; [|repeat split; auto; try lia; exfalso; apply PL; auto].
      constructor; unfold lx_pos, lx_rest; cbn -[Z.add Z.max Z.of_nat Z.sub Nat.mul]; auto; try lia; try easy.
      rewrite LP in ok_cols0. apply Forall_app in ok_cols0.
      eapply Forall_impl; [|apply ok_cols0]. cbn. intros. lia.
Qed.
