(** Elementary facts about the character loops of Tokenizer.v. *)
From Coq Require Import ZArith Arith Lia.
From Verif Require Import Chars SourceBuffer Token Tokenizer.

Lemma eqb_true : forall a b : N, (a =? b) = true <-> a = b.
Proof. exact N.eqb_eq. Qed.

Lemma cu_skip_eq : forall n c, cu_skip n c = mk_cursor (cu_pos c + n) (skipn n (cu_rest c)).
Proof.
  induction n; intros [p r]; cbn [cu_skip].
  - cbn. rewrite Nat.add_0_r. reflexivity.
  - rewrite IHn. cbn. rewrite <- Nat.add_succ_comm. f_equal.
    destruct r; cbn; [destruct n|]; reflexivity.
Qed.

(** The longest prefix satisfying [p]. *)
Lemma run_while_spec : forall p r t r', run_while p r = (t, r') ->
  r = t ++ r' /\ forallb p t = true /\ (r' = [] \/ p (hd NUL r') = false).
Proof.
  induction r as [|c r IH]; cbn; intros t r' E.
  - inversion E; subst; auto.
  - destruct (p c) eqn:P.
    + destruct (run_while p r) as [t1 r1] eqn:E1. inversion E; subst.
      destruct (IH _ _ eq_refl) as (A & B & C). cbn. rewrite P, A at 1. auto.
    + inversion E; subst. cbn. auto.
Qed.

Lemma run_while_hd : forall p r t r', p NUL = false -> run_while p r = (t, r') ->
  p (hd NUL r') = false.
Proof.
  intros p r t r' Hp E. apply run_while_spec in E. destruct E as (_ & _ & [-> | H]); auto.
Qed.

(** Uniqueness: a satisfying prefix followed by a stopper is what the loop takes. *)
Lemma run_while_app : forall p t r, forallb p t = true -> (r = [] \/ p (hd NUL r) = false) ->
  run_while p (t ++ r) = (t, r).
Proof.
  induction t as [|c t IH]; cbn; intros r F H.
  - destruct r as [|c r]; cbn in *; auto. destruct H as [H|H]; [discriminate|]. now rewrite H.
  - apply andb_prop in F. destruct F as (A & B). rewrite A, IH; auto.
Qed.

Lemma cu_run_while_spec : forall p c t c', cu_run_while p c = (t, c') ->
  cu_rest c = t ++ cu_rest c' /\ cu_pos c' = (cu_pos c + length t)%nat /\ forallb p t = true /\
  (cu_rest c' = [] \/ p (hd NUL (cu_rest c')) = false).
Proof.
  unfold cu_run_while. intros p [q r] t c' E. cbn in *.
  destruct (run_while p r) as [t1 r1] eqn:E1. inversion E; subst. cbn.
  apply run_while_spec in E1. intuition.
Qed.

(** Leading blanks of a line. *)
Definition is_blank (c : char) : bool := (c =? SP) || (c =? TAB).

Definition col_step (k : nat) (x : char) : nat :=
  if x =? SP then (k + 1)%nat else ((k / tab_size + 1) * tab_size)%nat.

Lemma indent_column_spec : forall r col pos col' c, indent_column col pos r = (col', c) ->
  exists w, r = w ++ cu_rest c /\ cu_pos c = (pos + length w)%nat /\ forallb is_blank w = true /\
  is_blank (hd NUL (cu_rest c)) = false /\
  col' = fold_left col_step w col.
Proof.
  induction r as [|x r IH]; cbn [indent_column]; intros col pos col' c E.
  - inversion E; subst. exists []. cbn. rewrite Nat.add_0_r. auto.
  - destruct (x =? SP) eqn:S1.
    + destruct (IH _ _ _ _ E) as (w & A & B & C & D & F). exists (x :: w). cbn.
      rewrite A at 1. unfold col_step at 2. rewrite S1. unfold is_blank at 1. rewrite S1. cbn. intuition lia.
    + destruct (x =? TAB) eqn:S2.
      * destruct (IH _ _ _ _ E) as (w & A & B & C & D & F). exists (x :: w). cbn.
        rewrite A at 1. unfold col_step at 2. rewrite S1. unfold is_blank at 1. rewrite S1, S2. cbn. intuition lia.
      * inversion E; subst. exists []. cbn. rewrite Nat.add_0_r. unfold is_blank. rewrite S1, S2. auto.
Qed.

Lemma str_eqb_eq : forall a b, str_eqb a b = true <-> a = b.
Proof.
  induction a as [|x a IH]; destruct b as [|y b]; cbn; try easy.
  rewrite andb_true_iff, N.eqb_eq, IH. split; [intros (-> & ->)|intros E; inversion E]; auto.
Qed.

Lemma starts_with_spec : forall p s, starts_with p s = true <-> exists r, s = p ++ r.
Proof.
  induction p as [|x p IH]; intros s; cbn.
  - split; intros _; eauto.
  - destruct s as [|y s].
    + split; [discriminate|intros (r & E); discriminate].
    + rewrite andb_true_iff, N.eqb_eq, IH. split.
      * intros (-> & r & ->). eauto.
      * intros (r & E). inversion E. eauto.
Qed.

Lemma hd_nonnul : forall r : list char, hd NUL r <> NUL -> exists c r', r = c :: r' /\ c = hd NUL r.
Proof. destruct r; cbn; intros; [congruence|eauto]. Qed.

Lemma forallb_hd : forall (p : char -> bool) t r, p NUL = false -> forallb p t = true ->
  t <> [] -> hd NUL (t ++ r) <> NUL.
Proof.
  intros p [|c t] r H F N; [congruence|]. cbn in *. apply andb_prop in F. destruct F.
  intros ->. congruence.
Qed.

(** Kinds are told apart by their numbers. *)
Definition all_kinds : list kind :=
  [PyFalse; PyNone; PyTrue; PyAnd; PyAs; PyAssert; PyAsync; PyAwait; PyBreak; PyClass;
   PyContinue; PyDef; PyDel; PyElif; PyElse; PyExcept; PyFinally; PyFor; PyFrom; PyGlobal; PyIf;
   PyImport; PyIn; PyIs; PyLambda; PyNonLocal; PyNot; PyOr; PyPass; PyRaise; PyReturn; PyTry;
   PyWhile; PyWith; PyYield; PyPlus; PyMinus; PyMul; PyPower; PyDiv; PyFloorDiv; PyModulo;
   PyMatrice; PyShiftLeft; PyShiftRight; PyBitAnd; PyBitOr; PyBitXor; PyBitInvert;
   PyColonAssign; PyLess; PyGreater; PyLessEqual; PyGreaterEqual; PyEqual; PyNotEqual;
   PyLeftParen; PyLeftBracket; PyLeftCurly; PyRightParen; PyRightBracket; PyRightCurly; PyComa;
   PyColon; PyDot; PySemiColon; PyAssign; PyArrow; PyPlusAssign; PyMinusAssign; PyMulAssign;
   PyDivAssign; PyFloorDivAssign; PyModuloAssign; PyMatriceAssign; PyBitAndAssign;
   PyBitOrAssign; PyBitXorAssign; PyShiftLeftAssign; PyShiftRightAssign; PyPowerAssign;
   PyElipsis; T_AtomName; T_AtomNumber; T_AtomString; T_Newline; T_Indent; T_Dedent;
   T_TypeComment; T_EOF].

Lemma kind_of_id : forall k, find (fun x => kind_id x =? kind_id k) all_kinds = Some k.
Proof. destruct k; vm_compute; reflexivity. Qed.

Lemma kind_eqb_eq : forall a b, kind_eqb a b = true <-> a = b.
Proof.
  intros a b. unfold kind_eqb. rewrite N.eqb_eq. split; [|congruence]. intros E.
  pose proof (kind_of_id a) as A. rewrite E, kind_of_id in A. congruence.
Qed.
