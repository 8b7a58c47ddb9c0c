(** The beginning-of-line block and the fuel of the trivia loop. *)
From Coq Require Import ZArith Arith Lia Sorted.
From Verif Require Import Chars SourceBuffer Token Tokenizer LexBasics ScanLemmas.

Definition ignorable (c : char) : bool := (c =? #"#") || (c =? CR) || (c =? LF) || (c =? BSL).

Lemma blank_check_eq : forall c col blank, blank_check c col blank = (blank || ignorable c, col).
Proof.
  intros. unfold blank_check, ignorable, is_interactive. rewrite andb_false_r.
  destruct (_ || _); rewrite ?orb_true_r, ?orb_false_r; reflexivity.
Qed.

Definition column (w : str) : nat :=
  fold_left col_step w 0%nat.

Inductive line_case (l : lexer) (blank : bool) : (lexer * bool) + (err * lexer) -> Prop :=
| LC_mid : lx_bol l = false -> line_case l blank (inl (l, blank))
| LC_skip w r :
    lx_bol l = true -> lx_rest l = w ++ r -> forallb is_blank w = true -> is_blank (hd NUL r) = false ->
    blank || ignorable (hd NUL r) = true \/ lx_parens l <> [] ->
    line_case l blank (inl (set_bol (goto l (lx_start l) (lx_pos l + length w) r) false,
                            blank || ignorable (hd NUL r)))
| LC_layout w r :
    lx_bol l = true -> lx_rest l = w ++ r -> forallb is_blank w = true -> is_blank (hd NUL r) = false ->
    blank = false -> ignorable (hd NUL r) = false -> lx_parens l = [] ->
    line_case l blank
      (match layout_update (set_bol (goto l (lx_start l) (lx_pos l + length w) r) false) (column w) with
       | inl l3 => inl (l3, false)
       | inr e => inr e
       end).

Lemma begin_line_case : forall l blank, line_case l blank (begin_line l blank).
Proof.
  intros [[p r] s ps b pe is] blank. unfold begin_line. cbn [lx_bol].
  destruct b; [|now constructor].
  set (l := mk_lexer (mk_cursor p r) s ps true pe is).
  cbn [set_bol lx_pos lx_rest lx_cur cu_pos cu_rest l lx_start lx_parens lx_pending lx_indents].
  destruct (indent_column 0 p r) as [col c] eqn:E.
  destruct (indent_column_spec _ _ _ _ _ E) as (w & A & B & C & D & F).
  destruct c as [p' r']. cbn in A, B, D. subst p' col.
  fold (column w).
  unfold lx_char, cu_char. cbn [set_cur lx_cur cu_rest lx_parens].
  rewrite blank_check_eq.
  destruct (blank || ignorable (hd NUL r')) eqn:BL; cbn [negb andb].
  - pose proof (LC_skip l blank w r' eq_refl A C D (or_introl BL)) as H. rewrite BL in H. exact H.
  - destruct ps.
    + apply orb_false_iff in BL. destruct BL as (-> & I).
      exact (LC_layout l false w r' eq_refl A C D eq_refl I eq_refl).
    + assert (PN : lx_parens l <> []) by (unfold l; cbn [lx_parens]; discriminate).
      pose proof (LC_skip l blank w r' eq_refl A C D (or_intror PN)) as H.
      rewrite BL in H. exact H.
Qed.

Lemma layout_update_cur : forall l col,
  match layout_update l col with inl l' => l' | inr (_, l') => l' end
  = set_layout l (lx_pending (match layout_update l col with inl l' => l' | inr (_, l') => l' end))
      (lx_indents (match layout_update l col with inl l' => l' | inr (_, l') => l' end)).
Proof.
  intros [c s ps b pe is] col. unfold layout_update.
  repeat match goal with
  | |- context [if ?b then _ else _] => destruct b eqn:?; auto
  | |- context [match ?x with pair _ _ => _ end] => destruct x eqn:?; auto
  end.
Qed.

(** The read position after the block. *)
Lemma begin_line_rest : forall l blank l' b', begin_line l blank = inl (l', b') ->
  exists w, lx_rest l = w ++ lx_rest l' /\ lx_pos l' = (lx_pos l + length w)%nat
            /\ forallb is_blank w = true /\ (lx_bol l = false -> w = []).
Proof.
  intros l blank l' b' E. pose proof (begin_line_case l blank) as H. rewrite E in H.
  inversion H; subst.
  - exists []. cbn. rewrite Nat.add_0_r. auto.
  - exists w. match goal with E : lx_rest l = _ |- _ => rewrite E end. cbn. intuition congruence.
  - pose proof (layout_update_cur (set_bol (goto l (lx_start l) (lx_pos l + length w) r) false) (column w)) as C.
    destruct (layout_update _ _) as [l3|[e l3]]; [|discriminate].
    match goal with E : inl _ = inl _ |- _ => inversion E; subst end. exists w. rewrite C. cbn.
    match goal with E : lx_rest l = _ |- _ => rewrite E end. intuition congruence.
Qed.

Lemma pending_token_spec : forall l, 
  match pending_token l with
  | Some (t, l') => lx_pending l <> 0%Z /\ lx_rest l' = lx_rest l
  | None => lx_pending l = 0%Z
  end.
Proof.
  intros l. unfold pending_token.
  destruct (Z.ltb_spec (lx_pending l) 0); [split; [lia|reflexivity]|].
  destruct (Z.ltb_spec 0 (lx_pending l)); [split; [lia|reflexivity]|]. lia.
Qed.

(** Every [continue] has consumed a character. *)
Lemma inner_step_consumes : forall l tr b s', inner_step l tr b = inl s' ->
  (length (lx_rest (st_lex s')) < length (lx_rest l))%nat.
Proof.
  intros l tr b s' E. pose proof (inner_step_case l tr b) as H. rewrite E in H.
  assert (W : forall w r, lx_rest l = w ++ r -> w <> [] -> (length r < length (lx_rest l))%nat).
  { intros w r -> N. rewrite app_length. destruct w; [congruence|cbn; lia]. }
  inversion H; subst; cbn [st_lex goto lx_rest lx_cur cu_rest set_bol].
  - eapply W; eauto.
  - eapply W; eauto. intros ->. discriminate.
  - unfold peek3 in H1. apply newline_at_width in H1. rewrite skipn_length.
    destruct (lx_rest l) as [|x q]; cbn in *; [|destruct n; lia].
    unfold NUL, CR, LF in *; intuition discriminate.
  - unfold peek3 in H1. apply continuation_at_width in H1. rewrite skipn_length.
    destruct (lx_rest l) as [|x q]; cbn in *; [|destruct n; lia].
    unfold NUL, BSL in *; intuition discriminate.
Qed.

Lemma scan_step_consumes : forall s s', scan_step s = inl s' ->
  (length (lx_rest (st_lex s')) < length (lx_rest (st_lex s)))%nat.
Proof.
  intros [o l tr b] s'. unfold scan_step. cbn [st_outer st_lex st_tr st_blank]. destruct o.
  - destruct (begin_line l b) as [[l1 b1]|[e l1]] eqn:E; [|discriminate].
    apply begin_line_rest in E. destruct E as (w & A & _).
    destruct (pending_token l1) as [[t l2]|]; [discriminate|]. intros H.
    apply inner_step_consumes in H. rewrite A, app_length. lia.
  - apply inner_step_consumes.
Qed.

Lemma begin_line_no_fuel : forall s r, scan_step s = inr r -> r <> SReturn LFuel.
Proof.
  intros [o l tr b] r. unfold scan_step. cbn [st_outer st_lex st_tr st_blank].
  destruct (if o then begin_line l b else inl (l, b)) as [[l1 b1]|[e l1]].
  - destruct (if o then pending_token l1 else None) as [[t l2]|].
    + intros E. inversion E. discriminate.
    + intros E H. pose proof (inner_step_case l1 tr b1) as C. rewrite E in C. subst.
      inversion C.
  - intros E. inversion E. discriminate.
Qed.

Lemma scan_fuel : forall fuel s, (length (lx_rest (st_lex s)) < fuel)%nat ->
  scan fuel (st_outer s) (st_lex s) (st_tr s) (st_blank s) <> SReturn LFuel.
Proof.
  induction fuel; intros s H; [lia|].
  rewrite scan_S. destruct (scan_step s) as [s'|r] eqn:E.
  - apply IHfuel. apply scan_step_consumes in E. lia.
  - eapply begin_line_no_fuel; eauto.
Qed.

(** More fuel changes nothing. *)
Lemma scan_more_fuel : forall fuel s k, (length (lx_rest (st_lex s)) < fuel)%nat ->
  scan (fuel + k) (st_outer s) (st_lex s) (st_tr s) (st_blank s)
  = scan fuel (st_outer s) (st_lex s) (st_tr s) (st_blank s).
Proof.
  induction fuel; intros s k H; [lia|].
  cbn [Nat.add]. rewrite !scan_S. destruct (scan_step s) as [s'|r] eqn:E; auto.
  apply IHfuel. apply scan_step_consumes in E. lia.
Qed.
