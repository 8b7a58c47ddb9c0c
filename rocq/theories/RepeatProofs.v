(** Calling the tokenizer on and on, errors or not (C74). *)
From Coq Require Import List Arith ZArith Bool Lia.
From Verif Require Import Chars SourceBuffer Token Tokenizer LexSpec LexBasics ScanLemmas WellFormed CallLemmas TokenLemmas CallTheorem HistoryProofs LexErrorSpec LexErrorProofs RepeatSpec.
Import ListNotations.
Local Open Scope nat_scope.

(** An error does not depend on the trivia collected. *)
Lemma string_trivia : forall l st p tr tr' e l', lex_string l st p tr = LErr e l' -> lex_string l st p tr' = LErr e l'.
Proof.
  intros l st p tr tr' e l' H. unfold lex_string in *. destruct (cu_peek (lx_cur l)) as ((a, b), c).
  destruct ((a =? b)%N && (b =? c)%N).
  - unfold handle_string in *. destruct (triple_body _ _) as ((t, r), ok). destruct ok; [discriminate H|exact H].
  - destruct (a =? b)%N; [discriminate H|]. unfold handle_string in *. destruct (single_body _ _) as ((t, r), ok). destruct ok; [discriminate H|exact H].
Qed.
Lemma number_trivia : forall l r tr tr' e l', lex_number l tr r = LErr e l' -> lex_number l tr' r = LErr e l'.
Proof. intros l [(x, c)|m (x, c)] tr tr' e l' H; unfold lex_number in *; [discriminate H|exact H]. Qed.
Lemma token_trivia : forall U l tr tr' e l', lex_token U l tr = LErr e l' -> lex_token U l tr' = LErr e l'.
Proof.
  intros U l tr tr' e l' H. unfold lex_token in *. set (l0 := set_start l (lx_pos l)) in *. clearbody l0.
  destruct (cu_peek (lx_cur l0)) as ((a, b), c). destruct (operator_at (a, b, c)) as [(k, n)|]; [discriminate H|].
  destruct (opener_at a) as [(k, n)|]; [discriminate H|]. destruct (closer_at a) as [(k, m)|].
  - destruct (lx_parens (lx_skip 1 l0)) as [|top below]; [exact H|]. destruct (top =? a)%N; [discriminate H|exact H].
  - destruct (ident_start U a).
    + unfold lex_word in *. destruct (cu_run_while (ident_char U) (lx_cur l0)) as (w, q). destruct (keyword_of w); [discriminate H|].
      destruct (is_prefix_word w && is_quote (lx_char (set_cur l0 q))); [eapply string_trivia; exact H|discriminate H].
    + repeat match goal with |- (if ?b then _ else _) = _ => destruct b end; solve [eapply number_trivia; exact H | eapply string_trivia; exact H | exact H].
Qed.

(** The state at which an error leaves the tokenizer without having read anything. *)
Lemma scan_here : forall U l c q, lx_bol l = false -> lx_pending l = 0%Z -> lx_start l = lx_pos l -> lx_rest l = c :: q ->
  c <> NUL -> c <> SP -> c <> TAB -> c <> #"#" ->
  get_symbol U l =
    match newline_at (cu_peek (lx_cur l)) with
    | Some _ => get_symbol U l
    | None => match continuation_at (cu_peek (lx_cur l)) with
              | Some (Some _) => get_symbol U l
              | Some None => LErr (EAt "Line continuation at {} not followed by newline!" (lx_pos l)) l
              | None => lex_token U l []
              end
    end.
Proof.
  intros U l c q B P S R N1 N2 N3 N4. assert (E : set_start l (lx_pos l) = l) by (unfold set_start; rewrite <- S; destruct l; reflexivity).
  destruct (newline_at (cu_peek (lx_cur l))) eqn:NL; [reflexivity|]. destruct (continuation_at (cu_peek (lx_cur l))) as [[|]|] eqn:CO; [reflexivity| |];
  unfold get_symbol; rewrite E; cbn [scan]; unfold begin_line; rewrite B; unfold pending_token; rewrite P; cbn [Z.ltb Z.compare];
  assert (CH : lx_char l = c) by (unfold lx_char, cu_char, lx_rest in *; rewrite R; reflexivity); rewrite CH;
  rewrite (proj2 (N.eqb_neq c SP) N2), (proj2 (N.eqb_neq c TAB) N3), E, CH, (proj2 (N.eqb_neq c #"#") N4), (proj2 (N.eqb_neq c NUL) N1), NL, CO; reflexivity.
Qed.

Lemma newline_not : forall c q, c <> CR -> c <> LF -> newline_at (peek3 (c :: q)) = None.
Proof.
  intros c q A B. unfold newline_at, peek3. cbn [hd tl]. apply N.eqb_neq in A, B.
  rewrite ?A, ?B. cbn. reflexivity.
Qed.
Lemma continuation_not : forall c q, c <> BSL -> continuation_at (peek3 (c :: q)) = None.
Proof. intros c q A. unfold continuation_at, peek3. cbn [hd tl]. apply N.eqb_neq in A. rewrite A. reflexivity. Qed.
Lemma continuation_is : forall r x, continuation_at (peek3 r) = Some x -> exists q, r = BSL :: q.
Proof.
  intros [|c q] x H; unfold continuation_at, peek3 in H; cbn [hd tl] in H; [discriminate H|].
  destruct (N.eqb_spec c BSL) as [->|]; [eauto|discriminate H].
Qed.

Lemma goto_pos : forall l s p r, lx_pos (goto l s p r) = p. Proof. reflexivity. Qed.
Lemma goto_rest : forall l s p r, lx_rest (goto l s p r) = r. Proof. reflexivity. Qed.

(** Which errors these are. *)
Lemma string_moves : forall l s p r pre tr res, string_case l s p r pre tr res -> forall e l', res = LErr e l' -> p < lx_pos l' /\ ~ stays e.
Proof.
  intros l s p r pre tr res H e l' R. destruct H; inversion R; subst; (split; [cbn; lia|]);
  intros [(x & c & Q)|(x & Q)]; discriminate Q.
Qed.
Lemma closing_not : forall c k m p, closer_at c = Some (k, m) -> ~ stays (EAt m p).
Proof.
  intros c k m p H. apply closer_closing in H.
  intros [(x & d & Q)|(x & Q)]; inversion Q; subst. unfold closing, continuation_message in H. cbn [In] in H.
  repeat (destruct H as [H|H]; [discriminate H|]). exact H.
Qed.
Lemma number_not : forall r m p, number_fault r m -> ~ stays (EAt m p).
Proof.
  intros r m p H. apply fault_message in H.
  intros [(x & d & Q)|(x & Q)]; inversion Q; subst.
  cbn [In] in H. repeat (destruct H as [H|H]; [discriminate H|]). exact H.
Qed.
Lemma token_moves : forall U l tr res, hd NUL (lx_rest l) <> NUL -> token_case U l tr res -> forall e l', res = LErr e l' ->
  (stays e /\ l' = goto l (lx_pos l) (lx_pos l) (lx_rest l)) \/ (~ stays e /\ lx_pos l < lx_pos l').
Proof.
  intros U l tr res N H. destruct H as [k n HO | k cl HO Ho | k msg below HO Ho Hc Hp | k msg HO Ho Hc Hp | res HO Ho Hc HI HW
    | res HO Ho Hc HI HN | res HO Ho Hc HI HQ HS | HO Ho Hc HI HD HQ Hd]; intros e l' R; try discriminate R.
  - right. inversion R; subst. split; [eapply closing_not; exact Hc|]. rewrite goto_pos. lia.
  - right. destruct HW; try discriminate R.
    match goal with H : string_case _ _ _ _ _ _ _ |- _ => destruct (string_moves _ _ _ _ _ _ _ H _ _ R) as (A & B) end.
    split; [exact B|]. change (lx_pos (set_start l (lx_pos l))) with (lx_pos l) in A. lia.
  - right. destruct res as [(tx, c)|m (tx, c)]; cbn [lex_number] in R; [discriminate R|]. inversion R; subst.
    split; [eapply number_not, (number_fault_sound _ _ _ _ _ HN eq_refl)|].
    apply number_start_at in HN; auto. destruct HN as (k & A & B & C). inversion B; subst. cbn. unfold lx_pos in *. lia.
  - right. destruct (string_moves _ _ _ _ _ _ _ HS _ _ R) as (A & B). split; [exact B|exact A].
  - left. inversion R; subst. split; [left; eauto|reflexivity].
Qed.

(** Behind an error the tokenizer goes on, or it gives the error again. *)
Lemma after_error_which : forall U text l e l', lx_ok text l -> get_symbol U l = LErr e l' ->
  (~ stays e /\ lx_pos l < lx_pos l' /\ effort l' < effort l) \/ (stays e /\ get_symbol U l' = LErr e l').
Proof.
  intros U text l e l' OK E. destruct (get_symbol_loop U text l OK) as (s & LO & F). rewrite E in F.
  remember (LErr e l') as res eqn:RES.
  destruct F as [e0 l1 Ho Hb | l1 b1 t l2 Ho Hb Hp | l1 b1 r LD C | l1 b1 c q r LD Hr N1 N2 N3 N4 N5 N6 N7 TC LT].
  - exfalso. destruct (begin_line_ok text (st_lex s) (st_blank s)) as (l2 & b2 & E2 & _); [apply LO|]. congruence.
  - discriminate RES.
  - pose proof (line_done_ok _ _ _ _ _ LO LD) as LO1. destruct LO1 as [LK P PS BA EF IN LA SR].
    cbn [st_lex st_outer] in *. destruct (IN eq_refl) as (NB & PE).
    inversion C as [ | | w r0 Hr Hf Hs Ht | HE | | n c1 c2 HN HB HP | | HC | ]; subst; try discriminate.
    match goal with H : LErr _ _ = LErr _ _ |- _ => inversion H; subst; clear H end.
    right. split; [right; eauto|]. destruct (continuation_is _ _ HC) as (q & Q).
    set (l2 := goto l1 (lx_pos l1) (lx_pos l1) (lx_rest l1)).
    assert (PK : cu_peek (lx_cur l2) = peek3 (lx_rest l1)) by reflexivity.
    rewrite (scan_here U l2 BSL q NB PE eq_refl Q) by discriminate.
    rewrite PK. rewrite Q at 1. rewrite newline_not by discriminate. rewrite HC. reflexivity.
  - pose proof (line_done_ok _ _ _ _ _ LO LD) as LO1. destruct LO1 as [LK P PS BA EF IN LA SR].
    cbn [st_lex st_outer] in *. destruct (IN eq_refl) as (NB & PE). pose proof (ok_at _ _ LK) as AT.
    assert (HN : hd NUL (lx_rest l1) <> NUL) by (rewrite Hr; exact N1).
    set (l2 := goto l1 (lx_pos l1) (lx_pos l1) (lx_rest l1)) in *.
    destruct (token_moves U l2 (st_tr s) r HN TC e l' RES) as [(ST & M)|(ST & MV)].
    + right. split; [exact ST|]. assert (M2 : l' = l2) by (rewrite M; reflexivity).
      rewrite RES, M2. rewrite (scan_here U l2 c q NB PE eq_refl Hr N1 N2 N3 N4).
      assert (PK : cu_peek (lx_cur l2) = peek3 (c :: q)) by (rewrite <- Hr; reflexivity).
      rewrite PK, newline_not, continuation_not by assumption.
      apply (token_trivia U l2 (st_tr s)). rewrite <- LT, RES, M2. reflexivity.
    + left. split; [exact ST|]. pose proof (token_case_move U text l2 (st_tr s) r AT HN TC) as M. rewrite RES in M.
      destruct M as (k & ATk & M). rewrite M in MV |- *. unfold l2 in *. rewrite !goto_pos in *. destruct k as [|k]; [lia|]. split.
      * lia.
      * assert (L : length (skipn (S k) (lx_rest l1)) < length (lx_rest l1)) by (rewrite skipn_length, Hr; cbn [length]; lia).
        clear M ATk TC LT MV. unfold effort in *. lx. lia.
Qed.
Lemma after_error : forall U text l e l', lx_ok text l -> get_symbol U l = LErr e l' ->
  (lx_pos l < lx_pos l' /\ effort l' < effort l) \/ get_symbol U l' = LErr e l'.
Proof. intros U text l e l' OK E. destruct (after_error_which U text l e l' OK E) as [(_ & A)|(_ & A)]; auto. Qed.

(** The answer [ev] leaves the tokenizer where it is. *)
Definition rests (U : unicode) (l : lexer) (ev : token + err) : Prop :=
  match ev with inl t => get_symbol U l = LOk t l | inr e => get_symbol U l = LErr e l end.

Lemma history_one : forall U text evs l l', history U text evs l -> history U text evs l' -> l = l'.
Proof.
  intros U text evs l l' H. revert l'. induction H as [|evs l t m H IH E|evs l e m H IH E]; intros l' K.
  - inversion K as [A|a b c d Q1 Q2 A|a b c d Q1 Q2 A]; [reflexivity|destruct a; discriminate A..].
  - inversion K as [A|a b c d Q1 Q2 A|a b c d Q1 Q2 A]; [destruct evs; discriminate A| |];
    apply app_inj_tail in A; destruct A as (-> & A); [|discriminate A]. inversion A; subst.
    rewrite (IH _ Q1) in E. congruence.
  - inversion K as [A|a b c d Q1 Q2 A|a b c d Q1 Q2 A]; [destruct evs; discriminate A| |];
    apply app_inj_tail in A; destruct A as (-> & A); [discriminate A|]. inversion A; subst.
    rewrite (IH _ Q1) in E. congruence.
Qed.

Lemma rests_for_ever : forall U text evs l ev, history U text evs l -> rests U l ev -> for_ever U text evs l ev.
Proof.
  intros U text evs l ev H R. split.
  - exists l. destruct ev as [t|e]; cbn in R; [eapply H_ok|eapply H_err]; eassumption.
  - intros more. induction more as [|x more IH] using rev_ind; intros l' K.
    + rewrite app_nil_r in K. split; [constructor|]. eapply history_one; eassumption.
    + rewrite app_assoc in K. inversion K as [A|a b c d Q1 Q2 A|a b c d Q1 Q2 A]; [destruct (evs ++ more); discriminate A| |];
      apply app_inj_tail in A; destruct A as (-> & <-); destruct (IH _ Q1) as (F & ->); destruct ev as [t|e]; cbn in R;
      rewrite R in Q2; inversion Q2; subst; (split; [apply Forall_app; split; [exact F|repeat constructor]|reflexivity]).
Qed.

Lemma error_goes_on : forall U text evs l e l', history U text evs l -> get_symbol U l = LErr e l' ->
  (stays e /\ for_ever U text (evs ++ [inr e]) l' (inr e)) \/ (~ stays e /\ lx_pos l < lx_pos l').
Proof.
  intros U text evs l e l' H E. destruct (after_error_which U text l e l' (history_ok _ _ _ _ H) E) as [(S0 & A & _)|(S0 & A)]; [right; auto|left].
  split; [exact S0|]. apply rests_for_ever; [eapply H_err; eassumption|exact A].
Qed.

Lemma calls_bounded : forall U text evs l, history U text evs l ->
  (exists ev, rests U l ev) \/ length evs + effort l <= 3 * length text + 3.
Proof.
  intros U text evs l H. induction H as [|evs l t l' H IH E|evs l e l' H IH E].
  - right. unfold effort. cbn. lia.
  - destruct IH as [([u|u] & R)|IH]; [left; exists (inl u); cbn in *; congruence|cbn in R; congruence|].
    pose proof (history_call _ _ _ _ H) as C. rewrite E in C. destruct (oc_effort _ _ _ _ C) as [D|D].
    + right. rewrite app_length. cbn [length]. lia.
    + left. destruct (eof_absorbs _ _ _ _ _ _ H E D) as (_ & X). exists (inl (Tok T_EOF (At (lx_pos l')) None NoPayload)). exact X.
  - destruct IH as [([u|u] & R)|IH]; [cbn in R; congruence|left; exists (inr u); cbn in *; congruence|].
    destruct (after_error U text l e l' (history_ok _ _ _ _ H) E) as [(_ & A)|A].
    + right. rewrite app_length. cbn [length]. lia.
    + left. exists (inr e). exact A.
Qed.

Lemma rests_last : forall U text evs l ev, history U text evs l -> rests U l ev -> last_answer ev.
Proof.
  intros U text evs l [t|e] H R; cbn in *.
  - pose proof (history_call _ _ _ _ H) as C. rewrite R in C. destruct (oc_effort _ _ _ _ C) as [D|D]; [lia|exact D].
  - destruct (error_goes_on _ _ _ _ _ _ H R) as [(A & _)|(_ & A)]; [exact A|lia].
Qed.
Lemma settles : forall U text evs l, history U text evs l -> 3 * length text + 4 <= length evs ->
  exists ev, last_answer ev /\ for_ever U text evs l ev.
Proof.
  intros U text evs l H L. destruct (calls_bounded _ _ _ _ H) as [(ev & R)|B]; [|lia].
  exists ev. split; [eapply rests_last; eassumption|]. apply rests_for_ever; assumption.
Qed.

(** The end is reached unless one of the errors stays. *)
Lemma history_split : forall U text evs x more l, history U text (evs ++ x :: more) l -> exists m, history U text (evs ++ [x]) m.
Proof.
  intros U text evs x more. induction more as [|y more IH] using rev_ind; intros l H; [eauto|].
  change (x :: more ++ [y]) with ((x :: more) ++ [y]) in H. rewrite app_assoc in H.
  inversion H as [A|a b c d Q1 Q2 A|a b c d Q1 Q2 A]; [destruct (evs ++ x :: more); discriminate A| |];
  apply app_inj_tail in A; destruct A as (-> & _); eapply IH; exact Q1.
Qed.
Lemma stays_only : forall U text evs e more l, stays e -> history U text (evs ++ inr e :: more) l -> Forall (eq (inr e)) more.
Proof.
  intros U text evs e more l S0 H. destruct (history_split _ _ _ _ _ _ H) as (m & K).
  inversion K as [A|a b c d Q1 Q2 A|a b c d Q1 Q2 A]; [destruct evs; discriminate A| |];
  apply app_inj_tail in A; destruct A as (-> & A); inversion A; subst.
  destruct (error_goes_on _ _ _ _ _ _ Q1 Q2) as [(_ & _ & F)|(N & _)]; [|contradiction].
  change (inr e :: more) with ([inr e] ++ more) in H. rewrite app_assoc in H. apply (F _ _ H).
Qed.
Lemma end_only : forall U text evs t more l, tk_kind t = T_EOF -> history U text (evs ++ inl t :: more) l ->
  Forall (fun x => exists u, x = inl u /\ tk_kind u = T_EOF) more.
Proof.
  intros U text evs t more l T0 H. destruct (history_split _ _ _ _ _ _ H) as (m & K). pose proof K as K0.
  inversion K as [A|a b c d Q1 Q2 A|a b c d Q1 Q2 A]; [destruct evs; discriminate A| |];
  apply app_inj_tail in A; destruct A as (-> & A); inversion A; subst.
  destruct (eof_absorbs _ _ _ _ _ _ Q1 Q2 T0) as (_ & X).
  destruct (rests_for_ever U text _ m (inl (Tok T_EOF (At (lx_pos m)) None NoPayload)) K0 X) as (_ & F).
  change (inl t :: more) with ([inl t] ++ more) in H. rewrite app_assoc in H. destruct (F _ _ H) as (G & _).
  eapply Forall_impl; [|exact G]. intros x <-. eauto.
Qed.
Lemma end_reached : forall U text evs l, history U text evs l -> 3 * length text + 5 <= length evs ->
  ((exists t, In (inl t) evs /\ tk_kind t = T_EOF) <-> forall e, In (inr e) evs -> ~ stays e).
Proof.
  intros U text evs l H L. split.
  - intros (t & I0 & T0) e I1 S0.
    destruct (in_split _ _ I0) as (a & b & E0). destruct (in_split _ _ I1) as (c & d & E1). subst evs.
    pose proof (end_only _ _ _ _ _ _ T0 H) as F. rewrite E1 in H. pose proof (stays_only _ _ _ _ _ _ S0 H) as G.
    rewrite Forall_forall in F, G.
    assert (X : In (inl t) d \/ In (inr e) b).
    { clear - E1. revert c E1. induction a as [|x a IH]; intros [|y c] E1; cbn in E1; inversion E1; subst.
      - right. apply in_or_app. right. left. reflexivity.
      - left. apply in_or_app. right. left. reflexivity.
      - apply (IH c). assumption. }
    destruct X as [X|X]; [specialize (G _ X); discriminate G|destruct (F _ X) as (u & Q & _); discriminate Q].
  - intros N. destruct evs as [|x evs _] using rev_ind; [cbn in L; lia|]. rewrite app_length in L. cbn [length] in L.
    assert (P : exists m, history U text evs m).
    { inversion H as [A|a b c d Q1 Q2 A|a b c d Q1 Q2 A]; [destruct evs; discriminate A| |];
      apply app_inj_tail in A; destruct A as (-> & _); eauto. }
    destruct P as (m & P). destruct (settles _ _ _ _ P ltac:(lia)) as (ev & LA & _ & F). destruct (F _ _ H) as (G & _).
    inversion G; subst. destruct x as [t|e]; cbn in LA.
    + exists t. split; [apply in_or_app; right; left; reflexivity|exact LA].
    + exfalso. apply (N e); [apply in_or_app; right; left; reflexivity|exact LA].
Qed.

(** There are texts whose end is never reached. *)
Lemma stuck_at_once : forall U text e l1, get_symbol U (lexer_new text) = LErr e l1 -> get_symbol U l1 = LErr e l1 ->
  forall evs l, history U text evs l -> Forall (eq (inr e)) evs.
Proof.
  intros U text e l1 A B evs l H.
  assert (G : (l = lexer_new text \/ l = l1) /\ Forall (eq (inr e)) evs); [|apply G].
  induction H as [|evs l t l' H (IH & F) E|evs l x l' H (IH & F) E].
  - split; [left; reflexivity|constructor].
  - destruct IH; subst l; congruence.
  - assert (X : x = e /\ l' = l1) by (destruct IH; subst l; split; congruence). destruct X as (-> & ->).
    split; [right; reflexivity|]. apply Forall_app. split; [exact F|repeat constructor].
Qed.
Lemma end_unreached : exists text, forall evs l t, history ascii_only text evs l -> In (inl t) evs -> tk_kind t <> T_EOF.
Proof.
  exists $"? b". intros evs l t H I0. exfalso.
  assert (F : exists e, Forall (eq (inr e)) evs).
  { eexists. eapply (stuck_at_once ascii_only $"? b"); [vm_compute; reflexivity|vm_compute; reflexivity|exact H]. }
  destruct F as (e & F). rewrite Forall_forall in F. specialize (F _ I0). discriminate F.
Qed.
