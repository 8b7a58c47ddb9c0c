(** Operators, words and strings: what one call in the middle of a line returns. *)
From Coq Require Import ZArith Arith Lia.
From Verif Require Import Chars SourceBuffer Token Tokenizer LexBasics ScanLemmas LineLemmas
  TokenLemmas NumberLemmas WellFormed CallLemmas CallTheorem LexSpec TokenSpec HistoryProofs NumberProofs.

(** ** Operators *)
Definition arm_text (x : arm) : option (str * kind) :=
  let '(pa, pb, pc, k, n) := x in
  match pa with
  | PChar a =>
      match n with
      | 1%nat => Some ([a], k)
      | 2%nat => match pb with PChar b => Some ([a; b], k) | _ => None end
      | 3%nat => match pb, pc with PChar b, PChar c => Some ([a; b; c], k) | _, _ => None end
      | _ => None
      end
  | _ => None
  end.

Definition in_table (e : str * kind) : bool :=
  existsb (fun y => str_eqb (fst y) (fst e) && kind_eqb (snd y) (snd e)) operator_table.

Lemma in_table_spec : forall e, in_table e = true <-> In e operator_table.
Proof.
  intros (w, k). unfold in_table. rewrite existsb_exists. split.
  - intros ((w', k') & I & E). cbn in E. apply andb_prop in E. destruct E as (E1 & E2).
    apply str_eqb_eq in E1. apply kind_eqb_eq in E2. subst. exact I.
  - intros I. exists (w, k). split; auto. cbn. rewrite (proj2 (str_eqb_eq w w)), (proj2 (kind_eqb_eq k k)); auto.
Qed.

Definition pat_any (p : pat) : bool := match p with PAny => true | _ => false end.

(** The arm reads a table entry and asks nothing of the characters after it, except for the dot. *)
Definition arm_reads (x : arm) : bool :=
  match arm_text x with
  | Some (w, k) =>
      in_table (w, k) &&
      match x with
      | (_, pb, pc, _, n) =>
          (Nat.eqb n 3 || pat_any pc) && (negb (Nat.eqb n 1) || pat_any pb ||
             (match pb with PNotDigit => str_eqb w [#"."] | _ => false end))
      end
  | None => false
  end.

Lemma arms_read : forallb arm_reads operator_arms = true.
Proof. vm_compute. reflexivity. Qed.

Definition entry_has_arm (e : str * kind) : bool :=
  existsb (fun x => match arm_text x with
                    | Some (w, k) => str_eqb w (fst e) && kind_eqb k (snd e) | None => false end) operator_arms.

Lemma entries_have_arms : forallb entry_has_arm operator_table = true.
Proof. vm_compute. reflexivity. Qed.

(** Two patterns no character matches both. *)
Definition apart (p q : pat) : bool :=
  match p, q with
  | PChar a, PChar b => negb (a =? b)
  | PChar a, PNotDigit | PNotDigit, PChar a => is_digit a
  | _, _ => false
  end.

Definition arms_apart (x y : arm) : bool :=
  let '(pa, pb, pc, _, _) := x in let '(qa, qb, qc, _, _) := y in
  apart pa qa || apart pb qb || apart pc qc.

Fixpoint arms_sorted (xs : list arm) : bool :=
  match xs with
  | [] => true
  | x :: xs' => forallb (fun y => arms_apart x y || Nat.leb (snd y) (snd x)) xs' && arms_sorted xs'
  end.

Lemma arms_are_sorted : arms_sorted operator_arms = true.
Proof. vm_compute. reflexivity. Qed.

Lemma apart_spec : forall p q c, apart p q = true -> pat_match p c = true -> pat_match q c = true -> False.
Proof.
  intros [|a|] [|b|] c; cbn; try discriminate.
  - intros A B C. apply N.eqb_eq in B, C. subst. now rewrite N.eqb_refl in A.
  - intros A B C. apply N.eqb_eq in B. subst. rewrite A in C. discriminate.
  - intros A B C. apply N.eqb_eq in C. subst. rewrite A in B. discriminate.
Qed.

Lemma arms_apart_spec : forall p x y, arms_apart x y = true -> arm_match p x = true -> arm_match p y = true -> False.
Proof.
  intros [[a b] c] [[[[pa pb] pc] k] n] [[[[qa qb] qc] k'] n']. cbn. intros A M M'.
  rewrite !andb_true_iff in M, M'. destruct M as ((X & Y) & Z), M' as ((X' & Y') & Z').
  rewrite !orb_true_iff in A. destruct A as [[A|A]|A]; eapply apart_spec; eauto.
Qed.

Lemma first_is_longest : forall p xs x y, arms_sorted xs = true -> find (arm_match p) xs = Some x ->
  In y xs -> arm_match p y = true -> (snd y <= snd x)%nat.
Proof.
  induction xs as [|z xs IH]; cbn [arms_sorted find]; [discriminate|]. intros x y S F I M.
  apply andb_prop in S. destruct S as (S1 & S2). destruct (arm_match p z) eqn:E.
  - inversion F; subst z. destruct I as [->|I]; auto.
    rewrite forallb_forall in S1. specialize (S1 _ I). apply orb_prop in S1. destruct S1 as [S1|S1].
    + exfalso. eapply arms_apart_spec; eauto.
    + now apply Nat.leb_le.
  - destruct I as [->|I]; [congruence|]. eauto.
Qed.

Lemma arm_text_match : forall x w k r, In x operator_arms -> arm_text x = Some (w, k) -> ~ dot_digit r ->
  prefix_of w r -> arm_match (peek3 r) x = true.
Proof.
  intros x w k r I T ND (r' & ->). pose proof arms_read as A. rewrite forallb_forall in A. specialize (A _ I).
  unfold arm_reads in A. rewrite T in A. apply andb_prop in A. destruct A as (_ & A).
  destruct x as [[[[pa pb] pc] k'] n].
  apply andb_prop in A. destruct A as (A1 & A2).
  destruct pa as [|a|]; try discriminate T.
  destruct n as [|[|[|[|n]]]].
  1: destruct pb, pc; discriminate T.
  4: destruct pb, pc; discriminate T.
  - injection T as <- <-. destruct pc; try discriminate A1. cbn [app peek3 arm_match hd tl pat_match].
    rewrite N.eqb_refl, andb_true_r. cbn [andb].
    destruct pb as [|b|]; try discriminate A2; [reflexivity|].
    cbn in A2. rewrite andb_true_r in A2. apply N.eqb_eq in A2. subst a. cbn [pat_match].
    destruct (is_digit (hd NUL r')) eqn:D; auto. exfalso. apply ND.
    destruct r' as [|d r']; [discriminate|]. exists d, r'. auto.
  - destruct pb as [|b|]; try discriminate T. injection T as <- <-. destruct pc; try discriminate A1.
    cbn. rewrite !N.eqb_refl. reflexivity.
  - destruct pb as [|b|]; try discriminate T. destruct pc as [|c|]; try discriminate T. injection T as <- <-.
    cbn. rewrite !N.eqb_refl. reflexivity.
Qed.

Lemma arm_match_text : forall x w k r, In x operator_arms -> arm_text x = Some (w, k) ->
  arm_match (peek3 r) x = true -> prefix_of w r /\ length w = snd x /\ k = snd (fst x) /\ ~ dot_digit r.
Proof.
  intros x w k r I T M.
  pose proof arms_ok as AO. rewrite forallb_forall in AO. specialize (AO _ I).
  destruct x as [[[[pa pb] pc] k'] n]. unfold peek3, arm_match in M.
  rewrite !andb_true_iff in M. destruct M as ((M1 & M2) & M3).
  unfold arm_ok in AO. rewrite !andb_true_iff in AO. destruct AO as ((((PA & PN) & _) & _) & _).
  pose proof (pat_nonnul_spec _ _ PA M1) as N1. destruct (hd_nonnul _ N1) as (a & r1 & -> & _). cbn [hd tl] in *.
  assert (AR : arm_reads (pa, pb, pc, k', n) = true).
  { pose proof arms_read as A. rewrite forallb_forall in A. exact (A _ I). }
  unfold arm_reads in AR. rewrite T in AR. apply andb_prop in AR. destruct AR as (_ & AR).
  apply andb_prop in AR. destruct AR as (A1 & A2).
  destruct pa as [|a'|]; try discriminate T. cbn in M1. apply N.eqb_eq in M1. subst a'.
  destruct n as [|[|[|[|n]]]].
  1: destruct pb, pc; discriminate T.
  4: destruct pb, pc; discriminate T.
  - injection T as <- <-. repeat split; try reflexivity; [exists r1; reflexivity|].
    intros (d & r' & E & D). inversion E; subst. cbn [hd] in *.
    destruct pb as [|b|]; cbn in A2; try discriminate A2.
    + clear - I. cbn in I. repeat destruct I as [I|I]; try discriminate I; exact I.
    + cbn [pat_match] in M2. rewrite D in M2. discriminate.
  - destruct pb as [|b|]; try discriminate T. injection T as <- <-. cbn in M2. apply N.eqb_eq in M2. 
    assert (N2 : hd NUL r1 <> NUL). { eapply pat_nonnul_spec with (p := PChar b). 2: now apply N.eqb_eq. 
      cbn in PN. rewrite orb_false_r in PN. exact PN. }
    destruct (hd_nonnul _ N2) as (b' & r2 & -> & _). cbn in M2. subst b'.
    repeat split; try reflexivity; [exists r2; reflexivity|].
    intros (d & r' & E & D). inversion E; subst.
    clear - I D. cbn in I. repeat destruct I as [I|I]; try discriminate I; try (inversion I; subst; discriminate D); exact I.
  - destruct pb as [|b|]; try discriminate T. destruct pc as [|c|]; try discriminate T. injection T as <- <-.
    cbn in M2, M3. apply N.eqb_eq in M2, M3. cbn in PN. apply andb_prop in PN. destruct PN as (P2 & P3).
    assert (N2 : hd NUL r1 <> NUL). { eapply pat_nonnul_spec with (p := PChar b); auto. now apply N.eqb_eq. }
    destruct (hd_nonnul _ N2) as (b' & r2 & -> & _). cbn in M2, M3. subst b'.
    assert (N3 : hd NUL r2 <> NUL). { eapply pat_nonnul_spec with (p := PChar c); auto. now apply N.eqb_eq. }
    destruct (hd_nonnul _ N3) as (c' & r3 & -> & _). cbn in M3. subst c'.
    repeat split; try reflexivity; [exists r3; reflexivity|].
    intros (d & r' & E & D). inversion E; subst.
    clear - I D. cbn in I. repeat destruct I as [I|I]; try discriminate I; try (inversion I; subst; discriminate D); exact I.
Qed.

Lemma table_functional : forall w k k', In (w, k) operator_table -> In (w, k') operator_table -> k = k'.
Proof.
  assert (C : forallb (fun e => forallb (fun e' => negb (str_eqb (fst e) (fst e')) || kind_eqb (snd e) (snd e')) operator_table) operator_table = true)
    by (vm_compute; reflexivity).
  intros w k k' I I'. rewrite forallb_forall in C. specialize (C _ I). rewrite forallb_forall in C. specialize (C _ I').
  cbn in C. rewrite (proj2 (str_eqb_eq w w) eq_refl) in C. now apply kind_eqb_eq.
Qed.

Lemma prefix_same : forall a b r, prefix_of a r -> prefix_of b r -> length a = length b -> a = b.
Proof.
  induction a as [|x a IH]; destruct b as [|y b]; cbn; intros r (r1 & E1) (r2 & E2) L; try discriminate; auto.
  subst r. inversion E2. f_equal. apply (IH b (a ++ r1)); [exists r1|exists r2|]; auto.
Qed.

(** [operator_at] finds the longest table entry. *)
Lemma operator_at_longest : forall r k n, operator_at (peek3 r) = Some (k, n) ->
  longest_operator r (firstn n r) k /\ length (firstn n r) = n /\ ~ dot_digit r.
Proof.
  intros r k n H. unfold operator_at in H.
  destruct (find (arm_match (peek3 r)) operator_arms) as [x|] eqn:F; [|discriminate].
  pose proof F as F0. apply find_some in F. destruct F as (I & M).
  pose proof arms_read as A. rewrite forallb_forall in A. pose proof (A _ I) as AX. unfold arm_reads in AX.
  destruct (arm_text x) as [[w k0]|] eqn:T; [|discriminate]. apply andb_prop in AX. destruct AX as (IT & _).
  apply in_table_spec in IT.
  destruct (arm_match_text _ _ _ _ I T M) as (P & L & K & ND).
  destruct x as [[[[pa pb] pc] k'] n']. inversion H; subst k' n'. cbn [fst snd] in L, K. subst k0.
  assert (W : firstn n r = w).
  { destruct P as (r' & ->). rewrite <- L. rewrite firstn_app, Nat.sub_diag, firstn_all. apply app_nil_r. }
  rewrite W. repeat split; auto. intros w' k' I' P'.
  pose proof entries_have_arms as EH. rewrite forallb_forall in EH. specialize (EH _ I').
  unfold entry_has_arm in EH. apply existsb_exists in EH. destruct EH as (y & IY & EY).
  destruct (arm_text y) as [[wy ky]|] eqn:TY; [|discriminate]. cbn in EY. apply andb_prop in EY. destruct EY as (EY & _).
  apply str_eqb_eq in EY. subst wy.
  pose proof (arm_text_match _ _ _ _ IY TY ND P') as MY.
  pose proof (first_is_longest _ _ _ _ arms_are_sorted F0 IY MY) as LE.
  destruct (arm_match_text _ _ _ _ IY TY MY) as (_ & LY & _). cbn [snd] in *. lia.
Qed.

Lemma longest_operator_at : forall r w k, longest_operator r w k -> ~ dot_digit r ->
  operator_at (peek3 r) = Some (k, length w).
Proof.
  intros r w k (I & P & LG) ND.
  assert (S : exists k' n', operator_at (peek3 r) = Some (k', n')).
  { pose proof entries_have_arms as EH. rewrite forallb_forall in EH. specialize (EH _ I).
    unfold entry_has_arm in EH. apply existsb_exists in EH. destruct EH as (y & IY & EY).
    destruct (arm_text y) as [[wy ky]|] eqn:TY; [|discriminate]. cbn in EY. apply andb_prop in EY. destruct EY as (EY & _).
    apply str_eqb_eq in EY. subst wy.
    pose proof (arm_text_match _ _ _ _ IY TY ND P) as MY. unfold operator_at.
    destruct (find (arm_match (peek3 r)) operator_arms) as [[[[[? ?] ?] ?] ?]|] eqn:F; eauto.
    exfalso. eapply find_none in F; eauto. congruence. }
  destruct S as (k' & n' & S). rewrite S. destruct (operator_at_longest _ _ _ S) as ((I' & P' & LG') & L' & _).
  pose proof (LG _ _ I' P'). pose proof (LG' _ _ I P).
  assert (W : firstn n' r = w) by (eapply prefix_same; eauto; lia).
  rewrite W in *. f_equal. f_equal; [|auto]. eapply table_functional; eauto.
Qed.

Lemma operator_significant : forall r w k, longest_operator r w k -> significant (hd NUL r) /\ exists c r', r = c :: r'.
Proof.
  intros r w k (I & (r' & ->) & _).
  assert (C : forallb (fun e => match fst e with c :: _ => negb (existsb (N.eqb c) [SP; TAB; #"#"; NUL; CR; LF; BSL]) | [] => false end) operator_table = true)
    by (vm_compute; reflexivity).
  rewrite forallb_forall in C. specialize (C _ I). cbn [fst] in C. destruct w as [|c w]; [discriminate|].
  apply negb_true_iff in C. cbn in C. rewrite !orb_false_iff in C. cbn [app hd]. unfold significant.
  repeat match goal with H : _ /\ _ |- _ => destruct H as (? & H) end.
  repeat match goal with H : (_ =? _) = false |- _ => apply N.eqb_neq in H end. split; [tauto|eauto].
Qed.

Lemma operator_call : forall U l w k, mid_line l -> longest_operator (lx_rest l) w k -> ~ dot_digit (lx_rest l) ->
  get_symbol U l = LOk (Tok k (Range (lx_pos l) (lx_pos l + length w)) None NoPayload) (after l (length w)).
Proof.
  intros U l w k (B & P) LO ND. destruct (operator_significant _ _ _ LO) as (SG & c & r & R).
  rewrite R in SG. cbn in SG. rewrite (get_symbol_mid U l c r) by auto.
  pose proof (longest_operator_at _ _ _ LO ND) as OA.
  pose proof (lex_token_case U (set_start l (lx_pos l)) []) as TC.
  remember (lex_token U (set_start l (lx_pos l)) []) as res.
  change (lx_rest l) with (lx_rest (set_start l (lx_pos l))) in OA.
  destruct TC; try congruence. rewrite OA in H. inversion H; subst. reflexivity.
Qed.

(** ** Words *)
Lemma word_char_ident : forall U c, word_char U c <-> ident_char U c = true.
Proof. intros. unfold word_char, ident_char, is_alphanumeric. rewrite !orb_true_iff, N.eqb_eq. tauto. Qed.
Lemma word_start_ident : forall U c, word_start U c <-> ident_start U c = true.
Proof. intros. unfold word_start, ident_start. rewrite orb_true_iff, N.eqb_eq. tauto. Qed.

Definition same_tables : bool :=
  forallb (fun e => existsb (fun y => str_eqb (fst y) (fst e) && kind_eqb (snd y) (snd e)) reserved) keyword_table &&
  forallb (fun e => match keyword_of (fst e) with Some k => kind_eqb k (snd e) | None => false end) reserved.
Lemma same_tables_true : same_tables = true.
Proof. vm_compute. reflexivity. Qed.

Lemma keyword_reserved : forall w k, keyword_of w = Some k <-> In (w, k) reserved.
Proof.
  intros w k. pose proof same_tables_true as S. apply andb_prop in S. destruct S as (S1 & S2).
  rewrite forallb_forall in S1, S2. split.
  - unfold keyword_of. destruct (find _ keyword_table) as [[w' k']|] eqn:F; [|discriminate].
    intros E. inversion E; subst k'. apply find_some in F. destruct F as (I & M). cbn in M. apply str_eqb_eq in M. subst w'.
    specialize (S1 _ I). apply existsb_exists in S1. destruct S1 as ((a, b) & IR & E1). cbn in E1.
    apply andb_prop in E1. destruct E1 as (E1 & E2). apply str_eqb_eq in E1. apply kind_eqb_eq in E2. subst. exact IR.
  - intros I. specialize (S2 _ I). cbn in S2. destruct (keyword_of w) as [k'|]; [|discriminate].
    apply kind_eqb_eq in S2. congruence.
Qed.

Lemma keyword_none : forall w, keyword_of w = None <-> ~ In w (map fst reserved).
Proof.
  intros w. split.
  - intros E I. apply in_map_iff in I. destruct I as ((w', k) & <- & I). apply keyword_reserved in I. cbn in *. congruence.
  - intros N. destruct (keyword_of w) as [k|] eqn:K; auto. exfalso. apply N. apply keyword_reserved in K.
    apply in_map_iff. exists (w, k). auto.
Qed.

Lemma lower_is : forall x c, in_range #"a" #"z" x = true -> lower c = x -> c = x \/ c = x - 32.
Proof.
  unfold lower, in_range. intros x c R E. destruct ((65 <=? c) && (c <=? 90)) eqn:Q; [right; subst; lia|left; auto].
Qed.

Lemma prefix_word : forall w, is_prefix_word w = true <-> string_prefix w.
Proof.
  intros w. unfold is_prefix_word, string_prefix. split.
  - intros H. apply existsb_exists in H. destruct H as (p & I & E). apply str_eqb_eq in E. subst p.
    cbn in I. repeat destruct I as [<-|I]; [..|destruct I]; vm_compute; tauto.
  - intros I. 
    assert (X : forall p, In p [$"r"; $"u"; $"f"; $"rf"; $"fr"] -> map lower w = p ->
       In w [$"r"; $"u"; $"R"; $"U"; $"f"; $"F"; $"fr"; $"Fr"; $"fR"; $"FR"; $"rf"; $"rF"; $"Rf"; $"RF"]).
    { intros p IP E. destruct w as [|a [|b [|c w]]].
      - cbn in IP. repeat destruct IP as [<-|IP]; try discriminate E; destruct IP.
      - cbn in IP, E. repeat destruct IP as [<-|IP]; try discriminate E; try destruct IP;
          injection E as E; apply lower_is in E; try reflexivity; destruct E as [->| ->]; cbn; tauto.
      - cbn in IP, E. repeat destruct IP as [<-|IP]; try discriminate E; try destruct IP;
          injection E as E E'; apply lower_is in E, E'; try reflexivity; destruct E as [->| ->], E' as [->| ->]; cbn; tauto.
      - cbn in IP, E. repeat destruct IP as [<-|IP]; try discriminate E; destruct IP. }
    specialize (X _ I eq_refl). unfold prefix_table.
    apply existsb_exists. exists w. split; [exact X|]. now apply str_eqb_eq.
Qed.

Lemma quote_spec : forall c, quote c <-> is_quote c = true.
Proof. intros. unfold quote, is_quote. rewrite orb_true_iff, !N.eqb_eq. tauto. Qed.

Lemma word_start_token : forall U c b d, word_start U c ->
  operator_at (c, b, d) = None /\ opener_at c = None /\ closer_at c = None /\ significant c.
Proof.
  intros U c b d W. apply word_start_ident in W.
  assert (A : c = 95 \/ ascii_letter c = true \/ 127 < c).
  { unfold ident_start, is_alphabetic in W. rewrite !orb_true_iff, andb_true_iff, N.ltb_lt, N.eqb_eq in W. tauto. }
  split.
  { destruct (operator_at (c, b, d)) as [[k n]|] eqn:O; auto. apply operator_first in O.
    destruct O as (_ & _ & O1 & O2 & O3). exfalso. destruct A as [A|[A|A]]; [congruence|congruence|lia]. }
  unfold ascii_letter, in_range in A. rewrite orb_true_iff, !andb_true_iff, !N.leb_le in A.
  assert (X : forall a, (a < 65 \/ (90 < a /\ a < 95) \/ a = 96 \/ (122 < a /\ a <= 127)) -> (c =? a) = false)
    by (intros a Ha; apply N.eqb_neq; lia).
  unfold opener_at, closer_at, significant, SP, TAB, NUL, CR, LF, BSL. rewrite !X by lia. repeat split; lia.
Qed.

Lemma word_at_split : forall U w r w' r', word_at U w r -> word_at U w' r' -> w ++ r = w' ++ r' -> w = w' /\ r = r'.
Proof.
  intros U w r w' r' (_ & _ & F & N) (_ & _ & F' & N') E.
  assert (R : forall w r, Forall (word_char U) w -> ~ word_char U (hd NUL r) -> run_while (ident_char U) (w ++ r) = (w, r)).
  { intros a b Fa Nb. apply run_while_app.
    - apply forallb_forall. intros x Hx. apply word_char_ident. rewrite Forall_forall in Fa. auto.
    - right. destruct (ident_char U (hd NUL b)) eqn:I; auto. exfalso. apply Nb. now apply word_char_ident. }
  pose proof (R _ _ F N) as A. pose proof (R _ _ F' N') as B. rewrite E in A. rewrite A in B. inversion B; auto.
Qed.

Lemma word_case_at : forall U w r, w <> [] -> word_start U (hd NUL (w ++ r)) -> forallb (ident_char U) w = true ->
  ident_char U (hd NUL r) = false -> word_at U w r.
Proof.
  intros U w r N S F H. repeat split; auto.
  - destruct w; [congruence|exact S].
  - apply Forall_forall. intros x Hx. apply word_char_ident. rewrite forallb_forall in F. auto.
  - rewrite word_char_ident. congruence.
Qed.

(** The word at the read position decides the call. *)
Lemma word_call_case : forall U l w r, mid_line l -> lx_rest l = w ++ r -> word_at U w r ->
  word_case U (set_start l (lx_pos l)) [] (get_symbol U l).
Proof.
  intros U l w r (B & P) R W. destruct W as (N & S & F & H). destruct w as [|c w]; [congruence|]. cbn [hd app] in *.
  destruct (word_start_token U c NUL NUL S) as (_ & O2 & O3 & SG).
  rewrite (get_symbol_mid U l c (w ++ r)) by auto.
  pose proof (lex_token_case U (set_start l (lx_pos l)) []) as TC.
  remember (lex_token U (set_start l (lx_pos l)) []) as res.
  assert (HR : lx_rest (set_start l (lx_pos l)) = c :: w ++ r) by exact R.
  assert (OP : operator_at (peek3 (lx_rest (set_start l (lx_pos l)))) = None).
  { rewrite HR. unfold peek3. cbn [hd tl]. eapply word_start_token; eauto. }
  apply word_start_ident in S.
  destruct TC; rewrite ?HR in *; cbn [hd] in *; try congruence. auto.
Qed.

Lemma keyword_call : forall U l w r k, mid_line l -> lx_rest l = w ++ r -> word_at U w r -> In (w, k) reserved ->
  get_symbol U l = LOk (Tok k (Range (lx_pos l) (lx_pos l + length w)) None NoPayload) (after l (length w)).
Proof.
  intros U l w r k M R W K. apply keyword_reserved in K.
  pose proof (word_call_case U l w r M R W) as C. 
  destruct W as (N & S & F & H).
  assert (SS : word_start U (hd NUL (w ++ r))) by (destruct w; [congruence|exact S]).
  change (lx_rest l) with (lx_rest (set_start l (lx_pos l))) in R.
  assert (W : word_at U w r) by (repeat split; auto).
  destruct C as [w' r' k' R' N' F' H' K'|w' r' R' N' F' H' K' P'|w' r' res R' N' F' H' K' P' Q' SC];
    assert (E : w = w' /\ r = r') by (apply (word_at_split U); auto; [apply word_case_at; auto; congruence|congruence]);
    destruct E as (<- & <-); try congruence.
  rewrite K in K'. inversion K'; subst k'. change (lx_rest (set_start l (lx_pos l))) with (lx_rest l) in R. unfold after. rewrite R, skipn_app_len. reflexivity.
Qed.

Lemma name_call : forall U l w r, mid_line l -> lx_rest l = w ++ r -> word_at U w r -> ~ In w (map fst reserved) ->
  ~ (string_prefix w /\ quote (hd NUL r)) ->
  get_symbol U l = LOk (Tok T_AtomName (Range (lx_pos l) (lx_pos l + length w)) None (Text w)) (after l (length w)).
Proof.
  intros U l w r M R W K Q. apply keyword_none in K.
  pose proof (word_call_case U l w r M R W) as C. 
  destruct W as (N & S & F & H).
  assert (SS : word_start U (hd NUL (w ++ r))) by (destruct w; [congruence|exact S]).
  change (lx_rest l) with (lx_rest (set_start l (lx_pos l))) in R.
  assert (W : word_at U w r) by (repeat split; auto).
  destruct C as [w' r' k' R' N' F' H' K'|w' r' R' N' F' H' K' P'|w' r' res R' N' F' H' K' P' Q' SC];
    assert (E : w = w' /\ r = r') by (apply (word_at_split U); auto; [apply word_case_at; auto; congruence|congruence]);
    destruct E as (<- & <-); try congruence.
  - change (lx_rest (set_start l (lx_pos l))) with (lx_rest l) in R. unfold after. rewrite R, skipn_app_len. reflexivity.
  - exfalso. apply Q. split; [now apply prefix_word|now apply quote_spec].
Qed.
