(** Joining files: the proofs of C66. *)
From Coq Require Import List ZArith Arith Lia Bool.
From Verif Require Import Chars SourceBuffer Token Tokenizer LexBasics ScanLemmas LineLemmas WellFormed CallLemmas CallTheorem LexSpec HistoryProofs
  LayoutProofs RenderSpec RoundTrip LexCorollaries ParseCorollaries LayoutSpec PrintProofs JoinLexer JoinSpec.
Import ListNotations.
Local Open Scope nat_scope.

(** ** Calls and texts *)
Lemma calls_history : forall U text l ts l', calls U l ts l' -> forall ts0, history U text (map inl ts0) l -> history U text (map inl (ts0 ++ ts)) l'.
Proof.
  intros U text l ts l' H. induction H as [l|l t l1 ts l2 E H IH]; intros ts0 H0.
  - rewrite app_nil_r. exact H0.
  - replace (ts0 ++ t :: ts) with ((ts0 ++ [t]) ++ ts) by (rewrite <- app_assoc; reflexivity). apply IH.
    rewrite map_app. eapply H_ok; eauto.
Qed.
Lemma lex_calls : forall U n l ts, lex_all U n l = map inl ts -> exists l', calls U l ts l'.
Proof.
  intros U. induction n as [|n IH]; intros l ts H; cbn [lex_all] in H.
  - destruct ts; [exists l; constructor|discriminate].
  - destruct (get_symbol U l) as [t l1|e l1|] eqn:G.
    + destruct ts as [|t' ts]; [discriminate|]. cbn [map] in H. injection H as -> H.
      destruct (kind_eqb (tk_kind t') T_EOF).
      * destruct ts; [|discriminate]. exists l1. econstructor; [exact G|constructor].
      * destruct (IH _ _ H) as (l2 & C). exists l2. econstructor; eauto.
    + destruct ts; discriminate.
    + destruct ts; [exists l; constructor|discriminate].
Qed.
Lemma lex_no_end : forall U n l ts e, lex_all U n l = map inl (ts ++ [e]) -> Forall (fun t => tk_kind t <> T_EOF) ts.
Proof.
  intros U. induction n as [|n IH]; intros l ts e H; cbn [lex_all] in H.
  - destruct ts; discriminate.
  - destruct ts as [|t ts]; [constructor|]. destruct (get_symbol U l) as [t' l1|x l1|]; try discriminate.
    cbn [map app] in H. injection H as -> H. destruct (kind_eqb (tk_kind t) T_EOF) eqn:K.
    + destruct ts; discriminate.
    + constructor; [|eapply IH; exact H]. intros E. rewrite E in K. discriminate K.
Qed.
Lemma calls_split : forall U a b l l', calls U l (a ++ b) l' -> exists l1, calls U l a l1 /\ calls U l1 b l'.
Proof.
  intros U. induction a as [|t a IH]; intros b l l' H; [exists l; split; [constructor|exact H]|].
  cbn [app] in H. inversion H; subst. edestruct IH as (l2 & A & B); [eassumption|]. exists l2. split; [econstructor; eauto|exact B].
Qed.
Lemma calls_to_end : forall U a l b x y l1 l2, calls U l (a ++ [x]) l1 -> calls U l (b ++ [y]) l2 ->
  Forall (fun t => tk_kind t <> T_EOF) a -> Forall (fun t => tk_kind t <> T_EOF) b -> tk_kind x = T_EOF -> tk_kind y = T_EOF -> a = b.
Proof.
  intros U. induction a as [|t a IH]; intros l b x y l1 l2 H1 H2 N1 N2 K1 K2; destruct b as [|u b]; cbn [app] in *; [reflexivity| | |].
  - inversion H1; inversion H2; subst. inversion N2; subst. congruence.
  - inversion H1; inversion H2; subst. inversion N1; subst. congruence.
  - inversion H1 as [|? ? m1 ? ? G1 C1]; inversion H2 as [|? ? m2 ? ? G2 C2]; subst. inversion N1; inversion N2; subst.
    rewrite G1 in G2. injection G2 as <- <-. f_equal. eapply IH; eauto.
Qed.

Lemma calls_same : forall U a l b l1 l2, calls U l a l1 -> calls U l b l2 -> length a = length b -> a = b /\ l1 = l2.
Proof.
  intros U. induction a as [|t a IH]; intros l b l1 l2 H1 H2 LE; destruct b as [|u b]; try discriminate LE.
  - inversion H1; inversion H2; subst. auto.
  - inversion H1 as [|? ? m1 ? ? G1 C1]; inversion H2 as [|? ? m2 ? ? G2 C2]; subst. rewrite G1 in G2. injection G2 as <- <-.
    cbn [length] in LE. destruct (IH _ _ _ _ C1 C2 ltac:(lia)) as (-> & ->). auto.
Qed.

(** ** The first text *)
Lemma rest_left : forall U text evs l t l1, history U text evs l -> get_symbol U l = LOk t l1 -> lx_rest l1 <> [] -> lx_rest l <> [].
Proof.
  intros U text evs l t l1 H G N E. apply N. pose proof (history_ok _ _ _ _ H) as OK. pose proof (get_symbol_ok U text l OK) as C. rewrite G in C.
  destruct (ok_at _ _ OK) as (R & _). destruct (ok_at _ _ (oc_ok _ _ _ _ C)) as (R1 & _). pose proof (oc_pos _ _ _ _ C) as P.
  rewrite R1. apply skipn_all2. rewrite E in R. pose proof (f_equal (@length _) R) as LE. rewrite skipn_length in LE. cbn in LE. lia.
Qed.
Lemma rest_ends : forall U text evs l r0, history U text evs l -> text = r0 ++ [LF] -> lx_rest l <> [] -> exists r1, lx_rest l = r1 ++ [LF].
Proof.
  intros U text evs l r0 H E N. pose proof (history_ok _ _ _ _ H) as OK. destruct (ok_at _ _ OK) as (R & _). rewrite R in *. subst text.
  rewrite skipn_app in *. destruct (skipn (lx_pos l - length r0) [LF]) as [|c q] eqn:Q.
  - exfalso. apply N. rewrite app_nil_r. apply skipn_all2. 
    pose proof (f_equal (@length _) Q) as LE. rewrite skipn_length in LE. cbn [length] in LE. lia.
  - exists (skipn (lx_pos l) r0). f_equal. destruct (lx_pos l - length r0) as [|k]; [exact (eq_sym Q)|]. destruct k; discriminate Q.
Qed.
Lemma extended : forall U text x r0, text = r0 ++ [LF] -> forall evs l, history U text evs l -> forall us, evs = map inl us -> lx_rest l <> [] ->
  exists us' l', history U (text ++ x) (map inl us') l' /\ Forall2 same_face us us' /\ followed x l l'.
Proof.
  intros U text x r0 E evs l H. induction H as [|evs l t l1 H IH G|evs l e l1 H IH G]; intros us EU N.
  - destruct us; [|discriminate]. exists [], (lexer_new (text ++ x)). split; [constructor|]. split; [constructor|]. unfold followed. cbn. auto.
  - destruct us as [|u us _] using rev_ind; [destruct evs; discriminate|]. rewrite map_app in EU. apply app_inj_tail in EU. destruct EU as (-> & EU). injection EU as <-.
    pose proof (rest_left _ _ _ _ _ _ H G N) as N0. destruct (IH us eq_refl N0) as (us' & l' & H' & F & FO).
    assert (GO : going x l l').
    { destruct FO as (A & B). split; [split; [exact A|]|exact B]. right. eapply rest_ends; eauto. }
    destruct (symbol_kin x U l l' t l1 GO G) as [((_ & L) & _)|(t' & l1' & G' & S & FO')]; [contradiction|].
    exists (us' ++ [t']), l1'. split; [rewrite map_app; eapply H_ok; eauto|]. split; [|exact FO']. apply Forall2_app; auto.
  - destruct us as [|u us _] using rev_ind; [destruct evs; discriminate|]. rewrite map_app in EU. apply app_inj_tail in EU. destruct EU as (_ & EU). discriminate.
Qed.

(** ** The second text *)
Lemma followed_going : forall l l', followed [] l l' -> going [] l l'.
Proof. intros l l' (A & B). split; [split; [exact A|auto]|exact B]. Qed.
Lemma shifted_call : forall U l l' t l1, followed [] l l' -> get_symbol U l = LOk t l1 ->
  exists t' l1', get_symbol U l' = LOk t' l1' /\ same_face t t' /\ followed [] l1 l1'.
Proof.
  intros U l l' t l1 F G. destruct (symbol_kin [] U l l' t l1 (followed_going _ _ F) G) as [((N & _) & _)|H]; [congruence|exact H].
Qed.
Lemma shifted : forall U l ts l1, calls U l ts l1 -> forall l', followed [] l l' ->
  exists ts' l1', calls U l' ts' l1' /\ Forall2 same_face ts ts' /\ followed [] l1 l1'.
Proof.
  intros U l ts l1 H. induction H as [l|l t l1 ts l2 E H IH]; intros l' F.
  - exists [], l'. split; [constructor|]. auto.
  - destruct (shifted_call _ _ _ _ _ F E) as (t' & l1' & G & S & F1). destruct (IH _ F1) as (ts' & l2' & C & S2 & F2).
    exists (t' :: ts'), l2'. split; [econstructor; eauto|]. auto.
Qed.

(** The blocks left open are closed before the first token of the second text. *)
Lemma resumed : forall U text evs l n x, history U text evs l -> lx_bol l = true -> lx_parens l = [] -> lx_pending l = 0%Z ->
  lx_rest l = x -> length (lx_indents l) = S n -> n = 0 \/ flush x ->
  exists l1, calls U l (repeat dedent_token n) l1 /\
    forall u l2, get_symbol U (lexer_new x) = LOk u l2 -> exists u' l2', get_symbol U l1 = LOk u' l2' /\ same_face u u' /\ followed [] l2 l2'.
Proof.
  intros U text evs l n x H BO PA PE R LI Z. destruct (history_levels _ _ _ _ H) as (up & EU & _ & FU & _ & _).
  assert (LU : length up = n) by (rewrite EU, app_length in LI; cbn in LI; lia).
  destruct n as [|n].
  - destruct up; [|discriminate LU]. exists l. split; [constructor|]. intros u l2 G. apply (shifted_call U (lexer_new x) l u l2); [|exact G].
    unfold followed. cbn. rewrite app_nil_r. auto.
  - destruct Z as [Z|(c & r & EX & NI)]; [discriminate Z|].
    assert (NB : ~ blank_char (hd NUL x)) by (rewrite EX; cbn [hd]; intros B; apply NI; unfold blank_char in B; cbn; destruct B; subst; auto).
    assert (NS : ~ blank_line_start (hd NUL x)) by (rewrite EX; cbn [hd]; intros B; apply NI; unfold blank_line_start in B; cbn in *; tauto).
    pose proof (history_ok _ _ _ _ H) as OK.
    destruct (line_start_call U text l [] x 0 OK BO PA R CO_nil NB NS) as (_ & _ & L3). cbn zeta in L3. cbn [length] in L3. rewrite Nat.add_0_r in L3.
    destruct up as [|a up]; [discriminate LU|]. rewrite EU in L3. inversion FU as [|? ? F1 F2]; subst. cbn [app hd] in L3.
    destruct (L3 F1) as (popped & kept & l1 & EQ & NP & FP & HK & CA & G & IK).
    assert (K0 : kept = [0%nat]).
    { pose proof (ok_levels _ _ OK) as LV. rewrite EU in LV. change ((a :: up) ++ [0]) with (a :: up ++ [0]) in LV. rewrite EQ in LV.
      assert (X : leave 0 (popped ++ kept) = kept) by (apply leave_spec; auto).
      rewrite <- EQ in X. rewrite <- X. clear - FU. change (a :: up ++ [0]) with ((a :: up) ++ [0]). induction FU as [|b xs A F IH]; [reflexivity|].
      cbn [app leave]. destruct (Nat.ltb_spec 0 b); [exact IH|lia]. }
    rewrite K0 in *. assert (LP : length popped = S n).
    { apply (f_equal (@length nat)) in EQ. cbn [length] in EQ, LU. rewrite !app_length in EQ. cbn [length] in EQ. lia. }
    rewrite LP in CA. exists l1. split; [exact CA|]. intros u l2 G2. rewrite G.
    destruct (line_start_call U (lx_rest l) (lexer_new (lx_rest l)) [] (lx_rest l) 0 (lx_ok_new _) eq_refl eq_refl eq_refl CO_nil NB NS) as (L1 & _).
    cbn zeta in L1. rewrite (L1 eq_refl) in G2. refine (shifted_call U _ _ u l2 _ G2).
    unfold followed. cbn. rewrite app_nil_r. destruct (ok_at _ _ OK) as (RE & _). rewrite <- RE. auto.
Qed.

(** ** Both *)
Lemma same_kinds : forall ts ts', Forall2 same_face ts ts' -> map tk_kind ts' = map tk_kind ts.
Proof. intros ts ts' H. induction H as [|t t' ts ts' (K & _) H IH]; [reflexivity|]. cbn [map]. congruence. Qed.
Lemma same_length : forall ts ts', Forall2 same_face ts ts' -> length ts = length ts'.
Proof. intros ts ts' H. induction H; cbn [length]; congruence. Qed.
Lemma faces_no_end : forall ts ts', Forall2 same_face ts ts' -> Forall (fun t => tk_kind t <> T_EOF) ts -> Forall (fun t => tk_kind t <> T_EOF) ts'.
Proof. intros ts ts' H. induction H as [|t t' ts ts' (K & _) H IH]; intros N; inversion N; subst; constructor; auto. congruence. Qed.
Lemma same_faces_refl : forall ts, Forall2 same_face ts ts.
Proof. induction ts; constructor; auto. split; reflexivity. Qed.

Lemma newline_place : forall U text evs l t l1, history U text evs l -> get_symbol U l = LOk t l1 -> tk_kind t = T_Newline -> tk_payload t = Break LF SP ->
  exists s, tk_span t = Range s (S s) /\ lx_pos l1 = S s /\ s < length text /\ nth s text NUL = LF /\ lx_pos l <= s /\
    lx_bol l1 = true /\ lx_parens l1 = [] /\ lx_pending l1 = 0%Z.
Proof.
  intros U text evs l t l1 H G K P. destruct (newline_sound _ _ _ _ _ _ H G K) as (s & n & SP1 & LB & PA & BO & PS & PO & PE).
  rewrite P in PA. injection PA as HD N3. 
  assert (LT : s < length text).
  { destruct (le_lt_dec (length text) s) as [Z|Z]; [|exact Z]. rewrite (skipn_all2 text Z) in HD. discriminate HD. }
  assert (N1 : n = 1).
  { destruct (skipn s text) as [|c r] eqn:SK; [discriminate HD|]. cbn [hd] in HD. subst c.
    inversion LB as [r1 EQ|r1 n1 LB1 EQ]; subst; try discriminate; try reflexivity; inversion LB1; subst; reflexivity. }
  subst n. exists s. rewrite Nat.add_1_r in *. split; [exact SP1|]. split; [exact PO|]. split; [exact LT|]. split.
  { rewrite <- (firstn_skipn s text), app_nth2; rewrite firstn_length_le by lia; [|lia]. rewrite Nat.sub_diag. destruct (skipn s text); [discriminate HD|]. cbn in *. auto. }
  pose proof (get_symbol_ok U text l (history_ok _ _ _ _ H)) as C. rewrite G in C. pose proof (oc_span _ _ _ _ C) as SO. unfold span_ok in SO. rewrite SP1 in SO.
  repeat split; auto. apply SO.
Qed.

(** The tokens of two texts, one after the other. *)
Theorem tokens_joined : forall U text1 ts1 n text2 ts2, reads_as U text1 ts1 -> ends_line text1 ts1 n -> reads_as U text2 ts2 -> n = 0 \/ flush text2 ->
  exists ts, reads_as U (text1 ++ text2) ts /\ Forall2 same_face (ts1 ++ ts2) ts /\
    (forall k, ends_line text2 ts2 k -> ends_line (text1 ++ text2) ts k).
Proof.
  intros U text1 ts1 n text2 ts2 (e1 & SC1 & KE1) (us & t & ds & s & E1 & KT & PT & ST & KD) (e2 & SC2 & KE2) Z.
  subst ts1. unfold LayoutSpec.scanned in SC1, SC2. pose proof (lex_no_end _ _ _ _ _ SC1) as NE1. pose proof (lex_no_end _ _ _ _ _ SC2) as NE2.
  destruct (lex_calls _ _ _ _ SC1) as (lz1 & C1). destruct (lex_calls _ _ _ _ SC2) as (lz2 & C2).
  (* the first text up to its last Newline *)
  assert (EQ1 : (us ++ t :: ds) ++ [e1] = us ++ [t] ++ ds ++ [e1]) by (rewrite <- app_assoc; reflexivity).
  rewrite EQ1 in C1. destruct (calls_split _ _ _ _ _ C1) as (lp & CU & C1'). destruct (calls_split U [t] _ _ _ C1') as (l0 & CT & CD).
  pose proof (calls_history U text1 _ _ _ CU [] (H_start U text1)) as HU. cbn [app] in HU.
  inversion CT as [|? ? l0' ? ? GT CN]; subst. inversion CN; subst. clear CT CN. rename l0 into lN.
  destruct (newline_place _ _ _ _ _ _ HU GT KT PT) as (s0 & S0 & P0 & LT & CH & PP & BO & PA & PE). rewrite ST in S0. injection S0 as -> LE.
  assert (T1 : exists r0, text1 = r0 ++ [LF]).
  { exists (firstn s0 text1). rewrite <- (firstn_skipn s0 text1) at 1. f_equal.
    assert (LS : length (skipn s0 text1) = 1) by (rewrite skipn_length; lia).
    assert (NS : nth 0 (skipn s0 text1) NUL = LF).
    { rewrite <- (firstn_skipn s0 text1) in CH. rewrite app_nth2 in CH; rewrite firstn_length_le in * by lia; [|lia]. rewrite Nat.sub_diag in CH. exact CH. }
    destruct (skipn s0 text1) as [|c [|d q]]; [discriminate LS| |discriminate LS]. cbn in NS. rewrite NS. reflexivity. }
  destruct T1 as (r0 & T1).
  assert (RP : lx_rest lp <> []).
  { destruct (ok_at _ _ (history_ok _ _ _ _ HU)) as (RE & _). rewrite RE. intros X. pose proof (f_equal (@length _) X) as XL. rewrite skipn_length in XL. cbn [length] in XL. lia. }
  assert (HN : history U text1 (map inl (us ++ [t])) lN) by (rewrite map_app; eapply H_ok; eauto).
  assert (RN : lx_rest lN = []).
  { destruct (ok_at _ _ (history_ok _ _ _ _ HN)) as (RE & _). rewrite RE, P0. apply skipn_all2. lia. }
  (* the number of open blocks *)
  assert (LI : length (lx_indents lN) = S n /\ ds = repeat dedent_token n).
  { destruct (end_of_text_dedents U text1 _ lN HN BO PA PE) as (le & CE); [rewrite RN; reflexivity|].
    assert (ED : ds = repeat dedent_token (length (lx_indents lN) - 1)).
    { apply (calls_to_end _ _ _ _ _ _ _ _ CD CE); [| |exact KE1|reflexivity].
      - apply Forall_app in NE1. destruct NE1 as (_ & NE1). inversion NE1; auto.
      - apply Forall_forall. intros d D. apply repeat_spec in D. subst d. discriminate. }
    assert (LD : length ds = n) by (rewrite <- (map_length tk_kind), KD; apply repeat_length).
    destruct (history_levels _ _ _ _ HN) as (up & EU & _). rewrite ED, repeat_length in LD. rewrite LD in ED. split; [|exact ED].
    rewrite EU, app_length in *. cbn [length] in *. lia. }
  destruct LI as (LI & ED). subst ds.
  (* the same in the joined text *)
  destruct (extended U text1 text2 r0 T1 _ _ HU us eq_refl RP) as (us' & lp' & HU' & FU & FO).
  assert (GO : going text2 lp lp').
  { destruct FO as (A & B). split; [split; [exact A|]|exact B]. right. eapply rest_ends; eauto. }
  destruct (symbol_kin text2 U lp lp' t lN GO GT) as [(_ & X)|(t' & lN' & GT' & FT & FO')]; [contradiction|].
  assert (HN' : history U (text1 ++ text2) (map inl (us' ++ [t'])) lN') by (rewrite map_app; eapply H_ok; eauto).
  destruct FO' as (R' & PA' & BO' & PE' & LI'). rewrite RN in R'. cbn [app] in R'.
  destruct (resumed U (text1 ++ text2) _ lN' n text2 HN') as (lD & CD' & RES); [congruence|congruence|congruence|congruence|congruence|exact Z|].
  clear T1 R' r0 RN GO FO.
  (* the second text *)
  assert (RC : forall ts lz, calls U (lexer_new text2) ts lz -> ts <> [] ->
    exists vs lv, calls U lD vs lv /\ Forall2 same_face ts vs /\ followed [] lz lv).
  { intros ts lz C N. destruct ts as [|u us2]; [contradiction|]. inversion C as [|? ? l2 ? ? G2 C2r]; subst.
    destruct (RES _ _ G2) as (u' & l2' & G2' & FE & F2). destruct (shifted _ _ _ _ C2r _ F2) as (ws & lv & CW & FW & FL).
    exists (u' :: ws), lv. split; [econstructor; eauto|]. auto. }
  assert (C2' : exists vs e lv, calls U lD (vs ++ [e]) lv /\ Forall2 same_face ts2 vs /\ same_face e2 e).
  { destruct (RC _ _ C2) as (ws & lv & CW & FW & _); [destruct ts2; discriminate|].
    apply Forall2_app_inv_l in FW. destruct FW as (vs & es & FV & FS & ->). inversion FS as [|? e ? ? F1 F3]; subst. inversion F3; subst.
    exists vs, e, lv. auto. }
  destruct C2' as (vs & e & lv & CV & FV & FE).
  exists (us' ++ t' :: repeat dedent_token n ++ vs).
  assert (FT1 : Forall2 same_face ((us ++ t :: repeat dedent_token n) ++ ts2) (us' ++ t' :: repeat dedent_token n ++ vs)).
  { rewrite <- app_assoc. cbn [app]. apply Forall2_app; [exact FU|]. constructor; [exact FT|]. apply Forall2_app; [apply same_faces_refl|exact FV]. }
  pose proof (calls_history U (text1 ++ text2) _ _ _ CD' _ HN') as HD.
  pose proof (calls_history U (text1 ++ text2) _ _ _ CV _ HD) as HV.
  split; [|split; [exact FT1|]].
  - exists e. destruct FE as (KE & _). rewrite KE2 in KE. split; [|exact KE].
    replace (((us' ++ [t']) ++ repeat dedent_token n) ++ vs ++ [e]) with ((us' ++ t' :: repeat dedent_token n ++ vs) ++ [e]) in HV
      by (rewrite <- !app_assoc; cbn [app]; rewrite <- ?app_assoc; reflexivity).
    rewrite map_app in HV. cbn [map] in HV.
    apply (history_scanned _ _ _ _ _ HV KE). apply (faces_no_end _ _ FT1). apply Forall_app. auto.
  - (* where the second text ends *)
    intros k (us2 & t2 & ds2 & s2 & E2 & KT2 & PT2 & ST2 & KD2).
    assert (V : exists ws t2' ds, vs = ws ++ t2' :: ds /\ Forall2 same_face us2 ws /\ same_face t2 t2' /\ Forall2 same_face ds2 ds).
    { rewrite E2 in FV. apply Forall2_app_inv_l in FV. destruct FV as (ws & r & FW & FR & ->). inversion FR as [|? t2' ? ds F1 F3]; subst. exists ws, t2', ds. auto. }
    destruct V as (ws & t2' & ds & -> & FW & (K2' & P2') & FD). rewrite KT2 in K2'. rewrite PT2 in P2'.
    (* in the second text alone *)
    rewrite E2 in C2. replace ((us2 ++ t2 :: ds2) ++ [e2]) with (us2 ++ [t2] ++ ds2 ++ [e2]) in C2 by (rewrite <- app_assoc; reflexivity).
    destruct (calls_split _ _ _ _ _ C2) as (la & CA & CB). destruct (calls_split U [t2] _ _ _ CB) as (lb & CT2 & _).
    inversion CT2 as [|? ? lx ? ? G2 CN2]; subst. inversion CN2; subst.
    pose proof (calls_history U text2 _ _ _ CA [] (H_start U text2)) as HA. cbn [app] in HA.
    destruct (newline_place _ _ _ _ _ _ HA G2 KT2 PT2) as (s3 & S3 & P3 & LT3 & _). rewrite ST2 in S3. injection S3 as -> LE3.
    assert (RB : lx_rest lb = []).
    { assert (HB : history U text2 (map inl (us2 ++ [t2])) lb) by (rewrite map_app; eapply H_ok; eauto).
      destruct (ok_at _ _ (history_ok _ _ _ _ HB)) as (RE & _). rewrite RE, P3. apply skipn_all2. lia. }
    destruct (RC (us2 ++ [t2]) lb) as (xs & lb' & CX & FX & (RX & _)); [eapply calls_app; [exact CA|exact CT2]|destruct us2; discriminate|].
    rewrite RB in RX. cbn [app] in RX.
    (* in the joined text *)
    replace ((ws ++ t2' :: ds) ++ [e]) with (ws ++ [t2'] ++ ds ++ [e]) in CV by (rewrite <- app_assoc; reflexivity).
    destruct (calls_split _ _ _ _ _ CV) as (ma & MA & MB). destruct (calls_split U [t2'] _ _ _ MB) as (mb & MT & _).
    inversion MT as [|? ? mx ? ? M2 MN]; subst. inversion MN; subst.
    assert (SX : mb = lb').
    { destruct (calls_same U (ws ++ [t2']) lD xs mb lb') as (_ & X); [eapply calls_app; [exact MA|exact MT]|exact CX| |exact X].
      rewrite <- (same_length _ _ FX), !app_length, (same_length _ _ FW). reflexivity. }
    subst mb. pose proof (calls_history U (text1 ++ text2) _ _ _ MA _ HD) as HM.
    destruct (newline_place _ _ _ _ _ _ HM M2 K2' P2') as (s4 & S4 & P4 & LT4 & _).
    assert (HB' : history U (text1 ++ text2) (map inl ((((us' ++ [t']) ++ repeat dedent_token n) ++ ws) ++ [t2'])) lb') by (rewrite map_app; eapply H_ok; eauto).
    destruct (ok_at _ _ (history_ok _ _ _ _ HB')) as (RE & _). rewrite RX, P4 in RE. pose proof (f_equal (@length _) RE) as LR. rewrite skipn_length in LR. cbn [length] in LR.
    exists (us' ++ t' :: repeat dedent_token n ++ ws), t2', ds, s4. split; [rewrite <- !app_assoc; cbn [app]; rewrite <- !app_assoc; reflexivity|].
    split; [exact K2'|]. split; [exact P2'|]. split; [rewrite S4; f_equal; lia|]. rewrite <- KD2. apply same_kinds. exact FD.
Qed.

(** Any number of texts. *)
Theorem chain_joined : forall U texts tss n, chained U texts tss n ->
  exists ts, reads_as U (concat texts) ts /\ ends_line (concat texts) ts n /\ Forall2 same_face (concat tss) ts.
Proof.
  intros U texts tss n H. induction H as [text ts n R E|texts tss m text ts n H IH R E Z].
  - cbn [concat]. rewrite !app_nil_r. exists ts. split; [exact R|]. split; [exact E|apply same_faces_refl].
  - destruct IH as (us & R0 & E0 & F0). destruct (tokens_joined U _ _ m text ts R0 E0 R Z) as (ws & RW & FW & EW).
    rewrite !concat_app. cbn [concat]. rewrite !app_nil_r. exists ws. split; [exact RW|]. split; [apply EW; exact E|].
    apply Forall2_app_inv_l in FW. destruct FW as (w1 & w2 & F1 & F2 & ->). apply Forall2_app; [|exact F2].
    clear - F0 F1. revert w1 F1. induction F0 as [|a b xs ys (K & P) F0 IH]; intros w1 F1; inversion F1 as [|? c ? zs (K1 & P1) F2]; subst; constructor; auto.
    split; congruence.
Qed.
