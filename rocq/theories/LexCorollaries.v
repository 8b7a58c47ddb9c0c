(** What the specification of all tokens says about each kind of token: the lemmas behind
    C06-C17, C21-C28. *)
From Coq Require Import ZArith Arith Lia.
From Verif Require Import Chars SourceBuffer Token Tokenizer LexBasics ScanLemmas LineLemmas
  TokenLemmas NumberLemmas WellFormed CallLemmas CallTheorem LexSpec TokenSpec HistoryProofs TilingProofs
  MidLine NumberProofs ZeroProofs WordProofs StringProofs TokenProofs Compose LayoutProofs RoundTrip RenderSpec.

(** ** Kinds of the tables are apart *)
Definition kind_in (k : kind) (ks : list kind) : bool := existsb (kind_eqb k) ks.

Lemma kind_in_spec : forall k ks, kind_in k ks = true <-> In k ks.
Proof.
  intros k ks. unfold kind_in. rewrite existsb_exists. split.
  - intros (x & I & E). apply kind_eqb_eq in E. subst. auto.
  - intros I. exists k. split; auto. apply kind_eqb_eq. auto.
Qed.

Definition atoms : list kind := [T_AtomName; T_AtomNumber; T_AtomString].
Definition disjoint (a b : list kind) : bool := forallb (fun k => negb (kind_in k b)) a.

Lemma disjoint_spec : forall a b k, disjoint a b = true -> In k a -> In k b -> False.
Proof.
  intros a b k H I J. unfold disjoint in H. rewrite forallb_forall in H. specialize (H k I).
  apply kind_in_spec in J. rewrite J in H. discriminate.
Qed.

Lemma operators_words : disjoint (map snd operator_table) (map snd reserved) = true. Proof. vm_compute. reflexivity. Qed.
Lemma operators_atoms : disjoint (map snd operator_table) atoms = true. Proof. vm_compute. reflexivity. Qed.
Lemma operators_brackets : disjoint (map snd operator_table) (map snd brackets) = true. Proof. vm_compute. reflexivity. Qed.
Lemma words_atoms : disjoint (map snd reserved) atoms = true. Proof. vm_compute. reflexivity. Qed.
Lemma words_brackets : disjoint (map snd reserved) (map snd brackets) = true. Proof. vm_compute. reflexivity. Qed.
Lemma brackets_atoms : disjoint (map snd brackets) atoms = true. Proof. vm_compute. reflexivity. Qed.

Ltac inx := match goal with
  | I : In (?w, ?k) operator_table |- _ => lazymatch goal with _ : In k (map snd operator_table) |- _ => fail | _ => pose proof (in_map snd _ _ I : In k (map snd operator_table)) end
  | I : In (?w, ?k) reserved |- _ => lazymatch goal with _ : In k (map snd reserved) |- _ => fail | _ => pose proof (in_map snd _ _ I : In k (map snd reserved)) end
  | I : In (?w, ?k) brackets |- _ => lazymatch goal with _ : In k (map snd brackets) |- _ => fail | _ => pose proof (in_map snd _ _ I : In k (map snd brackets)) end
  end.
Ltac apart := exfalso; try match goal with L : longest_operator _ _ _ |- _ => pose proof (proj1 L) end; repeat inx;
  match goal with
  | I : In _ (map snd operator_table), J : In _ (map snd reserved) |- _ => exact (disjoint_spec _ _ _ operators_words I J)
  | I : In _ (map snd operator_table), J : In _ (map snd brackets) |- _ => exact (disjoint_spec _ _ _ operators_brackets I J)
  | I : In _ (map snd operator_table) |- _ => apply (disjoint_spec _ _ _ operators_atoms I); cbn; tauto
  | I : In _ (map snd reserved), J : In _ (map snd brackets) |- _ => exact (disjoint_spec _ _ _ words_brackets I J)
  | I : In _ (map snd reserved) |- _ => apply (disjoint_spec _ _ _ words_atoms I); cbn; tauto
  | I : In _ (map snd brackets) |- _ => apply (disjoint_spec _ _ _ brackets_atoms I); cbn; tauto
  end.

(** ** One kind at a time *)
Lemma operator_token : forall U r k n pay, token_at U r k n pay -> In k (map snd operator_table) ->
  exists w, longest_operator r w k /\ ~ dot_digit r /\ n = length w /\ pay = NoPayload.
Proof. intros U r k n pay H I. inversion H; subst; try apart. eauto. Qed.

Lemma keyword_token : forall U r k n pay, token_at U r k n pay -> In k (map snd reserved) ->
  exists w r', r = w ++ r' /\ word_at U w r' /\ In (w, k) reserved /\ n = length w /\ pay = NoPayload.
Proof. intros U r k n pay H I. inversion H; subst; try apart. eexists _, _. split; eauto. Qed.

Lemma name_token : forall U r n pay, token_at U r T_AtomName n pay ->
  exists w r', r = w ++ r' /\ word_at U w r' /\ ~ In w (map fst reserved) /\
    ~ (string_prefix w /\ quote (hd NUL r')) /\ n = length w /\ pay = Text w.
Proof. intros U r n pay H. inversion H; subst; try apart. eexists _, _. split; eauto. Qed.

Lemma string_token_at : forall U r n pay, token_at U r T_AtomString n pay ->
  (exists t r', r = t ++ r' /\ string_token t r' /\ n = length t /\ pay = StringLit t None) \/
  (exists p t r', r = p ++ t ++ r' /\ string_prefix p /\ string_token t r' /\ n = length (p ++ t) /\
     pay = StringLit t (Some p)).
Proof.
  intros U r n pay H. inversion H; subst; try apart; [left; eexists _, _; split; eauto|].
  right. exists w, t, r0. auto.
Qed.

(** ** Lifting to histories *)
Lemma not_layout : forall k, In k (map snd operator_table ++ map snd reserved ++ map snd brackets ++ atoms) ->
  k <> T_Newline /\ k <> T_TypeComment.
Proof.
  intros k I. split; intros ->; revert I; apply (disjoint_spec [T_Newline; T_TypeComment]); cbn; auto; vm_compute; reflexivity.
Qed.

Lemma history_token : forall U text evs l t l' s e, history U text evs l -> get_symbol U l = LOk t l' ->
  tk_span t = Range s e -> In (tk_kind t) (map snd operator_table ++ map snd reserved ++ map snd brackets ++ atoms) ->
  exists n, e = (s + n)%nat /\ token_at U (skipn s text) (tk_kind t) n (tk_payload t).
Proof.
  intros U text evs l t l' s e H E SP' I. destruct (not_layout _ I) as (K1 & K2).
  destruct (token_sound _ _ _ _ _ _ _ _ H E SP' K1 K2) as (n & E1 & _ & T). eauto.
Qed.

(** A token of such a kind has a range. *)
Lemma history_range : forall U text evs l t l', history U text evs l -> get_symbol U l = LOk t l' ->
  In (tk_kind t) (map snd operator_table ++ map snd reserved ++ map snd brackets ++ atoms) ->
  exists s e, tk_span t = Range s e.
Proof.
  intros U text evs l t l' H E I. pose proof (call_span _ _ _ _ _ _ H E) as C.
  destruct (tk_span t) as [|p|s e]; eauto; exfalso; revert I.
  - destruct C as [-> | ->]; apply (disjoint_spec [T_Indent; T_Dedent]); cbn; auto; vm_compute; reflexivity.
  - destruct C as (-> & _). apply (disjoint_spec [T_EOF]); cbn; auto; vm_compute; reflexivity.
Qed.

Ltac range H E K s e :=
  destruct (history_range _ _ _ _ _ _ H E) as (s & e & SP'); [rewrite ?in_app_iff; cbn [In atoms]; tauto|];
  let n := fresh "n" in let T := fresh "T" in
  destruct (history_token _ _ _ _ _ _ _ _ H E SP') as (n & -> & T); [rewrite ?in_app_iff; cbn [In atoms]; tauto|].

Lemma operator_sound : forall U text evs l t l', history U text evs l -> get_symbol U l = LOk t l' ->
  In (tk_kind t) (map snd operator_table) ->
  exists s w, tk_span t = Range s (s + length w) /\ longest_operator (skipn s text) w (tk_kind t) /\ ~ dot_digit (skipn s text).
Proof.
  intros U text evs l t l' H E K. range H E K s e. destruct (operator_token _ _ _ _ _ T K) as (w & A & B & -> & _). eauto.
Qed.

Lemma keyword_sound : forall U text evs l t l', history U text evs l -> get_symbol U l = LOk t l' ->
  In (tk_kind t) (map snd reserved) ->
  exists s w r, tk_span t = Range s (s + length w) /\ skipn s text = w ++ r /\ word_at U w r /\ In (w, tk_kind t) reserved.
Proof.
  intros U text evs l t l' H E K. range H E K s e. destruct (keyword_token _ _ _ _ _ T K) as (w & r & A & B & C & -> & _).
  exists s, w, r. auto.
Qed.

Lemma name_sound : forall U text evs l t l', history U text evs l -> get_symbol U l = LOk t l' ->
  tk_kind t = T_AtomName ->
  exists s w r, tk_span t = Range s (s + length w) /\ tk_payload t = Text w /\ skipn s text = w ++ r /\ word_at U w r /\
    ~ In w (map fst reserved) /\ ~ (string_prefix w /\ quote (hd NUL r)).
Proof.
  intros U text evs l t l' H E K.
  destruct (history_range _ _ _ _ _ _ H E) as (s & e & SP'); [rewrite K, ?in_app_iff; cbn [In atoms]; tauto|].
  destruct (history_token _ _ _ _ _ _ _ _ H E SP') as (n & -> & T); [rewrite K, ?in_app_iff; cbn [In atoms]; tauto|].
  rewrite K in T. destruct (name_token _ _ _ _ T) as (w & r & A & B & C & D & -> & P). exists s, w, r. auto 10.
Qed.

Lemma string_sound : forall U text evs l t l', history U text evs l -> get_symbol U l = LOk t l' ->
  tk_kind t = T_AtomString ->
  exists s w r, 
    (tk_span t = Range s (s + length w) /\ tk_payload t = StringLit w None /\ skipn s text = w ++ r /\ string_token w r) \/
    exists p, tk_span t = Range s (s + length (p ++ w)) /\ tk_payload t = StringLit w (Some p) /\
      skipn s text = p ++ w ++ r /\ string_prefix p /\ string_token w r.
Proof.
  intros U text evs l t l' H E K.
  destruct (history_range _ _ _ _ _ _ H E) as (s & e & SP'); [rewrite K, ?in_app_iff; cbn [In atoms]; tauto|].
  destruct (history_token _ _ _ _ _ _ _ _ H E SP') as (n & -> & T); [rewrite K, ?in_app_iff; cbn [In atoms]; tauto|].
  rewrite K in T. destruct (string_token_at _ _ _ _ T) as [(w & r & A & B & -> & P)|(p & w & r & A & B & C & -> & P)].
  - exists s, w, r. left. auto.
  - exists s, w, r. right. exists p. auto 10.
Qed.

(** The number tokens, by their first characters. *)
Inductive number_token (r : str) (n : nat) (pay : payload) : Prop :=
| NT_radix c isd w r' : r = #"0" :: c :: w ++ r' -> radix c isd -> digits_and_underscores isd w r' -> udigits isd w -> w <> [] ->
    n = (2 + length w)%nat -> pay = Text (#"0" :: c :: w) -> number_token r n pay
| NT_nonzero ip f ex im r' : r = ip ++ f ++ ex ++ im ++ r' -> number_parts ip f ex im r' -> is_nonzero_digit (hd NUL ip) = true ->
    digitpart is_digit ip -> frac_ok f -> exp_as_coded ex -> n = length (ip ++ f ++ ex ++ im) ->
    pay = Text (ip ++ f ++ ex ++ im) -> number_token r n pay
| NT_dot d w ex im r' : r = (#"." :: d :: w) ++ ex ++ im ++ r' -> is_digit d = true -> digits_and_underscores is_digit w (ex ++ im ++ r') ->
    exp_part ex (im ++ r') -> imag_part im r' -> udigits is_digit w -> exp_as_coded ex ->
    n = length ((#"." :: d :: w) ++ ex ++ im) -> pay = Text ((#"." :: d :: w) ++ ex ++ im) -> number_token r n pay
| NT_zero s ip f ex im r' : r = #"0" :: s -> ~ radix_letter (hd NUL s) -> tl s = ip ++ f ++ ex ++ im ++ r' -> zero_parts ip f ex im r' ->
    frac_ok f -> exp_as_coded ex -> (existsb is_nonzero_digit ip = true -> f ++ ex ++ im <> []) ->
    n = length (#"0" :: hd NUL s :: ip ++ f ++ ex ++ im) -> pay = Text (#"0" :: hd NUL s :: ip ++ f ++ ex ++ im) -> number_token r n pay.

Lemma number_token_at : forall U r n pay, token_at U r T_AtomNumber n pay -> number_token r n pay.
Proof.
  intros U r n pay H. inversion H; subst; try apart;
    [eapply NT_radix|eapply NT_nonzero|eapply NT_dot|eapply NT_zero]; eauto.
Qed.

Lemma number_sound : forall U text evs l t l', history U text evs l -> get_symbol U l = LOk t l' ->
  tk_kind t = T_AtomNumber ->
  exists s n, tk_span t = Range s (s + n) /\ number_token (skipn s text) n (tk_payload t).
Proof.
  intros U text evs l t l' H E K.
  destruct (history_range _ _ _ _ _ _ H E) as (s & e & SP'); [rewrite K, ?in_app_iff; cbn [In atoms]; tauto|].
  destruct (history_token _ _ _ _ _ _ _ _ H E SP') as (n & -> & T); [rewrite K, ?in_app_iff; cbn [In atoms]; tauto|].
  rewrite K in T. apply number_token_at in T. eauto.
Qed.

Lemma radix_functional : forall c isd isd', radix c isd -> radix c isd' -> isd = isd'.
Proof.
  intros c isd isd' H H'. destruct H as [c I|c I|c I]; cbn in I; repeat destruct I as [I|I]; try destruct I; subst;
    inversion H' as [? J|? J|? J]; subst; auto; cbn in J; exfalso; repeat destruct J as [J|J]; try discriminate J; destruct J.
Qed.

Lemma nonzero_not : forall c, is_nonzero_digit c = true -> c <> #"0" /\ c <> #".".
Proof. intros c H. split; intros ->; discriminate. Qed.

Lemma app_hd : forall (a b : str), a <> [] -> hd NUL (a ++ b) = hd NUL a.
Proof. intros [|x a] b H; [congruence|reflexivity]. Qed.

Lemma radix_is_letter : forall c isd, radix c isd -> radix_letter c.
Proof. intros c isd [x I|x I|x I]; unfold radix_letter; cbn in I |- *; tauto. Qed.

Lemma radix_sound : forall U text evs l t l' s e c isd r, history U text evs l -> get_symbol U l = LOk t l' ->
  tk_span t = Range s e -> tk_kind t = T_AtomNumber -> skipn s text = #"0" :: c :: r -> radix c isd ->
  exists w r', r = w ++ r' /\ digits_and_underscores isd w r' /\ udigits isd w /\ w <> [] /\
    e = (s + (2 + length w))%nat /\ tk_payload t = Text (#"0" :: c :: w).
Proof.
  intros U text evs l t l' s e c isd r H E SP' K S R. destruct (number_sound _ _ _ _ _ _ H E K) as (s' & n & SP2 & T).
  rewrite SP' in SP2. inversion SP2; subst s' e; clear SP2. rewrite S in T.
  destruct T as [c0 isd0 w r' A R0 D UD N -> P|ip f ex im r' A NP NZ DP FO EO _ P|d w ex im r' A _ _ _ _ _ _ _ _|s0 ip f ex im r' A NR _ _ _ _ _ _ _].
  - inversion A; subst c0 r. assert (isd0 = isd) by (eapply radix_functional; eauto). subst. exists w, r'. auto 10.
  - exfalso. destruct DP as (_ & N & _). destruct ip as [|d ip]; [congruence|]. inversion A; subst d. apply nonzero_not in NZ. tauto.
  - discriminate.
  - inversion A; subst s0. exfalso. apply NR. eapply radix_is_letter; eauto.
Qed.

(** ** C07 *)
Lemma slice_skipn : forall text s w r, skipn s text = w ++ r -> slice text s (s + length w) = w.
Proof. intros text s w r H. unfold slice. rewrite H. replace (s + length w - s)%nat with (length w) by lia.
  rewrite firstn_app, Nat.sub_diag, firstn_O, app_nil_r. apply firstn_all. Qed.

Lemma number_verbatim : forall text s n w, number_token (skipn s text) n (Text w) ->
  w = slice text s (s + n) \/ (skipn s text = [#"0"] /\ w = [#"0"; NUL] /\ n = 2%nat).
Proof.
  intros text s n w T.
  destruct T as [c isd x r' A _ _ _ _ -> P|ip f ex im r' A _ _ _ _ _ -> P|d x ex im r' A _ _ _ _ _ _ -> P|s0 ip f ex im r' A NR TL ZP _ _ _ -> P];
    inversion P; subst w; clear P.
  - left. symmetry. apply (slice_skipn text s (#"0" :: c :: x) r'). exact A.
  - left. symmetry. apply slice_skipn with r'. rewrite A, <- !app_assoc. reflexivity.
  - left. symmetry. apply slice_skipn with r'. rewrite A. cbn [app]. rewrite <- !app_assoc. reflexivity.
  - destruct s0 as [|c s0].
    + right. cbn [hd tl] in *. symmetry in TL. apply app_eq_nil in TL. destruct TL as (-> & TL). apply app_eq_nil in TL. destruct TL as (-> & TL).
      apply app_eq_nil in TL. destruct TL as (-> & TL). apply app_eq_nil in TL. destruct TL as (-> & TL). auto.
    + left. symmetry. cbn [hd tl] in *. apply slice_skipn with r'. rewrite A, TL. cbn [app]. rewrite <- !app_assoc. reflexivity.
Qed.

Lemma atom_payloads : forall U r k n pay, token_at U r k n pay ->
  match pay with
  | Text _ => k = T_AtomName \/ k = T_AtomNumber
  | StringLit _ _ => k = T_AtomString
  | NoPayload => ~ In k (T_TypeComment :: atoms)
  | Break _ _ => False
  end.
Proof.
  intros U r k n pay H. destruct H; auto; intros I.
  - pose proof (proj1 H) as J. apply (in_map snd) in J. revert I. apply (disjoint_spec (map snd operator_table)); [vm_compute; reflexivity|exact J].
  - apply (in_map snd) in H. revert I. apply (disjoint_spec (map snd brackets)); [vm_compute; reflexivity|exact H].
  - apply (in_map snd) in H0. revert I. apply (disjoint_spec (map snd reserved)); [vm_compute; reflexivity|exact H0].
Qed.

(** A token found after the trivia is one of those specified; the others are layout, type comments
    and the end. *)
Lemma case_token_at : forall U l1 tr c q t l', lx_bol l1 = false -> lx_pending l1 = 0%Z ->
  lx_rest l1 = c :: q -> significant c -> LOk t l' = lex_token U (goto l1 (lx_pos l1) (lx_pos l1) (lx_rest l1)) tr ->
  exists n, token_at U (lx_rest l1) (tk_kind t) n (tk_payload t) /\ tk_span t = Range (lx_pos l1) (lx_pos l1 + n).
Proof.
  intros U l1 tr c q t l' NB PE Hr SI LT. set (l0 := goto l1 (lx_pos l1) (lx_pos l1) (lx_rest l1)) in *.
  assert (G : get_symbol U l0 = lex_token U l0 []).
  { rewrite (get_symbol_mid U _ c q) by auto. reflexivity. }
  rewrite lex_token_retrivia in LT. destruct (lex_token U l0 []) as [t0 l2| |]; cbn in LT; try discriminate.
  inversion LT; subst. destruct (mid_inversion U l0 t0 l2) as (n & T & SP' & _); auto.
  - split; auto.
  - change (lx_rest l0) with (lx_rest l1). rewrite Hr. exact SI.
  - exists n. auto.
Qed.

Lemma not_special : forall U r k n pay, token_at U r k n pay ->
  k <> T_Newline /\ k <> T_TypeComment /\ k <> T_EOF /\ k <> T_Indent /\ k <> T_Dedent.
Proof.
  intros U r k n pay H.
  assert (I : In k (map snd operator_table ++ map snd reserved ++ map snd brackets ++ atoms)).
  { rewrite !in_app_iff. destruct H; try (apply (in_map snd) in H; cbn [snd] in H); try (apply (in_map snd) in H0; cbn [snd] in H0); cbn [In atoms]; auto 10.
    left. exact (in_map snd _ _ (proj1 H)). }
  repeat split; intros ->; revert I; apply (disjoint_spec [T_Newline; T_TypeComment; T_EOF; T_Indent; T_Dedent]); cbn; auto 10; vm_compute; reflexivity.
Qed.

Lemma type_comment_sound : forall U text evs l t l', history U text evs l -> get_symbol U l = LOk t l' ->
  tk_kind t = T_TypeComment ->
  exists s w r, tk_span t = Range s (s + length w) /\ tk_payload t = Text w /\ skipn s text = w ++ r /\
    comment_run w r /\ starts_with $"# type:" w = true.
Proof.
  intros U text evs l t l' H E K. pose proof (get_symbol_case _ _ _ _ _ (history_ok _ _ _ _ H) E) as C.
  destruct C as [k l' K1 TI NB | l1 tr w r OK1 PA NB PE TI Hr Hf Hs Ht | l1 tr OK1 PA NB PE TI HE
    | l1 tr n c1 c2 OK1 PA PL NB PE TI HN | l1 tr c q t l' OK1 PA NB PE TI Hr SI TC LT]; try discriminate.
  - cbn in K. destruct K1; congruence.
  - exists (lx_pos l1), w, r. split; [reflexivity|]. split; [reflexivity|]. destruct (ok_at _ _ OK1) as (RE & _).
    split; [rewrite <- RE; exact Hr|]. split; [|exact Ht]. split; [|split].
    + destruct w as [|c w]; [discriminate Ht|]. change ($"# type:") with (#"#" :: $" type:") in Ht. cbn [starts_with] in Ht.
      apply andb_true_iff in Ht. destruct Ht as (A & _). apply N.eqb_eq in A. auto.
    + apply Forall_forall. intros c I. apply comment_char_spec. rewrite forallb_forall in Hf. auto.
    + apply comment_char_false in Hs. exact Hs.
  - exfalso. destruct (case_token_at _ _ _ _ _ _ _ NB PE Hr SI LT) as (n & T & _). apply not_special in T. tauto.
Qed.

Lemma newline_sound : forall U text evs l t l', history U text evs l -> get_symbol U l = LOk t l' ->
  tk_kind t = T_Newline ->
  exists s n, tk_span t = Range s (s + n) /\ line_break_as_coded (skipn s text) n /\
    tk_payload t = Break (hd NUL (skipn s text)) (if Nat.eqb n 3 then LF else SP) /\
    lx_bol l' = true /\ lx_parens l' = [] /\ lx_pos l' = (s + n)%nat /\ lx_pending l' = 0%Z.
Proof.
  intros U text evs l t l' H E K. pose proof (get_symbol_case _ _ _ _ _ (history_ok _ _ _ _ H) E) as C.
  destruct C as [k l' K1 TI NB | l1 tr w r OK1 PA NB PE TI Hr Hf Hs Ht | l1 tr OK1 PA NB PE TI HE
    | l1 tr n c1 c2 OK1 PA PL NB PE TI HN | l1 tr c q t l' OK1 PA NB PE TI Hr SI TC LT]; try discriminate.
  - cbn in K. destruct K1; congruence.
  - destruct (ok_at _ _ OK1) as (RE & _). exists (lx_pos l1), n. apply newline_at_spec in HN. destruct HN as (A & -> & ->).
    rewrite <- RE. repeat split; auto.
  - exfalso. destruct (case_token_at _ _ _ _ _ _ _ NB PE Hr SI LT) as (n & T & _). apply not_special in T. tauto.
Qed.

Lemma token_verbatim : forall U text evs l t l' s e, history U text evs l -> get_symbol U l = LOk t l' ->
  tk_span t = Range s e -> verbatim text t s e.
Proof.
  intros U text evs l t l' s e H E SP'.
  destruct (kind_eqb (tk_kind t) T_Newline) eqn:K1; [apply kind_eqb_eq in K1|];
  [|destruct (kind_eqb (tk_kind t) T_TypeComment) eqn:K2; [apply kind_eqb_eq in K2|]].
  - destruct (newline_sound _ _ _ _ _ _ H E K1) as (s' & n & SP2 & _ & P & _). unfold verbatim. rewrite P. exact K1.
  - destruct (type_comment_sound _ _ _ _ _ _ H E K2) as (s' & w & r & SP2 & P & S & _). rewrite SP' in SP2. inversion SP2; subst.
    unfold verbatim. rewrite P. left. symmetry. eapply slice_skipn; eauto.
  - destruct (token_sound _ _ _ _ _ _ _ _ H E SP') as (n & -> & _ & T).
    { intros K. rewrite K in K1. discriminate. }
    { intros K. rewrite K in K2. discriminate. }
    pose proof (atom_payloads _ _ _ _ _ T) as P. unfold verbatim. destruct (tk_payload t) as [|w|w pre|c1 c2] eqn:EP.
    + cbn [In atoms] in P. repeat split; intros K; apply P; rewrite K; auto.
    + destruct P as [P|P]; rewrite P in T.
      * destruct (name_token _ _ _ _ T) as (w' & r & A & _ & _ & _ & -> & Q). inversion Q; subst. left. symmetry. eapply slice_skipn; eauto.
      * apply number_token_at in T. destruct (number_verbatim _ _ _ _ T) as [Q|(Q1 & Q2 & ->)]; auto 10.
    + rewrite P in T. destruct (string_token_at _ _ _ _ T) as [(w' & r & A & _ & -> & Q)|(p & w' & r & A & _ & _ & -> & Q)]; inversion Q; subst.
      * cbn. symmetry. eapply slice_skipn; eauto.
      * symmetry. apply slice_skipn with r. rewrite A, <- app_assoc. reflexivity.
    + destruct P.
Qed.

(** Trivia are those of the tiling. *)
Lemma tiled_sources : forall text b p ps b' q, tiled text b p ps b' q -> forall x, In (PTrivia x) ps -> trivia_source text x.
Proof.
  intros text b p ps b' q H. induction H; intros y I; [destruct I|auto|destruct I as [I|I]; [inversion I; subst|]; auto|].
  destruct I as [I|I]; [discriminate|auto].
Qed.

Lemma token_trivia_sources : forall U text evs l t l' tr, history U text evs l -> get_symbol U l = LOk t l' ->
  tk_trivia t = Some tr -> forall x, In x tr -> trivia_source text x.
Proof.
  intros U text evs l t l' tr H E TR x I. pose proof (call_tiled _ _ _ _ _ (history_ok _ _ _ _ H) E) as T.
  eapply tiled_sources; [exact T|]. unfold pieces. rewrite TR. apply in_or_app. left. apply in_map. rewrite <- in_rev. exact I.
Qed.

Lemma comment_verbatim : forall U text evs l t l' tr s e w, history U text evs l -> get_symbol U l = LOk t l' ->
  tk_trivia t = Some tr -> In (Comment s e w) tr -> w = slice text s e.
Proof.
  intros U text evs l t l' tr s e w H E TR I. pose proof (token_trivia_sources _ _ _ _ _ _ _ H E TR _ I) as S. inversion S; subst. reflexivity.
Qed.

(** ** C28: an unknown-character error names a character that starts nothing *)
Lemma no_operator_inv : forall r, operator_at (peek3 r) = None -> ~ dot_digit r ->
  forall w k, In (w, k) operator_table -> ~ prefix_of w r.
Proof.
  intros r O D w k I P. pose proof entries_have_arms as H. rewrite forallb_forall in H. specialize (H _ I).
  unfold entry_has_arm in H. rewrite existsb_exists in H. destruct H as (x & IX & H).
  destruct (arm_text x) as [[w0 k0]|] eqn:AT; [|discriminate]. apply andb_true_iff in H. destruct H as (H1 & H2).
  apply str_eqb_eq in H1. apply kind_eqb_eq in H2. cbn [fst snd] in H1, H2. subst w0 k0.
  pose proof (arm_text_match _ _ _ _ IX AT D P) as M. unfold operator_at in O.
  destruct (find (arm_match (peek3 r)) operator_arms) as [y|] eqn:F; [destruct y as [[[[a b] c] k1] n]; discriminate|].
  pose proof (find_none _ _ F _ IX) as N. congruence.
Qed.

Lemma unknown_sound : forall U text evs l m p c l', history U text evs l -> get_symbol U l = LErr (EAtChar m p c) l' ->
  EAtChar m p c = lexical_error p (nth p text NUL) /\ starts_nothing U (skipn p text) /\ lx_pos l' = p.
Proof.
  intros U text evs l m p c0 l' H E. pose proof (history_ok _ _ _ _ H) as OK.
  destruct (get_symbol_trivia U text l OK) as (s & TO & F). rewrite E in F.
  pose proof (to_loop _ _ _ TO) as LO.
  remember (LErr (EAtChar m p c0) l') as res eqn:R.
  destruct F as [e1 l1 Ho Hb | l1 b1 t l2 Ho Hb Hp | l1 b1 r LD C | l1 b1 c q r LD Hr N1 N2 N3 N4 N5 N6 N7 TC];
    try discriminate.
  - exfalso. destruct (begin_line_ok text (st_lex s) (st_blank s)) as (l2 & b2 & E2 & _); [apply LO|]. congruence.
  - subst r. inversion C.
  - clear H0. pose proof (line_done_ok _ _ _ _ _ LO LD) as LO1. pose proof (ok_at _ _ (lo_ok _ _ _ LO1)) as AT. cbn [st_lex] in AT.
    assert (SC : forall l1 s1 p1 r1 pre tr, ~ string_case l1 s1 p1 r1 pre tr r).
    { intros l2 s1 p1 r1 pre tr S. destruct S; discriminate. }
    destruct TC as [k n HO | k cl HO Ho | k msg below HO Ho Hc Hp | k msg HO Ho Hc Hp | res HO Ho Hc HI HW
      | res HO Ho Hc HI HN | res HO Ho Hc HI HQ HS | HO Ho Hc HI HD HQ Hd];
      try discriminate.
    + exfalso. destruct HW; try discriminate. eapply SC; eauto.
    + exfalso. destruct res as [[tx c1]|m1 [tx c1]]; discriminate R.
    + exfalso. eapply SC; eauto.
    + change (lx_rest (goto l1 (lx_pos l1) (lx_pos l1) (lx_rest l1))) with (lx_rest l1) in *.
      change (lx_pos (goto l1 (lx_pos l1) (lx_pos l1) (lx_rest l1))) with (lx_pos l1) in *.
      inversion R; subst m p c0 l'. pose proof (nth_at _ _ _ AT) as NT. destruct AT as (RE & _). rewrite NT.
      split; [reflexivity|]. split; [|reflexivity]. rewrite <- RE.
      assert (DD : ~ dot_digit (lx_rest l1)).
      { intros (d & r' & E1 & E2). rewrite E1 in Hd. cbn [hd tl] in Hd. rewrite (Hd eq_refl) in E2. discriminate. }
      exists c, q. split; [exact Hr|]. split; [cbn; intuition congruence|].
      split; [apply no_operator_inv; auto|]. rewrite Hr in Ho, Hc, HI, HD, HQ. cbn [hd] in *.
      split; [|split; [|split; auto]].
      * intros I. cbn in I. repeat (destruct I as [I|I]; [subst c; discriminate|]); destruct I.
      * intros W. apply word_start_ident in W. congruence.
      * intros Q. apply quote_spec in Q. congruence.
Qed.

(** ** C12, C13: shapes of numbers *)
Lemma last_app_ne : forall (a b : str) d, b <> [] -> last (a ++ b) d = last b d.
Proof.
  induction a as [|x a IH]; intros b d N; [reflexivity|]. cbn [app last]. rewrite IH by auto.
  destruct (a ++ b) eqn:E; [|reflexivity]. apply app_eq_nil in E. tauto.
Qed.

Definition number_end (c : char) : Prop := is_digit c = true \/ c = #"." \/ c = #"j" \/ c = #"J".

Lemma udigits_last : forall w, udigits is_digit w -> w <> [] -> is_digit (last w NUL) = true.
Proof.
  intros w H. induction H as [|d w D U IH|d w D U IH]; intros N; [congruence| |].
  - destruct w; [exact D|]. apply IH. discriminate.
  - destruct w; [exact D|]. cbn [last] in *. apply IH. discriminate.
Qed.

Lemma python_decimal_last : forall w, python_decimal w -> number_end (last w NUL).
Proof.
  assert (G : forall a ex im, a <> [] -> number_end (last a NUL) -> exp_ok ex -> In im [[]; [#"j"]; [#"J"]] ->
    number_end (last (a ++ ex ++ im) NUL)).
  { intros a ex im N NE EO I. cbn in I. destruct I as [<-|[<-|[<-|[]]]].
    - rewrite app_nil_r. destruct EO as [-> |(c & s & w & -> & _ & _ & (U & W & _))]; [rewrite app_nil_r; auto|].
      rewrite last_app_ne by discriminate. change (c :: s ++ w) with ((c :: s) ++ w). rewrite last_app_ne by auto.
      left. apply udigits_last; auto.
    - rewrite app_assoc, last_app_ne by discriminate. right. cbn. auto.
    - rewrite app_assoc, last_app_ne by discriminate. right. cbn. auto. }
  intros w H. destruct H as [ip f ex im D NZ FO EO I|w ex im D EO I].
  - rewrite app_assoc. destruct D as (U & N & _). apply G; auto.
    + destruct ip; [congruence|discriminate].
    + destruct FO as [-> |[-> |(w & -> & (UW & NW & _))]].
      * rewrite app_nil_r. left. apply udigits_last; auto.
      * rewrite last_app_ne by discriminate. right. cbn. auto.
      * rewrite last_app_ne by discriminate. change (#"." :: w) with ([#"."] ++ w). rewrite last_app_ne by auto. left. apply udigits_last; auto.
  - destruct D as (UW & NW & _). apply G; auto; [discriminate|].
    change (#"." :: w) with ([#"."] ++ w). rewrite last_app_ne by auto. left. apply udigits_last; auto.
Qed.

Lemma zero_never_alone : forall U text evs l t l' w, history U text evs l -> get_symbol U l = LOk t l' ->
  tk_kind t = T_AtomNumber -> tk_payload t = Text w -> w <> [#"0"].
Proof.
  intros U text evs l t l' w H E K P. destruct (number_sound _ _ _ _ _ _ H E K) as (s & n & _ & T). rewrite P in T.
  destruct T as [c isd x r' A _ _ _ _ _ Q|ip f ex im r' A _ NZ _ _ _ _ Q|d x ex im r' A _ _ _ _ _ _ _ Q|s0 ip f ex im r' A _ _ _ _ _ _ _ Q];
    inversion Q; subst w; try discriminate.
  intros X. destruct ip as [|d ip]; [discriminate NZ|]. inversion X; subst. discriminate NZ.
Qed.

(** ** C21 *)
Lemma calls_app : forall U l ts l1 ts' l2, calls U l ts l1 -> calls U l1 ts' l2 -> calls U l (ts ++ ts') l2.
Proof. intros U l ts l1 ts' l2 H. induction H; cbn [app]; intros; auto. econstructor; eauto. Qed.

Lemma end_of_text_dedents : forall U text evs l, history U text evs l -> lx_bol l = true -> lx_parens l = [] -> lx_pending l = 0%Z ->
  hd NUL (lx_rest l) = NUL ->
  exists l', calls U l (repeat dedent_token (length (lx_indents l) - 1) ++ [Tok T_EOF (At (lx_pos l)) None NoPayload]) l'.
Proof.
  intros U text evs l H B PA PE E. pose proof (history_ok _ _ _ _ H) as OK.
  destruct (line_start_call U text l [] (lx_rest l) 0 OK B PA eq_refl CO_nil) as (L1 & _ & L3).
  { rewrite E. intros [X|X]; discriminate X. }
  { rewrite E. intros X. cbn in X. repeat destruct X as [X|X]; try discriminate X; destruct X. }
  cbn zeta in *. cbn [length] in L1, L3. rewrite Nat.add_0_r in *.
  destruct (history_levels _ _ _ _ H) as (up & EU & _ & FU & _ & _).
  assert (EO : forall is, get_symbol U (at_position text (lx_pos l) [] is)
    = LOk (Tok T_EOF (At (lx_pos l)) None NoPayload) (after (at_position text (lx_pos l) [] is) 0)).
  { intros is. rewrite eof_call; [reflexivity|split; reflexivity|]. destruct (ok_at _ _ OK) as (RE & _).
    unfold at_position, lx_rest. cbn [lx_cur cu_rest]. rewrite <- RE. exact E. }
  destruct up as [|u up].
  - rewrite EU in *. cbn [app length Nat.sub repeat hd] in *. eexists. econstructor; [|constructor]. rewrite (L1 eq_refl). apply EO.
  - rewrite EU in *. inversion FU as [|? ? F1 F2]; subst. destruct (L3 F1) as (popped & kept & l' & EQ & NP & FP & HK & CA & G & IK).
    assert (K0 : kept = [0%nat]).
    { pose proof (ok_levels _ _ OK) as LV. rewrite EU, EQ in LV.
      assert (X : leave 0 (popped ++ kept) = kept) by (apply leave_spec; auto).
      rewrite <- EQ in X. rewrite <- X. clear - FU. induction FU as [|a xs A F IH]; [reflexivity|].
      cbn [app leave]. destruct (Nat.ltb_spec 0 a); [exact IH|lia]. }
    rewrite K0 in *. clear K0. assert (LP : length popped = length (u :: up)).
    { apply (f_equal (@length nat)) in EQ. rewrite !app_length in EQ. cbn [length] in EQ |- *. lia. }
    rewrite app_length. cbn [length]. replace (S (length up) + 1 - 1)%nat with (length popped) by (rewrite LP; cbn [length]; lia).
    eexists. eapply calls_app; [exact CA|]. econstructor; [|constructor]. rewrite G. apply EO.
Qed.

Lemma kinds_of_calls : forall U text l ts l', calls U l ts l' -> forall evs, history U text evs l ->
  exists evs', history U text evs' l' /\ kinds_of evs' = kinds_of evs ++ map tk_kind ts.
Proof.
  intros U text l ts l' H. induction H as [l|l t l1 ts l2 E H IH]; intros evs HI.
  - exists evs. split; auto. cbn. rewrite app_nil_r. reflexivity.
  - destruct (IH _ (H_ok _ _ _ _ _ _ HI E)) as (evs' & HI' & K). exists evs'. split; auto. rewrite K, kinds_of_app. cbn.
    rewrite <- app_assoc. reflexivity.
Qed.

Lemma map_repeat_kind : forall n, map tk_kind (repeat dedent_token n) = repeat T_Dedent n.
Proof. induction n as [|n IH]; [reflexivity|]. cbn. rewrite IH. reflexivity. Qed.

Lemma count_repeat : forall n, count T_Dedent (repeat T_Dedent n) = n /\ count T_Indent (repeat T_Dedent n) = 0%nat.
Proof. induction n as [|n (IH1 & IH2)]; [split; reflexivity|]. unfold count in *. cbn. rewrite IH1, IH2. auto. Qed.

Lemma final_newline : forall U text evs l t l' s e, history U text evs l -> get_symbol U l = LOk t l' ->
  tk_kind t = T_Newline -> tk_span t = Range s e -> nth e text NUL = NUL ->
  exists n l'', calls U l' (repeat dedent_token n ++ [Tok T_EOF (At e) None NoPayload]) l'' /\
    let ks := kinds_of evs ++ T_Newline :: repeat T_Dedent n ++ [T_EOF] in count T_Indent ks = count T_Dedent ks.
Proof.
  intros U text evs l t l' s e H E K SP' NE.
  destruct (newline_sound _ _ _ _ _ _ H E K) as (s' & n & SP2 & _ & _ & B & PA & PO & PE).
  rewrite SP' in SP2. inversion SP2; subst s' e. rewrite <- PO in *.
  pose proof (H_ok _ _ _ _ _ _ H E) as H'. pose proof (history_ok _ _ _ _ H') as OK'.
  pose proof (nth_at _ _ _ (ok_at _ _ OK')) as NT. rewrite NE in NT.
  destruct (end_of_text_dedents _ _ _ _ H' B PA PE (eq_sym NT)) as (l'' & CA).
  exists (length (lx_indents l') - 1)%nat, l''. split; [exact CA|]. cbv zeta.
  destruct (history_levels _ _ _ _ H') as (up & EU & _ & _ & BA & _). rewrite PE in BA. rewrite EU, app_length in *. cbn [length].
  rewrite kinds_of_app, !count_app in BA. change (kinds_of [inl t]) with [tk_kind t] in BA. rewrite K in BA.
  change (T_Newline :: repeat T_Dedent (length up + 1 - 1) ++ [T_EOF]) with ([T_Newline] ++ repeat T_Dedent (length up + 1 - 1) ++ [T_EOF]).
  rewrite !count_app. destruct (count_repeat (length up + 1 - 1)) as (-> & ->).
  change (count T_Dedent [T_Newline]) with 0%nat in *. change (count T_Indent [T_Newline]) with 0%nat in *.
  change (count T_Dedent [T_EOF]) with 0%nat in *. change (count T_Indent [T_EOF]) with 0%nat in *. lia.
Qed.

(** ** C24 *)
Lemma coded_exact : forall r n, line_break_as_coded r n -> ~ prefix_of [CR; LF] r -> line_break r n.
Proof. intros r n H N. destruct H as [r|r H]; auto. exfalso. apply N. exists r. reflexivity. Qed.

(** ** C22 *)
Lemma loose_dedent : forall U text evs l w r k, history U text evs l -> lx_bol l = true -> lx_parens l = [] ->
  lx_rest l = w ++ r -> column_of w k -> ~ blank_char (hd NUL r) -> ~ blank_line_start (hd NUL r) ->
  (k < hd 0 (lx_indents l))%nat -> ~ In k (lx_indents l) ->
  exists n l', (0 < n)%nat /\ calls U l (repeat dedent_token n) l' /\
    get_symbol U l' = get_symbol U (at_position text (lx_pos l + length w) [] (lx_indents l')) /\ (hd 0 (lx_indents l') < k)%nat.
Proof.
  intros U text evs l w r k H B PA R CO N1 N2 LT NI.
  destruct (line_start_call U text l w r k (history_ok _ _ _ _ H) B PA R CO N1 N2) as (_ & _ & L3). cbv zeta in L3.
  destruct (L3 LT) as (popped & kept & l' & EQ & NP & FP & HK & CA & G & IK).
  exists (length popped), l'. rewrite IK. split; [destruct popped; [congruence|cbn; lia]|]. split; [exact CA|]. split; [exact G|].
  destruct kept as [|a kept].
  - exfalso. destruct (history_levels _ _ _ _ H) as (up & EU & _). rewrite app_nil_r in EQ. rewrite <- EQ, EU in FP.
    apply Forall_app in FP. destruct FP as (_ & FP). inversion FP; subst. lia.
  - cbn [hd] in *. assert (a <> k); [|lia]. intros ->. apply NI. rewrite EQ. apply in_or_app. cbn. auto.
Qed.

(** ** C14-C17 *)
Lemma triple_call : forall U l q b r, mid_line l -> quote q -> lx_rest l = [q; q; q] ++ b ++ [q; q; q] ++ r -> ~ In NUL b ->
  (forall x y, b ++ [q; q; q] = x ++ y -> (length x < length b)%nat -> ~ three q y) ->
  let t := [q; q; q] ++ b ++ [q; q; q] in
  get_symbol U l = LOk (Tok T_AtomString (Range (lx_pos l) (lx_pos l + length t)) None (StringLit t None)) (after l (length t)).
Proof.
  intros U l q b r M Q R N F t. apply string_call with r; auto.
  - rewrite R. unfold t. rewrite <- !app_assoc. reflexivity.
  - apply ST_triple; auto.
Qed.

Lemma triple_open : forall U l q r, mid_line l -> quote q -> lx_rest l = [q; q; q] ++ r -> no_triple_end q r ->
  exists l', get_symbol U l = LErr (EMsg "MORE DATA!") l'.
Proof.
  intros U l q r M Q R N. assert (H : hd NUL (lx_rest l) = q) by (rewrite R; reflexivity).
  destruct (string_error U l M) as (n & A & _); [rewrite H; auto| |].
  - intros t r' E S. rewrite R in E. destruct S as [q' b r' Q' F NE|q' b r' Q' NN F].
    + cbn [app] in E. inversion E as [[E1 E2]]. subst q'. destruct b as [|c b].
      * cbn [app] in E2. inversion E2 as [E3]. specialize (NE eq_refl). rewrite <- E3 in NE. apply NE. reflexivity.
      * cbn [app] in E2. inversion E2; subst c. inversion F; tauto.
    + cbn [app] in E. inversion E as [[E1 E2]]. subst q'. apply NN. apply (N b r'). rewrite app_assoc. assumption.
  - cbv zeta in A. rewrite H in A. destruct A as (_ & A); [exists r; exact R|]. eauto.
Qed.

Lemma single_call : forall U l q b r, mid_line l -> quote q -> lx_rest l = q :: b ++ q :: r ->
  Forall (fun c => c <> q /\ c <> CR /\ c <> LF /\ c <> NUL) b -> (b = [] -> hd NUL r <> q) ->
  let t := q :: b ++ [q] in
  get_symbol U l = LOk (Tok T_AtomString (Range (lx_pos l) (lx_pos l + length t)) None (StringLit t None)) (after l (length t)).
Proof.
  intros U l q b r M Q R F N t. apply string_call with r; auto.
  - rewrite R. unfold t. cbn [app]. rewrite <- app_assoc. reflexivity.
  - apply ST_single; auto.
Qed.

Lemma single_open : forall U l q b r, mid_line l -> quote q -> lx_rest l = q :: b ++ r ->
  Forall (fun c => c <> q /\ c <> CR /\ c <> LF /\ c <> NUL) b -> In (hd NUL r) [CR; LF; NUL] ->
  exists p l', get_symbol U l = LErr (EAt "Unterminated single quote string at {}!" p) l'.
Proof.
  intros U l q b r M Q R F H.
  assert (HD : hd NUL (lx_rest l) = q) by (rewrite R; reflexivity).
  assert (QE : ~ In q [CR; LF; NUL]) by (destruct Q; subst q; cbn; intuition discriminate).
  assert (NR : forall x, b ++ r <> q :: x).
  { intros x E. destruct b as [|c b]; cbn [app] in E; [|inversion E; subst c; inversion F; tauto].
    apply QE. rewrite E in H. exact H. }
  destruct (string_error U l M) as (n & _ & A); [rewrite HD; auto| |].
  - intros t r' E S. rewrite R in E. destruct S as [q' b' r' Q' F' NE|q' b' r' Q' NN F'].
    + cbn [app] in E. inversion E as [[E1 E2]]. subst q'. rewrite <- app_assoc in E2. cbn [app] in E2.
      clear - F F' E2 H QE. revert b' F' E2. induction F as [|c b C F IH]; intros b' F' E2.
      * cbn [app] in E2. subst r. destruct F' as [|c b' C _]; cbn [app hd] in H; [tauto|]. cbn [In] in H.
        destruct H as [H|[H|[H|[]]]]; subst c; tauto.
      * destruct F' as [|c' b' C' F']; cbn [app] in E2; inversion E2; subst; [tauto|]. eapply IH; eauto.
    + cbn [app] in E. inversion E as [[E1 E2]]. subst q'. eapply NR; eauto.
  - cbv zeta in A. rewrite HD in A. destruct A as (_ & A); [|eauto].
    intros (x & E). rewrite R in E. inversion E as [E1]. eapply NR; eauto.
Qed.

Lemma escape_ends : forall U l q b r, mid_line l -> quote q -> lx_rest l = q :: (b ++ [BSL]) ++ q :: r ->
  Forall (fun c => c <> q /\ c <> CR /\ c <> LF /\ c <> NUL) b ->
  exists l', get_symbol U l = LOk (Tok T_AtomString (Range (lx_pos l) (lx_pos l + length b + 3)) None
    (StringLit (q :: b ++ [BSL; q]) None)) l'.
Proof.
  intros U l q b r M Q R F. eexists.
  pose proof (single_call U l q (b ++ [BSL]) r M Q R) as C. cbv zeta in C. rewrite C.
  - do 2 f_equal.
    + f_equal. cbn [length]. rewrite !app_length. cbn [length]. lia.
    + rewrite <- app_assoc. reflexivity.
  - apply Forall_app. split; auto. constructor; [|constructor]. destruct Q; subst q; repeat split; discriminate.
  - intros E. apply app_eq_nil in E. destruct E; discriminate.
Qed.

Lemma bytes_words : forall w, bytes_prefix w -> In w
  [$"b"; $"B"; $"br"; $"bR"; $"Br"; $"BR"; $"rb"; $"rB"; $"Rb"; $"RB"].
Proof.
  intros w P. unfold bytes_prefix in P. cbn [In] in P.
  assert (L : forall x c, lower c = x -> in_range #"a" #"z" x = true -> c = x \/ c = x - 32) by (intros; apply lower_is; auto).
  destruct P as [P|[P|[P|[]]]].
  - destruct w as [|c [|d w]]; try discriminate P. cbn [map] in P. inversion P as [P1]. symmetry in P1.
    destruct (L _ _ P1 eq_refl) as [-> | ->]; cbn; auto 20.
  - destruct w as [|c [|d [|e w]]]; try discriminate P. cbn [map] in P. inversion P as [[P1 P2]]. symmetry in P1, P2.
    destruct (L _ _ P1 eq_refl) as [-> | ->]; destruct (L _ _ P2 eq_refl) as [-> | ->]; cbn; auto 20.
  - destruct w as [|c [|d [|e w]]]; try discriminate P. cbn [map] in P. inversion P as [[P1 P2]]. symmetry in P1, P2.
    destruct (L _ _ P1 eq_refl) as [-> | ->]; destruct (L _ _ P2 eq_refl) as [-> | ->]; cbn; auto 20.
Qed.

Lemma bytes_call : forall U l w r, mid_line l -> lx_rest l = w ++ r -> bytes_prefix w -> quote (hd NUL r) ->
  get_symbol U l = LOk (Tok T_AtomName (Range (lx_pos l) (lx_pos l + length w)) None (Text w)) (after l (length w)).
Proof.
  intros U l w r M R P Q. apply bytes_words in P.
  assert (NQ : ~ word_char U (hd NUL r)).
  { destruct Q as [->| ->]; unfold word_char; intros [X|[X|X]]; discriminate X. }
  apply name_call with r; auto.
  - cbn in P. repeat destruct P as [<-|P]; [..|destruct P]; (split; [discriminate|split; [right; reflexivity|split; [|exact NQ]]]);
      repeat (apply Forall_cons; [right; left; reflexivity|]); apply Forall_nil.
  - intros I. apply keyword_none in I; auto. cbn in P. repeat destruct P as [<-|P]; [..|destruct P]; reflexivity.
  - intros (S & _). apply prefix_word in S. cbn in P. repeat destruct P as [<-|P]; try discriminate S. destruct P.
Qed.

Lemma other_word_call : forall U l w r, mid_line l -> lx_rest l = w ++ r -> word_at U w r -> quote (hd NUL r) ->
  ~ string_prefix w -> exists k pay, (In (w, k) reserved \/ k = T_AtomName) /\
  get_symbol U l = LOk (Tok k (Range (lx_pos l) (lx_pos l + length w)) None pay) (after l (length w)).
Proof.
  intros U l w r M R W Q N. destruct (keyword_of w) as [k|] eqn:K.
  - apply keyword_reserved in K. exists k, NoPayload. split; auto. eapply keyword_call; eauto.
  - apply keyword_none in K. exists T_AtomName, (Text w). split; auto. eapply name_call; eauto. tauto.
Qed.

Lemma decimal_call : forall U l w r, mid_line l -> lx_rest l = w ++ r -> python_decimal w -> ends_number (hd NUL r) ->
  exists l', get_symbol U l = LOk (Tok T_AtomNumber (Range (lx_pos l) (lx_pos l + length w)) None (Text w)) l'.
Proof.
  intros U l w r M R D E. pose proof (python_decimal_at U w r D E) as T. rewrite <- R in T.
  rewrite (token_complete U l _ _ _ M T eq_refl). eauto.
Qed.
