(** Newline tokens that begin no line: the proofs of C56 (second part) and C57. *)
From Coq Require Import List Arith Lia Permutation.
From Verif Require Import Chars SourceBuffer Token Tokenizer LexBasics LexSpec WellFormed CallLemmas HistoryProofs TokenSpec ParserState Node NodeView Parser ParseBasics ParseSpec
  GrammarSpec TreeSpec SoundBasics Soundness SpanProofs PositionProofs ParseCorollaries OrderProofs EndProofs YieldProofs FirstSets TermStmt ExprSpec LayoutSpec TwinProofs PrintSpec SequenceSpec Steady Sheet Typeset PrintProofs.
Import ListNotations.
Local Open Scope nat_scope.

Lemma history_glimpse_go : forall U text evs l, history U text evs l ->
  forall ts fs, evs = map inl ts -> Forall (fun t => tk_kind t <> T_EOF) ts -> glimpse U l fs ->
  glimpse U (lexer_new text) (map face ts ++ fs).
Proof.
  induction 1 as [|evs l t l' H IH G|evs l e l' H IH G]; intros ts fs E F GL.
  - destruct ts; [exact GL|discriminate E].
  - destruct ts as [|u ts _] using rev_ind; [destruct evs; discriminate E|].
    rewrite map_app in E. cbn [map] in E. apply app_inj_tail in E. destruct E as (E & U1). injection U1 as ->.
    apply Forall_app in F. destruct F as (F1 & F2). inversion F2; subst.
    rewrite map_app, <- app_assoc. cbn [map app]. apply IH; auto. eapply GL_more; eauto.
  - exfalso. destruct ts as [|u ts _] using rev_ind; [destruct evs; discriminate E|].
    rewrite map_app in E. cbn [map] in E. apply app_inj_tail in E. destruct E as (_ & E). discriminate E.
Qed.
Theorem stream_prefix : forall U text ts l, history U text (map inl ts) l -> Forall (fun t => tk_kind t <> T_EOF) ts ->
  stream U Start 0 [] (map face ts ++ [(T_EOF, NoPayload)]).
Proof.
  intros U text ts l H F. apply rows_stream.
  pose proof (history_glimpse_go U text _ _ H ts _ eq_refl F (GL_stop U l)) as G.
  destruct (rows_all U text _ _ (le_n _) (lexer_new text) (lx_ok_new text) ltac:(constructor) G 0 eq_refl) as (_ & _ & _ & X).
  exact (X eq_refl eq_refl).
Qed.

Definition line_kind (k : kind) : Prop := k = T_Newline \/ k = T_Indent \/ k = T_Dedent.
Lemma app_dedents : forall k (a : list (kind * payload)) p b fs, a ++ (T_Newline, p) :: b = repeat (T_Dedent, NoPayload) k ++ fs ->
  exists a', a = repeat (T_Dedent, NoPayload) k ++ a' /\ fs = a' ++ (T_Newline, p) :: b.
Proof.
  induction k as [|k IH]; intros a p b fs E; cbn [repeat app] in *; [eauto|].
  destruct a as [|x a]; [discriminate E|]. cbn [app] in E. injection E as -> E. destruct (IH _ _ _ _ E) as (a' & -> & ->). eauto.
Qed.
Lemma stream_newline : forall U s d o fs, stream U s d o fs -> forall a p b, fs = a ++ (T_Newline, p) :: b ->
  (a = [] /\ (s = Mid \/ s = Noted)) \/ exists a' x, a = a' ++ [x] /\ ~ line_kind (fst x).
Proof.
  intros U s d o fs H. induction H as [s d o NS|s d o k pay o' fs SS G NE H IH|s d fs SS H IH|s d o fs SS H IH|d fs H IH|d fs H IH|d k fs KD H IH];
    intros a p b E.
  - destruct a as [|? [|? ?]]; discriminate E.
  - destruct G as (s0 & n & _ & T). apply token_kinds in T. destruct a as [|x a].
    + cbn [app] in E. injection E as -> _ _. discriminate T.
    + cbn [app] in E. injection E as <- E. right. destruct (IH _ _ _ E) as [(-> & _)|(a' & y & -> & N)].
      * exists [], (k, pay). split; [reflexivity|]. cbn [fst]. intros [X|[X|X]]; rewrite X in T; discriminate T.
      * exists ((k, pay) :: a'), y. auto.
  - destruct a as [|x a]; [left; auto|]. cbn [app] in E. injection E as <- E. right.
    destruct (IH _ _ _ E) as [(_ & [X|X])|(a' & y & -> & N)]; try discriminate X. eexists (_ :: a'), y. split; [reflexivity|exact N].
  - destruct a as [|x a]; [discriminate E|]. cbn [app] in E. injection E as <- E. right.
    destruct (IH _ _ _ E) as [(-> & _)|(a' & y & -> & N)].
    + exists [], (T_TypeComment, NoPayload). split; [reflexivity|]. intros [X|[X|X]]; discriminate X.
    + eexists (_ :: a'), y. split; [reflexivity|exact N].
  - destruct (IH _ _ _ E) as [(_ & [X|X])|X]; try discriminate X. right. exact X.
  - destruct a as [|x a]; [discriminate E|]. cbn [app] in E. injection E as <- E. right.
    destruct (IH _ _ _ E) as [(_ & [X|X])|(a' & y & -> & N)]; try discriminate X. eexists (_ :: a'), y. split; [reflexivity|exact N].
  - symmetry in E. destruct (app_dedents _ _ _ _ _ E) as (a' & -> & ->). right.
    destruct (IH _ _ _ eq_refl) as [(_ & [X|X])|(a2 & y & -> & N)]; try discriminate X. exists (repeat (T_Dedent, NoPayload) k ++ a2), y.
    rewrite app_assoc. auto.
Qed.

(** Whatever comes before it or later, a Newline comes after a token of its line. *)
Theorem newline_after_token : forall U text evs l t l', history U text evs l -> get_symbol U l = LOk t l' -> tk_kind t = T_Newline ->
  (forall ev, In ev evs -> exists u, ev = inl u) ->
  exists evs' u, evs = evs' ++ [inl u] /\ ~ line_kind (tk_kind u).
Proof.
  intros U text evs l t l' H G K A.
  assert (X : exists ts, evs = map inl ts).
  { clear - A. induction evs as [|ev evs IH]; [exists []; reflexivity|]. destruct (A ev (or_introl eq_refl)) as (u & ->).
    destruct IH as (ts & ->); [intros; apply A; right; auto|]. exists (u :: ts). reflexivity. }
  destruct X as (ts & ->).
  assert (NE : Forall (fun u => tk_kind u <> T_EOF) (ts ++ [t])).
  { apply Forall_forall. intros u I KU. apply in_app_or in I. destruct I as [I|[<-|[]]]; [|congruence].
    (* after EOF only EOF *)
    assert (Q : forall evs l, history U text evs l -> In (inl u) evs -> exists e, get_symbol U l = LOk e l /\ tk_kind e = T_EOF).
    { clear - KU. induction 1 as [|evs l t l' H IH G|evs l e l' H IH G]; intros I; [destruct I| |]; apply in_app_or in I; destruct I as [I|[I|[]]].
      - destruct (IH I) as (e & E & KE). rewrite G in E. injection E as -> ->. exists e. auto.
      - injection I as ->. destruct (eof_absorbs _ _ _ _ _ _ H G KU) as (_ & X). eexists. split; [exact X|reflexivity].
      - destruct (IH I) as (e' & E & KE). rewrite G in E. discriminate E.
      - discriminate I. }
    destruct (Q _ _ H) as (e & E & KE); [apply in_map_iff; eauto|]. rewrite G in E. injection E as -> ->. congruence. }
  assert (H2 : history U text (map inl (ts ++ [t])) l') by (rewrite map_app; eapply H_ok; eauto).
  pose proof (stream_prefix U text _ _ H2 NE) as S. rewrite map_app, <- app_assoc in S. cbn [map app] in S.
  assert (FT : face t = (T_Newline, NoPayload)) by (unfold face; rewrite K; reflexivity). rewrite FT in S.
  destruct (stream_newline _ _ _ _ _ S _ _ _ eq_refl) as [(_ & [X|X])|(a' & x & E & N)]; try discriminate X.
  destruct ts as [|u ts _] using rev_ind; [destruct a'; discriminate E|].
  rewrite map_app in E. cbn [map] in E. apply app_inj_tail in E. destruct E as (_ & <-).
  exists (map inl ts), u. rewrite map_app. split; [reflexivity|]. destruct u; exact N.
Qed.

(** No line begins with a Newline, none of the current block with a Dedent or an Indent. *)
Lemma layout_first : forall U k pay rest, k = T_Newline \/ k = T_Dedent \/ k = T_Indent ->
  (forall s d, s = Bare \/ s = Laid -> ~ stream U s d [] ((k, pay) :: rest)) /\ (k <> T_Indent -> ~ stream U Start 0 [] ((k, pay) :: rest)).
Proof.
  intros U k pay rest K.
  assert (A : forall s d, s = Bare \/ s = Laid -> ~ stream U s d [] ((k, pay) :: rest)).
  { intros s d S H. inversion H as [? ? ? ? E|? ? ? ? ? ? ? ? G|? ? ? SS|? ? ? ? SS| | |]; subst.
    - destruct K as [K|[K|K]]; discriminate K.
    - destruct G as (s0 & n & _ & T). apply token_kinds in T. destruct K as [K|[K|K]]; subst; discriminate T.
    - destruct SS, S; congruence.
    - destruct K as [K|[K|K]]; discriminate K.
    - destruct S; discriminate.
    - destruct S; discriminate.
    - destruct S; discriminate. }
  split; [exact A|]. intros NI H. inversion H as [? ? ? NS|? ? ? ? ? ? ? SS|? ? ? SS|? ? ? ? SS|? ? H1|? ? H1|? j ? J H1 E]; subst.
  - congruence.
  - destruct SS as [X|[X|[X|(X & _)]]]; discriminate X.
  - destruct SS as [X|X]; discriminate X.
  - destruct SS as [X|[X|(X & _)]]; discriminate X.
  - exact (A Bare 0 (or_introl eq_refl) H1).
  - congruence.
  - lia.
Qed.

(** ** Inputs *)
(** Tokens read from the beginning of the text. *)
Definition from_start (U : unicode) (text : str) (ts : list token) : Prop := exists l, history U text (map inl ts) l.
Lemma from_start_newline : forall U text ts t, from_start U text (ts ++ [t]) -> tk_kind t = T_Newline ->
  exists ts' u, ts = ts' ++ [u] /\ ~ line_kind (tk_kind u).
Proof.
  intros U text ts t (l & H) K. rewrite map_app in H. cbn [map] in H.
  inversion H as [Z|evs l0 t0 l1 H0 G Z|evs l0 e l1 H0 G Z].
  - destruct (map inl ts); discriminate Z.
  - apply app_inj_tail in Z. destruct Z as (-> & Z). injection Z as ->. subst.
    destruct (newline_after_token U text _ _ _ _ H0 G K) as (evs' & u & E & N).
    { intros ev I. apply in_map_iff in I. destruct I as (u & <- & _). eauto. }
    destruct ts as [|v ts _] using rev_ind; [destruct evs'; discriminate E|].
    rewrite map_app in E. cbn [map] in E. apply app_inj_tail in E. destruct E as (_ & E). injection E as <-. eauto.
  - apply app_inj_tail in Z. destruct Z as (_ & Z). discriminate Z.
Qed.
Lemma history_shorter : forall U text evs l, history U text evs l -> forall a b, evs = a ++ b -> exists l0, history U text a l0.
Proof.
  induction 1 as [|evs l t l' H IH G|evs l e l' H IH G]; intros a b E.
  - destruct a; [|discriminate]. eexists. constructor.
  - destruct b as [|y b _] using rev_ind; [rewrite app_nil_r in E; subst a; eexists; eapply H_ok; eauto|].
    rewrite app_assoc in E. apply app_inj_tail in E. destruct E as (E & _). eapply IH. exact E.
  - destruct b as [|y b _] using rev_ind; [rewrite app_nil_r in E; subst a; eexists; eapply H_err; eauto|].
    rewrite app_assoc in E. apply app_inj_tail in E. destruct E as (E & _). eapply IH. exact E.
Qed.
Lemma from_start_app : forall U text a b, from_start U text (a ++ b) -> from_start U text a.
Proof. intros U text a b (l & H). rewrite map_app in H. eapply history_shorter; eauto. Qed.

Lemma ends_last : forall l, ends [T_Newline; T_Dedent] l -> exists ts u, map snd l = ts ++ [u] /\ line_kind (tk_kind u).
Proof.
  intros l (l0 & p & t & -> & I). exists (map snd l0), t. rewrite map_app. split; [reflexivity|].
  destruct I as [I|[I|[]]]; rewrite <- I; unfold line_kind; auto.
Qed.
(** No Newline where a line begins. *)
Lemma lines_no_newline : forall U text c l la xs ts c', lines c l la xs ts c' -> forall before,
  from_start U text (before ++ map snd l) ->
  before = [] \/ (exists b u, before = b ++ [u] /\ line_kind (tk_kind u)) -> ts = [].
Proof.
  intros U text. induction 1 as [c la|c p t l la xs ts c' K L IH|c l1 x c1 l2 la xs ts c' D L IH]; intros before FS B; [reflexivity| |].
  - exfalso. cbn [map snd] in FS. change (t :: map snd l) with ([t] ++ map snd l) in FS. rewrite app_assoc in FS. apply from_start_app in FS.
    destruct (from_start_newline _ _ _ _ FS K) as (ts' & u & E & N). destruct B as [->|(b & v & -> & LK)].
    + destruct ts'; discriminate E.
    + apply app_inj_tail in E. destruct E as (_ & ->). exact (N LK).
  - apply (IH (before ++ map snd l1)).
    + rewrite <- app_assoc, <- map_app. exact FS.
    + right. destruct (ends_last l1) as (ts1 & u & E & LK); [eapply B_ends; [exact D|discriminate]|].
      exists (before ++ ts1), u. rewrite E, app_assoc. auto.
Qed.
Lemma newlines_short : forall U text (l2 : list ptok) before, from_start U text (before ++ map snd l2) ->
  Forall (fun n => tk_kind (snd n) = T_Newline) l2 -> length l2 <= 1.
Proof.
  intros U text l2 before FS F. destruct l2 as [|(p & t) [|(q & u) l2]]; cbn [length]; try lia. exfalso.
  inversion F as [|? ? K1 F2]; subst. inversion F2 as [|? ? K2 _]; subst. cbn [map snd] in *.
  replace (before ++ t :: u :: map snd l2) with (((before ++ [t]) ++ [u]) ++ map snd l2) in FS by (rewrite <- !app_assoc; reflexivity).
  apply from_start_app in FS. destruct (from_start_newline _ _ _ _ FS K2) as (ts' & v & E & N).
  apply app_inj_tail in E. destruct E as (_ & ->). apply N. left. exact K1.
Qed.

Lemma input_read : forall U text n f x s', input_fn f = true -> run U n f (fresh text) = Ok x s' ->
  exists l c c', from_start U text (map snd l) /\ Input f c l (view s') x c' /\
    forall t, ps_symbol s' = inl t -> from_start U text (map snd l ++ [t]).
Proof.
  intros U text n f x s' IF H.
  assert (SO : sort_of f = Whole) by (destruct f; try discriminate IF; reflexivity).
  apply run_sound in H. unfold sound in H. rewrite SO in H. destruct H as (s1 & l & A & R & I).
  assert (H0 : history U text [] (ps_lexer (fresh text))) by constructor.
  pose proof (advance_history U text [] (fresh text) s1 H0 A) as S1.
  pose proof (reads_history U text _ _ _ R [] S1) as S2. cbn [app] in S2.
  eexists l, _, _. split; [|split; [exact I|]].
  - unfold seen in S2. destruct (history_shorter _ _ _ _ S2 _ _ eq_refl) as (l0 & H1). exists l0. exact H1.
  - intros t E. unfold seen in S2. rewrite E in S2. exists (ps_lexer s'). rewrite map_app. exact S2.
Qed.

Theorem file_newlines : forall U text n x s', run U n F_file_input (fresh text) = Ok x s' ->
  exists a b xs t, x = FileInput a b xs [] t.
Proof.
  intros U text n x s' H. destruct (input_read U text n F_file_input x s' eq_refl H) as (l & c & c' & FS & I & _).
  inversion I as [c0 l0 p t xs ts c1 L K| | | | |]; subst. rewrite (lines_no_newline U text _ _ _ _ _ _ L [] FS (or_introl eq_refl)). cbn [rev]. eauto.
Qed.
Theorem eval_newlines : forall U text n x s', run U n F_eval_input (fresh text) = Ok x s' ->
  exists a b y nl t, x = EvalInput a b y nl t /\ length nl <= 1.
Proof.
  intros U text n x s' H. destruct (input_read U text n F_eval_input x s' eq_refl H) as (l & c & c' & FS & I & _).
  inversion I; subst. eexists _, _, _, _, _. split; [reflexivity|]. rewrite rev_length, map_length.
  rewrite map_app in FS. eapply newlines_short; eauto.
Qed.
Theorem func_type_newlines : forall U text n x s', run U n F_func_type_input (fresh text) = Ok x s' ->
  exists a b y nl t, x = FuncTypeInput a b y nl t /\ length nl <= 1.
Proof.
  intros U text n x s' H. destruct (input_read U text n F_func_type_input x s' eq_refl H) as (l & c & c' & FS & I & _).
  inversion I; subst. eexists _, _, _, _, _. split; [reflexivity|]. rewrite rev_length, map_length.
  rewrite map_app in FS. eapply newlines_short; eauto.
Qed.
Lemma single_read : forall U text n x s', run U n F_single_input (fresh text) = Ok x s' ->
  exists a b y l la, x = SingleInput a b (Some y) None /\ E F_simple_stmt l la y /\ from_start U text (map snd l).
Proof.
  intros U text n x s' H. destruct (input_read U text n F_single_input x s' eq_refl H) as (l & c & c' & FS & I & AH).
  remember (view s') as v eqn:EV. inversion I; subst; clear I.
  - exfalso. cbn [map snd] in FS. destruct (from_start_newline U text [] t FS) as (ts' & u & E & _); [assumption|].
    destruct ts'; discriminate E.
  - eauto 10.
  - exfalso. assert (ES : exists t', ps_symbol s' = inl t' /\ t' = t) by
      (match goal with V : _ = view s' |- _ => unfold view in V; destruct (ps_symbol s'); inversion V; eauto end).
    destruct ES as (t' & ES & ->). specialize (AH t ES).
    destruct (from_start_newline _ _ _ _ AH) as (ts' & u & E & N); [assumption|].
    destruct (ends_last l) as (ts1 & v & E1 & LK); [eapply B_ends; [eassumption|discriminate]|].
    rewrite E1 in E. apply app_inj_tail in E. destruct E as (_ & ->). exact (N LK).
Qed.

Theorem single_simple_only : forall U text n x s', run U n F_single_input (fresh text) = Ok x s' ->
  exists a b c d xs ts nl, x = SingleInput a b (Some (SimpleStmtList c d xs ts nl)) None.
Proof.
  intros U text n x s' H. destruct (single_read U text n x s' H) as (a & b & y & l & la & -> & D & _).
  inversion D; subst; try discriminate; eauto 12.
Qed.
Lemma from_start_first : forall U text t ts, from_start U text (t :: ts) -> exists rest, scanned U text = inl t :: rest.
Proof.
  intros U text t ts (l & H). destruct (history_shorter _ _ _ _ H [inl t] (map inl ts) eq_refl) as (l1 & H1).
  inversion H1 as [Z|evs l0 t0 l2 H0 G Z|evs l0 e l2 H0 G Z].
  - apply (app_inj_tail evs []) in Z. destruct Z as (-> & Z). injection Z as ->.
    inversion H0 as [Z LN|? ? ? ? _ _ Z|? ? ? ? _ _ Z]; [|destruct evs; discriminate Z|destruct evs; discriminate Z]. rewrite <- LN in G.
    unfold scanned. replace (3 * length text + 4) with (S (3 * length text + 3)) by lia. cbn [lex_all]. rewrite G. eauto.
  - apply (app_inj_tail evs []) in Z. destruct Z as (_ & Z). discriminate Z.
Qed.
Theorem single_no_compound : forall U text n x s' t rest, run U n F_single_input (fresh text) = Ok x s' -> scanned U text = inl t :: rest ->
  ~ In (tk_kind t) [T_Newline; PyIf; PyWhile; PyFor; PyTry; PyWith; PyDef; PyClass; PyAsync; PyMatrice].
Proof.
  intros U text n x s' t rest H S. destruct (single_read U text n x s' H) as (a & b & y & l & la & -> & D & FS).
  apply E_first in D. unfold first_ok in D.
  destruct D as (p & u & l' & -> & I).
  cbn [map snd] in FS. destruct (from_start_first _ _ _ _ FS) as (r & S2). rewrite S in S2. injection S2 as -> _.
  intros J. assert (Q : forallb (fun k => negb (existsb (kind_eqb k) (firsts F_simple_stmt)))
    [T_Newline; PyIf; PyWhile; PyFor; PyTry; PyWith; PyDef; PyClass; PyAsync; PyMatrice] = true) by reflexivity.
  rewrite forallb_forall in Q. specialize (Q _ J). apply Bool.negb_true_iff in Q.
  rewrite <- Bool.not_true_iff_false in Q. apply Q. apply existsb_exists. exists (tk_kind u). split; [exact I|]. apply kind_eqb_eq. reflexivity.
Qed.
