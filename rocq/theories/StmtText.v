(** Modules as texts (C52). *)
From Coq Require Import List Arith Lia.
From Verif Require Import Chars SourceBuffer Token Tokenizer LexSpec TokenSpec RenderSpec HistoryProofs RoundTrip.
From Verif Require Import Node ParserState Parser GrammarSpec ParseBasics ParseSpec SoundBasics Soundness CompleteBasics Completeness YieldProofs TreeSpec
  ExprSpec ExprProofs ExprText ExprPrint StmtSpec StmtProofs StmtDerive.
Import ListNotations.
Local Open Scope nat_scope.

(** ** The tokens of a line: brackets match, and all can be written *)
Definition tame (l : toks) : Prop := neutral l /\ Forall shaped l.
Lemma tame_nil : tame [].
Proof. split; [apply neutral_nil|constructor]. Qed.
Lemma tame_app : forall a b, tame a -> tame b -> tame (a ++ b).
Proof. intros a b (N1 & S1) (N2 & S2). split; [apply neutral_app; assumption|apply Forall_app; auto]. Qed.
Lemma tame_cons : forall x l, tame [x] -> tame l -> tame (x :: l).
Proof. intros x l. apply (tame_app [x] l). Qed.
Lemma tame_mark : forall k, opens_nothing k -> plain_mark k = true -> tame [mark k].
Proof. intros k O P. split; [apply neutral_mark; [exact O|apply neutral_nil]|]. constructor; [apply shaped_mark, P|constructor]. Qed.
Lemma tame_name : forall p, tame [name_token p].
Proof. intros p. split; [apply neutral_mark; [split; reflexivity|apply neutral_nil]|]. constructor; [right; reflexivity|constructor]. Qed.
Lemma tame_pair : forall l, tame l -> tame (mark PyLeftParen :: l ++ [mark PyRightParen]).
Proof.
  intros l (N & S). split; [apply neutral_pair; auto|]. constructor; [apply shaped_mark; reflexivity|]. apply Forall_app. split; [exact S|].
  constructor; [apply shaped_mark; reflexivity|constructor].
Qed.
Lemma tame_flatten : forall k e, fits k e -> tame (flatten e).
Proof. intros k e (P & _). split; [apply flatten_neutral, P|apply flatten_shaped, P]. Qed.
Lemma tame_if : forall b k, tame [mark k] -> tame (if_true b k).
Proof. intros [] k H; [exact H|apply tame_nil]. Qed.
Lemma tame_between : forall k ls, tame [mark k] -> Forall tame ls -> tame (between (mark k) ls).
Proof.
  intros k ls K H. destruct H as [|l ls A B]; [apply tame_nil|]. cbn [between]. apply tame_app; [exact A|].
  induction B as [|m ms M B IH]; [apply tame_nil|]. cbn [flat_map app]. apply tame_cons; [exact K|]. apply tame_app; assumption.
Qed.
Ltac tmark := apply tame_mark; [split; reflexivity|reflexivity].
Ltac tame := repeat match goal with
  | |- tame [] => apply tame_nil
  | |- tame [name_token _] => apply tame_name
  | |- tame [mark _] => first [assumption | tmark]
  | |- tame (flatten _) => eapply tame_flatten; eassumption
  | |- tame (if_true _ _) => apply tame_if; tmark
  | |- tame [_] => fail 1
  | |- tame (_ :: _) => apply tame_cons
  | |- tame (_ ++ _) => apply tame_app
  end.
Lemma tame_listing : forall k r, listing_fits k r -> tame (listing_tokens r).
Proof.
  intros k r (_ & FI). unfold listing_tokens. tame. apply tame_between; [tmark|]. apply Forall_map. eapply Forall_impl; [|exact FI].
  intros x H. unfold element_tokens. tame.
Qed.
Lemma tame_source : forall b v, source_fits b v -> tame (source_tokens v).
Proof. intros b [r|r|e] H; cbn [source_tokens source_fits] in *; tame; eapply tame_listing, H. Qed.
Lemma tame_names : forall k n ns, tame [mark k] -> tame (names_tokens k n ns).
Proof. intros k n ns K. apply tame_between; [exact K|]. apply Forall_map. apply Forall_forall. intros. apply tame_name. Qed.
Lemma tame_chain : forall vs v, chain_fits v vs -> tame (flat_map (fun v => mark PyAssign :: source_tokens v) (v :: vs)).
Proof.
  intros vs. induction vs as [|w ws IH]; intros v H; cbn [chain_fits flat_map] in *.
  - rewrite app_nil_r. tame. eapply tame_source, H.
  - destruct H as (A & B). apply tame_app; [tame; eapply tame_source, A|]. exact (IH w B).
Qed.
Lemma tame_alias : forall a, tame (alias_tokens a).
Proof. intros [n [q|]]; unfold alias_tokens; cbn [fst snd]; tame. Qed.
Lemma tame_small : forall s, small_fits s -> tame (small_tokens s).
Proof.
  intros s FI. destruct s as [r|r v vs|k r v|r e v|r| | | |r|e|v|dots m names|n ns|n ns|e]; cbn [small_tokens small_fits] in *.
  - eapply tame_listing, FI.
  - destruct FI as (A & B). apply tame_app; [eapply tame_listing, A|apply tame_chain, B].
  - destruct FI as (K & A & B). apply tame_app; [eapply tame_listing, A|]. apply tame_cons; [|eapply tame_source, B].
    cbn in K. intuition (subst; tmark).
  - destruct FI as (A & B & D). apply tame_app; [eapply tame_listing, A|]. tame. destruct v as [v|]; tame. eapply tame_source, D.
  - tame. eapply tame_listing, FI.
  - tame.
  - tame.
  - tame.
  - destruct r as [r|]; tame. eapply tame_listing, FI.
  - destruct e as [(e & [d|])|]; cbn [on_some fst snd] in FI; tame; destruct FI; tame.
  - destruct v; [destruct FI|eapply tame_source, FI..].
  - destruct FI as (D & _). tame.
    + induction D as [|k ks K D IH]; cbn [map]; tame; [destruct K as [-> | ->]; tmark|exact IH].
    + destruct m; tame. apply tame_names. tmark.
    + destruct names as [(b & n & ns)|]; [|tame]. assert (T : tame (separated PyComa alias_tokens n ns)).
      { apply tame_between; [tmark|]. apply Forall_map. apply Forall_forall. intros. apply tame_alias. }
      destruct b; cbn [if_true app]; [apply tame_pair, T|rewrite app_nil_r; exact T].
  - tame. apply tame_names. tmark.
  - tame. apply tame_names. tmark.
  - tame.
Qed.
Lemma tame_smalls : forall s, smalls_fit s -> tame (smalls_tokens s).
Proof.
  intros s FI. unfold smalls_tokens. tame. apply tame_between; [tmark|]. apply Forall_map. eapply Forall_impl; [|exact FI]. apply tame_small.
Qed.
Lemma tame_if_head : forall k e, tame [mark k] -> fits 1 e -> tame (if_head k e).
Proof. intros k e K FI. unfold if_head. tame. Qed.
Lemma tame_word_head : forall k, tame [mark k] -> tame (word_head k).
Proof. intros k K. unfold word_head. tame. Qed.
Lemma tame_for_head : forall y a r, listing_fits 0 a -> listing_fits 1 r -> tame (for_head y a r).
Proof. intros y a r A B. unfold for_head. tame; eapply tame_listing; eassumption. Qed.
Lemma tame_except_head : forall st w, what_fits w -> tame (except_head st w).
Proof. intros st w FI. unfold except_head. tame. destruct w; cbn [what_fits] in FI; tame. Qed.
Lemma tame_with_head : forall y br i is, Forall part_fits (i :: is) -> tame (with_head y br i is).
Proof.
  intros y br i is FI. unfold with_head. assert (T : tame (separated PyComa part_tokens i is)).
  { apply tame_between; [tmark|]. apply Forall_map. eapply Forall_impl; [|exact FI]. intros (e & o) (A & B). unfold part_tokens. cbn [fst snd] in *. tame. destruct o; cbn [on_some] in B; tame. }
  tame. destruct br as [c|]; [|exact T]. rewrite app_assoc. apply tame_pair. tame. exact T.
Qed.
Lemma tame_class_head : forall n bs, on_some (Forall (fun x => on_some (fits 1) (snd x))) bs -> tame (class_head n bs).
Proof.
  intros n bs FI. unfold class_head. tame. destruct bs as [bs|]; [|tame]. apply tame_pair. apply tame_between; [tmark|]. apply Forall_map.
  eapply Forall_impl; [|exact FI]. intros (p & o) B. cbn [fst snd] in *. unfold base_tokens. cbn [fst snd]. tame. destruct o; cbn [on_some] in B; tame.
Qed.
Lemma tame_def_head : forall n r, on_some (fits 1) r -> tame (def_head n r).
Proof.
  intros n r FI. unfold def_head. do 2 (apply tame_cons; [tame|]). apply (tame_app [mark PyLeftParen; mark PyRightParen]); [apply (tame_pair []), tame_nil|].
  tame. destruct r; cbn [on_some] in FI; tame.
Qed.

(** ** Lines and levels *)
Definition dedent : kind * payload := (T_Dedent, NoPayload).
(** The lines are read after any number of deeper blocks. *)
Definition after_blocks (U : unicode) (levels : list nat) (rest : list line) (ts : toks) : Prop :=
  levels <> [] /\ forall ups, Forall (fun c => hd 0 levels < c) ups -> program U (ups ++ levels) rest (repeat dedent (length ups) ++ ts).
Lemma after_program : forall U levels rest ts, after_blocks U levels rest ts -> program U levels rest ts.
Proof. intros U levels rest ts (_ & H). exact (H [] ltac:(constructor)). Qed.
Lemma after_end : forall U, after_blocks U [0] [] [(T_EOF, NoPayload)].
Proof.
  intros U. split; [discriminate|]. intros ups _. replace (length ups) with (length (ups ++ [0]) - 1) by (rewrite app_length; cbn; lia). apply PR_end.
Qed.
Lemma leave_ups : forall ups levels, levels <> [] -> Forall (fun c => hd 0 levels < c) ups -> leave (hd 0 levels) (ups ++ levels) = levels.
Proof.
  intros ups levels N F. induction F as [|c ups C F IH]; cbn [app leave].
  - destruct levels as [|a levels]; [congruence|]. cbn [leave hd]. rewrite Nat.ltb_irrefl. reflexivity.
  - apply Nat.ltb_lt in C. rewrite C. exact IH.
Qed.
Lemma after_line : forall U levels x rest ts, levels <> [] -> line_ok U x (hd 0 levels) -> program U levels rest ts ->
  after_blocks U levels (x :: rest) (line_seen x ++ ts).
Proof.
  intros U levels x rest ts N LO H. split; [exact N|]. intros [|c ups] F.
  - apply PR_same; assumption.
  - pose proof (leave_ups _ _ N F) as LE. replace (length (c :: ups)) with (length ((c :: ups) ++ levels) - length (leave (hd 0 levels) ((c :: ups) ++ levels))).
    2:{ rewrite LE, app_length. lia. }
    apply PR_back; [exact LO|inversion F; assumption|]. rewrite LE. exact H.
Qed.
Lemma after_deeper : forall U levels c rest ts, after_blocks U levels rest ts -> hd 0 levels < c -> after_blocks U (c :: levels) rest (dedent :: ts).
Proof.
  intros U levels c rest ts (N & H) L. split; [discriminate|]. intros ups F. cbn [hd] in F.
  specialize (H (ups ++ [c])). rewrite <- app_assoc in H. rewrite app_length in H. cbn [length app] in H. rewrite Nat.add_1_r in H.
  change (repeat dedent (S (length ups))) with ([dedent] ++ repeat dedent (length ups)) in H.
  replace (repeat dedent (length ups) ++ dedent :: ts) with (([dedent] ++ repeat dedent (length ups)) ++ ts).
  - apply H. apply Forall_app. split; [eapply Forall_impl; [|exact F]; cbn; intros; lia|auto].
  - change (dedent :: ts) with ([dedent] ++ ts). rewrite app_assoc. f_equal. apply (repeat_cons (length ups) dedent).
Qed.
(** Lines in column [col] that give the tokens [ts], possibly none. *)
Definition gives (U : unicode) (col : nat) (ls : list line) (ts : toks) : Prop :=
  forall levels rest ts', hd 0 levels = col -> after_blocks U levels rest ts' -> after_blocks U levels (ls ++ rest) (ts ++ ts').
Definition gives1 (U : unicode) (col : nat) (ls : list line) (ts : toks) : Prop :=
  exists x ls1 ts1, ls = x :: ls1 /\ ts = line_seen x ++ ts1 /\ line_ok U x col /\
    forall levels rest ts', hd 0 levels = col -> after_blocks U levels rest ts' -> program U levels (ls1 ++ rest) (ts1 ++ ts').
Lemma gives_one : forall U col ls ts, gives1 U col ls ts -> gives U col ls ts.
Proof.
  intros U col ls ts (x & ls1 & ts1 & -> & -> & LO & H) levels rest ts' <- A. rewrite <- app_assoc. cbn [app]. apply after_line; [apply A|exact LO|]. apply H; auto.
Qed.
Lemma gives_nil : forall U col, gives U col [] [].
Proof. intros U col levels rest ts' _ A. exact A. Qed.
Lemma gives_app : forall U col l1 t1 l2 t2, gives U col l1 t1 -> gives U col l2 t2 -> gives U col (l1 ++ l2) (t1 ++ t2).
Proof. intros U col l1 t1 l2 t2 H1 H2 levels rest ts' E A. rewrite <- !app_assoc. apply H1; auto. Qed.
Lemma gives1_app : forall U col l1 t1 l2 t2, gives1 U col l1 t1 -> gives U col l2 t2 -> gives1 U col (l1 ++ l2) (t1 ++ t2).
Proof.
  intros U col l1 t1 l2 t2 (x & ls1 & ts1 & -> & -> & LO & H1) H2. exists x, (ls1 ++ l2), (ts1 ++ t2). split; [reflexivity|]. split; [rewrite <- app_assoc; reflexivity|].
  split; [exact LO|]. intros levels rest ts' E A. rewrite <- !app_assoc. apply H1; auto.
Qed.
Lemma gives1_line : forall U col x, line_ok U x col -> gives1 U col [x] (line_seen x).
Proof. intros U col x LO. exists x, [], []. rewrite app_nil_r. split; [reflexivity|]. split; [reflexivity|]. split; [exact LO|]. intros levels rest ts' _ A. apply after_program, A. Qed.
Lemma gives1_block : forall U col c x ls ts, line_ok U x col -> col < c -> gives1 U c ls ts ->
  gives1 U col (x :: ls) (line_seen x ++ (T_Indent, NoPayload) :: ts ++ [dedent]).
Proof.
  intros U col c x ls ts LO L (y & ls1 & ts1 & -> & -> & LY & H). exists x, (y :: ls1). eexists. split; [reflexivity|]. split; [reflexivity|]. split; [exact LO|].
  intros levels rest ts' <- A. cbn [app]. rewrite <- !app_assoc. cbn [app].
  eapply PR_deeper; [exact LY|exact L|]. apply H; [reflexivity|]. apply after_deeper; assumption.
Qed.
Lemma row_ok : forall U col l x, tame l -> row U col l x -> line_ok U x col.
Proof.
  intros U col l x (N & _) (CO & F & G & M). split; [exact CO|]. split; [exact F|]. split; [exact G|].
  replace (map it_kind (ln_items x)) with (map fst (map item_seen (ln_items x)) ++ []) by (rewrite app_nil_r, map_map; reflexivity).
  rewrite M, N. reflexivity.
Qed.
Definition strip (x : kind * payload) : kind * payload := (fst x, if carries (fst x) then snd x else NoPayload).
Lemma face_strip : forall t, face t = strip (look_of t).
Proof. intros t. unfold face, strip, look_of. cbn [fst snd]. reflexivity. Qed.
Lemma row_strip : forall U col l x, row U col l x -> map strip (line_seen x) = l ++ [mark T_Newline].
Proof.
  intros U col l x (_ & F & _ & M). unfold line_seen. rewrite map_app. f_equal. rewrite <- M. rewrite map_map. apply map_ext_in.
  intros i I. rewrite Forall_forall in F. specialize (F i I). unfold item_ok in F.
  pose proof (plain_face U _ _ _ F (Tok (it_kind i) (At 0) None (it_payload i)) eq_refl) as P. exact P.
Qed.
(** ** A written statement gives its tokens *)
Lemma written : forall U col,
  (forall s ls, writes_stmt U col s ls -> stmt_fits s -> exists ts, gives1 U col ls ts /\ map strip ts = stmt_tokens s) /\
  (forall h b ls, writes_suite U col h b ls -> tame h -> suite_fits b -> exists ts, gives1 U col ls ts /\ map strip ts = h ++ suite_tokens b) /\
  (forall b ls, writes_block U col b ls -> block_fits b -> exists ts, gives1 U col ls ts /\ map strip ts = block_tokens b) /\
  (forall es ls, writes_elifs U col es ls -> elifs_fit es -> exists ts, gives U col ls ts /\ map strip ts = elifs_tokens es) /\
  (forall hs ls, writes_handlers U col hs ls -> handlers_fit hs -> exists ts, gives U col ls ts /\ map strip ts = handlers_tokens hs) /\
  (forall k o ls, writes_clause U col k o ls -> tame [mark k] -> clause_fits o -> exists ts, gives U col ls ts /\ map strip ts = clause_tokens k o).
Proof.
  intros U.
  pose (P1 := fun col s ls (_ : writes_stmt U col s ls) => stmt_fits s -> exists ts, gives1 U col ls ts /\ map strip ts = stmt_tokens s).
  pose (P2 := fun col h b ls (_ : writes_suite U col h b ls) => tame h -> suite_fits b -> exists ts, gives1 U col ls ts /\ map strip ts = h ++ suite_tokens b).
  pose (P3 := fun col b ls (_ : writes_block U col b ls) => block_fits b -> exists ts, gives1 U col ls ts /\ map strip ts = block_tokens b).
  pose (P4 := fun col es ls (_ : writes_elifs U col es ls) => elifs_fit es -> exists ts, gives U col ls ts /\ map strip ts = elifs_tokens es).
  pose (P5 := fun col hs ls (_ : writes_handlers U col hs ls) => handlers_fit hs -> exists ts, gives U col ls ts /\ map strip ts = handlers_tokens hs).
  pose (P6 := fun col k o ls (_ : writes_clause U col k o ls) => tame [mark k] -> clause_fits o -> exists ts, gives U col ls ts /\ map strip ts = clause_tokens k o).
  apply (writes_mutual U P1 P2 P3 P4 P5 P6); unfold P1, P2, P3, P4, P5, P6; clear P1 P2 P3 P4 P5 P6.
  - intros col s x R (FI & _). exists (line_seen x). split; [apply gives1_line; eapply row_ok; [apply tame_smalls, FI|exact R]|]. exact (row_strip _ _ _ _ R).
  - intros col e b es o l1 l2 l3 _ I1 _ I2 _ I3 (FE & FB & FES & FO). destruct I1 as (t1 & G1 & S1); [apply tame_if_head; [tmark|exact FE]|exact FB|].
    destruct (I2 FES) as (t2 & G2 & S2). destruct I3 as (t3 & G3 & S3); [tmark|exact FO|]. exists (t1 ++ t2 ++ t3).
    split; [apply gives1_app; [exact G1|apply gives_app; assumption]|]. rewrite !map_app, S1, S2, S3, <- app_assoc. reflexivity.
  - intros col e b o l1 l2 _ I1 _ I2 (FE & FB & FO). destruct I1 as (t1 & G1 & S1); [apply tame_if_head; [tmark|exact FE]|exact FB|].
    destruct I2 as (t2 & G2 & S2); [tmark|exact FO|]. exists (t1 ++ t2).
    split; [apply gives1_app; assumption|]. rewrite !map_app, S1, S2, <- app_assoc. reflexivity.
  - intros col y a r b o l1 l2 _ I1 _ I2 ((FA & _) & (FR & _) & FB & FO). destruct I1 as (t1 & G1 & S1); [apply tame_for_head; assumption|exact FB|].
    destruct I2 as (t2 & G2 & S2); [tmark|exact FO|]. exists (t1 ++ t2).
    split; [apply gives1_app; assumption|]. rewrite !map_app, S1, S2, <- app_assoc. reflexivity.
  - intros col b hs o f l1 l2 l3 l4 _ I1 _ I2 _ I3 _ I4 (FB & FH & FO & FF & _). destruct I1 as (t1 & G1 & S1); [apply tame_word_head; tmark|exact FB|].
    destruct (I2 FH) as (t2 & G2 & S2). destruct I3 as (t3 & G3 & S3); [tmark|exact FO|]. destruct I4 as (t4 & G4 & S4); [tmark|exact FF|].
    exists (t1 ++ t2 ++ t3 ++ t4).
    split; [apply gives1_app; [exact G1|repeat apply gives_app; assumption]|]. rewrite !map_app, S1, S2, S3, S4, <- app_assoc. reflexivity.
  - intros col y br i is b l _ I1 (FI & _ & FB). apply I1; [apply tame_with_head, FI|exact FB].
  - intros col n bs b l _ I1 (FI & FB). apply I1; [apply tame_class_head, FI|exact FB].
  - intros col n r b l _ I1 (FI & FB). apply I1; [apply tame_def_head, FI|exact FB].
  - intros col h s x R T FI. exists (line_seen x). split; [apply gives1_line; eapply row_ok; [|exact R]; apply tame_app; [exact T|apply tame_smalls, FI]|].
    rewrite (row_strip _ _ _ _ R), <- app_assoc. reflexivity.
  - intros col h b x c ls R L _ I1 T FI. destruct (I1 FI) as (ts & G & S). eexists. split; [eapply gives1_block; [eapply row_ok; [exact T|exact R]|exact L|exact G]|].
    rewrite map_app, (row_strip _ _ _ _ R). cbn [map]. rewrite map_app, S. rewrite <- app_assoc. reflexivity.
  - intros col s ls _ I1 FI. apply (I1 FI).
  - intros col s b l1 l2 _ I1 _ I2 (FS & FB). destruct (I1 FS) as (t1 & G1 & S1). destruct (I2 FB) as (t2 & G2 & S2). exists (t1 ++ t2).
    split; [apply gives1_app; [exact G1|apply gives_one, G2]|]. rewrite map_app, S1, S2. reflexivity.
  - intros col _. exists []. split; [apply gives_nil|reflexivity].
  - intros col e b es l1 l2 _ I1 _ I2 (FE & FB & FES). destruct I1 as (t1 & G1 & S1); [apply tame_if_head; [tmark|exact FE]|exact FB|].
    destruct (I2 FES) as (t2 & G2 & S2). exists (t1 ++ t2). split; [apply gives_app; [apply gives_one, G1|exact G2]|]. rewrite map_app, S1, S2, <- app_assoc. reflexivity.
  - intros col _. exists []. split; [apply gives_nil|reflexivity].
  - intros col st w b hs l1 l2 _ I1 _ I2 (FW & FB & FH). destruct I1 as (t1 & G1 & S1); [apply tame_except_head, FW|exact FB|].
    destruct (I2 FH) as (t2 & G2 & S2). exists (t1 ++ t2). split; [apply gives_app; [apply gives_one, G1|exact G2]|]. rewrite map_app, S1, S2, <- app_assoc. reflexivity.
  - intros col k _ _. exists []. split; [apply gives_nil|reflexivity].
  - intros col k b ls _ I1 T FI. destruct I1 as (t1 & G1 & S1); [apply tame_word_head, T|exact FI|]. exists t1. split; [apply gives_one, G1|exact S1].
Qed.
Lemma module_written : forall U m ls, writes_module U m ls -> Forall stmt_fits m ->
  exists ts, program U [0] ls (ts ++ [(T_EOF, NoPayload)]) /\ map strip ts = module_tokens m.
Proof.
  intros U m ls W FI. cut (exists ts, gives U 0 ls ts /\ map strip ts = module_tokens m).
  { intros (ts & G & S). exists ts. split; [|exact S]. apply after_program. rewrite <- (app_nil_r ls). apply G; [reflexivity|apply after_end]. }
  induction W as [|s m l1 l2 W1 W2 IH]; [exists []; split; [apply gives_nil|reflexivity]|]. inversion FI as [|? ? F1 F2]; subst.
  destruct (proj1 (written U 0) s l1 W1 F1) as (t1 & G1 & S1). destruct (IH F2) as (t2 & G2 & S2). exists (t1 ++ t2).
  split; [apply gives_app; [apply gives_one, G1|exact G2]|]. rewrite map_app, S1, S2. reflexivity.
Qed.

(** ** A module read by the parser *)
Lemma lines_derived : forall m c c' l p t, Forall stmt_fits m -> module_note c m = Some c' -> faces l = module_tokens m -> tk_kind t = T_EOF ->
  exists xs, lines (status c) l (p, Some t) xs [] (status c') /\ opts stmt_of xs = Some m.
Proof.
  intros m. induction m as [|s m IH]; intros c c' l p t FI CO F K.
  - apply faces_nil in F. subst l. injection CO as <-. exists []. split; [constructor|reflexivity].
  - inversion FI as [|? ? F1 F2]; subst. cbn [module_tokens flat_map] in F. fold (module_tokens m) in F. apply faces_app in F as (l1 & l2 & -> & FA & FB).
    cbn [module_note] in CO. apply andthen_inv in CO as (c1 & CS & CO).
    assert (FO : follows (ahead l2 (p, Some t))).
    { destruct m as [|s2 m].
      - apply faces_nil in FB. subst l2. exists t. split; [reflexivity|]. rewrite K. not_clause.
      - inversion F2; subst. cbn [module_tokens flat_map] in FB. eapply opener_follows_app; [eapply stmt_opener; eassumption|exact FB]. }
    destruct (proj1 tokens_mutual s c c1 l1 _ F1 CS FA FO) as (x & BX & SX). destruct (IH c1 c' l2 p t F2 CO FB K) as (xs & L & O).
    exists (x :: xs). split; [eapply lines_stmt; eassumption|]. rewrite opts_cons, SX, O. reflexivity.
Qed.
Lemma program_reads : forall U xs ts, program U [0] xs (ts ++ [(T_EOF, NoPayload)]) -> exists s1 l s' u,
  advance U (fresh (text_of xs)) = Ok tt s1 /\ reads U s1 l s' /\ faces l = map strip ts /\
  ps_symbol s' = inl u /\ tk_kind u = T_EOF /\ ps_except s' = ps_except s1 /\ ps_except s1 = ExceptNone.
Proof.
  intros U xs ts PR.
  destruct (program_calls U (text_of xs) _ _ _ PR [] (lexer_new (text_of xs))) as (l' & SC); auto; [constructor|].
  destruct (ts ++ [(T_EOF, NoPayload)]) as [|h tl] eqn:E; [destruct ts; discriminate E|]. inversion SC; subst.
  match goal with G : get_symbol U _ = LOk ?a ?b |- _ => rename a into t0, b into l1, G into GS end.
  set (s0 := fresh (text_of xs)). set (s1 := mk_parser l1 (inl t0) ExceptNone).
  assert (A : advance U s0 = Ok tt s1) by (unfold advance, s0; cbn [ps_lexer fresh parser_new]; rewrite GS; reflexivity).
  match goal with S : seen_calls U l1 _ l' |- _ => destruct (seen_reads U _ s1 t0 l' eq_refl S) as (l & s' & u & R & SU & X & ML) end.
  rewrite map_app in ML. change (look_of t0 :: tl) with ((tk_kind t0, tk_payload t0) :: tl) in ML. rewrite <- E in ML. apply app_inj_tail in ML. destruct ML as (ML & EU).
  injection EU as KU _. exists s1, l, s', u. split; [exact A|]. split; [exact R|]. split; [|auto]. rewrite <- ML, !map_map. apply map_ext. intros (q & t). cbn [snd]. apply face_strip.
Qed.
Theorem program_parsed : forall U m xs ts, module_fits m -> program U [0] xs (ts ++ [(T_EOF, NoPayload)]) -> map strip ts = module_tokens m ->
  exists a b ys t s', parsed U F_file_input (fresh (text_of xs)) (FileInput a b ys [] t) s' /\ module_of (FileInput a b ys [] t) = Some m.
Proof.
  intros U m xs ts (FI & NO) PR S. destruct (module_note None m) as [c'|] eqn:CO; [|congruence]. destruct (program_reads U xs ts PR) as (s1 & l & s' & u & A & R & F & SU & KU & X & X0). rewrite S in F.
  destruct (lines_derived m None c' l (pos s') u FI CO F KU) as (ys & L & O).
  set (s2 := mk_parser (ps_lexer s') (ps_symbol s') (status c')).
  assert (R2 : reads U s1 l s2) by (rewrite <- (app_nil_r l); eapply reads_app; [exact R|apply reads_nil; reflexivity]).
  assert (V : view s2 = (pos s', Some u)) by (unfold view, s2; cbn [ps_symbol]; rewrite SU; reflexivity).
  assert (SO : sound U F_file_input (fresh (text_of xs)) (FileInput (start l (pos s', Some u)) (pos s') (rev ys) [] u) s2).
  { exists s1, l. split; [exact A|]. split; [exact R2|]. rewrite V, X0. apply (I_file ExceptNone l (pos s') u ys [] (status c')); [exact L|exact KU]. }
  destruct (run_complete U _ _ _ _ SO) as (k & Z). exists (start l (pos s', Some u)), (pos s'), (rev ys), u, s2. split; [exists k; apply Z; lia|].
  cbn [module_of]. rewrite (opts_rev _ _ _ _ O). cbn [option_map]. rewrite rev_involutive. reflexivity.
Qed.
Theorem module_parsed : forall U m xs, module_fits m -> writes_module U m xs ->
  exists a b ys t s', parsed U F_file_input (fresh (text_of xs)) (FileInput a b ys [] t) s' /\ module_of (FileInput a b ys [] t) = Some m.
Proof. intros U m xs FI W. destruct (module_written U m xs W (proj1 FI)) as (ts & PR & S). eapply program_parsed; eassumption. Qed.
Theorem module_unambiguous : forall U m1 m2 xs ys, module_fits m1 -> module_fits m2 -> writes_module U m1 xs -> writes_module U m2 ys ->
  text_of xs = text_of ys -> m1 = m2.
Proof.
  intros U m1 m2 xs ys F1 F2 W1 W2 E. destruct (module_parsed U m1 xs F1 W1) as (a1 & b1 & y1 & t1 & s1 & P1 & M1).
  destruct (module_parsed U m2 ys F2 W2) as (a2 & b2 & y2 & t2 & s2 & P2 & M2). rewrite <- E in P2.
  destruct (parsed_once _ _ _ _ _ _ _ P1 P2) as (Z & _). rewrite Z, M2 in M1. injection M1 as ->. reflexivity.
Qed.

(** ** The text of a module *)
Definition can_write (U : unicode) (l : toks) : Prop := Forall (fun x => carries (fst x) = true -> plain U (token_text x) (fst x) (snd x)) l.
Lemma column_blanks : forall n, column_of (repeat SP n) n.
Proof.
  intros n. induction n as [|n IH]; [constructor|]. replace (repeat SP (S n)) with (repeat SP n ++ [SP]) by (symmetry; apply (repeat_cons n SP)).
  rewrite <- Nat.add_1_r. constructor. exact IH.
Qed.
Lemma row_written : forall U n l, l <> [] -> tame l -> can_write U l -> exists x, row U (4 * n) l x /\ line_text x = row_text n l.
Proof.
  intros U n [|x xs] N (_ & S) W; [congruence|]. exists (Line (repeat SP (4 * n)) (item_of x) (map item_of xs)). split.
  - split; [apply column_blanks|]. split; [|split].
    + unfold ln_items. cbn [ln_first ln_more]. change (Forall (item_ok U) (map item_of (x :: xs))). apply Forall_map. apply Forall_forall. intros y I.
      rewrite Forall_forall in S. unfold can_write in W. rewrite Forall_forall in W. destruct (S y I) as [(E & M)|C]; [rewrite E; apply spelled_mark, M|apply W; assumption].
    + cbn [ln_more]. apply Forall_map. apply Forall_forall. intros y _. split; [discriminate|]. repeat constructor.
    + unfold ln_items. cbn [ln_first ln_more]. change (map item_seen (map item_of (x :: xs)) = x :: xs). apply seen_of.
  - unfold line_text, row_text. cbn [ln_indent ln_first ln_more item_of it_text map between]. f_equal. rewrite <- app_assoc. f_equal. f_equal.
    clear. induction xs as [|z xs IH]; [reflexivity|]. cbn. rewrite IH. reflexivity.
Qed.
Lemma opener_some : forall l, opener l -> l <> [].
Proof. intros l (x & r & -> & _). discriminate. Qed.
Lemma can_write_app : forall U a b, can_write U (a ++ b) -> can_write U a /\ can_write U b.
Proof. intros U a b H. apply Forall_app in H. exact H. Qed.
Ltac pieces := repeat match goal with
  H : can_write _ (_ ++ _) |- _ => apply can_write_app in H; let A := fresh "CW" in let B := fresh "CW" in destruct H as (A & B) end.
Lemma text_app : forall a b, text_of (a ++ b) = text_of a ++ text_of b.
Proof. intros. apply flat_map_app. Qed.
Lemma printed : forall U,
  (forall s n, stmt_fits s -> can_write U (stmt_tokens s) -> exists ls, writes_stmt U (4 * n) s ls /\ text_of ls = stmt_text n s) /\
  (forall b n h, suite_fits b -> h <> [] -> tame h -> can_write U h -> can_write U (suite_tokens b) ->
    exists ls, writes_suite U (4 * n) h b ls /\ text_of ls = suite_text n h b) /\
  (forall b n, block_fits b -> can_write U (block_tokens b) -> exists ls, writes_block U (4 * n) b ls /\ text_of ls = block_text n b) /\
  (forall es n, elifs_fit es -> can_write U (elifs_tokens es) -> exists ls, writes_elifs U (4 * n) es ls /\ text_of ls = elifs_text n es) /\
  (forall hs n, handlers_fit hs -> can_write U (handlers_tokens hs) -> exists ls, writes_handlers U (4 * n) hs ls /\ text_of ls = handlers_text n hs) /\
  (forall o n k, clause_fits o -> tame [mark k] -> can_write U (clause_tokens k o) -> exists ls, writes_clause U (4 * n) k o ls /\ text_of ls = clause_text n k o).
Proof.
  intros U. apply stmt_mutual.
  - intros s n (FI & _) W. cbn [stmt_tokens] in W. pieces. destruct (row_written U n (smalls_tokens s)) as (x & R & T); [apply opener_some, smalls_opener, FI|apply tame_smalls, FI|assumption|].
    exists [x]. split; [constructor; exact R|]. cbn [text_of flat_map stmt_text]. rewrite app_nil_r. exact T.
  - intros e b IB es IE o IO n (FE & FB & FES & FO) W. cbn [stmt_tokens] in W. pieces.
    destruct (IB n (if_head PyIf e)) as (l1 & W1 & T1); auto; [discriminate|apply tame_if_head; [tmark|exact FE]|].
    destruct (IE n) as (l2 & W2' & T2); auto. destruct (IO n PyElse) as (l3 & W3' & T3); auto; [tmark|].
    exists (l1 ++ l2 ++ l3). split; [econstructor; eassumption|]. rewrite !text_app, T1, T2, T3. reflexivity.
  - intros e b IB o IO n (FE & FB & FO) W. cbn [stmt_tokens] in W. pieces.
    destruct (IB n (if_head PyWhile e)) as (l1 & W1 & T1); auto; [discriminate|apply tame_if_head; [tmark|exact FE]|].
    destruct (IO n PyElse) as (l3 & W3' & T3); auto; [tmark|].
    exists (l1 ++ l3). split; [econstructor; eassumption|]. rewrite !text_app, T1, T3. reflexivity.
  - intros y a r b IB o IO n ((FA & _) & (FR & _) & FB & FO) W. cbn [stmt_tokens] in W.
    unfold can_write in W. apply Forall_app in W as (W0 & W). apply Forall_app in W as (W5 & W6).
    destruct (IB n (for_head y a r)) as (l1 & W1 & T1); auto; [destruct y; discriminate|apply tame_for_head; assumption|].
    destruct (IO n PyElse) as (l3 & W3' & T3); auto; [tmark|].
    exists (l1 ++ l3). split; [econstructor; eassumption|]. rewrite !text_app, T1, T3. reflexivity.
  - intros b IB hs IH o IO f IF n (FB & FH & FO & FF & _) W. cbn [stmt_tokens] in W. pieces.
    destruct (IB n (word_head PyTry)) as (l1 & W1' & T1); auto; [discriminate|apply tame_word_head; tmark|].
    destruct (IH n) as (l2 & W2' & T2); auto. destruct (IO n PyElse) as (l3 & W3' & T3); auto; [tmark|]. destruct (IF n PyFinally) as (l4 & W4' & T4); auto; [tmark|].
    exists (l1 ++ l2 ++ l3 ++ l4). split; [econstructor; eassumption|]. rewrite !text_app, T1, T2, T3, T4. reflexivity.
  - intros y br i is b IB n (FI & _ & FB) W. cbn [stmt_tokens] in W. unfold can_write in W. apply Forall_app in W as (W0 & W).
    destruct (IB n (with_head y br i is)) as (l1 & W1 & T1); auto; [destruct y; discriminate|apply tame_with_head; assumption|].
    exists l1. split; [constructor; exact W1|exact T1].
  - intros m bs b IB n (FI & FB) W. cbn [stmt_tokens] in W. unfold can_write in W. apply Forall_app in W as (W0 & W).
    destruct (IB n (class_head m bs)) as (l1 & W1 & T1); auto; [discriminate|apply tame_class_head; assumption|].
    exists l1. split; [constructor; exact W1|exact T1].
  - intros m r b IB n (FI & FB) W. cbn [stmt_tokens] in W. unfold can_write in W. apply Forall_app in W as (W0 & W).
    destruct (IB n (def_head m r)) as (l1 & W1 & T1); auto; [discriminate|apply tame_def_head; assumption|].
    exists l1. split; [constructor; exact W1|exact T1].
  - intros s n h FI N T WH W. cbn [suite_tokens] in W. unfold can_write in W. apply Forall_app in W as (W0 & _).
    destruct (row_written U n (h ++ smalls_tokens s)) as (x & R & X).
    + intros Z. apply app_eq_nil in Z. destruct Z. auto.
    + apply tame_app; [exact T|apply tame_smalls, FI].
    + apply Forall_app. auto.
    + exists [x]. split; [constructor; exact R|]. cbn [text_of flat_map suite_text]. rewrite app_nil_r. exact X.
  - intros b IB n h FI N T WH W. cbn [suite_tokens] in W. unfold can_write in W. apply Forall_inv_tail, Forall_inv_tail in W. apply Forall_app in W as (W0 & _).
    destruct (row_written U n h N T WH) as (x & R & X). destruct (IB (S n) FI W0) as (ls & W1 & T1).
    exists (x :: ls). split; [eapply W_block; [exact R| |exact W1]; lia|]. cbn [text_of flat_map suite_text]. fold (text_of ls). rewrite X, T1. reflexivity.
  - intros s IS n FI W. destruct (IS n FI W) as (ls & W1 & T1). exists ls. split; [constructor; exact W1|exact T1].
  - intros s IS b IB n (FS & FB) W. cbn [block_tokens] in W. unfold can_write in W. apply Forall_app in W as (W0 & W).
    destruct (IS n FS W0) as (l1 & W1 & T1). destruct (IB n FB W) as (l2 & W2 & T2). exists (l1 ++ l2). split; [constructor; assumption|].
    rewrite text_app, T1, T2. reflexivity.
  - intros n _ _. exists []. split; constructor.
  - intros e b IB es IE n (FE & FB & FES) W. cbn [elifs_tokens] in W. pieces.
    destruct (IB n (if_head PyElif e)) as (l1 & W1 & T1); auto; [discriminate|apply tame_if_head; [tmark|exact FE]|].
    destruct (IE n) as (l2 & W2' & T2); auto. exists (l1 ++ l2). split; [constructor; assumption|]. rewrite !text_app, T1, T2. reflexivity.
  - intros n _ _. exists []. split; constructor.
  - intros st w b IB hs IH n (FW & FB & FH) W. cbn [handlers_tokens] in W. unfold can_write in W. apply Forall_app in W as (W0 & W). apply Forall_app in W as (W5 & W6).
    destruct (IB n (except_head st w)) as (l1 & W1 & T1); auto; [discriminate|apply tame_except_head, FW|].
    destruct (IH n) as (l2 & W2' & T2); auto. exists (l1 ++ l2). split; [constructor; assumption|]. rewrite !text_app, T1, T2. reflexivity.
  - intros n k _ _ _. exists []. split; constructor.
  - intros b IB n k FI T W. cbn [clause_tokens] in W. unfold can_write in W. apply Forall_app in W as (W0 & W).
    destruct (IB n (word_head k)) as (l1 & W1 & T1); auto; [discriminate|apply tame_word_head, T|]. exists l1. split; [constructor; exact W1|exact T1].
Qed.
Theorem module_printed : forall U m, Forall stmt_fits m -> module_writable U m -> exists xs, writes_module U m xs /\ text_of xs = module_text m.
Proof.
  intros U m FI W. induction FI as [|s m F1 F2 IH]; [exists []; split; constructor|].
  unfold module_writable, module_tokens in W. cbn [flat_map] in W. apply Forall_app in W as (W1 & W2).
  destruct (proj1 (printed U) s 0 F1 W1) as (l1 & A1 & T1). destruct (IH W2) as (l2 & A2 & T2). exists (l1 ++ l2). split; [constructor; assumption|].
  rewrite text_app, T1, T2. reflexivity.
Qed.
Theorem module_text_parsed : forall U m, module_fits m -> module_writable U m ->
  exists a b ys t s', parsed U F_file_input (fresh (module_text m)) (FileInput a b ys [] t) s' /\ module_of (FileInput a b ys [] t) = Some m.
Proof. intros U m FI W. destruct (module_printed U m (proj1 FI) W) as (xs & WM & <-). eapply module_parsed; eassumption. Qed.
Theorem module_text_injective : forall U m1 m2, module_fits m1 -> module_fits m2 -> module_writable U m1 -> module_writable U m2 ->
  module_text m1 = module_text m2 -> m1 = m2.
Proof.
  intros U m1 m2 F1 F2 W1 W2 E. destruct (module_printed U m1 (proj1 F1) W1) as (xs & A1 & T1). destruct (module_printed U m2 (proj1 F2) W2) as (ys & A2 & T2).
  eapply (module_unambiguous U m1 m2 xs ys); try eassumption. congruence.
Qed.
