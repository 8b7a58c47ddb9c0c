(** Files written one after the other: C66. *)
From Coq Require Import List Arith Bool NArith.
From Verif Require Import Chars SourceBuffer Token Tokenizer LexSpec Node NodeView ParserState Parser ParseBasics ParseSpec TermStable ExprSpec StmtSpec
  PythonGrammar PythonSpec CodedGrammar CodedSpec CodedBlocks LayoutSpec JoinLexer JoinSpec JoinProofs JoinFiles PropertiesExpr PropertiesStmt PropertiesCoded.
Import ListNotations.
Local Open Scope nat_scope.

(** C66.  If a text ends with a line feed that ends a line, and either no block is open there or the next text begins with a line
    that is neither blank nor indented, the tokens of both texts together are those of the one followed by those of the other. *)
Theorem C66_tokens_joined : forall U text1 ts1 n text2 ts2, reads_as U text1 ts1 -> ends_line text1 ts1 n -> reads_as U text2 ts2 -> n = 0 \/ flush text2 ->
  exists ts, reads_as U (text1 ++ text2) ts /\ Forall2 same_face (ts1 ++ ts2) ts /\
    (forall k, ends_line text2 ts2 k -> ends_line (text1 ++ text2) ts k).
Proof. exact tokens_joined. Qed.
Print Assumptions C66_tokens_joined.
Theorem C66_chain_joined : forall U texts tss n, chained U texts tss n ->
  exists ts, reads_as U (concat texts) ts /\ ends_line (concat texts) ts n /\ Forall2 same_face (concat tss) ts.
Proof. exact chain_joined. Qed.
Print Assumptions C66_chain_joined.

(** If both are accepted, so are they together, and the module of both together is the statements of the one followed by
    those of the other. *)
Theorem C66_files_joined : forall U text1 ts1 n text2, reads_as U text1 ts1 -> ends_line text1 ts1 n -> n = 0 \/ flush text2 ->
  (exists x s', parsed U F_file_input (fresh text1) x s' /\ plain x) ->
  (exists x s', parsed U F_file_input (fresh text2) x s' /\ plain x) ->
  exists x s', parsed U F_file_input (fresh (text1 ++ text2)) x s' /\ plain x.
Proof. exact files_joined. Qed.
Print Assumptions C66_files_joined.
Theorem C66_modules_joined : forall U text1 ts1 n text2 m1 m2, reads_as U text1 ts1 -> ends_line text1 ts1 n -> n = 0 \/ flush text2 ->
  (exists x s', parsed U F_file_input (fresh text1) x s' /\ module_of x = Some m1) ->
  (exists x s', parsed U F_file_input (fresh text2) x s' /\ module_of x = Some m2) ->
  exists x s', parsed U F_file_input (fresh (text1 ++ text2)) x s' /\ module_of x = Some (m1 ++ m2).
Proof. exact modules_joined. Qed.
Print Assumptions C66_modules_joined.
Theorem C66_modules_chained : forall U texts tss n, chained U texts tss n ->
  forall ms, Forall2 (fun text m => exists x s', parsed U F_file_input (fresh text) x s' /\ module_of x = Some m) texts ms ->
  exists x s', parsed U F_file_input (fresh (concat texts)) x s' /\ module_of x = Some (concat ms).
Proof. exact modules_chained. Qed.
Print Assumptions C66_modules_chained.

(** Cases: a block left open by the first of three texts, the last of which begins with a blank line and a comment. *)
Definition got (text : str) : list token := flat_map (fun e => match e with inl t => [t] | inr _ => [] end) (LayoutSpec.scanned ascii_only text).
Definition read (text : str) : list token := removelast (got text).
Definition text_a : str := $"if a :" ++ [LF] ++ $"  b" ++ [LF].
Definition text_b : str := $"while c : d" ++ [LF].
Definition text_c : str := [LF] ++ $"# rest" ++ [LF] ++ $"e = f" ++ [LF].
Lemma reads_it : forall text, LayoutSpec.scanned ascii_only text = map inl (read text ++ [last (got text) dedent_token]) ->
  tk_kind (last (got text) dedent_token) = T_EOF -> reads_as ascii_only text (read text).
Proof. intros text A B. eexists. split; [exact A|exact B]. Qed.
Ltac read_it := apply reads_it; vm_compute; reflexivity.
Example C66_reads : reads_as ascii_only text_a (read text_a) /\ reads_as ascii_only text_b (read text_b) /\ reads_as ascii_only text_c (read text_c).
Proof. split; [read_it|split; read_it]. Qed.
Lemma ends_at : forall text ts k n s, ts = firstn k ts ++ nth k ts dedent_token :: skipn (S k) ts -> tk_kind (nth k ts dedent_token) = T_Newline ->
  tk_payload (nth k ts dedent_token) = Token.Break LF SP -> tk_span (nth k ts dedent_token) = Range s (length text) -> map tk_kind (skipn (S k) ts) = repeat T_Dedent n ->
  ends_line text ts n.
Proof. intros text ts k n s A B C D E. exists (firstn k ts), (nth k ts dedent_token), (skipn (S k) ts), s. auto. Qed.
Example C66_ends : ends_line text_a (read text_a) 1 /\ ends_line text_b (read text_b) 0 /\ ends_line text_c (read text_c) 0.
Proof.
  split; [apply ends_at with (k := 6) (s := 10); vm_compute; reflexivity|].
  split; [apply ends_at with (k := 4) (s := 11); vm_compute; reflexivity|].
  apply ends_at with (k := 3) (s := 13); vm_compute; reflexivity.
Qed.
Example C66_flush : flush text_b /\ ~ flush text_c.
Proof.
  split; [exists #"w", ($"hile c : d" ++ [LF]); split; [reflexivity|]; cbn; intuition discriminate|].
  intros (c & r & E & N). injection E as <- _. apply N. cbn. tauto.
Qed.
Example C66_chained : chained ascii_only [text_a; text_b; text_c] [read text_a; read text_b; read text_c] 0.
Proof.
  destruct C66_reads as (A & B & C), C66_ends as (EA & EB & EC).
  apply (chained_more ascii_only [text_a; text_b] [read text_a; read text_b] 0 text_c (read text_c) 0); [|exact C|exact EC|left; reflexivity].
  apply (chained_more ascii_only [text_a] [read text_a] 1 text_b (read text_b) 0); [|exact B|exact EB|right; exact (proj1 C66_flush)].
  exact (chained_one ascii_only text_a (read text_a) 1 A EA).
Qed.
Definition calling (e : ast) : StmtSpec.stmt := Simple (Smalls (Eval (one e)) [] false).
Definition if_a : StmtSpec.stmt := IfStmt (nm $"a") (Block (Last (calling (nm $"b")))) NoElif Absent.
Definition while_c : StmtSpec.stmt := WhileStmt (nm $"c") (Inline (Smalls (Eval (one (nm $"d"))) [] false)) Absent.
Definition set_e : StmtSpec.stmt := Simple (Smalls (Assign (one (nm $"e")) (Values (one (nm $"f"))) []) [] false).
Example C66_case : map parsed_module [text_a; text_b; text_c; text_a ++ text_b ++ text_c] = [Some [if_a]; Some [while_c]; Some [set_e]; Some [if_a; while_c; set_e]].
Proof. vm_compute. reflexivity. Qed.

(** Without the condition on the second text the claim is false: where a block is open, the line after a blank line or a comment
    is taken for one of the block whatever its indentation. *)
Definition text_d : str := $"# rest" ++ [LF] ++ $"d" ++ [LF].
Lemma module_parsed : forall text m, parsed_module text = Some m -> exists x s', parsed ascii_only F_file_input (fresh text) x s' /\ module_of x = Some m.
Proof.
  intros text m H. unfold parsed_module in H. destruct (run ascii_only 400 F_file_input (fresh text)) as [x s'| | |] eqn:E; try discriminate H.
  exists x, s'. split; [exists 400; exact E|exact H].
Qed.
Theorem C66_open_block_refuted : exists text1 ts1 text2 m1 m2 m, reads_as ascii_only text1 ts1 /\ ends_line text1 ts1 1 /\
  (exists x s', parsed ascii_only F_file_input (fresh text1) x s' /\ module_of x = Some m1) /\
  (exists x s', parsed ascii_only F_file_input (fresh text2) x s' /\ module_of x = Some m2) /\
  (exists x s', parsed ascii_only F_file_input (fresh (text1 ++ text2)) x s' /\ module_of x = Some m) /\ length m <> length (m1 ++ m2).
Proof.
  exists text_a, (read text_a), text_d, [if_a], [calling (nm $"d")],
    [IfStmt (nm $"a") (Block (Then (calling (nm $"b")) (Last (calling (nm $"d"))))) NoElif Absent].
  split; [exact (proj1 C66_reads)|]. split; [exact (proj1 C66_ends)|]. split; [apply module_parsed; vm_compute; reflexivity|].
  split; [apply module_parsed; vm_compute; reflexivity|]. split; [apply module_parsed; vm_compute; reflexivity|discriminate].
Qed.
Print Assumptions C66_open_block_refuted.

(** Nor may the line of the first text end with CR LF, which takes the first character of the second text with it. *)
Definition text_e : str := $"a" ++ [CR; LF].
Definition text_f : str := $"b = c" ++ [LF].
Theorem C66_carriage_return_refuted : exists text1 ts1 text2 ts2 m1 m2, reads_as ascii_only text1 ts1 /\ map tk_kind ts1 = [T_AtomName; T_Newline] /\
  reads_as ascii_only text2 ts2 /\ flush text2 /\
  (exists x s', parsed ascii_only F_file_input (fresh text1) x s' /\ module_of x = Some m1) /\
  (exists x s', parsed ascii_only F_file_input (fresh text2) x s' /\ module_of x = Some m2) /\
  (exists ts, reads_as ascii_only (text1 ++ text2) ts /\ map tk_kind ts <> map tk_kind (ts1 ++ ts2)) /\
  rejects ascii_only F_file_input (fresh (text1 ++ text2)).
Proof.
  exists text_e, (read text_e), text_f, (read text_f), [calling (nm $"a")], [Simple (Smalls (Assign (one (nm $"b")) (Values (one (nm $"c"))) []) [] false)].
  split; [read_it|]. split; [vm_compute; reflexivity|]. split; [read_it|].
  split; [exists #"b", ($" = c" ++ [LF]); split; [reflexivity|]; cbn; intuition discriminate|].
  split; [apply module_parsed; vm_compute; reflexivity|]. split; [apply module_parsed; vm_compute; reflexivity|].
  split; [exists (read (text_e ++ text_f)); split; [read_it|vm_compute; discriminate]|].
  apply stuck_rejects. vm_compute. reflexivity.
Qed.
Print Assumptions C66_carriage_return_refuted.
