(** Tokenizer properties about lines, trivia and whole texts: C21-C29. *)
From Coq Require Import ZArith Arith Lia.
From Verif Require Import Chars SourceBuffer Token Tokenizer LexSpec TokenSpec RenderSpec HistoryProofs
  TilingProofs Compose LayoutProofs RoundTrip LexCorollaries WellFormed PropertiesLex2.

Definition kinds_on (text : str) : list kind := kinds_of (lex_all ascii_only 40 (lexer_new text)).

(** C21.  After a Newline token that ends where the text ends (or a NUL stands), the calls return
    one Dedent per open level, then EOF, and Indents and Dedents are equal in number.  (Missing from
    the full claim: texts not ending in a Newline token, for which it is false, see [C21_refuted].) *)
Theorem C21_final_newline_partial : forall U text evs l t l' s e, history U text evs l -> get_symbol U l = LOk t l' ->
  tk_kind t = T_Newline -> tk_span t = Range s e -> nth e text NUL = NUL ->
  exists n l'', calls U l' (repeat dedent_token n ++ [Tok T_EOF (At e) None NoPayload]) l'' /\
    let ks := kinds_of evs ++ T_Newline :: repeat T_Dedent n ++ [T_EOF] in count T_Indent ks = count T_Dedent ks.
Proof. exact final_newline. Qed.
Print Assumptions C21_final_newline_partial.

(** C21 as claimed is false: no Dedent without a final line break, nor after a final blank line. *)
Theorem C21_refuted : exists text1 text2,
  kinds_on text1 = [T_AtomName; T_Newline; T_Indent; T_AtomName; T_EOF] /\
  kinds_on text2 = [T_AtomName; T_Newline; T_Indent; T_AtomName; T_Newline; T_EOF].
Proof. exists ($"a" ++ [LF] ++ $" b"), ($"a" ++ [LF] ++ $" b" ++ [LF; LF]). vm_compute. auto. Qed.
Print Assumptions C21_refuted.

Example C21_case : kinds_on ($"a" ++ [LF] ++ $" b" ++ [LF] ++ $"  c" ++ [LF]) =
  [T_AtomName; T_Newline; T_Indent; T_AtomName; T_Newline; T_Indent; T_AtomName; T_Newline; T_Dedent; T_Dedent; T_EOF].
Proof. vm_compute. reflexivity. Qed.

(** C22 as claimed is false: no call ever returns the indentation error, *)
Theorem C22_never_rejected : forall U text evs l e l', history U text evs l -> get_symbol U l = LErr e l' ->
  e <> EMsg "Inconsistent indentation level in block control!".
Proof. exact no_indentation_error. Qed.
Print Assumptions C22_never_rejected.

(** and a line indented to no open level just returns Dedents and goes on inside the level below
    its column. *)
Theorem C22_loose_dedent_refuted : forall U text evs l w r k, history U text evs l -> lx_bol l = true -> lx_parens l = [] ->
  lx_rest l = w ++ r -> column_of w k -> ~ blank_char (hd NUL r) -> ~ blank_line_start (hd NUL r) ->
  (k < hd 0 (lx_indents l))%nat -> ~ In k (lx_indents l) ->
  exists n l', (0 < n)%nat /\ calls U l (repeat dedent_token n) l' /\
    get_symbol U l' = get_symbol U (at_position text (lx_pos l + length w) [] (lx_indents l')) /\
    (hd 0 (lx_indents l') < k)%nat.
Proof. exact loose_dedent. Qed.
Print Assumptions C22_loose_dedent_refuted.

Theorem C22_refuted : kinds_on ($"a" ++ [LF] ++ $"   b" ++ [LF] ++ $" c" ++ [LF]) =
  [T_AtomName; T_Newline; T_Indent; T_AtomName; T_Newline; T_Dedent; T_AtomName; T_Newline; T_EOF].
Proof. vm_compute. reflexivity. Qed.
Print Assumptions C22_refuted.

(** C23.  At the start of a blank, comment or backslash line a call returns no layout token and
    leaves the levels alone.  (Missing from the full claim: the lines that follow in the same call
    are read likewise, without their indentation, see [C23_refuted].) *)
Theorem C23_blank_line_partial : forall U l w r, lx_bol l = true -> lx_pending l = 0%Z ->
  lx_rest l = w ++ r -> Forall blank_char w -> blank_line_start (hd NUL r) ->
  match get_symbol U l with
  | LOk t l' => tk_kind t <> T_Newline /\ tk_kind t <> T_Indent /\ tk_kind t <> T_Dedent /\
                lx_indents l' = lx_indents l /\ lx_pending l' = 0%Z
  | LErr e l' => lx_indents l' = lx_indents l /\ lx_pending l' = 0%Z
  | LFuel => False
  end.
Proof. exact blank_line_call. Qed.
Print Assumptions C23_blank_line_partial.

(** C23 as claimed is false: a comment line before an indented line hides its Indent, before an
    unindented one its Dedent. *)
Theorem C23_refuted :
  kinds_on ($"a" ++ [LF] ++ $" b" ++ [LF] ++ $"c" ++ [LF]) =
    [T_AtomName; T_Newline; T_Indent; T_AtomName; T_Newline; T_Dedent; T_AtomName; T_Newline; T_EOF] /\
  kinds_on ($"a" ++ [LF] ++ $"#" ++ [LF] ++ $" b" ++ [LF] ++ $"c" ++ [LF]) =
    [T_AtomName; T_Newline; T_AtomName; T_Newline; T_AtomName; T_Newline; T_EOF] /\
  kinds_on ($"a" ++ [LF] ++ $" b" ++ [LF] ++ $"#" ++ [LF] ++ $"c" ++ [LF]) =
    [T_AtomName; T_Newline; T_Indent; T_AtomName; T_Newline; T_AtomName; T_Newline; T_Dedent; T_EOF].
Proof. vm_compute. auto. Qed.
Print Assumptions C23_refuted.

(** C24.  A Newline token covers a line break as the code reads it, *)
Theorem C24_newline_as_coded : forall U text evs l t l', history U text evs l -> get_symbol U l = LOk t l' ->
  tk_kind t = T_Newline ->
  exists s n, tk_span t = Range s (s + n) /\ line_break_as_coded (skipn s text) n /\
    tk_payload t = Break (hd NUL (skipn s text)) (if Nat.eqb n 3 then LF else SP) /\
    lx_bol l' = true /\ lx_parens l' = [] /\ lx_pos l' = (s + n)%nat /\ lx_pending l' = 0%Z.
Proof. exact newline_sound. Qed.
Print Assumptions C24_newline_as_coded.

(** which is the line break unless it is CR LF.  (Missing from the full claim: CR LF.) *)
Theorem C24_exact_unless_crlf_partial : forall r n, line_break_as_coded r n -> ~ prefix_of [CR; LF] r -> line_break r n.
Proof. exact coded_exact. Qed.
Print Assumptions C24_exact_unless_crlf_partial.

(** C24.  Trivia likewise ([trivia_source] gives the text of each trivia). *)
Theorem C24_trivia_sources : forall U text evs l t l' tr, history U text evs l -> get_symbol U l = LOk t l' ->
  tk_trivia t = Some tr -> forall x, In x tr -> trivia_source text x.
Proof. exact token_trivia_sources. Qed.
Print Assumptions C24_trivia_sources.

(** C24 as claimed is false: CR LF swallows the character after it. *)
Theorem C24_refuted : exists text evs l, history ascii_only text evs l /\ kinds_of evs = [T_AtomName; T_Newline; T_EOF] /\
  text = [#"a"; CR; LF; #"b"] /\ map tk_span (tokens_of evs) = [Range 0 1; Range 1 4; At 4].
Proof.
  eexists [#"a"; CR; LF; #"b"], _, _. split; [apply (history_of_run _ _ 3); vm_compute; reflexivity|]. vm_compute. auto.
Qed.
Print Assumptions C24_refuted.

(** C25.  At the start of a line that is not blank, its column decides: the same level goes on with
    the line, a deeper one returns Indent, a shallower one a Dedent per level left. *)
Theorem C25_line_start : forall U text evs l w r k, history U text evs l -> lx_bol l = true -> lx_parens l = [] ->
  lx_rest l = w ++ r -> column_of w k -> ~ blank_char (hd NUL r) -> ~ blank_line_start (hd NUL r) ->
  let p := (lx_pos l + length w)%nat in
  let top := hd 0%nat (lx_indents l) in
  (k = top -> get_symbol U l = get_symbol U (at_position text p [] (lx_indents l))) /\
  ((top < k)%nat -> exists l', get_symbol U l = LOk indent_token l' /\
     get_symbol U l' = get_symbol U (at_position text p [] (k :: lx_indents l)) /\ lx_indents l' = k :: lx_indents l) /\
  ((k < top)%nat -> exists popped kept l', lx_indents l = popped ++ kept /\ popped <> [] /\
     Forall (fun c => (k < c)%nat) popped /\ (hd 0 kept <= k)%nat /\
     calls U l (repeat dedent_token (length popped)) l' /\
     get_symbol U l' = get_symbol U (at_position text p [] kept) /\ lx_indents l' = kept).
Proof. intros U text evs l w r k H. exact (line_start_call U text l w r k (history_ok _ _ _ _ H)). Qed.
Print Assumptions C25_line_start.

(** C25.  Every run of blanks and tabs has exactly one column. *)
Theorem C25_column_exists : forall w, Forall blank_char w -> exists k, column_of w k /\ forall k', column_of w k' -> k' = k.
Proof.
  intros w F. exists (LineLemmas.column w). split; [exact (column_of_total w F)|].
  intros k' H. apply (column_of_column w k' H).
Qed.
Print Assumptions C25_column_exists.

Example C25_case : column_of [SP; TAB; SP] 5 /\
  kinds_on ($"a" ++ [LF; SP; TAB; SP] ++ $"b" ++ [LF; TAB; SP] ++ $"c" ++ [LF]) =
  [T_AtomName; T_Newline; T_Indent; T_AtomName; T_Newline; T_AtomName; T_Newline; T_Dedent; T_EOF].
Proof.
  split; [|vm_compute; reflexivity]. apply (CO_blank [SP; TAB] 4). apply (CO_tab [SP] 1).
  - apply (CO_blank [] 0). constructor.
  - split; [lia|]. split; [lia|]. exists 1%nat. reflexivity.
Qed.

(** C26.  A comment is a type comment token or trivia of the token after it. *)
Theorem C26_comment : forall U l w r, mid_line l -> lx_rest l = w ++ r -> comment_run w r ->
  get_symbol U l =
    if starts_with $"# type:" w
    then LOk (Tok T_TypeComment (Range (lx_pos l) (lx_pos l + length w)) None (Text w)) (after l (length w))
    else first_trivia (Comment (lx_pos l) (lx_pos l + length w) w) (get_symbol U (after l (length w))).
Proof. exact comment_call. Qed.
Print Assumptions C26_comment.

(** C26.  Every type comment token is such a run.  (Comment trivia: [C24_trivia_sources].) *)
Theorem C26_type_comment_token : forall U text evs l t l', history U text evs l -> get_symbol U l = LOk t l' ->
  tk_kind t = T_TypeComment ->
  exists s w r, tk_span t = Range s (s + length w) /\ tk_payload t = Text w /\ skipn s text = w ++ r /\
    comment_run w r /\ starts_with $"# type:" w = true.
Proof. exact type_comment_sound. Qed.
Print Assumptions C26_type_comment_token.

Example C26_case : comment_run $"# type: int" [LF] /\
  (exists l', get_symbol ascii_only (inside ($"# type: int" ++ [LF])) =
     LOk (Tok T_TypeComment (Range 0 11) None (Text $"# type: int")) l') /\
  (exists l', get_symbol ascii_only (inside ($"#type:" ++ [LF])) =
     LOk (Tok T_Newline (Range 6 7) (Some [Comment 0 6 $"#type:"]) (Break LF SP)) l').
Proof.
  split; [|split; eexists; vm_compute; reflexivity]. split; [reflexivity|]. split; [|cbn; auto].
  apply Forall_forall. intros c I. apply comment_char_spec. revert c I. apply forallb_forall. vm_compute. reflexivity.
Qed.

(** C27.  Backslash and line break. *)
Theorem C27_continuation : forall U l r n, mid_line l -> lx_rest l = BSL :: r -> line_break r n ->
  get_symbol U l = first_trivia
    (LineContinuation (lx_pos l) (lx_pos l + (1 + n)) BSL (hd NUL r) (if Nat.eqb n 2 then LF else SP))
    (get_symbol U (after l (1 + n))).
Proof. exact continuation_call. Qed.
Print Assumptions C27_continuation.

Theorem C27_continuation_error : forall U l r, mid_line l -> lx_rest l = BSL :: r -> (forall n, ~ line_break r n) ->
  get_symbol U l = LErr (EAt "Line continuation at {} not followed by newline!" (lx_pos l)) (after l 0).
Proof. exact bad_continuation_call. Qed.
Print Assumptions C27_continuation_error.

Example C27_case :
  (exists l', get_symbol ascii_only (inside [BSL; CR; LF; #"a"]) =
     LOk (Tok T_AtomName (Range 3 4) (Some [LineContinuation 0 3 BSL CR LF]) (Text $"a")) l') /\
  (exists l', get_symbol ascii_only (inside [BSL; #"a"]) = LErr (EAt "Line continuation at {} not followed by newline!" 0) l').
Proof. split; eexists; vm_compute; reflexivity. Qed.

(** C28.  A character that starts nothing is an error; nothing is skipped, now and ever after. *)
Theorem C28_unknown_stays : forall U l, mid_line l -> starts_nothing U (lx_rest l) ->
  let e := lexical_error (lx_pos l) (hd NUL (lx_rest l)) in
  get_symbol U l = LErr e (after l 0) /\ get_symbol U (after l 0) = LErr e (after l 0) /\ lx_pos (after l 0) = lx_pos l.
Proof. exact unknown_stays. Qed.
Print Assumptions C28_unknown_stays.

(** C28.  The error is returned for such characters only. *)
Theorem C28_unknown_only : forall U text evs l m p c l', history U text evs l -> get_symbol U l = LErr (EAtChar m p c) l' ->
  EAtChar m p c = lexical_error p (nth p text NUL) /\ starts_nothing U (skipn p text) /\ lx_pos l' = p.
Proof. exact unknown_sound. Qed.
Print Assumptions C28_unknown_only.

Example C28_case : exists l', get_symbol ascii_only (inside $"?x") = LErr (lexical_error 0 #"?") l' /\
  get_symbol ascii_only l' = LErr (lexical_error 0 #"?") l'.
Proof. eexists. split; [vm_compute; reflexivity|vm_compute; reflexivity]. Qed.

(** C29.  Whole texts: lines of tokens, indented in any way, are read back exactly. *)
Theorem C29_round_trip : forall U xs ts, program U [0%nat] xs ts ->
  forall n, (length ts <= n)%nat -> map seen (lex_all U n (lexer_new (text_of xs))) = map Some ts.
Proof. exact round_trip. Qed.
Print Assumptions C29_round_trip.

Definition C29_line1 : line := Line [] (Item [] $"if" PyIf NoPayload)
  [Item [SP] $"x" T_AtomName (Text $"x"); Item [TAB] $":" PyColon NoPayload].
Definition C29_line2 : line := Line [TAB] (Item [] $"y" T_AtomName (Text $"y"))
  [Item [SP] $"=" PyAssign NoPayload; Item [SP; SP] $"1.5" T_AtomNumber (Text $"1.5")].
Definition C29_line3 : line := Line [] (Item [] [SQ; SQ] T_AtomString (StringLit [SQ; SQ] None)) [].

Example C29_case : program ascii_only [0%nat] [C29_line1; C29_line2; C29_line3]
  [(PyIf, NoPayload); (T_AtomName, Text $"x"); (PyColon, NoPayload); (T_Newline, Break LF SP); (T_Indent, NoPayload);
   (T_AtomName, Text $"y"); (PyAssign, NoPayload); (T_AtomNumber, Text $"1.5"); (T_Newline, Break LF SP); (T_Dedent, NoPayload);
   (T_AtomString, StringLit [SQ; SQ] None); (T_Newline, Break LF SP); (T_EOF, NoPayload)].
Proof.
  assert (NM : forall c, is_alphabetic ascii_only c = true -> ~ In [c] (map fst reserved) -> plain ascii_only [c] T_AtomName (Text [c])).
  { intros c A N. apply PL_name; auto; [discriminate|right; auto|]. constructor; [right; left; auto|constructor]. }
  assert (D1 : forall d, is_digit d = true -> d <> #"_" -> digitpart is_digit [d]).
  { intros d D N. split; [apply UD_digit; [auto|constructor]|]. split; [discriminate|auto]. }
  apply (PR_same _ [0%nat] C29_line1 _ _).
  { split; [constructor|]. split; [|split].
    - apply Forall_cons; [apply PL_keyword; vm_compute; tauto|]. apply Forall_cons; [|apply Forall_cons; [|apply Forall_nil]].
      + apply NM; [reflexivity|]. vm_compute. intuition discriminate.
      + apply PL_operator; vm_compute; tauto.
    - repeat (apply Forall_cons; [split; [discriminate|]; repeat (apply Forall_cons; [unfold blank_char; cbn; tauto|]); apply Forall_nil|]).
      apply Forall_nil.
    - reflexivity. }
  apply (PR_deeper _ [0%nat] C29_line2 4).
  { split; [|split; [|split]].
    - apply (CO_tab [] 0); [constructor|]. split; [lia|]. split; [lia|]. exists 1%nat. reflexivity.
    - apply Forall_cons; [|apply Forall_cons; [|apply Forall_cons; [|apply Forall_nil]]].
      + apply NM; [reflexivity|]. vm_compute. intuition discriminate.
      + apply PL_operator; vm_compute; tauto.
      + apply PL_number. apply (PD_int $"1" (#"." :: $"5") [] []); try reflexivity.
        * apply D1; [reflexivity|discriminate].
        * right. right. exists $"5". split; [reflexivity|apply D1; [reflexivity|discriminate]].
        * left. reflexivity.
        * cbn. auto.
    - repeat (apply Forall_cons; [split; [discriminate|]; repeat (apply Forall_cons; [unfold blank_char; cbn; tauto|]); apply Forall_nil|]).
      apply Forall_nil.
    - reflexivity. }
  { cbn. lia. }
  apply (PR_back _ [4%nat; 0%nat] C29_line3 0).
  { split; [constructor|]. split; [|split].
    - apply Forall_cons; [|apply Forall_nil]. apply PL_string. apply (ST_single SQ []); [left; reflexivity|constructor|]. intros _. discriminate.
    - constructor.
    - reflexivity. }
  { cbn. lia. }
  apply (PR_end _ [0%nat]).
Qed.
