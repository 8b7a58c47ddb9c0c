(** Tokenizer properties about the individual tokens: C06-C17, C45. *)
From Coq Require Import ZArith Arith.
From Verif Require Import Chars SourceBuffer Token Tokenizer LexSpec TokenSpec HistoryProofs TilingProofs
  NumberProofs ZeroProofs WordProofs StringProofs TokenProofs LexCorollaries.

(** The tokenizer in the middle of the line [r]: the start state of most cases below. *)
Definition inside (r : str) : lexer := at_position r 0 [] [0%nat].

(** C06.  The trivia and tokens of the calls so far cover the consumed text in order and without
    overlap; only the leading blanks of a line may be missing.  (Missing from the full claim: the
    leading blanks are covered as well, see [C06_refuted].) *)
Theorem C06_tiling_partial : forall U text evs l, history U text evs l ->
  (forall ev, In ev evs -> exists t, ev = inl t) ->
  tiled text true 0 (flat_map pieces (tokens_of evs)) (lx_bol l) (lx_pos l).
Proof. exact history_tiled. Qed.
Print Assumptions C06_tiling_partial.

(** C06 as claimed is false: leading blanks are in no span. *)
Theorem C06_refuted : exists text evs l, history ascii_only text evs l /\
  (forall ev, In ev evs -> exists t, ev = inl t) /\
  ~ tiled_exactly 0 (flat_map pieces (tokens_of evs)) (lx_pos l).
Proof.
  exists [SP; #"a"]. eexists _, _. split; [apply (history_of_run _ _ 2); vm_compute; reflexivity|].
  split; [intros ev [<-|[<-|[]]]; eauto|]. vm_compute. intros H. inversion H.
Qed.
Print Assumptions C06_refuted.

Example C06_case : exists evs l, history ascii_only [#"a"; SP; SP; #"b"; #"#"; #"c"; LF] evs l /\
  flat_map pieces (tokens_of evs) =
  [PToken 0 1 false; PTrivia (WhiteSpace 1 3 SP); PToken 3 4 false; PTrivia (Comment 4 6 $"#c"); PToken 6 7 true] /\
  lx_pos l = 7%nat.
Proof. eexists _, _. split; [apply (history_of_run _ _ 3); vm_compute; reflexivity|]. vm_compute. auto. Qed.

(** C07.  Texts of tokens are source slices ([verbatim], with the one exception it lists). *)
Theorem C07_texts_verbatim : forall U text evs l t l' s e, history U text evs l -> get_symbol U l = LOk t l' ->
  tk_span t = Range s e -> verbatim text t s e.
Proof. exact token_verbatim. Qed.
Print Assumptions C07_texts_verbatim.

(** C07.  Texts of comments are source slices. *)
Theorem C07_comments_verbatim : forall U text evs l t l' tr s e w, history U text evs l -> get_symbol U l = LOk t l' ->
  tk_trivia t = Some tr -> In (Comment s e w) tr -> w = slice text s e.
Proof. exact comment_verbatim. Qed.
Print Assumptions C07_comments_verbatim.

Example C07_case : exists t l', get_symbol ascii_only (lexer_new $"f'x'+1") = LOk t l' /\
  tk_span t = Range 0 4 /\ tk_payload t = StringLit $"'x'" (Some $"f").
Proof. eexists _, _. vm_compute. auto. Qed.

(** The exception is real. *)
Example C07_zero_at_end : exists t l', get_symbol ascii_only (lexer_new $"0") = LOk t l' /\
  tk_span t = Range 0 2 /\ tk_payload t = Text [#"0"; NUL].
Proof. eexists _, _. vm_compute. auto. Qed.

(** C08.  An operator at the read position is taken, the longest one. *)
Theorem C08_operator_taken : forall U l w k, mid_line l -> longest_operator (lx_rest l) w k -> ~ dot_digit (lx_rest l) ->
  get_symbol U l = LOk (Tok k (Range (lx_pos l) (lx_pos l + length w)) None NoPayload) (after l (length w)).
Proof. exact operator_call. Qed.
Print Assumptions C08_operator_taken.

(** C08.  Every operator token is the longest table entry at its position. *)
Theorem C08_operator_longest : forall U text evs l t l', history U text evs l -> get_symbol U l = LOk t l' ->
  In (tk_kind t) (map snd operator_table) ->
  exists s w, tk_span t = Range s (s + length w) /\ longest_operator (skipn s text) w (tk_kind t) /\
    ~ dot_digit (skipn s text).
Proof. exact operator_sound. Qed.
Print Assumptions C08_operator_longest.

Example C08_case : longest_operator $"**=2" $"**=" PyPowerAssign /\
  exists l', get_symbol ascii_only (inside $"**=2") = LOk (Tok PyPowerAssign (Range 0 3) None NoPayload) l'.
Proof.
  assert (L : longest_operator $"**=2" $"**=" PyPowerAssign).
  { apply (operator_at_longest $"**=2" PyPowerAssign 3). vm_compute. reflexivity. }
  split; [exact L|]. eexists. apply (C08_operator_taken ascii_only (inside $"**=2") $"**=" PyPowerAssign); [split; reflexivity|exact L|].
  intros (d & r & E & _). discriminate E.
Qed.

(** C09.  A reserved word is its keyword. *)
Theorem C09_keyword_taken : forall U l w r k, mid_line l -> lx_rest l = w ++ r -> word_at U w r -> In (w, k) reserved ->
  get_symbol U l = LOk (Tok k (Range (lx_pos l) (lx_pos l + length w)) None NoPayload) (after l (length w)).
Proof. exact keyword_call. Qed.
Print Assumptions C09_keyword_taken.

(** C09.  A keyword token is a whole word and reserved. *)
Theorem C09_keyword_word : forall U text evs l t l', history U text evs l -> get_symbol U l = LOk t l' ->
  In (tk_kind t) (map snd reserved) ->
  exists s w r, tk_span t = Range s (s + length w) /\ skipn s text = w ++ r /\ word_at U w r /\
    In (w, tk_kind t) reserved.
Proof. exact keyword_sound. Qed.
Print Assumptions C09_keyword_word.

Example C09_case : word_at ascii_only $"in" $" x" /\ In ($"in", PyIn) reserved /\
  (exists l', get_symbol ascii_only (inside $"in x") = LOk (Tok PyIn (Range 0 2) None NoPayload) l') /\
  (exists l', get_symbol ascii_only (inside $"int") = LOk (Tok T_AtomName (Range 0 3) None (Text $"int")) l').
Proof.
  split; [|split; [cbn; auto 30|split; eexists; vm_compute; reflexivity]].
  split; [discriminate|]. split; [right; reflexivity|]. split.
  - repeat (apply Forall_cons; [right; left; reflexivity|]). apply Forall_nil.
  - intros [X|[X|X]]; discriminate X.
Qed.

(** C10.  A word that is not reserved and is not a prefix of a string is a name. *)
Theorem C10_name_taken : forall U l w r, mid_line l -> lx_rest l = w ++ r -> word_at U w r -> ~ In w (map fst reserved) ->
  ~ (string_prefix w /\ quote (hd NUL r)) ->
  get_symbol U l = LOk (Tok T_AtomName (Range (lx_pos l) (lx_pos l + length w)) None (Text w)) (after l (length w)).
Proof. exact name_call. Qed.
Print Assumptions C10_name_taken.

(** C10.  A name token is such a word. *)
Theorem C10_name_word : forall U text evs l t l', history U text evs l -> get_symbol U l = LOk t l' ->
  tk_kind t = T_AtomName ->
  exists s w r, tk_span t = Range s (s + length w) /\ tk_payload t = Text w /\ skipn s text = w ++ r /\ word_at U w r /\
    ~ In w (map fst reserved) /\ ~ (string_prefix w /\ quote (hd NUL r)).
Proof. exact name_sound. Qed.
Print Assumptions C10_name_word.

Example C10_case : exists U l', is_alphabetic U 955 = true /\
  get_symbol U (inside [955; #"1"; #"+"]) = LOk (Tok T_AtomName (Range 0 2) None (Text [955; #"1"])) l'.
Proof.
  eexists {| uni_alphabetic := fun c => c =? 955; uni_numeric := fun _ => false |}, _. vm_compute. auto.
Qed.

(** C11.  A number starting with a radix prefix is accepted iff digits of that radix follow, single
    underscores standing before digits only; it is taken as long as possible. *)
Theorem C11_radix_decided : forall U l c isd w r, mid_line l -> radix c isd ->
  lx_rest l = #"0" :: c :: w ++ r -> digits_and_underscores isd w r ->
  (udigits isd w /\ w <> [] ->
     get_symbol U l = LOk (Tok T_AtomNumber (Range (lx_pos l) (lx_pos l + (2 + length w))) None
                            (Text (#"0" :: c :: w))) (after l (2 + length w))) /\
  (~ (udigits isd w /\ w <> []) ->
     exists m l', get_symbol U l = LErr (EAt m (lx_pos l)) l').
Proof. exact radix_call. Qed.
Print Assumptions C11_radix_decided.

Theorem C11_radix_token : forall U text evs l t l' s e c isd r, history U text evs l -> get_symbol U l = LOk t l' ->
  tk_span t = Range s e -> tk_kind t = T_AtomNumber -> skipn s text = #"0" :: c :: r -> radix c isd ->
  exists w r', r = w ++ r' /\ digits_and_underscores isd w r' /\ udigits isd w /\ w <> [] /\
    e = (s + (2 + length w))%nat /\ tk_payload t = Text (#"0" :: c :: w).
Proof. exact radix_sound. Qed.
Print Assumptions C11_radix_token.

Example C11_case :
  (exists l', get_symbol ascii_only (inside $"0xf_F+") = LOk (Tok T_AtomNumber (Range 0 5) None (Text $"0xf_F")) l') /\
  (exists m l', get_symbol ascii_only (inside $"0b1__0") = LErr (EAt m 0) l').
Proof. split; [eexists|eexists _, _]; vm_compute; reflexivity. Qed.

(** C12.  A number starting with 1-9: the parts read, each as long as possible, and the decision.
    (Missing from the full claim: the exponent is checked by [exp_as_coded], which allows it to
    have no digits, see [C12_refuted].) *)
Theorem C12_decimal_partial : forall U l ip f ex im r, mid_line l -> lx_rest l = ip ++ f ++ ex ++ im ++ r ->
  number_parts ip f ex im r -> is_nonzero_digit (hd NUL ip) = true ->
  let w := ip ++ f ++ ex ++ im in
  (digitpart is_digit ip /\ frac_ok f /\ exp_as_coded ex ->
     get_symbol U l = LOk (Tok T_AtomNumber (Range (lx_pos l) (lx_pos l + length w)) None (Text w)) (after l (length w))) /\
  (~ (digitpart is_digit ip /\ frac_ok f /\ exp_as_coded ex) ->
     exists m l', get_symbol U l = LErr (EAt m (lx_pos l)) l').
Proof. exact nonzero_call. Qed.
Print Assumptions C12_decimal_partial.

(** Every text can be read as parts. *)
Theorem C12_parts_exist : forall rest, exists ip f ex im r,
  rest = ip ++ f ++ ex ++ im ++ r /\ number_parts ip f ex im r.
Proof. exact number_split. Qed.
Print Assumptions C12_parts_exist.

Theorem C12_point_float_partial : forall U l d w0 ex im r, mid_line l -> lx_rest l = (#"." :: d :: w0) ++ ex ++ im ++ r ->
  is_digit d = true -> digits_and_underscores is_digit w0 (ex ++ im ++ r) -> exp_part ex (im ++ r) -> imag_part im r ->
  let w := (#"." :: d :: w0) ++ ex ++ im in
  (udigits is_digit w0 /\ exp_as_coded ex ->
     get_symbol U l = LOk (Tok T_AtomNumber (Range (lx_pos l) (lx_pos l + length w)) None (Text w)) (after l (length w))) /\
  (~ (udigits is_digit w0 /\ exp_as_coded ex) ->
     exists m l', get_symbol U l = LErr (EAt m (lx_pos l)) l').
Proof. exact dot_call. Qed.
Print Assumptions C12_point_float_partial.

(** C12.  Every decimal literal of the language reference followed by a character that cannot
    continue it is one token. *)
Theorem C12_python_decimals_accepted : forall U l w r, mid_line l -> lx_rest l = w ++ r -> python_decimal w ->
  ends_number (hd NUL r) ->
  exists l', get_symbol U l = LOk (Tok T_AtomNumber (Range (lx_pos l) (lx_pos l + length w)) None (Text w)) l'.
Proof. exact decimal_call. Qed.
Print Assumptions C12_python_decimals_accepted.

(** C12 as claimed is false: an exponent without digits is accepted. *)
Theorem C12_refuted : exists w l', get_symbol ascii_only (inside w) = LOk (Tok T_AtomNumber (Range 0 (length w)) None (Text w)) l' /\
  ~ python_decimal w.
Proof.
  exists $"1e". eexists. split; [vm_compute; reflexivity|]. intros H. apply python_decimal_last in H.
  destruct H as [H|[H|[H|H]]]; discriminate H.
Qed.
Print Assumptions C12_refuted.

Example C12_case : exists l',
  get_symbol ascii_only (inside $"1_0.5e-3j+") = LOk (Tok T_AtomNumber (Range 0 9) None (Text $"1_0.5e-3j")) l'.
Proof. eexists. vm_compute. reflexivity. Qed.

(** C13 as claimed is false: the character after the 0 belongs to the number, whatever it is; and
    0.5 is an error. *)
Theorem C13_refuted :
  (exists l', get_symbol ascii_only (inside $"0+a") = LOk (Tok T_AtomNumber (Range 0 2) None (Text $"0+")) l') /\
  (exists m l', get_symbol ascii_only (inside $"0+1") = LErr (EAt m 0) l') /\
  (exists m l', get_symbol ascii_only (inside $"0.5") = LErr (EAt m 0) l') /\ python_zero $"0" /\ python_zero $"0.5".
Proof.
  split; [|split; [|split; [|split]]].
  - eexists. vm_compute. reflexivity.
  - eexists _, _. vm_compute. reflexivity.
  - eexists _, _. vm_compute. reflexivity.
  - apply PZ_int; [|reflexivity]. split; [|split; discriminate]. apply UD_digit; [reflexivity|constructor].
  - apply (PZ_float [#"0"] (#"." :: [#"5"]) [] []); try discriminate; cbn; auto.
    + split; [|split; discriminate]. apply UD_digit; [reflexivity|constructor].
    + right. right. eexists. split; [reflexivity|]. split; [|split; discriminate]. apply UD_digit; [reflexivity|constructor].
    + left. reflexivity.
Qed.
Print Assumptions C13_refuted.

(** C13.  In no history is there a number token [0]. *)
Theorem C13_zero_never_alone : forall U text evs l t l' w, history U text evs l -> get_symbol U l = LOk t l' ->
  tk_kind t = T_AtomNumber -> tk_payload t = Text w -> w <> [#"0"].
Proof. exact zero_never_alone. Qed.
Print Assumptions C13_zero_never_alone.

(** C13.  What is accepted after a 0, exactly. *)
Theorem C13_zero_decided : forall U l s ip f ex im r, mid_line l -> lx_rest l = #"0" :: s -> ~ radix_letter (hd NUL s) ->
  tl s = ip ++ f ++ ex ++ im ++ r -> zero_parts ip f ex im r ->
  let w := #"0" :: hd NUL s :: ip ++ f ++ ex ++ im in
  let good := frac_ok f /\ exp_as_coded ex /\ (existsb is_nonzero_digit ip = true -> f ++ ex ++ im <> []) in
  (good -> get_symbol U l = LOk (Tok T_AtomNumber (Range (lx_pos l) (lx_pos l + length w)) None (Text w)) (after l (length w))) /\
  (~ good -> exists m l', get_symbol U l = LErr (EAt m (lx_pos l)) l').
Proof. exact zero_call. Qed.
Print Assumptions C13_zero_decided.

(** C14.  A string in single quotes ends at the first closing quote. *)
Theorem C14_single_taken : forall U l q b r, mid_line l -> quote q -> lx_rest l = q :: b ++ q :: r ->
  Forall (fun c => c <> q /\ c <> CR /\ c <> LF /\ c <> NUL) b -> (b = [] -> hd NUL r <> q) ->
  let t := q :: b ++ [q] in
  get_symbol U l = LOk (Tok T_AtomString (Range (lx_pos l) (lx_pos l + length t)) None (StringLit t None)) (after l (length t)).
Proof. exact single_call. Qed.
Print Assumptions C14_single_taken.

(** C14.  Without one before the end of the line it is an error. *)
Theorem C14_single_unterminated : forall U l q b r, mid_line l -> quote q -> lx_rest l = q :: b ++ r ->
  Forall (fun c => c <> q /\ c <> CR /\ c <> LF /\ c <> NUL) b -> In (hd NUL r) [CR; LF; NUL] ->
  exists p l', get_symbol U l = LErr (EAt "Unterminated single quote string at {}!" p) l'.
Proof. exact single_open. Qed.
Print Assumptions C14_single_unterminated.

(** C14, C15.  Every string token is one of those, with or without a prefix. *)
Theorem C14_string_shape : forall U text evs l t l', history U text evs l -> get_symbol U l = LOk t l' ->
  tk_kind t = T_AtomString ->
  exists s w r, 
    (tk_span t = Range s (s + length w) /\ tk_payload t = StringLit w None /\ skipn s text = w ++ r /\ string_token w r) \/
    exists p, tk_span t = Range s (s + length (p ++ w)) /\ tk_payload t = StringLit w (Some p) /\
      skipn s text = p ++ w ++ r /\ string_prefix p /\ string_token w r.
Proof. exact string_sound. Qed.
Print Assumptions C14_string_shape.

Example C14_case :
  (exists l', get_symbol ascii_only (inside ([SQ] ++ $"a" ++ [DQ; SQ] ++ $"b")) =
     LOk (Tok T_AtomString (Range 0 4) None (StringLit ([SQ] ++ $"a" ++ [DQ; SQ]) None)) l') /\
  (exists p l', get_symbol ascii_only (inside ([DQ] ++ $"ab" ++ [LF])) =
     LErr (EAt "Unterminated single quote string at {}!" p) l').
Proof. split; [eexists|eexists _, _]; vm_compute; reflexivity. Qed.

(** C15.  A triple-quoted string ends at the first following three quotes. *)
Theorem C15_triple_taken : forall U l q b r, mid_line l -> quote q -> lx_rest l = [q; q; q] ++ b ++ [q; q; q] ++ r -> ~ In NUL b ->
  (forall x y, b ++ [q; q; q] = x ++ y -> (length x < length b)%nat -> ~ three q y) ->
  let t := [q; q; q] ++ b ++ [q; q; q] in
  get_symbol U l = LOk (Tok T_AtomString (Range (lx_pos l) (lx_pos l + length t)) None (StringLit t None)) (after l (length t)).
Proof. exact triple_call. Qed.
Print Assumptions C15_triple_taken.

(** C15.  Without them before a NUL or the end the error asks for more data. *)
Theorem C15_triple_unterminated : forall U l q r, mid_line l -> quote q -> lx_rest l = [q; q; q] ++ r -> no_triple_end q r ->
  exists l', get_symbol U l = LErr (EMsg "MORE DATA!") l'.
Proof. exact triple_open. Qed.
Print Assumptions C15_triple_unterminated.

Example C15_case :
  (exists l', get_symbol ascii_only (inside ([SQ; SQ; SQ] ++ $"a" ++ [LF; SQ; DQ; SQ; SQ; SQ] ++ $"b")) =
     LOk (Tok T_AtomString (Range 0 10) None (StringLit ([SQ; SQ; SQ] ++ $"a" ++ [LF; SQ; DQ; SQ; SQ; SQ]) None)) l') /\
  (exists l', get_symbol ascii_only (inside ([SQ; SQ; SQ] ++ $"a" ++ [SQ; SQ])) = LErr (EMsg "MORE DATA!") l').
Proof. split; eexists; vm_compute; reflexivity. Qed.

(** C16 as claimed is false: *)
Theorem C16_refuted : exists t, python_string t /\
  forall l', get_symbol ascii_only (inside t) <> LOk (Tok T_AtomString (Range 0 (length t)) None (StringLit t None)) l'.
Proof.
  exists [SQ; #"a"; BSL; SQ; #"b"; SQ]. split.
  - exists SQ, [#"a"; BSL; SQ; #"b"]. split; [left; reflexivity|]. split; [|reflexivity].
    apply EB_char; [intros H; cbn in H; intuition discriminate|].
    apply EB_escape; [intros H; cbn in H; intuition discriminate|].
    apply EB_char; [intros H; cbn in H; intuition discriminate|]. constructor.
  - intros l'. vm_compute. discriminate.
Qed.
Print Assumptions C16_refuted.

(** C16.  The first backslash-escaped quote always ends the string. *)
Theorem C16_escaped_quote_ends : forall U l q b r, mid_line l -> quote q -> lx_rest l = q :: (b ++ [BSL]) ++ q :: r ->
  Forall (fun c => c <> q /\ c <> CR /\ c <> LF /\ c <> NUL) b ->
  exists l', get_symbol U l = LOk (Tok T_AtomString (Range (lx_pos l) (lx_pos l + length b + 3)) None
    (StringLit (q :: b ++ [BSL; q]) None)) l'.
Proof. exact escape_ends. Qed.
Print Assumptions C16_escaped_quote_ends.

(** C17.  r, u, f and their combinations before a string belong to it. *)
Theorem C17_prefix_taken : forall U l w t r, mid_line l -> lx_rest l = w ++ t ++ r -> string_prefix w -> string_token t r ->
  get_symbol U l = LOk (Tok T_AtomString (Range (lx_pos l) (lx_pos l + length (w ++ t))) None (StringLit t (Some w)))
                       (after l (length (w ++ t))).
Proof. exact prefixed_call. Qed.
Print Assumptions C17_prefix_taken.

Theorem C17_prefix_unterminated : forall U l w r, mid_line l -> lx_rest l = w ++ r -> string_prefix w -> quote (hd NUL r) ->
  (forall t r', r = t ++ r' -> ~ string_token t r') ->
  exists e l', get_symbol U l = LErr e l'.
Proof. exact prefixed_error. Qed.
Print Assumptions C17_prefix_unterminated.

(** C17.  Any other word before a quote is a token of its own. *)
Theorem C17_other_words : forall U l w r, mid_line l -> lx_rest l = w ++ r -> word_at U w r -> quote (hd NUL r) ->
  ~ string_prefix w -> exists k pay, (In (w, k) reserved \/ k = T_AtomName) /\
  get_symbol U l = LOk (Tok k (Range (lx_pos l) (lx_pos l + length w)) None pay) (after l (length w)).
Proof. exact other_word_call. Qed.
Print Assumptions C17_other_words.

(** C17, the part about bytes, is false: the prefix of a bytes literal is always a name. *)
Theorem C17_bytes_prefix_refuted : forall U l w r, mid_line l -> lx_rest l = w ++ r -> bytes_prefix w -> quote (hd NUL r) ->
  get_symbol U l = LOk (Tok T_AtomName (Range (lx_pos l) (lx_pos l + length w)) None (Text w)) (after l (length w)).
Proof. exact bytes_call. Qed.
Print Assumptions C17_bytes_prefix_refuted.

Example C17_case :
  (exists l', get_symbol ascii_only (inside ($"rF" ++ [SQ; SQ])) =
     LOk (Tok T_AtomString (Range 0 4) None (StringLit [SQ; SQ] (Some $"rF"))) l') /\
  (exists l', get_symbol ascii_only (inside ($"b" ++ [SQ; SQ])) = LOk (Tok T_AtomName (Range 0 1) None (Text $"b")) l').
Proof. split; eexists; vm_compute; reflexivity. Qed.

(** C45.  Every token with a range other than Newline and type comments is one [token_at] lists
    for the text at its start. *)
Theorem C45_tokens_specified : forall U text evs l t l' s e, history U text evs l -> get_symbol U l = LOk t l' ->
  tk_span t = Range s e -> tk_kind t <> T_Newline -> tk_kind t <> T_TypeComment ->
  exists n, e = (s + n)%nat /\ (s < length text)%nat /\ token_at U (skipn s text) (tk_kind t) n (tk_payload t).
Proof. exact token_sound. Qed.
Print Assumptions C45_tokens_specified.

(** C45.  And whatever [token_at] lists at the read position is returned; openers are pushed. *)
Theorem C45_specified_tokens : forall U l k n pay, mid_line l -> token_at U (lx_rest l) k n pay -> is_closer k = false ->
  get_symbol U l = LOk (Tok k (Range (lx_pos l) (lx_pos l + n)) None pay)
    (set_parens (after l n) (match k with
       | PyLeftParen => #")" :: lx_parens l | PyLeftBracket => #"]" :: lx_parens l
       | PyLeftCurly => #"}" :: lx_parens l | _ => lx_parens l end)).
Proof. exact token_complete. Qed.
Print Assumptions C45_specified_tokens.

Example C45_case : token_at ascii_only $"(a" PyLeftParen 1 NoPayload /\
  exists l', get_symbol ascii_only (inside $"(a") = LOk (Tok PyLeftParen (Range 0 1) None NoPayload) l' /\ lx_parens l' = $")".
Proof.
  split; [apply (TA_bracket _ #"(" $"a"); cbn; auto|]. eexists. vm_compute. auto.
Qed.
