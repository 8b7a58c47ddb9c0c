(** The errors of the tokenizer: C62. *)
From Coq Require Import List Arith String.
From Verif Require Import Chars SourceBuffer Token Tokenizer LexSpec TokenSpec HistoryProofs LexErrorSpec LexErrorProofs.
From Verif Require Import Node ParserState Parser ParseSpec ErrorSpec PropertiesLex2 PropertiesParse4.
Import ListNotations.
Local Open Scope nat_scope.

(** C62.  After any calls, an error is one of the listed ones, with the message and at the place listed, of
    the text behind the blanks, comments and line breaks that follow the read position. *)
Theorem C62_errors_sound : forall U text evs l open e l', history U text evs l -> nest (kinds_of evs) [] = Some open ->
  get_symbol U l = LErr e l' ->
  exists tr p, p < length text /\ tiled text (lx_bol l) (lx_pos l) (map PTrivia tr) false p /\
    error_at U open p (skipn p text) e.
Proof. exact errors_sound. Qed.
Print Assumptions C62_errors_sound.

(** C62.  Inside a line, where something other than trivia stands, a call is an error exactly if the text
    has one there, and is that error. *)
Theorem C62_errors_exactly : forall U text evs l open e, history U text evs l -> nest (kinds_of evs) [] = Some open ->
  mid_line l -> starts_something (lx_rest l) ->
  ((exists l', get_symbol U l = LErr e l') <-> error_at U open (lx_pos l) (lx_rest l) e).
Proof. exact errors_exactly. Qed.
Print Assumptions C62_errors_exactly.

(** One text for every kind of error. *)
Example C62_cases :
  let err r := match get_symbol ascii_only (inside r) with LErr e _ => Some e | _ => None end in
  err $"$" = Some (lexical_error 0 #"$") /\
  err $")" = Some (EAt "Syntax Error at {} - Mismatch in parenthesis, expected ')'!" 0) /\
  err (BSL :: $"a") = Some (EAt continuation_message 0) /\
  err ($"rf" ++ [SQ] ++ $"ab" ++ [LF]) = Some (EAt unterminated_message 5) /\
  err ([DQ; DQ; DQ] ++ $"ab" ++ [LF; DQ; DQ]) = Some (EMsg more_message) /\
  err $"0xg" = Some (EAt digits_message 0) /\ err $"0o1__2" = Some (EAt octal_message 0) /\
  err $"0b_" = Some (EAt binary_message 0) /\
  err $"1_" = Some (EAt digits_message 0) /\ err $"1._2" = Some (EAt point_message 0) /\
  err $"1.2_" = Some (EAt digits_message 0) /\ err $"1e1_" = Some (EAt digits_message 0) /\
  err $".1_" = Some (EAt digits_message 0) /\ err $"007" = Some (EAt zero_message 0) /\
  err $"00._" = Some (EAt point_message 0).
Proof. vm_compute. repeat split. Qed.

Example C62_hypotheses : exists evs l,
  history ascii_only $"(a]" evs l /\ nest (kinds_of evs) [] = Some [PyRightParen] /\ mid_line l /\ starts_something (lx_rest l) /\
  error_at ascii_only [PyRightParen] (lx_pos l) (lx_rest l)
    (EAt "Syntax Error at {} - Mismatch in parenthesis, expected ']'!" 2).
Proof.
  eexists _, _. split; [apply (history_of_run _ _ 2); vm_compute; reflexivity|].
  split; [reflexivity|]. split; [split; reflexivity|]. split.
  - split; [vm_compute; intuition discriminate|discriminate].
  - apply (EA_closer ascii_only [PyRightParen] 2 #"]" [] PyRightBracket); [right; left; reflexivity|discriminate].
Qed.

(** C62.  The full claim: what the message says of the text is so.  The messages about octal and binary
    numbers, points, leading zeros and line continuations are right. *)
Theorem C62_stated_partial : forall U open p r m p', error_at U open p r (EAt m p') ->
  m <> digits_message -> (forall c k, ~ In (c, (k, m)) closing) -> as_stated open r m.
Proof. exact stated. Qed.
Print Assumptions C62_stated_partial.

(** The message about digits after 0x is given for decimal numbers too. *)
Theorem C62_stated_refuted : exists U text evs l l' p, history U text evs l /\
  get_symbol U l = LErr (EAt digits_message p) l' /\ ~ as_stated [] (skipn p text) digits_message.
Proof.
  exists ascii_only, $"1_", [], (lexer_new $"1_"). eexists _, 0. split; [constructor|].
  split; [vm_compute; reflexivity|]. intros (H & _). destruct (H eq_refl) as (c & r & E & _). discriminate E.
Qed.
Print Assumptions C62_stated_refuted.

(** And the messages about brackets never are right: the bracket named as expected is the one found, and
    it is not the one awaited. *)
Theorem C62_bracket_message : forall U open p r m p' c k, error_at U open p r (EAt m p') -> In (c, (k, m)) closing ->
  hd NUL r = c /\ hd_error open <> Some k.
Proof. exact bracket_message. Qed.
Print Assumptions C62_bracket_message.

(** C62.  A parser of complete inputs that says it expects a symbol has met an error of the tokenizer: the
    text has one right behind the tokens [ts] read. *)
Theorem C62_symbol_expected : forall U text n f m p, input_fn f = true -> run U n f (fresh text) = Err (EAt m p) ->
  says m = Unreadable -> ~ In m (map fst departures) ->
  exists ts l open tr q e, history U text (map inl ts) l /\ nest (kinds_of (map inl ts)) [] = Some open /\
    q < length text /\ tiled text (lx_bol l) (lx_pos l) (map PTrivia tr) false q /\ error_at U open q (skipn q text) e.
Proof. exact unreadable. Qed.
Print Assumptions C62_symbol_expected.

Example C62_symbol_case :
  let m := "SyntaxError at {}: Expecting symbol in non conditional test expression!"%string in
  error_of (run ascii_only 300 F_file_input (fresh ($"while $" ++ [LF]))) = Some (EAt m 6) /\
  input_fn F_file_input = true /\ says m = Unreadable /\ ~ In m (map fst departures).
Proof. vm_compute. repeat split; intuition discriminate. Qed.
