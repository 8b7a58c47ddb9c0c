(** Specifications of the operators, words and strings of the language, independent of the
    tokenizer's tables and loops. *)
From Coq Require Import ZArith Arith.
From Verif Require Import Chars SourceBuffer Token Tokenizer LexSpec.

(** ** Operators and delimiters other than brackets *)
Definition operator_table : list (str * kind) :=
  [ ($"+", PyPlus); ($"-", PyMinus); ($"*", PyMul); ($"**", PyPower); ($"/", PyDiv);
    ($"//", PyFloorDiv); ($"%", PyModulo); ($"@", PyMatrice); ($"<<", PyShiftLeft);
    ($">>", PyShiftRight); ($"&", PyBitAnd); ($"|", PyBitOr); ($"^", PyBitXor);
    ($"~", PyBitInvert); ($":=", PyColonAssign); ($"<", PyLess); ($">", PyGreater);
    ($"<=", PyLessEqual); ($">=", PyGreaterEqual); ($"==", PyEqual); ($"!=", PyNotEqual);
    ($"<>", PyNotEqual);
    ($",", PyComa); ($":", PyColon); ($".", PyDot); ($";", PySemiColon); ($"=", PyAssign);
    ($"->", PyArrow); ($"...", PyElipsis);
    ($"+=", PyPlusAssign); ($"-=", PyMinusAssign); ($"*=", PyMulAssign); ($"/=", PyDivAssign);
    ($"//=", PyFloorDivAssign); ($"%=", PyModuloAssign); ($"@=", PyMatriceAssign);
    ($"&=", PyBitAndAssign); ($"|=", PyBitOrAssign); ($"^=", PyBitXorAssign);
    ($">>=", PyShiftRightAssign); ($"<<=", PyShiftLeftAssign); ($"**=", PyPowerAssign) ].

Definition prefix_of (w r : str) : Prop := exists r' : str, r = w ++ r'.

(** [w] is the longest entry at the head of [r]. *)
Definition longest_operator (r w : str) (k : kind) : Prop :=
  In (w, k) operator_table /\ prefix_of w r /\
  forall w' k', In (w', k') operator_table -> prefix_of w' r -> (length w' <= length w)%nat.

(** A dot followed by a digit begins a number. *)
Definition dot_digit (r : str) : Prop := exists d r', r = #"." :: d :: r' /\ is_digit d = true.

(** ** Words *)
Definition reserved : list (str * kind) :=
  [ ($"and", PyAnd); ($"as", PyAs); ($"assert", PyAssert); ($"async", PyAsync);
    ($"await", PyAwait); ($"break", PyBreak); ($"class", PyClass); ($"continue", PyContinue);
    ($"def", PyDef); ($"del", PyDel); ($"elif", PyElif); ($"else", PyElse);
    ($"except", PyExcept); ($"False", PyFalse); ($"finally", PyFinally); ($"for", PyFor);
    ($"from", PyFrom); ($"global", PyGlobal); ($"if", PyIf); ($"import", PyImport);
    ($"in", PyIn); ($"is", PyIs); ($"lambda", PyLambda); ($"None", PyNone);
    ($"nonlocal", PyNonLocal); ($"not", PyNot); ($"or", PyOr); ($"pass", PyPass);
    ($"raise", PyRaise); ($"return", PyReturn); ($"True", PyTrue); ($"try", PyTry);
    ($"while", PyWhile); ($"with", PyWith); ($"yield", PyYield) ].

Definition word_start (U : unicode) (c : char) : Prop := c = #"_" \/ is_alphabetic U c = true.
Definition word_char (U : unicode) (c : char) : Prop :=
  c = #"_" \/ is_alphabetic U c = true \/ is_numeric U c = true.

(** [w] is the word at the head of [w ++ r]. *)
Definition word_at (U : unicode) (w r : str) : Prop :=
  w <> [] /\ word_start U (hd NUL w) /\ Forall (word_char U) w /\ ~ word_char U (hd NUL r).

Definition lower (c : char) : char := if in_range #"A" #"Z" c then c + 32 else c.

(** r, u, f, rf and fr, in any mix of cases. *)
Definition string_prefix (w : str) : Prop :=
  In (map lower w) [$"r"; $"u"; $"f"; $"rf"; $"fr"].

(** b, br and rb. *)
Definition bytes_prefix (w : str) : Prop := In (map lower w) [$"b"; $"br"; $"rb"].

(** ** Strings *)
Definition quote (c : char) : Prop := c = SQ \/ c = DQ.

(** [three q s]: three quotes at the head of [s]. *)
Definition three (q : char) (s : str) : Prop := prefix_of [q; q; q] s.

(** [string_token t r]: [t] is a complete string literal (without prefix) at the head of
    [t ++ r]: ended by the first closing quote, respectively the first three. *)
Inductive string_token : str -> str -> Prop :=
| ST_single q b r :
    quote q -> Forall (fun c => c <> q /\ c <> CR /\ c <> LF /\ c <> NUL) b ->
    (b = [] -> hd NUL r <> q) ->
    string_token (q :: b ++ [q]) r
| ST_triple q b r :
    quote q -> ~ In NUL b ->
    (forall x y, b ++ [q; q; q] = x ++ y -> (length x < length b)%nat -> ~ three q y) ->
    string_token ([q; q; q] ++ b ++ [q; q; q]) r.

(** ** All tokens inside a line *)
Definition brackets : list (char * kind) :=
  [ (#"(", PyLeftParen); (#"[", PyLeftBracket); (#"{", PyLeftCurly);
    (#")", PyRightParen); (#"]", PyRightBracket); (#"}", PyRightCurly) ].

(** [token_at U r k n pay]: at the head of [r] stands a token of kind [k], [n] characters long,
    carrying [pay].  The rules for numbers are those the code implements: the exponent may lack
    digits, and a number starting with 0 takes the next character whatever it is (NUL past the
    end of the text). *)
Inductive token_at (U : unicode) : str -> kind -> nat -> payload -> Prop :=
| TA_operator r w k :
    longest_operator r w k -> ~ dot_digit r -> token_at U r k (length w) NoPayload
| TA_bracket c r k : In (c, k) brackets -> token_at U (c :: r) k 1 NoPayload
| TA_keyword w r k :
    word_at U w r -> In (w, k) reserved -> token_at U (w ++ r) k (length w) NoPayload
| TA_name w r :
    word_at U w r -> ~ In w (map fst reserved) -> ~ (string_prefix w /\ quote (hd NUL r)) ->
    token_at U (w ++ r) T_AtomName (length w) (Text w)
| TA_string t r :
    string_token t r -> token_at U (t ++ r) T_AtomString (length t) (StringLit t None)
| TA_prefixed w t r :
    string_prefix w -> string_token t r ->
    token_at U (w ++ t ++ r) T_AtomString (length (w ++ t)) (StringLit t (Some w))
| TA_radix c isd w r :
    radix c isd -> digits_and_underscores isd w r -> udigits isd w -> w <> [] ->
    token_at U (#"0" :: c :: w ++ r) T_AtomNumber (2 + length w) (Text (#"0" :: c :: w))
| TA_nonzero ip f ex im r :
    number_parts ip f ex im r -> is_nonzero_digit (hd NUL ip) = true ->
    digitpart is_digit ip -> frac_ok f -> exp_as_coded ex ->
    token_at U (ip ++ f ++ ex ++ im ++ r) T_AtomNumber (length (ip ++ f ++ ex ++ im))
      (Text (ip ++ f ++ ex ++ im))
| TA_dot d w ex im r :
    is_digit d = true -> digits_and_underscores is_digit w (ex ++ im ++ r) ->
    exp_part ex (im ++ r) -> imag_part im r -> udigits is_digit w -> exp_as_coded ex ->
    token_at U ((#"." :: d :: w) ++ ex ++ im ++ r) T_AtomNumber
      (length ((#"." :: d :: w) ++ ex ++ im)) (Text ((#"." :: d :: w) ++ ex ++ im))
| TA_zero s ip f ex im r :
    ~ radix_letter (hd NUL s) -> tl s = ip ++ f ++ ex ++ im ++ r -> zero_parts ip f ex im r ->
    frac_ok f -> exp_as_coded ex -> (existsb is_nonzero_digit ip = true -> f ++ ex ++ im <> []) ->
    token_at U (#"0" :: s) T_AtomNumber (length (#"0" :: hd NUL s :: ip ++ f ++ ex ++ im))
      (Text (#"0" :: hd NUL s :: ip ++ f ++ ex ++ im)).

(** ** Characters that start nothing *)
Definition starts_nothing (U : unicode) (r : str) : Prop :=
  exists c r', r = c :: r' /\ ~ In c [SP; TAB; #"#"; NUL; CR; LF; BSL] /\
    (forall w k, In (w, k) operator_table -> ~ prefix_of w r) /\ ~ In c (map fst brackets) /\
    ~ word_start U c /\ is_digit c = false /\ ~ quote c.

Definition lexical_error (p : nat) (c : char) : err :=
  EAtChar "Lexical error at ({}), found '{}'" p c.

(** The text a token with span [s, e) carries is the source slice, for a string with its prefix.
    The exception is a [0] at the very end of the text, which carries a NUL of its own. *)
Definition verbatim (text : str) (t : token) (s e : nat) : Prop :=
  match tk_payload t with
  | Text w => w = slice text s e \/
      (tk_kind t = T_AtomNumber /\ skipn s text = [#"0"] /\ w = [#"0"; NUL] /\ e = (s + 2)%nat)
  | StringLit w pre => (match pre with Some p => p | None => [] end) ++ w = slice text s e
  | Break _ _ => tk_kind t = T_Newline
  | NoPayload => tk_kind t <> T_AtomName /\ tk_kind t <> T_AtomNumber /\ tk_kind t <> T_AtomString /\
      tk_kind t <> T_TypeComment
  end.

(** ** Strings with backslash escapes, as the Python reference has them *)
Inductive escaped_body (q : char) : str -> Prop :=
| EB_nil : escaped_body q []
| EB_char c b : ~ In c [q; BSL; CR; LF; NUL] -> escaped_body q b -> escaped_body q (c :: b)
| EB_escape c b : ~ In c [CR; NUL] -> escaped_body q b -> escaped_body q (BSL :: c :: b).

Definition python_string (t : str) : Prop :=
  exists (q : char) (b : str), quote q /\ escaped_body q b /\ t = q :: b ++ [q].

(** No closing triple quote before a NUL or the end. *)
Definition no_triple_end (q : char) (r : str) : Prop :=
  forall b r', r = b ++ [q; q; q] ++ r' -> In NUL b.
