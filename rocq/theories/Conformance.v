(** The repository's own unit tests replayed on the model (tests, not proofs): every expected
    token, tree node and span asserted by a Rust test is found in the model's result. *)
From Coq Require Import ZArith.
From Verif Require Import Chars SourceBuffer Token Tokenizer Node NodeView ParserState
  Expressions Statements Blocks Parser.

Definition trivia_none (t : token) : bool := match tk_trivia t with None => true | _ => false end.
Definition span_is (s e : nat) (t : token) : bool :=
  match tk_span t with Range a b => Nat.eqb a s && Nat.eqb b e | _ => false end.
Definition text_is (x : str) (t : token) : bool :=
  match tk_payload t with Text y => str_eqb x y | StringLit y _ => str_eqb x y | _ => false end.
Definition prefix_is (x : str) (t : token) : bool :=
  match tk_payload t with StringLit _ (Some p) => str_eqb x p | _ => false end.
Definition no_prefix (t : token) : bool :=
  match tk_payload t with StringLit _ None => true | _ => false end.
Definition break_is (a b : char) (t : token) : bool :=
  match tk_payload t with Break x y => (a =? x) && (b =? y) | _ => false end.

Definition lex1 (closers : list char) (text : str) : option token :=
  match get_symbol ascii_only (set_parens (lexer_new text) closers) with
  | LOk t _ => Some t
  | _ => None
  end.

Definition parse1 (f : fn) (text : str) : option node :=
  match bind (advance ascii_only) (fun _ => run ascii_only 200 f) (parser_new (lexer_new text)) with
  | Ok n _ => Some n
  | _ => None
  end.

Definition tree_has (o : option node) (root : node -> bool) (ns : list (node -> bool))
  (ts : list (token -> bool)) : bool :=
  match o with
  | None => false
  | Some n => root n && forallb (fun p => existsb p (subnodes n)) ns
                     && forallb (fun p => existsb p (tokens n)) ts
  end.

(** source_buffer.rs 61-150 *)
Definition walk (n : nat) (b : source_buffer) : source_buffer := Nat.iter n sb_advance b.
Example sb_empty : (sb_get_position (sb_new []), sb_get_char (sb_new [])) = (0%nat, NUL).
Proof. vm_compute. reflexivity. Qed.
Example sb_walk :
  map (fun n => sb_get_char (walk n (sb_new $"def a(): pass"))) (seq 0 14)
  = $"def a(): pass" ++ [NUL].
Proof. vm_compute. reflexivity. Qed.
Example sb_peek : map (fun s => sb_peek_three_chars (sb_new s)) [$"def a(): pass"; []; $"d"; $"de"; $"def"]
  = [(#"d", #"e", #"f"); (NUL, NUL, NUL); (#"d", NUL, NUL); (#"d", #"e", NUL); (#"d", #"e", #"f")].
Proof. vm_compute. reflexivity. Qed.
Example sb_length : sb_count (sb_new $"def a(): pass") = 13%nat.
Proof. vm_compute. reflexivity. Qed.

(** tokenizer.rs tests *)
(* 1075 *)
Example tokenizer_operator_or_delimiter_shift_left_assign :
  match lex1 [] $"<<=" with
  | Some t => is PyShiftLeftAssign t && span_is 0 3 t && trivia_none t
  | None => false end = true.
Proof. vm_compute. reflexivity. Qed.
(* 1089 *)
Example tokenizer_operator_or_delimiter_shift_left :
  match lex1 [] $"<<" with
  | Some t => is PyShiftLeft t && span_is 0 2 t && trivia_none t
  | None => false end = true.
Proof. vm_compute. reflexivity. Qed.
(* 1103 *)
Example tokenizer_operator_or_delimiter_less_equal :
  match lex1 [] $"<=" with
  | Some t => is PyLessEqual t && span_is 0 2 t && trivia_none t
  | None => false end = true.
Proof. vm_compute. reflexivity. Qed.
(* 1117 *)
Example tokenizer_operator_or_delimiter_not_equal :
  match lex1 [] $"<>" with
  | Some t => is PyNotEqual t && span_is 0 2 t && trivia_none t
  | None => false end = true.
Proof. vm_compute. reflexivity. Qed.
(* 1131 *)
Example tokenizer_operator_or_delimiter_less :
  match lex1 [] $"<" with
  | Some t => is PyLess t && span_is 0 1 t && trivia_none t
  | None => false end = true.
Proof. vm_compute. reflexivity. Qed.
(* 1145 *)
Example tokenizer_operator_or_delimiter_shift_right_assign :
  match lex1 [] $">>=" with
  | Some t => is PyShiftRightAssign t && span_is 0 3 t && trivia_none t
  | None => false end = true.
Proof. vm_compute. reflexivity. Qed.
(* 1159 *)
Example tokenizer_operator_or_delimiter_shift_right :
  match lex1 [] $">>" with
  | Some t => is PyShiftRight t && span_is 0 2 t && trivia_none t
  | None => false end = true.
Proof. vm_compute. reflexivity. Qed.
(* 1173 *)
Example tokenizer_operator_or_delimiter_greater_equal :
  match lex1 [] $">=" with
  | Some t => is PyGreaterEqual t && span_is 0 2 t && trivia_none t
  | None => false end = true.
Proof. vm_compute. reflexivity. Qed.
(* 1187 *)
Example tokenizer_operator_or_delimiter_greater :
  match lex1 [] $">" with
  | Some t => is PyGreater t && span_is 0 1 t && trivia_none t
  | None => false end = true.
Proof. vm_compute. reflexivity. Qed.
(* 1201 *)
Example tokenizer_operator_or_delimiter_power_assign :
  match lex1 [] $"**=" with
  | Some t => is PyPowerAssign t && span_is 0 3 t && trivia_none t
  | None => false end = true.
Proof. vm_compute. reflexivity. Qed.
(* 1215 *)
Example tokenizer_operator_or_delimiter_power :
  match lex1 [] $"**" with
  | Some t => is PyPower t && span_is 0 2 t && trivia_none t
  | None => false end = true.
Proof. vm_compute. reflexivity. Qed.
(* 1229 *)
Example tokenizer_operator_or_delimiter_mul_assign :
  match lex1 [] $"*=" with
  | Some t => is PyMulAssign t && span_is 0 2 t && trivia_none t
  | None => false end = true.
Proof. vm_compute. reflexivity. Qed.
(* 1243 *)
Example tokenizer_operator_or_delimiter_mul :
  match lex1 [] $"*" with
  | Some t => is PyMul t && span_is 0 1 t && trivia_none t
  | None => false end = true.
Proof. vm_compute. reflexivity. Qed.
(* 1257 *)
Example tokenizer_operator_or_delimiter_floor_div_assign :
  match lex1 [] $"//=" with
  | Some t => is PyFloorDivAssign t && span_is 0 3 t && trivia_none t
  | None => false end = true.
Proof. vm_compute. reflexivity. Qed.
(* 1271 *)
Example tokenizer_operator_or_delimiter_floor_div :
  match lex1 [] $"//" with
  | Some t => is PyFloorDiv t && span_is 0 2 t && trivia_none t
  | None => false end = true.
Proof. vm_compute. reflexivity. Qed.
(* 1285 *)
Example tokenizer_operator_or_delimiter_div_assign :
  match lex1 [] $"/=" with
  | Some t => is PyDivAssign t && span_is 0 2 t && trivia_none t
  | None => false end = true.
Proof. vm_compute. reflexivity. Qed.
(* 1299 *)
Example tokenizer_operator_or_delimiter_div :
  match lex1 [] $"/" with
  | Some t => is PyDiv t && span_is 0 1 t && trivia_none t
  | None => false end = true.
Proof. vm_compute. reflexivity. Qed.
(* 1313 *)
Example tokenizer_operator_or_delimiter_ellipsis :
  match lex1 [] $"..." with
  | Some t => is PyElipsis t && span_is 0 3 t && trivia_none t
  | None => false end = true.
Proof. vm_compute. reflexivity. Qed.
(* 1327 *)
Example tokenizer_operator_or_delimiter_dot :
  match lex1 [] $"." with
  | Some t => is PyDot t && span_is 0 1 t && trivia_none t
  | None => false end = true.
Proof. vm_compute. reflexivity. Qed.
(* 1341 *)
Example tokenizer_operator_or_delimiter_plus_assign :
  match lex1 [] $"+=" with
  | Some t => is PyPlusAssign t && span_is 0 2 t && trivia_none t
  | None => false end = true.
Proof. vm_compute. reflexivity. Qed.
(* 1355 *)
Example tokenizer_operator_or_delimiter_plus :
  match lex1 [] $"+" with
  | Some t => is PyPlus t && span_is 0 1 t && trivia_none t
  | None => false end = true.
Proof. vm_compute. reflexivity. Qed.
(* 1369 *)
Example tokenizer_operator_or_delimiter_minus_assign :
  match lex1 [] $"-=" with
  | Some t => is PyMinusAssign t && span_is 0 2 t && trivia_none t
  | None => false end = true.
Proof. vm_compute. reflexivity. Qed.
(* 1383 *)
Example tokenizer_operator_or_delimiter_arrow :
  match lex1 [] $"->" with
  | Some t => is PyArrow t && span_is 0 2 t && trivia_none t
  | None => false end = true.
Proof. vm_compute. reflexivity. Qed.
(* 1397 *)
Example tokenizer_operator_or_delimiter_minus :
  match lex1 [] $"-" with
  | Some t => is PyMinus t && span_is 0 1 t && trivia_none t
  | None => false end = true.
Proof. vm_compute. reflexivity. Qed.
(* 1411 *)
Example tokenizer_operator_or_delimiter_modulo_assign :
  match lex1 [] $"%=" with
  | Some t => is PyModuloAssign t && span_is 0 2 t && trivia_none t
  | None => false end = true.
Proof. vm_compute. reflexivity. Qed.
(* 1425 *)
Example tokenizer_operator_or_delimiter_modulo :
  match lex1 [] $"%" with
  | Some t => is PyModulo t && span_is 0 1 t && trivia_none t
  | None => false end = true.
Proof. vm_compute. reflexivity. Qed.
(* 1439 *)
Example tokenizer_operator_or_delimiter_colon_assign :
  match lex1 [] $":=" with
  | Some t => is PyColonAssign t && span_is 0 2 t && trivia_none t
  | None => false end = true.
Proof. vm_compute. reflexivity. Qed.
(* 1453 *)
Example tokenizer_operator_or_delimiter_colon :
  match lex1 [] $":" with
  | Some t => is PyColon t && span_is 0 1 t && trivia_none t
  | None => false end = true.
Proof. vm_compute. reflexivity. Qed.
(* 1467 *)
Example tokenizer_operator_or_delimiter_bit_and_assign :
  match lex1 [] $"&=" with
  | Some t => is PyBitAndAssign t && span_is 0 2 t && trivia_none t
  | None => false end = true.
Proof. vm_compute. reflexivity. Qed.
(* 1481 *)
Example tokenizer_operator_or_delimiter_bit_and :
  match lex1 [] $"&" with
  | Some t => is PyBitAnd t && span_is 0 1 t && trivia_none t
  | None => false end = true.
Proof. vm_compute. reflexivity. Qed.
(* 1495 *)
Example tokenizer_operator_or_delimiter_bit_or_assign :
  match lex1 [] $"|=" with
  | Some t => is PyBitOrAssign t && span_is 0 2 t && trivia_none t
  | None => false end = true.
Proof. vm_compute. reflexivity. Qed.
(* 1509 *)
Example tokenizer_operator_or_delimiter_bit_or :
  match lex1 [] $"|" with
  | Some t => is PyBitOr t && span_is 0 1 t && trivia_none t
  | None => false end = true.
Proof. vm_compute. reflexivity. Qed.
(* 1523 *)
Example tokenizer_operator_or_delimiter_bit_xor_assign :
  match lex1 [] $"^=" with
  | Some t => is PyBitXorAssign t && span_is 0 2 t && trivia_none t
  | None => false end = true.
Proof. vm_compute. reflexivity. Qed.
(* 1537 *)
Example tokenizer_operator_or_delimiter_bit_xor :
  match lex1 [] $"^" with
  | Some t => is PyBitXor t && span_is 0 1 t && trivia_none t
  | None => false end = true.
Proof. vm_compute. reflexivity. Qed.
(* 1551 *)
Example tokenizer_operator_or_delimiter_bit_matrices_assign :
  match lex1 [] $"@=" with
  | Some t => is PyMatriceAssign t && span_is 0 2 t && trivia_none t
  | None => false end = true.
Proof. vm_compute. reflexivity. Qed.
(* 1565 *)
Example tokenizer_operator_or_delimiter_matrices :
  match lex1 [] $"@" with
  | Some t => is PyMatrice t && span_is 0 1 t && trivia_none t
  | None => false end = true.
Proof. vm_compute. reflexivity. Qed.
(* 1579 *)
Example tokenizer_operator_or_delimiter_assign :
  match lex1 [] $"==" with
  | Some t => is PyEqual t && span_is 0 2 t && trivia_none t
  | None => false end = true.
Proof. vm_compute. reflexivity. Qed.
(* 1593 *)
Example tokenizer_operator_or_delimiter_not_equal_default :
  match lex1 [] $"!=" with
  | Some t => is PyNotEqual t && span_is 0 2 t && trivia_none t
  | None => false end = true.
Proof. vm_compute. reflexivity. Qed.
(* 1607 *)
Example tokenizer_operator_or_delimiter_equal :
  match lex1 [] $"=" with
  | Some t => is PyAssign t && span_is 0 1 t && trivia_none t
  | None => false end = true.
Proof. vm_compute. reflexivity. Qed.
(* 1621 *)
Example tokenizer_operator_or_delimiter_semicolon :
  match lex1 [] $";" with
  | Some t => is PySemiColon t && span_is 0 1 t && trivia_none t
  | None => false end = true.
Proof. vm_compute. reflexivity. Qed.
(* 1635 *)
Example tokenizer_operator_or_delimiter_comma :
  match lex1 [] $"," with
  | Some t => is PyComa t && span_is 0 1 t && trivia_none t
  | None => false end = true.
Proof. vm_compute. reflexivity. Qed.
(* 1649 *)
Example tokenizer_operator_or_delimiter_left_paren :
  match lex1 [] $"(" with
  | Some t => is PyLeftParen t && span_is 0 1 t && trivia_none t
  | None => false end = true.
Proof. vm_compute. reflexivity. Qed.
(* 1663 *)
Example tokenizer_operator_or_delimiter_left_bracket :
  match lex1 [] $"[" with
  | Some t => is PyLeftBracket t && span_is 0 1 t && trivia_none t
  | None => false end = true.
Proof. vm_compute. reflexivity. Qed.
(* 1677 *)
Example tokenizer_operator_or_delimiter_left_curly :
  match lex1 [] $"{" with
  | Some t => is PyLeftCurly t && span_is 0 1 t && trivia_none t
  | None => false end = true.
Proof. vm_compute. reflexivity. Qed.
(* 1691 *)
Example tokenizer_operator_or_delimiter_right_paren :
  match lex1 [41] $")" with
  | Some t => is PyRightParen t && span_is 0 1 t && trivia_none t
  | None => false end = true.
Proof. vm_compute. reflexivity. Qed.
(* 1706 *)
Example tokenizer_operator_or_delimiter_right_paren_failing : lex1 [] $")" = None.
Proof. vm_compute. reflexivity. Qed.
(* 1720 *)
Example tokenizer_operator_or_delimiter_right_bracket :
  match lex1 [93] $"]" with
  | Some t => is PyRightBracket t && span_is 0 1 t && trivia_none t
  | None => false end = true.
Proof. vm_compute. reflexivity. Qed.
(* 1735 *)
Example tokenizer_operator_or_delimiter_right_bracket_failing : lex1 [] $"]" = None.
Proof. vm_compute. reflexivity. Qed.
(* 1749 *)
Example tokenizer_operator_or_delimiter_right_curly :
  match lex1 [125] $"}" with
  | Some t => is PyRightCurly t && span_is 0 1 t && trivia_none t
  | None => false end = true.
Proof. vm_compute. reflexivity. Qed.
(* 1764 *)
Example tokenizer_operator_or_delimiter_right_bracket_curly : lex1 [] $"}" = None.
Proof. vm_compute. reflexivity. Qed.
(* 1778 *)
Example tokenizer_reserved_keyword_false :
  match lex1 [] $"False" with
  | Some t => is PyFalse t && span_is 0 5 t && trivia_none t
  | None => false end = true.
Proof. vm_compute. reflexivity. Qed.
(* 1792 *)
Example tokenizer_reserved_keyword_none :
  match lex1 [] $"None" with
  | Some t => is PyNone t && span_is 0 4 t && trivia_none t
  | None => false end = true.
Proof. vm_compute. reflexivity. Qed.
(* 1806 *)
Example tokenizer_reserved_keyword_true :
  match lex1 [] $"True" with
  | Some t => is PyTrue t && span_is 0 4 t && trivia_none t
  | None => false end = true.
Proof. vm_compute. reflexivity. Qed.
(* 1820 *)
Example tokenizer_reserved_keyword_and :
  match lex1 [] $"and" with
  | Some t => is PyAnd t && span_is 0 3 t && trivia_none t
  | None => false end = true.
Proof. vm_compute. reflexivity. Qed.
(* 1834 *)
Example tokenizer_reserved_keyword_as :
  match lex1 [] $"as" with
  | Some t => is PyAs t && span_is 0 2 t && trivia_none t
  | None => false end = true.
Proof. vm_compute. reflexivity. Qed.
(* 1848 *)
Example tokenizer_reserved_keyword_assert :
  match lex1 [] $"assert" with
  | Some t => is PyAssert t && span_is 0 6 t && trivia_none t
  | None => false end = true.
Proof. vm_compute. reflexivity. Qed.
(* 1862 *)
Example tokenizer_reserved_keyword_async :
  match lex1 [] $"async" with
  | Some t => is PyAsync t && span_is 0 5 t && trivia_none t
  | None => false end = true.
Proof. vm_compute. reflexivity. Qed.
(* 1876 *)
Example tokenizer_reserved_keyword_await :
  match lex1 [] $"await" with
  | Some t => is PyAwait t && span_is 0 5 t && trivia_none t
  | None => false end = true.
Proof. vm_compute. reflexivity. Qed.
(* 1890 *)
Example tokenizer_reserved_keyword_break :
  match lex1 [] $"break" with
  | Some t => is PyBreak t && span_is 0 5 t && trivia_none t
  | None => false end = true.
Proof. vm_compute. reflexivity. Qed.
(* 1904 *)
Example tokenizer_reserved_keyword_class :
  match lex1 [] $"class" with
  | Some t => is PyClass t && span_is 0 5 t && trivia_none t
  | None => false end = true.
Proof. vm_compute. reflexivity. Qed.
(* 1918 *)
Example tokenizer_reserved_keyword_continue :
  match lex1 [] $"continue" with
  | Some t => is PyContinue t && span_is 0 8 t && trivia_none t
  | None => false end = true.
Proof. vm_compute. reflexivity. Qed.
(* 1932 *)
Example tokenizer_reserved_keyword_def :
  match lex1 [] $"def" with
  | Some t => is PyDef t && span_is 0 3 t && trivia_none t
  | None => false end = true.
Proof. vm_compute. reflexivity. Qed.
(* 1946 *)
Example tokenizer_reserved_keyword_del :
  match lex1 [] $"del" with
  | Some t => is PyDel t && span_is 0 3 t && trivia_none t
  | None => false end = true.
Proof. vm_compute. reflexivity. Qed.
(* 1960 *)
Example tokenizer_reserved_keyword_elif :
  match lex1 [] $"elif" with
  | Some t => is PyElif t && span_is 0 4 t && trivia_none t
  | None => false end = true.
Proof. vm_compute. reflexivity. Qed.
(* 1974 *)
Example tokenizer_reserved_keyword_else :
  match lex1 [] $"else" with
  | Some t => is PyElse t && span_is 0 4 t && trivia_none t
  | None => false end = true.
Proof. vm_compute. reflexivity. Qed.
(* 1988 *)
Example tokenizer_reserved_keyword_except :
  match lex1 [] $"except" with
  | Some t => is PyExcept t && span_is 0 6 t && trivia_none t
  | None => false end = true.
Proof. vm_compute. reflexivity. Qed.
(* 2002 *)
Example tokenizer_reserved_keyword_finally :
  match lex1 [] $"finally" with
  | Some t => is PyFinally t && span_is 0 7 t && trivia_none t
  | None => false end = true.
Proof. vm_compute. reflexivity. Qed.
(* 2016 *)
Example tokenizer_reserved_keyword_for :
  match lex1 [] $"for" with
  | Some t => is PyFor t && span_is 0 3 t && trivia_none t
  | None => false end = true.
Proof. vm_compute. reflexivity. Qed.
(* 2030 *)
Example tokenizer_reserved_keyword_from :
  match lex1 [] $"from" with
  | Some t => is PyFrom t && span_is 0 4 t && trivia_none t
  | None => false end = true.
Proof. vm_compute. reflexivity. Qed.
(* 2044 *)
Example tokenizer_reserved_keyword_global :
  match lex1 [] $"global" with
  | Some t => is PyGlobal t && span_is 0 6 t && trivia_none t
  | None => false end = true.
Proof. vm_compute. reflexivity. Qed.
(* 2058 *)
Example tokenizer_reserved_keyword_if :
  match lex1 [] $"if" with
  | Some t => is PyIf t && span_is 0 2 t && trivia_none t
  | None => false end = true.
Proof. vm_compute. reflexivity. Qed.
(* 2072 *)
Example tokenizer_reserved_keyword_import :
  match lex1 [] $"import" with
  | Some t => is PyImport t && span_is 0 6 t && trivia_none t
  | None => false end = true.
Proof. vm_compute. reflexivity. Qed.
(* 2086 *)
Example tokenizer_reserved_keyword_in :
  match lex1 [] $"in" with
  | Some t => is PyIn t && span_is 0 2 t && trivia_none t
  | None => false end = true.
Proof. vm_compute. reflexivity. Qed.
(* 2100 *)
Example tokenizer_reserved_keyword_is :
  match lex1 [] $"is" with
  | Some t => is PyIs t && span_is 0 2 t && trivia_none t
  | None => false end = true.
Proof. vm_compute. reflexivity. Qed.
(* 2114 *)
Example tokenizer_reserved_keyword_lambda :
  match lex1 [] $"lambda" with
  | Some t => is PyLambda t && span_is 0 6 t && trivia_none t
  | None => false end = true.
Proof. vm_compute. reflexivity. Qed.
(* 2128 *)
Example tokenizer_reserved_keyword_nonlocal :
  match lex1 [] $"nonlocal" with
  | Some t => is PyNonLocal t && span_is 0 8 t && trivia_none t
  | None => false end = true.
Proof. vm_compute. reflexivity. Qed.
(* 2142 *)
Example tokenizer_reserved_keyword_not :
  match lex1 [] $"not" with
  | Some t => is PyNot t && span_is 0 3 t && trivia_none t
  | None => false end = true.
Proof. vm_compute. reflexivity. Qed.
(* 2156 *)
Example tokenizer_reserved_keyword_or :
  match lex1 [] $"or" with
  | Some t => is PyOr t && span_is 0 2 t && trivia_none t
  | None => false end = true.
Proof. vm_compute. reflexivity. Qed.
(* 2170 *)
Example tokenizer_reserved_keyword_pass :
  match lex1 [] $"pass" with
  | Some t => is PyPass t && span_is 0 4 t && trivia_none t
  | None => false end = true.
Proof. vm_compute. reflexivity. Qed.
(* 2184 *)
Example tokenizer_reserved_keyword_raise :
  match lex1 [] $"raise" with
  | Some t => is PyRaise t && span_is 0 5 t && trivia_none t
  | None => false end = true.
Proof. vm_compute. reflexivity. Qed.
(* 2198 *)
Example tokenizer_reserved_keyword_return :
  match lex1 [] $"return" with
  | Some t => is PyReturn t && span_is 0 6 t && trivia_none t
  | None => false end = true.
Proof. vm_compute. reflexivity. Qed.
(* 2212 *)
Example tokenizer_reserved_keyword_try :
  match lex1 [] $"try" with
  | Some t => is PyTry t && span_is 0 3 t && trivia_none t
  | None => false end = true.
Proof. vm_compute. reflexivity. Qed.
(* 2226 *)
Example tokenizer_reserved_keyword_while :
  match lex1 [] $"while" with
  | Some t => is PyWhile t && span_is 0 5 t && trivia_none t
  | None => false end = true.
Proof. vm_compute. reflexivity. Qed.
(* 2240 *)
Example tokenizer_reserved_keyword_with :
  match lex1 [] $"with" with
  | Some t => is PyWith t && span_is 0 4 t && trivia_none t
  | None => false end = true.
Proof. vm_compute. reflexivity. Qed.
(* 2254 *)
Example tokenizer_reserved_keyword_yield :
  match lex1 [] $"yield" with
  | Some t => is PyYield t && span_is 0 5 t && trivia_none t
  | None => false end = true.
Proof. vm_compute. reflexivity. Qed.
(* 2268 *)
Example tokenizer_literal_name_1 :
  match lex1 [] $"__init__" with
  | Some t => is T_AtomName t && span_is 0 8 t && trivia_none t && text_is $"__init__" t
  | None => false end = true.
Proof. vm_compute. reflexivity. Qed.
(* 2284 *)
Example tokenizer_literal_name_2 :
  match lex1 [] $"rf" with
  | Some t => is T_AtomName t && span_is 0 2 t && trivia_none t && text_is $"rf" t
  | None => false end = true.
Proof. vm_compute. reflexivity. Qed.
(* 2300 *)
Example tokenizer_literal_name_3 :
  match lex1 [] $"T3est" with
  | Some t => is T_AtomName t && span_is 0 5 t && trivia_none t && text_is $"T3est" t
  | None => false end = true.
Proof. vm_compute. reflexivity. Qed.
(* 2316 *)
Example tokenizer_literal_hex_number_1 :
  match lex1 [] $"0xaf10" with
  | Some t => is T_AtomNumber t && span_is 0 6 t && trivia_none t && text_is $"0xaf10" t
  | None => false end = true.
Proof. vm_compute. reflexivity. Qed.
(* 2332 *)
Example tokenizer_literal_hex_number_2 :
  match lex1 [] $"0xAF10" with
  | Some t => is T_AtomNumber t && span_is 0 6 t && trivia_none t && text_is $"0xAF10" t
  | None => false end = true.
Proof. vm_compute. reflexivity. Qed.
(* 2348 *)
Example tokenizer_literal_hex_number_3 :
  match lex1 [] $"0x_af_10" with
  | Some t => is T_AtomNumber t && span_is 0 8 t && trivia_none t && text_is $"0x_af_10" t
  | None => false end = true.
Proof. vm_compute. reflexivity. Qed.
(* 2364 *)
Example tokenizer_literal_octet_number_1 :
  match lex1 [] $"0o755" with
  | Some t => is T_AtomNumber t && span_is 0 5 t && trivia_none t && text_is $"0o755" t
  | None => false end = true.
Proof. vm_compute. reflexivity. Qed.
(* 2380 *)
Example tokenizer_literal_octet_number_2 :
  match lex1 [] $"0O755" with
  | Some t => is T_AtomNumber t && span_is 0 5 t && trivia_none t && text_is $"0O755" t
  | None => false end = true.
Proof. vm_compute. reflexivity. Qed.
(* 2396 *)
Example tokenizer_literal_octet_number_3 :
  match lex1 [] $"0O_7_5_5" with
  | Some t => is T_AtomNumber t && span_is 0 8 t && trivia_none t && text_is $"0O_7_5_5" t
  | None => false end = true.
Proof. vm_compute. reflexivity. Qed.
(* 2412 *)
Example tokenizer_literal_binary_number_1 :
  match lex1 [] $"0b111" with
  | Some t => is T_AtomNumber t && span_is 0 5 t && trivia_none t && text_is $"0b111" t
  | None => false end = true.
Proof. vm_compute. reflexivity. Qed.
(* 2428 *)
Example tokenizer_literal_binary_number_2 :
  match lex1 [] $"0B111" with
  | Some t => is T_AtomNumber t && span_is 0 5 t && trivia_none t && text_is $"0B111" t
  | None => false end = true.
Proof. vm_compute. reflexivity. Qed.
(* 2444 *)
Example tokenizer_literal_binary_number_3 :
  match lex1 [] $"0b_1_0_1" with
  | Some t => is T_AtomNumber t && span_is 0 8 t && trivia_none t && text_is $"0b_1_0_1" t
  | None => false end = true.
Proof. vm_compute. reflexivity. Qed.
(* 2460 *)
Example tokenizer_literal_dot_digits_number_1 :
  match lex1 [] $".0" with
  | Some t => is T_AtomNumber t && span_is 0 2 t && trivia_none t && text_is $".0" t
  | None => false end = true.
Proof. vm_compute. reflexivity. Qed.
(* 2476 *)
Example tokenizer_literal_dot_digits_number_2 :
  match lex1 [] $".0_0_1" with
  | Some t => is T_AtomNumber t && span_is 0 6 t && trivia_none t && text_is $".0_0_1" t
  | None => false end = true.
Proof. vm_compute. reflexivity. Qed.
(* 2492 *)
Example tokenizer_literal_dot_digits_number_3 :
  match lex1 [] $".0_0_1e3_4" with
  | Some t => is T_AtomNumber t && span_is 0 10 t && trivia_none t && text_is $".0_0_1e3_4" t
  | None => false end = true.
Proof. vm_compute. reflexivity. Qed.
(* 2508 *)
Example tokenizer_literal_dot_digits_number_4 :
  match lex1 [] $".0_0_1e-3_4" with
  | Some t => is T_AtomNumber t && span_is 0 11 t && trivia_none t && text_is $".0_0_1e-3_4" t
  | None => false end = true.
Proof. vm_compute. reflexivity. Qed.
(* 2524 *)
Example tokenizer_literal_dot_digits_number_5 :
  match lex1 [] $".0_0_1e+3_4" with
  | Some t => is T_AtomNumber t && span_is 0 11 t && trivia_none t && text_is $".0_0_1e+3_4" t
  | None => false end = true.
Proof. vm_compute. reflexivity. Qed.
(* 2540 *)
Example tokenizer_literal_dot_digits_number_6 :
  match lex1 [] $".0_0_1e+3_4j" with
  | Some t => is T_AtomNumber t && span_is 0 12 t && trivia_none t && text_is $".0_0_1e+3_4j" t
  | None => false end = true.
Proof. vm_compute. reflexivity. Qed.
(* 2556 *)
Example tokenizer_literal_dot_digits_number_7 :
  match lex1 [] $".0_0_1E3_4" with
  | Some t => is T_AtomNumber t && span_is 0 10 t && trivia_none t && text_is $".0_0_1E3_4" t
  | None => false end = true.
Proof. vm_compute. reflexivity. Qed.
(* 2572 *)
Example tokenizer_literal_dot_digits_number_8 :
  match lex1 [] $".0_0_1E-3_4" with
  | Some t => is T_AtomNumber t && span_is 0 11 t && trivia_none t && text_is $".0_0_1E-3_4" t
  | None => false end = true.
Proof. vm_compute. reflexivity. Qed.
(* 2588 *)
Example tokenizer_literal_dot_digits_number_9 :
  match lex1 [] $".0_0_1E+3_4" with
  | Some t => is T_AtomNumber t && span_is 0 11 t && trivia_none t && text_is $".0_0_1E+3_4" t
  | None => false end = true.
Proof. vm_compute. reflexivity. Qed.
(* 2604 *)
Example tokenizer_literal_dot_digits_number_10 :
  match lex1 [] $".0_0_1E+3_4J" with
  | Some t => is T_AtomNumber t && span_is 0 12 t && trivia_none t && text_is $".0_0_1E+3_4J" t
  | None => false end = true.
Proof. vm_compute. reflexivity. Qed.
(* 2620 *)
Example tokenizer_literal_dot_digits_number_11 :
  match lex1 [] $".001E+34J" with
  | Some t => is T_AtomNumber t && span_is 0 9 t && trivia_none t && text_is $".001E+34J" t
  | None => false end = true.
Proof. vm_compute. reflexivity. Qed.
(* 2636 *)
Example tokenizer_literal_dot_digits_number_12 :
  match lex1 [] $".0J" with
  | Some t => is T_AtomNumber t && span_is 0 3 t && trivia_none t && text_is $".0J" t
  | None => false end = true.
Proof. vm_compute. reflexivity. Qed.
(* 2652 *)
Example tokenizer_literal_dot_digits_number_13 :
  match lex1 [] $".0j" with
  | Some t => is T_AtomNumber t && span_is 0 3 t && trivia_none t && text_is $".0j" t
  | None => false end = true.
Proof. vm_compute. reflexivity. Qed.
(* 2668 *)
Example tokenizer_literal_nonzero_digits_number_1 :
  match lex1 [] $"12" with
  | Some t => is T_AtomNumber t && span_is 0 2 t && trivia_none t && text_is $"12" t
  | None => false end = true.
Proof. vm_compute. reflexivity. Qed.
(* 2684 *)
Example tokenizer_literal_nonzero_digits_number_2 :
  match lex1 [] $"12." with
  | Some t => is T_AtomNumber t && span_is 0 3 t && trivia_none t && text_is $"12." t
  | None => false end = true.
Proof. vm_compute. reflexivity. Qed.
(* 2700 *)
Example tokenizer_literal_nonzero_digits_number_3 :
  match lex1 [] $"12e3" with
  | Some t => is T_AtomNumber t && span_is 0 4 t && trivia_none t && text_is $"12e3" t
  | None => false end = true.
Proof. vm_compute. reflexivity. Qed.
(* 2716 *)
Example tokenizer_literal_nonzero_digits_number_4 :
  match lex1 [] $"12e-3" with
  | Some t => is T_AtomNumber t && span_is 0 5 t && trivia_none t && text_is $"12e-3" t
  | None => false end = true.
Proof. vm_compute. reflexivity. Qed.
(* 2732 *)
Example tokenizer_literal_nonzero_digits_number_5 :
  match lex1 [] $"12e+3" with
  | Some t => is T_AtomNumber t && span_is 0 5 t && trivia_none t && text_is $"12e+3" t
  | None => false end = true.
Proof. vm_compute. reflexivity. Qed.
(* 2748 *)
Example tokenizer_literal_nonzero_digits_number_6 :
  match lex1 [] $"12e+3j" with
  | Some t => is T_AtomNumber t && span_is 0 6 t && trivia_none t && text_is $"12e+3j" t
  | None => false end = true.
Proof. vm_compute. reflexivity. Qed.
(* 2764 *)
Example tokenizer_literal_nonzero_digits_number_7 :
  match lex1 [] $"12e+3J" with
  | Some t => is T_AtomNumber t && span_is 0 6 t && trivia_none t && text_is $"12e+3J" t
  | None => false end = true.
Proof. vm_compute. reflexivity. Qed.
(* 2780 *)
Example tokenizer_literal_nonzero_digits_number_8 :
  match lex1 [] $"1_2e+3_4J" with
  | Some t => is T_AtomNumber t && span_is 0 9 t && trivia_none t && text_is $"1_2e+3_4J" t
  | None => false end = true.
Proof. vm_compute. reflexivity. Qed.
(* 2796 *)
Example tokenizer_literal_nonzero_digits_number_9 :
  match lex1 [] $"1.2e+3_4J" with
  | Some t => is T_AtomNumber t && span_is 0 9 t && trivia_none t && text_is $"1.2e+3_4J" t
  | None => false end = true.
Proof. vm_compute. reflexivity. Qed.
(* 2812 *)
Example tokenizer_literal_nonzero_digits_number_10 :
  match lex1 [] $"1.2e+3_4" with
  | Some t => is T_AtomNumber t && span_is 0 8 t && trivia_none t && text_is $"1.2e+3_4" t
  | None => false end = true.
Proof. vm_compute. reflexivity. Qed.
(* 2828 *)
Example tokenizer_literal_nonzero_digits_number_11 :
  match lex1 [] $"1.2e+3" with
  | Some t => is T_AtomNumber t && span_is 0 6 t && trivia_none t && text_is $"1.2e+3" t
  | None => false end = true.
Proof. vm_compute. reflexivity. Qed.
(* 2844 *)
Example tokenizer_literal_nonzero_digits_number_12 :
  match lex1 [] $"1.2" with
  | Some t => is T_AtomNumber t && span_is 0 3 t && trivia_none t && text_is $"1.2" t
  | None => false end = true.
Proof. vm_compute. reflexivity. Qed.
(* 2860 *)
Example tokenizer_literal_string_empty_1 :
  match lex1 [] [34; 34] with
  | Some t => is T_AtomString t && span_is 0 2 t && trivia_none t && text_is [34; 34] t && no_prefix t
  | None => false end = true.
Proof. vm_compute. reflexivity. Qed.
(* 2877 *)
Example tokenizer_literal_string_empty_2 :
  match lex1 [] $"''" with
  | Some t => is T_AtomString t && span_is 0 2 t && trivia_none t && text_is $"''" t && no_prefix t
  | None => false end = true.
Proof. vm_compute. reflexivity. Qed.
(* 2894 *)
Example tokenizer_literal_string_empty_3 :
  match lex1 [] $"r''" with
  | Some t => is T_AtomString t && span_is 0 3 t && trivia_none t && text_is $"''" t && (no_prefix t || prefix_is $"r" t)
  | None => false end = true.
Proof. vm_compute. reflexivity. Qed.
(* 2911 *)
Example tokenizer_literal_string_empty_4 :
  match lex1 [] [114; 34; 34] with
  | Some t => is T_AtomString t && span_is 0 3 t && trivia_none t && text_is [34; 34] t && (no_prefix t || prefix_is $"r" t)
  | None => false end = true.
Proof. vm_compute. reflexivity. Qed.
(* 2928 *)
Example tokenizer_literal_string_empty_5 :
  match lex1 [] [82; 34; 34] with
  | Some t => is T_AtomString t && span_is 0 3 t && trivia_none t && text_is [34; 34] t && (no_prefix t || prefix_is $"R" t)
  | None => false end = true.
Proof. vm_compute. reflexivity. Qed.
(* 2945 *)
Example tokenizer_literal_string_empty_6 :
  match lex1 [] [117; 34; 34] with
  | Some t => is T_AtomString t && span_is 0 3 t && trivia_none t && text_is [34; 34] t && (no_prefix t || prefix_is $"u" t)
  | None => false end = true.
Proof. vm_compute. reflexivity. Qed.
(* 2962 *)
Example tokenizer_literal_string_empty_7 :
  match lex1 [] [85; 34; 34] with
  | Some t => is T_AtomString t && span_is 0 3 t && trivia_none t && text_is [34; 34] t && (no_prefix t || prefix_is $"U" t)
  | None => false end = true.
Proof. vm_compute. reflexivity. Qed.
(* 2979 *)
Example tokenizer_literal_string_empty_8 :
  match lex1 [] [102; 34; 34] with
  | Some t => is T_AtomString t && span_is 0 3 t && trivia_none t && text_is [34; 34] t && (no_prefix t || prefix_is $"f" t)
  | None => false end = true.
Proof. vm_compute. reflexivity. Qed.
(* 2996 *)
Example tokenizer_literal_string_empty_9 :
  match lex1 [] [70; 34; 34] with
  | Some t => is T_AtomString t && span_is 0 3 t && trivia_none t && text_is [34; 34] t && (no_prefix t || prefix_is $"F" t)
  | None => false end = true.
Proof. vm_compute. reflexivity. Qed.
(* 3013 *)
Example tokenizer_literal_string_empty_10 :
  match lex1 [] [102; 114; 34; 34] with
  | Some t => is T_AtomString t && span_is 0 4 t && trivia_none t && text_is [34; 34] t && (no_prefix t || prefix_is $"fr" t)
  | None => false end = true.
Proof. vm_compute. reflexivity. Qed.
(* 3030 *)
Example tokenizer_literal_string_empty_11 :
  match lex1 [] [70; 114; 34; 34] with
  | Some t => is T_AtomString t && span_is 0 4 t && trivia_none t && text_is [34; 34] t && (no_prefix t || prefix_is $"Fr" t)
  | None => false end = true.
Proof. vm_compute. reflexivity. Qed.
(* 3047 *)
Example tokenizer_literal_string_empty_12 :
  match lex1 [] [102; 82; 34; 34] with
  | Some t => is T_AtomString t && span_is 0 4 t && trivia_none t && text_is [34; 34] t && (no_prefix t || prefix_is $"fR" t)
  | None => false end = true.
Proof. vm_compute. reflexivity. Qed.
(* 3064 *)
Example tokenizer_literal_string_empty_13 :
  match lex1 [] [70; 82; 34; 34] with
  | Some t => is T_AtomString t && span_is 0 4 t && trivia_none t && text_is [34; 34] t && (no_prefix t || prefix_is $"FR" t)
  | None => false end = true.
Proof. vm_compute. reflexivity. Qed.
(* 3081 *)
Example tokenizer_literal_string_empty_14 :
  match lex1 [] [114; 102; 34; 34] with
  | Some t => is T_AtomString t && span_is 0 4 t && trivia_none t && text_is [34; 34] t && (no_prefix t || prefix_is $"rf" t)
  | None => false end = true.
Proof. vm_compute. reflexivity. Qed.
(* 3098 *)
Example tokenizer_literal_string_empty_15 :
  match lex1 [] [114; 70; 34; 34] with
  | Some t => is T_AtomString t && span_is 0 4 t && trivia_none t && text_is [34; 34] t && (no_prefix t || prefix_is $"rF" t)
  | None => false end = true.
Proof. vm_compute. reflexivity. Qed.
(* 3115 *)
Example tokenizer_literal_string_empty_16 :
  match lex1 [] [82; 102; 34; 34] with
  | Some t => is T_AtomString t && span_is 0 4 t && trivia_none t && text_is [34; 34] t && (no_prefix t || prefix_is $"Rf" t)
  | None => false end = true.
Proof. vm_compute. reflexivity. Qed.
(* 3132 *)
Example tokenizer_literal_string_empty_17 :
  match lex1 [] [82; 70; 34; 34] with
  | Some t => is T_AtomString t && span_is 0 4 t && trivia_none t && text_is [34; 34] t && (no_prefix t || prefix_is $"RF" t)
  | None => false end = true.
Proof. vm_compute. reflexivity. Qed.
(* 3149 *)
Example tokenizer_literal_string_triple_empty_1 :
  match lex1 [] [82; 70; 34; 34; 34; 34; 34; 34] with
  | Some t => is T_AtomString t && span_is 0 8 t && trivia_none t && text_is [34; 34; 34; 34; 34; 34] t && (no_prefix t || prefix_is $"RF" t)
  | None => false end = true.
Proof. vm_compute. reflexivity. Qed.
(* 3166 *)
Example tokenizer_literal_string_triple_empty_2 :
  match lex1 [] $"RF''''''" with
  | Some t => is T_AtomString t && span_is 0 8 t && trivia_none t && text_is $"''''''" t && (no_prefix t || prefix_is $"RF" t)
  | None => false end = true.
Proof. vm_compute. reflexivity. Qed.
(* 3183 *)
Example tokenizer_literal_string_triple_1 :
  match lex1 [] $"RF'''Hello, World!'''" with
  | Some t => is T_AtomString t && span_is 0 21 t && trivia_none t && text_is $"'''Hello, World!'''" t && (no_prefix t || prefix_is $"RF" t)
  | None => false end = true.
Proof. vm_compute. reflexivity. Qed.
(* 3200 *)
Example tokenizer_literal_string_triple_2 :
  match lex1 [] [82; 70; 39; 39; 39; 72; 101; 108; 108; 111; 44; 13; 10; 32; 87; 111; 114; 108; 100; 33; 39; 39; 39] with
  | Some t => is T_AtomString t && span_is 0 23 t && trivia_none t && text_is [39; 39; 39; 72; 101; 108; 108; 111; 44; 13; 10; 32; 87; 111; 114; 108; 100; 33; 39; 39; 39] t && (no_prefix t || prefix_is $"RF" t)
  | None => false end = true.
Proof. vm_compute. reflexivity. Qed.
(* 3217 *)
Example tokenizer_literal_string_single_1 :
  match lex1 [] $"RF'Hello, World!'" with
  | Some t => is T_AtomString t && span_is 0 17 t && trivia_none t && text_is $"'Hello, World!'" t && (no_prefix t || prefix_is $"RF" t)
  | None => false end = true.
Proof. vm_compute. reflexivity. Qed.

(** expressions.rs tests *)
(* 1883 *)
Example expression_atom_ellipsis :
  tree_has (parse1 F_atom $"...")
    (fun n => match n with AtomElipsis s e _ => Nat.eqb s 0 && Nat.eqb e 3 | _ => false end)
    []
    [(fun t => is PyElipsis t && span_is 0 3 t && trivia_none t)] = true.
Proof. vm_compute. reflexivity. Qed.
(* 1905 *)
Example expression_atom_false :
  tree_has (parse1 F_atom $"False")
    (fun n => match n with AtomFalse s e _ => Nat.eqb s 0 && Nat.eqb e 5 | _ => false end)
    []
    [(fun t => is PyFalse t && span_is 0 5 t && trivia_none t)] = true.
Proof. vm_compute. reflexivity. Qed.
(* 1927 *)
Example expression_atom_none :
  tree_has (parse1 F_atom $"None")
    (fun n => match n with AtomNone s e _ => Nat.eqb s 0 && Nat.eqb e 4 | _ => false end)
    []
    [(fun t => is PyNone t && span_is 0 4 t && trivia_none t)] = true.
Proof. vm_compute. reflexivity. Qed.
(* 1949 *)
Example expression_atom_true :
  tree_has (parse1 F_atom $"True")
    (fun n => match n with AtomTrue s e _ => Nat.eqb s 0 && Nat.eqb e 4 | _ => false end)
    []
    [(fun t => is PyTrue t && span_is 0 4 t && trivia_none t)] = true.
Proof. vm_compute. reflexivity. Qed.
(* 1971 *)
Example expression_atom_name :
  tree_has (parse1 F_atom $"__init__")
    (fun n => match n with AtomName s e _ => Nat.eqb s 0 && Nat.eqb e 8 | _ => false end)
    []
    [(fun t => is T_AtomName t && span_is 0 8 t && trivia_none t);
     (text_is $"__init__")] = true.
Proof. vm_compute. reflexivity. Qed.
(* 1998 *)
Example expression_atom_number :
  tree_has (parse1 F_atom $"0.32e-4J")
    (fun n => match n with AtomNumber s e _ => Nat.eqb s 0 && Nat.eqb e 8 | _ => false end)
    []
    [(fun t => is T_AtomNumber t && span_is 0 8 t && trivia_none t);
     (text_is $"0.32e-4J")] = true.
Proof. vm_compute. reflexivity. Qed.
(* 2025 *)
Example expression_atom_single_string :
  tree_has (parse1 F_atom $"'Hello, World!'")
    (fun n => match n with AtomString s e _ => Nat.eqb s 0 && Nat.eqb e 15 | _ => false end)
    []
    [(fun t => is T_AtomString t && span_is 0 15 t && trivia_none t && no_prefix t);
     (text_is $"'Hello, World!'")] = true.
Proof. vm_compute. reflexivity. Qed.
(* 2058 *)
Example expression_atom_multiple_string :
  tree_has (parse1 F_atom $"'Hello, World!''123'")
    (fun n => match n with AtomString s e _ => Nat.eqb s 0 && Nat.eqb e 20 | _ => false end)
    []
    [(fun t => is T_AtomString t && trivia_none t && no_prefix t && text_is $"'Hello, World!'" t);
     (fun t => is T_AtomString t && trivia_none t && no_prefix t && text_is $"'123'" t)] = true.
Proof. vm_compute. reflexivity. Qed.
(* 2088 *)
Example expression_atom_non_await_name :
  tree_has (parse1 F_atom_expr $"__init__")
    (fun n => match n with AtomName s e _ => Nat.eqb s 0 && Nat.eqb e 8 | _ => false end)
    []
    [(fun t => is T_AtomName t && span_is 0 8 t && trivia_none t);
     (text_is $"__init__")] = true.
Proof. vm_compute. reflexivity. Qed.
(* 2115 *)
Example expression_atom_await_name :
  tree_has (parse1 F_atom_expr $"await __init__")
    (fun n => match n with AtomExpr s e _ _ _ => Nat.eqb s 0 && Nat.eqb e 14 | _ => false end)
    [(fun n => match n with AtomName s e _ => Nat.eqb s 6 && Nat.eqb e 14 | _ => false end)]
    [(fun t => is PyAwait t && span_is 0 5 t && trivia_none t);
     (fun t => is T_AtomName t && span_is 6 14 t)] = true.
Proof. vm_compute. reflexivity. Qed.
(* 2167 *)
Example expression_power_operator :
  tree_has (parse1 F_power $"a ** b")
    (fun n => match n with PowerExpr s e _ _ _ => Nat.eqb s 0 && Nat.eqb e 6 | _ => false end)
    [(fun n => match n with AtomName s e _ => Nat.eqb s 0 && Nat.eqb e 2 | _ => false end);
     (fun n => match n with AtomName s e _ => Nat.eqb s 5 && Nat.eqb e 6 | _ => false end)]
    [(fun t => is PyPower t && span_is 2 4 t)] = true.
Proof. vm_compute. reflexivity. Qed.
(* 2197 *)
Example expression_no_power_operator :
  tree_has (parse1 F_power $"...")
    (fun n => match n with AtomElipsis s e _ => Nat.eqb s 0 && Nat.eqb e 3 | _ => false end)
    []
    [(fun t => is PyElipsis t && span_is 0 3 t && trivia_none t)] = true.
Proof. vm_compute. reflexivity. Qed.
(* 2219 *)
Example expression_factor_operator_plus :
  tree_has (parse1 F_factor $"+b")
    (fun n => match n with UnaryPlus s e _ _ => Nat.eqb s 0 && Nat.eqb e 2 | _ => false end)
    [(fun n => match n with AtomName s e _ => Nat.eqb s 1 && Nat.eqb e 2 | _ => false end)]
    [(fun t => is PyPlus t && span_is 0 1 t)] = true.
Proof. vm_compute. reflexivity. Qed.
(* 2245 *)
Example expression_factor_operator_minus :
  tree_has (parse1 F_factor $"-b")
    (fun n => match n with UnaryMinus s e _ _ => Nat.eqb s 0 && Nat.eqb e 2 | _ => false end)
    [(fun n => match n with AtomName s e _ => Nat.eqb s 1 && Nat.eqb e 2 | _ => false end)]
    [(fun t => is PyMinus t && span_is 0 1 t)] = true.
Proof. vm_compute. reflexivity. Qed.
(* 2271 *)
Example expression_factor_operator_bit_invert :
  tree_has (parse1 F_factor $"~b")
    (fun n => match n with UnaryInvert s e _ _ => Nat.eqb s 0 && Nat.eqb e 2 | _ => false end)
    [(fun n => match n with AtomName s e _ => Nat.eqb s 1 && Nat.eqb e 2 | _ => false end)]
    [(fun t => is PyBitInvert t && span_is 0 1 t)] = true.
Proof. vm_compute. reflexivity. Qed.
(* 2297 *)
Example expression_no_factor_operator :
  tree_has (parse1 F_factor $"...")
    (fun n => match n with AtomElipsis s e _ => Nat.eqb s 0 && Nat.eqb e 3 | _ => false end)
    []
    [(fun t => is PyElipsis t && span_is 0 3 t && trivia_none t)] = true.
Proof. vm_compute. reflexivity. Qed.
(* 2319 *)
Example expression_term_operator_mul :
  tree_has (parse1 F_term $"a * b")
    (fun n => match n with MulTerm s e _ _ _ => Nat.eqb s 0 && Nat.eqb e 5 | _ => false end)
    [(fun n => match n with AtomName s e _ => Nat.eqb s 0 && Nat.eqb e 2 | _ => false end);
     (fun n => match n with AtomName s e _ => Nat.eqb s 4 && Nat.eqb e 5 | _ => false end)]
    [(fun t => is PyMul t && span_is 2 3 t)] = true.
Proof. vm_compute. reflexivity. Qed.
(* 2349 *)
Example expression_term_operator_div :
  tree_has (parse1 F_term $"a / b")
    (fun n => match n with DivTerm s e _ _ _ => Nat.eqb s 0 && Nat.eqb e 5 | _ => false end)
    [(fun n => match n with AtomName s e _ => Nat.eqb s 0 && Nat.eqb e 2 | _ => false end);
     (fun n => match n with AtomName s e _ => Nat.eqb s 4 && Nat.eqb e 5 | _ => false end)]
    [(fun t => is PyDiv t && span_is 2 3 t)] = true.
Proof. vm_compute. reflexivity. Qed.
(* 2379 *)
Example expression_term_operator_modulo :
  tree_has (parse1 F_term $"a % b")
    (fun n => match n with ModuloTerm s e _ _ _ => Nat.eqb s 0 && Nat.eqb e 5 | _ => false end)
    [(fun n => match n with AtomName s e _ => Nat.eqb s 0 && Nat.eqb e 2 | _ => false end);
     (fun n => match n with AtomName s e _ => Nat.eqb s 4 && Nat.eqb e 5 | _ => false end)]
    [(fun t => is PyModulo t && span_is 2 3 t)] = true.
Proof. vm_compute. reflexivity. Qed.
(* 2409 *)
Example expression_term_operator_matrices :
  tree_has (parse1 F_term $"a @ b")
    (fun n => match n with MatriceTerm s e _ _ _ => Nat.eqb s 0 && Nat.eqb e 5 | _ => false end)
    [(fun n => match n with AtomName s e _ => Nat.eqb s 0 && Nat.eqb e 2 | _ => false end);
     (fun n => match n with AtomName s e _ => Nat.eqb s 4 && Nat.eqb e 5 | _ => false end)]
    [(fun t => is PyMatrice t && span_is 2 3 t)] = true.
Proof. vm_compute. reflexivity. Qed.
(* 2439 *)
Example expression_term_operator_floor_div :
  tree_has (parse1 F_term $"a // b")
    (fun n => match n with FloorDivTerm s e _ _ _ => Nat.eqb s 0 && Nat.eqb e 6 | _ => false end)
    [(fun n => match n with AtomName s e _ => Nat.eqb s 0 && Nat.eqb e 2 | _ => false end);
     (fun n => match n with AtomName s e _ => Nat.eqb s 5 && Nat.eqb e 6 | _ => false end)]
    [(fun t => is PyFloorDiv t && span_is 2 4 t)] = true.
Proof. vm_compute. reflexivity. Qed.
(* 2469 *)
Example expression_no_term_operator :
  tree_has (parse1 F_term $"...")
    (fun n => match n with AtomElipsis s e _ => Nat.eqb s 0 && Nat.eqb e 3 | _ => false end)
    []
    [(fun t => is PyElipsis t && span_is 0 3 t && trivia_none t)] = true.
Proof. vm_compute. reflexivity. Qed.
(* 2491 *)
Example expression_term_operator_matrices_double :
  tree_has (parse1 F_term $"a @ b @ c")
    (fun n => match n with MatriceTerm s e _ _ _ => Nat.eqb s 0 && Nat.eqb e 9 | _ => false end)
    [(fun n => match n with MatriceTerm s e _ _ _ => Nat.eqb s 0 && Nat.eqb e 6 | _ => false end);
     (fun n => match n with AtomName s e _ => Nat.eqb s 0 && Nat.eqb e 2 | _ => false end);
     (fun n => match n with AtomName s e _ => Nat.eqb s 4 && Nat.eqb e 6 | _ => false end);
     (fun n => match n with AtomName s e _ => Nat.eqb s 8 && Nat.eqb e 9 | _ => false end)]
    [(fun t => is PyMatrice t && span_is 2 3 t);
     (fun t => is PyMatrice t && span_is 6 7 t)] = true.
Proof. vm_compute. reflexivity. Qed.
(* 2534 *)
Example expression_arith_operator_plus :
  tree_has (parse1 F_arith $"a + b")
    (fun n => match n with PlusArithExpr s e _ _ _ => Nat.eqb s 0 && Nat.eqb e 5 | _ => false end)
    [(fun n => match n with AtomName s e _ => Nat.eqb s 0 && Nat.eqb e 2 | _ => false end);
     (fun n => match n with AtomName s e _ => Nat.eqb s 4 && Nat.eqb e 5 | _ => false end)]
    [(fun t => is PyPlus t && span_is 2 3 t)] = true.
Proof. vm_compute. reflexivity. Qed.
(* 2564 *)
Example expression_arith_operator_minus :
  tree_has (parse1 F_arith $"a - b")
    (fun n => match n with MinusArithExpr s e _ _ _ => Nat.eqb s 0 && Nat.eqb e 5 | _ => false end)
    [(fun n => match n with AtomName s e _ => Nat.eqb s 0 && Nat.eqb e 2 | _ => false end);
     (fun n => match n with AtomName s e _ => Nat.eqb s 4 && Nat.eqb e 5 | _ => false end)]
    [(fun t => is PyMinus t && span_is 2 3 t)] = true.
Proof. vm_compute. reflexivity. Qed.
(* 2594 *)
Example expression_no_arith_operator :
  tree_has (parse1 F_arith $"...")
    (fun n => match n with AtomElipsis s e _ => Nat.eqb s 0 && Nat.eqb e 3 | _ => false end)
    []
    [(fun t => is PyElipsis t && span_is 0 3 t && trivia_none t)] = true.
Proof. vm_compute. reflexivity. Qed.
(* 2616 *)
Example expression_arith_operator_plus_minus_double :
  tree_has (parse1 F_arith $"a + b - c")
    (fun n => match n with MinusArithExpr s e _ _ _ => Nat.eqb s 0 && Nat.eqb e 9 | _ => false end)
    [(fun n => match n with PlusArithExpr s e _ _ _ => Nat.eqb s 0 && Nat.eqb e 6 | _ => false end);
     (fun n => match n with AtomName s e _ => Nat.eqb s 0 && Nat.eqb e 2 | _ => false end);
     (fun n => match n with AtomName s e _ => Nat.eqb s 4 && Nat.eqb e 6 | _ => false end);
     (fun n => match n with AtomName s e _ => Nat.eqb s 8 && Nat.eqb e 9 | _ => false end)]
    [(fun t => is PyPlus t && span_is 2 3 t);
     (fun t => is PyMinus t && span_is 6 7 t)] = true.
Proof. vm_compute. reflexivity. Qed.
(* 2659 *)
Example expression_shift_operator_left :
  tree_has (parse1 F_shift $"a << b")
    (fun n => match n with ShiftLeftExpr s e _ _ _ => Nat.eqb s 0 && Nat.eqb e 6 | _ => false end)
    [(fun n => match n with AtomName s e _ => Nat.eqb s 0 && Nat.eqb e 2 | _ => false end);
     (fun n => match n with AtomName s e _ => Nat.eqb s 5 && Nat.eqb e 6 | _ => false end)]
    [(fun t => is PyShiftLeft t && span_is 2 4 t)] = true.
Proof. vm_compute. reflexivity. Qed.
(* 2689 *)
Example expression_shift_operator_right :
  tree_has (parse1 F_shift $"a >> b")
    (fun n => match n with ShiftRightExpr s e _ _ _ => Nat.eqb s 0 && Nat.eqb e 6 | _ => false end)
    [(fun n => match n with AtomName s e _ => Nat.eqb s 0 && Nat.eqb e 2 | _ => false end);
     (fun n => match n with AtomName s e _ => Nat.eqb s 5 && Nat.eqb e 6 | _ => false end)]
    [(fun t => is PyShiftRight t && span_is 2 4 t)] = true.
Proof. vm_compute. reflexivity. Qed.
(* 2719 *)
Example expression_no_shift_operator :
  tree_has (parse1 F_shift $"...")
    (fun n => match n with AtomElipsis s e _ => Nat.eqb s 0 && Nat.eqb e 3 | _ => false end)
    []
    [(fun t => is PyElipsis t && span_is 0 3 t && trivia_none t)] = true.
Proof. vm_compute. reflexivity. Qed.
(* 2741 *)
Example expression_shift_operator_left_right_double :
  tree_has (parse1 F_shift $"a << b >> c")
    (fun n => match n with ShiftRightExpr s e _ _ _ => Nat.eqb s 0 && Nat.eqb e 11 | _ => false end)
    [(fun n => match n with ShiftLeftExpr s e _ _ _ => Nat.eqb s 0 && Nat.eqb e 7 | _ => false end);
     (fun n => match n with AtomName s e _ => Nat.eqb s 0 && Nat.eqb e 2 | _ => false end);
     (fun n => match n with AtomName s e _ => Nat.eqb s 5 && Nat.eqb e 7 | _ => false end);
     (fun n => match n with AtomName s e _ => Nat.eqb s 10 && Nat.eqb e 11 | _ => false end)]
    [(fun t => is PyShiftLeft t && span_is 2 4 t);
     (fun t => is PyShiftRight t && span_is 7 9 t)] = true.
Proof. vm_compute. reflexivity. Qed.
(* 2784 *)
Example expression_bit_and_operator :
  tree_has (parse1 F_and_expr $"a & b")
    (fun n => match n with AndExpr s e _ _ _ => Nat.eqb s 0 && Nat.eqb e 5 | _ => false end)
    [(fun n => match n with AtomName s e _ => Nat.eqb s 0 && Nat.eqb e 2 | _ => false end);
     (fun n => match n with AtomName s e _ => Nat.eqb s 4 && Nat.eqb e 5 | _ => false end)]
    [(fun t => is PyBitAnd t && span_is 2 3 t)] = true.
Proof. vm_compute. reflexivity. Qed.
(* 2814 *)
Example expression_no_bit_and_operator :
  tree_has (parse1 F_and_expr $"...")
    (fun n => match n with AtomElipsis s e _ => Nat.eqb s 0 && Nat.eqb e 3 | _ => false end)
    []
    [(fun t => is PyElipsis t && span_is 0 3 t && trivia_none t)] = true.
Proof. vm_compute. reflexivity. Qed.
(* 2836 *)
Example expression_bit_and_operator_double :
  tree_has (parse1 F_and_expr $"a & b & c")
    (fun n => match n with AndExpr s e _ _ _ => Nat.eqb s 0 && Nat.eqb e 9 | _ => false end)
    [(fun n => match n with AndExpr s e _ _ _ => Nat.eqb s 0 && Nat.eqb e 6 | _ => false end);
     (fun n => match n with AtomName s e _ => Nat.eqb s 0 && Nat.eqb e 2 | _ => false end);
     (fun n => match n with AtomName s e _ => Nat.eqb s 4 && Nat.eqb e 6 | _ => false end);
     (fun n => match n with AtomName s e _ => Nat.eqb s 8 && Nat.eqb e 9 | _ => false end)]
    [(fun t => is PyBitAnd t && span_is 2 3 t);
     (fun t => is PyBitAnd t && span_is 6 7 t)] = true.
Proof. vm_compute. reflexivity. Qed.
(* 2879 *)
Example expression_bit_xor_operator :
  tree_has (parse1 F_xor_expr $"a ^ b")
    (fun n => match n with XorExpr s e _ _ _ => Nat.eqb s 0 && Nat.eqb e 5 | _ => false end)
    [(fun n => match n with AtomName s e _ => Nat.eqb s 0 && Nat.eqb e 2 | _ => false end);
     (fun n => match n with AtomName s e _ => Nat.eqb s 4 && Nat.eqb e 5 | _ => false end)]
    [(fun t => is PyBitXor t && span_is 2 3 t)] = true.
Proof. vm_compute. reflexivity. Qed.
(* 2909 *)
Example expression_no_bit_xor_operator :
  tree_has (parse1 F_xor_expr $"...")
    (fun n => match n with AtomElipsis s e _ => Nat.eqb s 0 && Nat.eqb e 3 | _ => false end)
    []
    [(fun t => is PyElipsis t && span_is 0 3 t && trivia_none t)] = true.
Proof. vm_compute. reflexivity. Qed.
(* 2931 *)
Example expression_bit_xor_operator_double :
  tree_has (parse1 F_xor_expr $"a ^ b ^ c")
    (fun n => match n with XorExpr s e _ _ _ => Nat.eqb s 0 && Nat.eqb e 9 | _ => false end)
    [(fun n => match n with XorExpr s e _ _ _ => Nat.eqb s 0 && Nat.eqb e 6 | _ => false end);
     (fun n => match n with AtomName s e _ => Nat.eqb s 0 && Nat.eqb e 2 | _ => false end);
     (fun n => match n with AtomName s e _ => Nat.eqb s 4 && Nat.eqb e 6 | _ => false end);
     (fun n => match n with AtomName s e _ => Nat.eqb s 8 && Nat.eqb e 9 | _ => false end)]
    [(fun t => is PyBitXor t && span_is 2 3 t);
     (fun t => is PyBitXor t && span_is 6 7 t)] = true.
Proof. vm_compute. reflexivity. Qed.
(* 2974 *)
Example expression_bit_or_operator :
  tree_has (parse1 F_expr $"a | b")
    (fun n => match n with Expr s e _ _ _ => Nat.eqb s 0 && Nat.eqb e 5 | _ => false end)
    [(fun n => match n with AtomName s e _ => Nat.eqb s 0 && Nat.eqb e 2 | _ => false end);
     (fun n => match n with AtomName s e _ => Nat.eqb s 4 && Nat.eqb e 5 | _ => false end)]
    [(fun t => is PyBitOr t && span_is 2 3 t)] = true.
Proof. vm_compute. reflexivity. Qed.
(* 3004 *)
Example expression_no_bit_or_operator :
  tree_has (parse1 F_expr $"...")
    (fun n => match n with AtomElipsis s e _ => Nat.eqb s 0 && Nat.eqb e 3 | _ => false end)
    []
    [(fun t => is PyElipsis t && span_is 0 3 t && trivia_none t)] = true.
Proof. vm_compute. reflexivity. Qed.
(* 3026 *)
Example expression_bit_or_operator_double :
  tree_has (parse1 F_expr $"a | b | c")
    (fun n => match n with Expr s e _ _ _ => Nat.eqb s 0 && Nat.eqb e 9 | _ => false end)
    [(fun n => match n with Expr s e _ _ _ => Nat.eqb s 0 && Nat.eqb e 6 | _ => false end);
     (fun n => match n with AtomName s e _ => Nat.eqb s 0 && Nat.eqb e 2 | _ => false end);
     (fun n => match n with AtomName s e _ => Nat.eqb s 4 && Nat.eqb e 6 | _ => false end);
     (fun n => match n with AtomName s e _ => Nat.eqb s 8 && Nat.eqb e 9 | _ => false end)]
    [(fun t => is PyBitOr t && span_is 2 3 t);
     (fun t => is PyBitOr t && span_is 6 7 t)] = true.
Proof. vm_compute. reflexivity. Qed.
(* 3069 *)
Example expression_star_expression_operator :
  tree_has (parse1 F_star_expr $"*b")
    (fun n => match n with StarExpr s e _ _ => Nat.eqb s 0 && Nat.eqb e 2 | _ => false end)
    [(fun n => match n with AtomName s e _ => Nat.eqb s 1 && Nat.eqb e 2 | _ => false end)]
    [(fun t => is PyMul t && span_is 0 1 t)] = true.
Proof. vm_compute. reflexivity. Qed.
(* 3095 *)
Example expression_comparison_operator_less :
  tree_has (parse1 F_comparison $"a < b")
    (fun n => match n with LessComparison s e _ _ _ => Nat.eqb s 0 && Nat.eqb e 5 | _ => false end)
    [(fun n => match n with AtomName s e _ => Nat.eqb s 0 && Nat.eqb e 2 | _ => false end);
     (fun n => match n with AtomName s e _ => Nat.eqb s 4 && Nat.eqb e 5 | _ => false end)]
    [(fun t => is PyLess t && span_is 2 3 t)] = true.
Proof. vm_compute. reflexivity. Qed.
(* 3125 *)
Example expression_comparison_operator_less_equal :
  tree_has (parse1 F_comparison $"a <= b")
    (fun n => match n with LessEqualComparison s e _ _ _ => Nat.eqb s 0 && Nat.eqb e 6 | _ => false end)
    [(fun n => match n with AtomName s e _ => Nat.eqb s 0 && Nat.eqb e 2 | _ => false end);
     (fun n => match n with AtomName s e _ => Nat.eqb s 5 && Nat.eqb e 6 | _ => false end)]
    [(fun t => is PyLessEqual t && span_is 2 4 t)] = true.
Proof. vm_compute. reflexivity. Qed.
(* 3155 *)
Example expression_comparison_operator_equal :
  tree_has (parse1 F_comparison $"a == b")
    (fun n => match n with EqualComparison s e _ _ _ => Nat.eqb s 0 && Nat.eqb e 6 | _ => false end)
    [(fun n => match n with AtomName s e _ => Nat.eqb s 0 && Nat.eqb e 2 | _ => false end);
     (fun n => match n with AtomName s e _ => Nat.eqb s 5 && Nat.eqb e 6 | _ => false end)]
    [(fun t => is PyEqual t && span_is 2 4 t)] = true.
Proof. vm_compute. reflexivity. Qed.
(* 3185 *)
Example expression_comparison_operator_greater_equal :
  tree_has (parse1 F_comparison $"a >= b")
    (fun n => match n with GreaterEqualComparison s e _ _ _ => Nat.eqb s 0 && Nat.eqb e 6 | _ => false end)
    [(fun n => match n with AtomName s e _ => Nat.eqb s 0 && Nat.eqb e 2 | _ => false end);
     (fun n => match n with AtomName s e _ => Nat.eqb s 5 && Nat.eqb e 6 | _ => false end)]
    [(fun t => is PyGreaterEqual t && span_is 2 4 t)] = true.
Proof. vm_compute. reflexivity. Qed.
(* 3215 *)
Example expression_comparison_operator_not_equal :
  tree_has (parse1 F_comparison $"a != b")
    (fun n => match n with NotEqualComparison s e _ _ _ => Nat.eqb s 0 && Nat.eqb e 6 | _ => false end)
    [(fun n => match n with AtomName s e _ => Nat.eqb s 0 && Nat.eqb e 2 | _ => false end);
     (fun n => match n with AtomName s e _ => Nat.eqb s 5 && Nat.eqb e 6 | _ => false end)]
    [(fun t => is PyNotEqual t && span_is 2 4 t)] = true.
Proof. vm_compute. reflexivity. Qed.
(* 3245 *)
Example expression_comparison_operator_not_equal_legacy :
  tree_has (parse1 F_comparison $"a <> b")
    (fun n => match n with NotEqualComparison s e _ _ _ => Nat.eqb s 0 && Nat.eqb e 6 | _ => false end)
    [(fun n => match n with AtomName s e _ => Nat.eqb s 0 && Nat.eqb e 2 | _ => false end);
     (fun n => match n with AtomName s e _ => Nat.eqb s 5 && Nat.eqb e 6 | _ => false end)]
    [(fun t => is PyNotEqual t && span_is 2 4 t)] = true.
Proof. vm_compute. reflexivity. Qed.
(* 3275 *)
Example expression_comparison_operator_greater :
  tree_has (parse1 F_comparison $"a > b")
    (fun n => match n with GreaterComparison s e _ _ _ => Nat.eqb s 0 && Nat.eqb e 5 | _ => false end)
    [(fun n => match n with AtomName s e _ => Nat.eqb s 0 && Nat.eqb e 2 | _ => false end);
     (fun n => match n with AtomName s e _ => Nat.eqb s 4 && Nat.eqb e 5 | _ => false end)]
    [(fun t => is PyGreater t && span_is 2 3 t)] = true.
Proof. vm_compute. reflexivity. Qed.
(* 3305 *)
Example expression_comparison_operator_is :
  tree_has (parse1 F_comparison $"a is b")
    (fun n => match n with IsComparison s e _ _ _ => Nat.eqb s 0 && Nat.eqb e 6 | _ => false end)
    [(fun n => match n with AtomName s e _ => Nat.eqb s 0 && Nat.eqb e 2 | _ => false end);
     (fun n => match n with AtomName s e _ => Nat.eqb s 5 && Nat.eqb e 6 | _ => false end)]
    [(fun t => is PyIs t && span_is 2 4 t)] = true.
Proof. vm_compute. reflexivity. Qed.
(* 3335 *)
Example expression_comparison_operator_is_not :
  tree_has (parse1 F_comparison $"a is not b")
    (fun n => match n with IsNotComparison s e _ _ _ _ => Nat.eqb s 0 && Nat.eqb e 10 | _ => false end)
    [(fun n => match n with AtomName s e _ => Nat.eqb s 0 && Nat.eqb e 2 | _ => false end);
     (fun n => match n with AtomName s e _ => Nat.eqb s 9 && Nat.eqb e 10 | _ => false end)]
    [(fun t => is PyIs t && span_is 2 4 t);
     (fun t => is PyNot t && span_is 5 8 t)] = true.
Proof. vm_compute. reflexivity. Qed.
(* 3369 *)
Example expression_comparison_operator_not_in :
  tree_has (parse1 F_comparison $"a not in b")
    (fun n => match n with NotInComparison s e _ _ _ _ => Nat.eqb s 0 && Nat.eqb e 10 | _ => false end)
    [(fun n => match n with AtomName s e _ => Nat.eqb s 0 && Nat.eqb e 2 | _ => false end);
     (fun n => match n with AtomName s e _ => Nat.eqb s 9 && Nat.eqb e 10 | _ => false end)]
    [(fun t => is PyNot t && span_is 2 5 t);
     (fun t => is PyIn t && span_is 6 8 t)] = true.
Proof. vm_compute. reflexivity. Qed.
(* 3403 *)
Example expression_comparison_operator_double :
  tree_has (parse1 F_comparison $"a < b > c")
    (fun n => match n with GreaterComparison s e _ _ _ => Nat.eqb s 0 && Nat.eqb e 9 | _ => false end)
    [(fun n => match n with LessComparison s e _ _ _ => Nat.eqb s 0 && Nat.eqb e 6 | _ => false end);
     (fun n => match n with AtomName s e _ => Nat.eqb s 0 && Nat.eqb e 2 | _ => false end);
     (fun n => match n with AtomName s e _ => Nat.eqb s 4 && Nat.eqb e 6 | _ => false end);
     (fun n => match n with AtomName s e _ => Nat.eqb s 8 && Nat.eqb e 9 | _ => false end)]
    [(fun t => is PyLess t && span_is 2 3 t);
     (fun t => is PyGreater t && span_is 6 7 t)] = true.
Proof. vm_compute. reflexivity. Qed.
(* 3446 *)
Example expression_not_test_operator :
  tree_has (parse1 F_not_test $"not b")
    (fun n => match n with NotTest s e _ _ => Nat.eqb s 0 && Nat.eqb e 5 | _ => false end)
    [(fun n => match n with AtomName s e _ => Nat.eqb s 4 && Nat.eqb e 5 | _ => false end)]
    [(fun t => is PyNot t && span_is 0 3 t)] = true.
Proof. vm_compute. reflexivity. Qed.
(* 3472 *)
Example expression_no_not_test_operator :
  tree_has (parse1 F_not_test $"...")
    (fun n => match n with AtomElipsis s e _ => Nat.eqb s 0 && Nat.eqb e 3 | _ => false end)
    []
    [(fun t => is PyElipsis t && span_is 0 3 t && trivia_none t)] = true.
Proof. vm_compute. reflexivity. Qed.
(* 3495 *)
Example expression_and_test_operator :
  tree_has (parse1 F_and_test $"a and b")
    (fun n => match n with AndTest s e _ _ _ => Nat.eqb s 0 && Nat.eqb e 7 | _ => false end)
    [(fun n => match n with AtomName s e _ => Nat.eqb s 0 && Nat.eqb e 2 | _ => false end);
     (fun n => match n with AtomName s e _ => Nat.eqb s 6 && Nat.eqb e 7 | _ => false end)]
    [(fun t => is PyAnd t && span_is 2 5 t)] = true.
Proof. vm_compute. reflexivity. Qed.
(* 3525 *)
Example expression_comparison_and_test_operator :
  tree_has (parse1 F_and_test $"a and b and c")
    (fun n => match n with AndTest s e _ _ _ => Nat.eqb s 0 && Nat.eqb e 13 | _ => false end)
    [(fun n => match n with AndTest s e _ _ _ => Nat.eqb s 0 && Nat.eqb e 8 | _ => false end);
     (fun n => match n with AtomName s e _ => Nat.eqb s 0 && Nat.eqb e 2 | _ => false end);
     (fun n => match n with AtomName s e _ => Nat.eqb s 6 && Nat.eqb e 8 | _ => false end);
     (fun n => match n with AtomName s e _ => Nat.eqb s 12 && Nat.eqb e 13 | _ => false end)]
    [(fun t => is PyAnd t && span_is 2 5 t);
     (fun t => is PyAnd t && span_is 8 11 t)] = true.
Proof. vm_compute. reflexivity. Qed.
(* 3568 *)
Example expression_no_and_test_operator :
  tree_has (parse1 F_and_test $"...")
    (fun n => match n with AtomElipsis s e _ => Nat.eqb s 0 && Nat.eqb e 3 | _ => false end)
    []
    [(fun t => is PyElipsis t && span_is 0 3 t && trivia_none t)] = true.
Proof. vm_compute. reflexivity. Qed.
(* 3590 *)
Example expression_or_test_operator :
  tree_has (parse1 F_or_test $"a or b")
    (fun n => match n with OrTest s e _ _ _ => Nat.eqb s 0 && Nat.eqb e 6 | _ => false end)
    [(fun n => match n with AtomName s e _ => Nat.eqb s 0 && Nat.eqb e 2 | _ => false end);
     (fun n => match n with AtomName s e _ => Nat.eqb s 5 && Nat.eqb e 6 | _ => false end)]
    [(fun t => is PyOr t && span_is 2 4 t)] = true.
Proof. vm_compute. reflexivity. Qed.
(* 3620 *)
Example expression_comparison_or_test_operator_multiple :
  tree_has (parse1 F_or_test $"a or b or c")
    (fun n => match n with OrTest s e _ _ _ => Nat.eqb s 0 && Nat.eqb e 11 | _ => false end)
    [(fun n => match n with OrTest s e _ _ _ => Nat.eqb s 0 && Nat.eqb e 7 | _ => false end);
     (fun n => match n with AtomName s e _ => Nat.eqb s 0 && Nat.eqb e 2 | _ => false end);
     (fun n => match n with AtomName s e _ => Nat.eqb s 5 && Nat.eqb e 7 | _ => false end);
     (fun n => match n with AtomName s e _ => Nat.eqb s 10 && Nat.eqb e 11 | _ => false end)]
    [(fun t => is PyOr t && span_is 2 4 t);
     (fun t => is PyOr t && span_is 7 9 t)] = true.
Proof. vm_compute. reflexivity. Qed.
(* 3663 *)
Example expression_no_or_test_operator :
  tree_has (parse1 F_or_test $"...")
    (fun n => match n with AtomElipsis s e _ => Nat.eqb s 0 && Nat.eqb e 3 | _ => false end)
    []
    [(fun t => is PyElipsis t && span_is 0 3 t && trivia_none t)] = true.
Proof. vm_compute. reflexivity. Qed.
(* 3685 *)
Example expression_named_expression :
  tree_has (parse1 F_named_expression $"a := b")
    (fun n => match n with NamedExpr s e _ _ _ => Nat.eqb s 0 && Nat.eqb e 6 | _ => false end)
    [(fun n => match n with AtomName s e _ => Nat.eqb s 0 && Nat.eqb e 2 | _ => false end);
     (fun n => match n with AtomName s e _ => Nat.eqb s 5 && Nat.eqb e 6 | _ => false end)]
    [(fun t => is PyColonAssign t && span_is 2 4 t)] = true.
Proof. vm_compute. reflexivity. Qed.
(* 3715 *)
Example expression_empty_named_expression :
  tree_has (parse1 F_named_expression $"...")
    (fun n => match n with AtomElipsis s e _ => Nat.eqb s 0 && Nat.eqb e 3 | _ => false end)
    []
    [(fun t => is PyElipsis t && span_is 0 3 t && trivia_none t)] = true.
Proof. vm_compute. reflexivity. Qed.
(* 3737 *)
Example expression_empty_test_expression :
  tree_has (parse1 F_test $"...")
    (fun n => match n with AtomElipsis s e _ => Nat.eqb s 0 && Nat.eqb e 3 | _ => false end)
    []
    [(fun t => is PyElipsis t && span_is 0 3 t && trivia_none t)] = true.
Proof. vm_compute. reflexivity. Qed.
(* 3759 *)
Example expression_if_else_test_expression :
  tree_has (parse1 F_test $"a if b else c")
    (fun n => match n with Test s e _ _ _ _ _ => Nat.eqb s 0 && Nat.eqb e 13 | _ => false end)
    [(fun n => match n with AtomName s e _ => Nat.eqb s 0 && Nat.eqb e 2 | _ => false end);
     (fun n => match n with AtomName s e _ => Nat.eqb s 5 && Nat.eqb e 7 | _ => false end);
     (fun n => match n with AtomName s e _ => Nat.eqb s 12 && Nat.eqb e 13 | _ => false end)]
    [(fun t => is PyIf t && span_is 2 4 t);
     (fun t => is PyElse t && span_is 7 11 t)] = true.
Proof. vm_compute. reflexivity. Qed.
(* 3797 *)
Example expression_lambda_test_expression_no_arguments :
  tree_has (parse1 F_test $"lambda: a * a")
    (fun n => match n with Lambda s e _ None _ _ => Nat.eqb s 0 && Nat.eqb e 13 | _ => false end)
    [(fun n => match n with MulTerm s e _ _ _ => Nat.eqb s 8 && Nat.eqb e 13 | _ => false end)]
    [(fun t => is PyLambda t && span_is 0 6 t && trivia_none t);
     (fun t => is PyColon t && span_is 6 7 t)] = true.
Proof. vm_compute. reflexivity. Qed.

(** statements.rs tests *)
(* 1906 *)
Example statements_expression_less_operator :
  tree_has (parse1 F_stmt [97; 32; 60; 32; 98; 13; 10])
    (fun n => match n with SimpleStmtList s e _ _ _ => Nat.eqb s 0 && Nat.eqb e 8 | _ => false end)
    [(fun n => match n with LessComparison s e _ _ _ => Nat.eqb s 0 && Nat.eqb e 5 | _ => false end);
     (fun n => match n with AtomName s e _ => Nat.eqb s 0 && Nat.eqb e 2 | _ => false end);
     (fun n => match n with AtomName s e _ => Nat.eqb s 4 && Nat.eqb e 5 | _ => false end)]
    [(fun t => is PyLess t && span_is 2 3 t);
     (fun t => is T_Newline t && span_is 5 8 t && trivia_none t && break_is CR LF t)] = true.
Proof. vm_compute. reflexivity. Qed.
(* 1949 *)
Example statements_expression_greater_operator :
  tree_has (parse1 F_stmt [97; 32; 62; 32; 98; 13; 10])
    (fun n => match n with SimpleStmtList s e _ _ _ => Nat.eqb s 0 && Nat.eqb e 8 | _ => false end)
    [(fun n => match n with GreaterComparison s e _ _ _ => Nat.eqb s 0 && Nat.eqb e 5 | _ => false end);
     (fun n => match n with AtomName s e _ => Nat.eqb s 0 && Nat.eqb e 2 | _ => false end);
     (fun n => match n with AtomName s e _ => Nat.eqb s 4 && Nat.eqb e 5 | _ => false end)]
    [(fun t => is PyGreater t && span_is 2 3 t);
     (fun t => is T_Newline t && span_is 5 8 t && trivia_none t && break_is CR LF t)] = true.
Proof. vm_compute. reflexivity. Qed.
(* 1992 *)
Example statements_expression_less_equal_operator :
  tree_has (parse1 F_stmt [97; 32; 60; 61; 32; 98; 13; 10])
    (fun n => match n with SimpleStmtList s e _ _ _ => Nat.eqb s 0 && Nat.eqb e 9 | _ => false end)
    [(fun n => match n with LessEqualComparison s e _ _ _ => Nat.eqb s 0 && Nat.eqb e 6 | _ => false end);
     (fun n => match n with AtomName s e _ => Nat.eqb s 0 && Nat.eqb e 2 | _ => false end);
     (fun n => match n with AtomName s e _ => Nat.eqb s 5 && Nat.eqb e 6 | _ => false end)]
    [(fun t => is PyLessEqual t && span_is 2 4 t);
     (fun t => is T_Newline t && span_is 6 9 t && trivia_none t && break_is CR LF t)] = true.
Proof. vm_compute. reflexivity. Qed.
(* 2035 *)
Example statements_expression_greater_equal_operator :
  tree_has (parse1 F_stmt [97; 32; 62; 61; 32; 98; 13; 10])
    (fun n => match n with SimpleStmtList s e _ _ _ => Nat.eqb s 0 && Nat.eqb e 9 | _ => false end)
    [(fun n => match n with GreaterEqualComparison s e _ _ _ => Nat.eqb s 0 && Nat.eqb e 6 | _ => false end);
     (fun n => match n with AtomName s e _ => Nat.eqb s 0 && Nat.eqb e 2 | _ => false end);
     (fun n => match n with AtomName s e _ => Nat.eqb s 5 && Nat.eqb e 6 | _ => false end)]
    [(fun t => is PyGreaterEqual t && span_is 2 4 t);
     (fun t => is T_Newline t && span_is 6 9 t && trivia_none t && break_is CR LF t)] = true.
Proof. vm_compute. reflexivity. Qed.
(* 2078 *)
Example statements_expression_equal_operator :
  tree_has (parse1 F_stmt [97; 32; 61; 61; 32; 98; 13; 10])
    (fun n => match n with SimpleStmtList s e _ _ _ => Nat.eqb s 0 && Nat.eqb e 9 | _ => false end)
    [(fun n => match n with EqualComparison s e _ _ _ => Nat.eqb s 0 && Nat.eqb e 6 | _ => false end);
     (fun n => match n with AtomName s e _ => Nat.eqb s 0 && Nat.eqb e 2 | _ => false end);
     (fun n => match n with AtomName s e _ => Nat.eqb s 5 && Nat.eqb e 6 | _ => false end)]
    [(fun t => is PyEqual t && span_is 2 4 t);
     (fun t => is T_Newline t && span_is 6 9 t && trivia_none t && break_is CR LF t)] = true.
Proof. vm_compute. reflexivity. Qed.
(* 2121 *)
Example statements_expression_plus_assign :
  tree_has (parse1 F_stmt [97; 32; 43; 61; 32; 98; 13; 10])
    (fun n => match n with SimpleStmtList s e _ _ _ => Nat.eqb s 0 && Nat.eqb e 9 | _ => false end)
    [(fun n => match n with PlusAssignStmt s e _ _ _ => Nat.eqb s 0 && Nat.eqb e 6 | _ => false end);
     (fun n => match n with AtomName s e _ => Nat.eqb s 0 && Nat.eqb e 2 | _ => false end);
     (fun n => match n with AtomName s e _ => Nat.eqb s 5 && Nat.eqb e 6 | _ => false end)]
    [(fun t => is PyPlusAssign t && span_is 2 4 t);
     (fun t => is T_Newline t && span_is 6 9 t && trivia_none t && break_is CR LF t)] = true.
Proof. vm_compute. reflexivity. Qed.
(* 2164 *)
Example statements_expression_minus_assign :
  tree_has (parse1 F_stmt [97; 32; 45; 61; 32; 98; 13; 10])
    (fun n => match n with SimpleStmtList s e _ _ _ => Nat.eqb s 0 && Nat.eqb e 9 | _ => false end)
    [(fun n => match n with MinusAssignStmt s e _ _ _ => Nat.eqb s 0 && Nat.eqb e 6 | _ => false end);
     (fun n => match n with AtomName s e _ => Nat.eqb s 0 && Nat.eqb e 2 | _ => false end);
     (fun n => match n with AtomName s e _ => Nat.eqb s 5 && Nat.eqb e 6 | _ => false end)]
    [(fun t => is PyMinusAssign t && span_is 2 4 t);
     (fun t => is T_Newline t && span_is 6 9 t && trivia_none t && break_is CR LF t)] = true.
Proof. vm_compute. reflexivity. Qed.
(* 2207 *)
Example statements_expression_mul_assign :
  tree_has (parse1 F_stmt [97; 32; 42; 61; 32; 98; 13; 10])
    (fun n => match n with SimpleStmtList s e _ _ _ => Nat.eqb s 0 && Nat.eqb e 9 | _ => false end)
    [(fun n => match n with MulAssignStmt s e _ _ _ => Nat.eqb s 0 && Nat.eqb e 6 | _ => false end);
     (fun n => match n with AtomName s e _ => Nat.eqb s 0 && Nat.eqb e 2 | _ => false end);
     (fun n => match n with AtomName s e _ => Nat.eqb s 5 && Nat.eqb e 6 | _ => false end)]
    [(fun t => is PyMulAssign t && span_is 2 4 t);
     (fun t => is T_Newline t && span_is 6 9 t && trivia_none t && break_is CR LF t)] = true.
Proof. vm_compute. reflexivity. Qed.
(* 2250 *)
Example statements_expression_modulo_assign :
  tree_has (parse1 F_stmt [97; 32; 37; 61; 32; 98; 13; 10])
    (fun n => match n with SimpleStmtList s e _ _ _ => Nat.eqb s 0 && Nat.eqb e 9 | _ => false end)
    [(fun n => match n with ModuloAssignStmt s e _ _ _ => Nat.eqb s 0 && Nat.eqb e 6 | _ => false end);
     (fun n => match n with AtomName s e _ => Nat.eqb s 0 && Nat.eqb e 2 | _ => false end);
     (fun n => match n with AtomName s e _ => Nat.eqb s 5 && Nat.eqb e 6 | _ => false end)]
    [(fun t => is PyModuloAssign t && span_is 2 4 t);
     (fun t => is T_Newline t && span_is 6 9 t && trivia_none t && break_is CR LF t)] = true.
Proof. vm_compute. reflexivity. Qed.
(* 2293 *)
Example statements_expression_matrice_assign :
  tree_has (parse1 F_stmt [97; 32; 64; 61; 32; 98; 13; 10])
    (fun n => match n with SimpleStmtList s e _ _ _ => Nat.eqb s 0 && Nat.eqb e 9 | _ => false end)
    [(fun n => match n with MatriceAssignStmt s e _ _ _ => Nat.eqb s 0 && Nat.eqb e 6 | _ => false end);
     (fun n => match n with AtomName s e _ => Nat.eqb s 0 && Nat.eqb e 2 | _ => false end);
     (fun n => match n with AtomName s e _ => Nat.eqb s 5 && Nat.eqb e 6 | _ => false end)]
    [(fun t => is PyMatriceAssign t && span_is 2 4 t);
     (fun t => is T_Newline t && span_is 6 9 t && trivia_none t && break_is CR LF t)] = true.
Proof. vm_compute. reflexivity. Qed.
(* 2336 *)
Example statements_expression_bitwise_and_assign :
  tree_has (parse1 F_stmt [97; 32; 38; 61; 32; 98; 13; 10])
    (fun n => match n with SimpleStmtList s e _ _ _ => Nat.eqb s 0 && Nat.eqb e 9 | _ => false end)
    [(fun n => match n with BitAndAssignStmt s e _ _ _ => Nat.eqb s 0 && Nat.eqb e 6 | _ => false end);
     (fun n => match n with AtomName s e _ => Nat.eqb s 0 && Nat.eqb e 2 | _ => false end);
     (fun n => match n with AtomName s e _ => Nat.eqb s 5 && Nat.eqb e 6 | _ => false end)]
    [(fun t => is PyBitAndAssign t && span_is 2 4 t);
     (fun t => is T_Newline t && span_is 6 9 t && trivia_none t && break_is CR LF t)] = true.
Proof. vm_compute. reflexivity. Qed.
(* 2379 *)
Example statements_expression_bitwise_or_assign :
  tree_has (parse1 F_stmt [97; 32; 124; 61; 32; 98; 13; 10])
    (fun n => match n with SimpleStmtList s e _ _ _ => Nat.eqb s 0 && Nat.eqb e 9 | _ => false end)
    [(fun n => match n with BitOrAssignStmt s e _ _ _ => Nat.eqb s 0 && Nat.eqb e 6 | _ => false end);
     (fun n => match n with AtomName s e _ => Nat.eqb s 0 && Nat.eqb e 2 | _ => false end);
     (fun n => match n with AtomName s e _ => Nat.eqb s 5 && Nat.eqb e 6 | _ => false end)]
    [(fun t => is PyBitOrAssign t && span_is 2 4 t);
     (fun t => is T_Newline t && span_is 6 9 t && trivia_none t && break_is CR LF t)] = true.
Proof. vm_compute. reflexivity. Qed.
(* 2422 *)
Example statements_expression_bitwise_xor_assign :
  tree_has (parse1 F_stmt [97; 32; 94; 61; 32; 98; 13; 10])
    (fun n => match n with SimpleStmtList s e _ _ _ => Nat.eqb s 0 && Nat.eqb e 9 | _ => false end)
    [(fun n => match n with BitXorAssignStmt s e _ _ _ => Nat.eqb s 0 && Nat.eqb e 6 | _ => false end);
     (fun n => match n with AtomName s e _ => Nat.eqb s 0 && Nat.eqb e 2 | _ => false end);
     (fun n => match n with AtomName s e _ => Nat.eqb s 5 && Nat.eqb e 6 | _ => false end)]
    [(fun t => is PyBitXorAssign t && span_is 2 4 t);
     (fun t => is T_Newline t && span_is 6 9 t && trivia_none t && break_is CR LF t)] = true.
Proof. vm_compute. reflexivity. Qed.
(* 2465 *)
Example statements_expression_bitwise_shift_left_assign :
  tree_has (parse1 F_stmt [97; 32; 60; 60; 61; 32; 98; 13; 10])
    (fun n => match n with SimpleStmtList s e _ _ _ => Nat.eqb s 0 && Nat.eqb e 10 | _ => false end)
    [(fun n => match n with ShiftLeftAssignStmt s e _ _ _ => Nat.eqb s 0 && Nat.eqb e 7 | _ => false end);
     (fun n => match n with AtomName s e _ => Nat.eqb s 0 && Nat.eqb e 2 | _ => false end);
     (fun n => match n with AtomName s e _ => Nat.eqb s 6 && Nat.eqb e 7 | _ => false end)]
    [(fun t => is PyShiftLeftAssign t && span_is 2 5 t);
     (fun t => is T_Newline t && span_is 7 10 t && trivia_none t && break_is CR LF t)] = true.
Proof. vm_compute. reflexivity. Qed.
(* 2508 *)
Example statements_expression_bitwise_shift_right_assign :
  tree_has (parse1 F_stmt [97; 32; 62; 62; 61; 32; 98; 13; 10])
    (fun n => match n with SimpleStmtList s e _ _ _ => Nat.eqb s 0 && Nat.eqb e 10 | _ => false end)
    [(fun n => match n with ShiftRightAssignStmt s e _ _ _ => Nat.eqb s 0 && Nat.eqb e 7 | _ => false end);
     (fun n => match n with AtomName s e _ => Nat.eqb s 0 && Nat.eqb e 2 | _ => false end);
     (fun n => match n with AtomName s e _ => Nat.eqb s 6 && Nat.eqb e 7 | _ => false end)]
    [(fun t => is PyShiftRightAssign t && span_is 2 5 t);
     (fun t => is T_Newline t && span_is 7 10 t && trivia_none t && break_is CR LF t)] = true.
Proof. vm_compute. reflexivity. Qed.
(* 2551 *)
Example statements_expression_bitwise_power_assign :
  tree_has (parse1 F_stmt [97; 32; 42; 42; 61; 32; 98; 13; 10])
    (fun n => match n with SimpleStmtList s e _ _ _ => Nat.eqb s 0 && Nat.eqb e 10 | _ => false end)
    [(fun n => match n with PowerAssignStmt s e _ _ _ => Nat.eqb s 0 && Nat.eqb e 7 | _ => false end);
     (fun n => match n with AtomName s e _ => Nat.eqb s 0 && Nat.eqb e 2 | _ => false end);
     (fun n => match n with AtomName s e _ => Nat.eqb s 6 && Nat.eqb e 7 | _ => false end)]
    [(fun t => is PyPowerAssign t && span_is 2 5 t);
     (fun t => is T_Newline t && span_is 7 10 t && trivia_none t && break_is CR LF t)] = true.
Proof. vm_compute. reflexivity. Qed.
(* 2594 *)
Example statements_expression_bitwise_floor_div_assign :
  tree_has (parse1 F_stmt [97; 32; 47; 47; 61; 32; 98; 13; 10])
    (fun n => match n with SimpleStmtList s e _ _ _ => Nat.eqb s 0 && Nat.eqb e 10 | _ => false end)
    [(fun n => match n with FloorDivAssignStmt s e _ _ _ => Nat.eqb s 0 && Nat.eqb e 7 | _ => false end);
     (fun n => match n with AtomName s e _ => Nat.eqb s 0 && Nat.eqb e 2 | _ => false end);
     (fun n => match n with AtomName s e _ => Nat.eqb s 6 && Nat.eqb e 7 | _ => false end)]
    [(fun t => is PyFloorDivAssign t && span_is 2 5 t);
     (fun t => is T_Newline t && span_is 7 10 t && trivia_none t && break_is CR LF t)] = true.
Proof. vm_compute. reflexivity. Qed.
(* 2637 *)
Example statements_expression_bitwise_floor_div_assign_yield :
  tree_has (parse1 F_stmt [97; 32; 47; 47; 61; 32; 121; 105; 101; 108; 100; 32; 98; 13; 10])
    (fun n => match n with SimpleStmtList s e _ _ _ => Nat.eqb s 0 && Nat.eqb e 16 | _ => false end)
    [(fun n => match n with FloorDivAssignStmt s e _ _ _ => Nat.eqb s 0 && Nat.eqb e 13 | _ => false end);
     (fun n => match n with AtomName s e _ => Nat.eqb s 0 && Nat.eqb e 2 | _ => false end);
     (fun n => match n with YieldExpr s e _ _ => Nat.eqb s 6 && Nat.eqb e 13 | _ => false end)]
    [(fun t => is PyFloorDivAssign t && span_is 2 5 t);
     (fun t => is T_Newline t && span_is 13 16 t && trivia_none t && break_is CR LF t)] = true.
Proof. vm_compute. reflexivity. Qed.
(* 2679 *)
Example statements_expression_bitwise_floor_div_assign_testlist :
  tree_has (parse1 F_stmt [97; 32; 47; 47; 61; 32; 97; 44; 32; 98; 44; 32; 99; 13; 10])
    (fun n => match n with SimpleStmtList s e _ _ _ => Nat.eqb s 0 && Nat.eqb e 16 | _ => false end)
    [(fun n => match n with FloorDivAssignStmt s e _ _ _ => Nat.eqb s 0 && Nat.eqb e 13 | _ => false end);
     (fun n => match n with AtomName s e _ => Nat.eqb s 0 && Nat.eqb e 2 | _ => false end);
     (fun n => match n with TestList s e _ _ => Nat.eqb s 6 && Nat.eqb e 13 | _ => false end)]
    [(fun t => is PyFloorDivAssign t && span_is 2 5 t);
     (fun t => is T_Newline t && span_is 13 16 t && trivia_none t && break_is CR LF t)] = true.
Proof. vm_compute. reflexivity. Qed.
(* 2724 *)
Example statements_expression_single_assign_testlist :
  tree_has (parse1 F_stmt [97; 32; 61; 32; 97; 44; 32; 98; 44; 32; 99; 13; 10])
    (fun n => match n with SimpleStmtList s e _ _ _ => Nat.eqb s 0 && Nat.eqb e 14 | _ => false end)
    [(fun n => match n with AssignmentStmt s e _ _ _ => Nat.eqb s 0 && Nat.eqb e 11 | _ => false end);
     (fun n => match n with AtomName s e _ => Nat.eqb s 0 && Nat.eqb e 2 | _ => false end);
     (fun n => match n with TestList s e _ _ => Nat.eqb s 4 && Nat.eqb e 11 | _ => false end)]
    [(fun t => is PyAssign t && span_is 2 3 t);
     (fun t => is T_Newline t && span_is 11 14 t && trivia_none t && break_is CR LF t)] = true.
Proof. vm_compute. reflexivity. Qed.
(* 2776 *)
Example statements_expression_single_assign_testlist_with_type_comment :
  tree_has (parse1 F_stmt [97; 32; 61; 32; 97; 44; 32; 98; 44; 32; 99; 35; 32; 116; 121; 112; 101; 58; 32; 105; 110; 116; 32; 13; 10])
    (fun n => match n with SimpleStmtList s e _ _ _ => Nat.eqb s 0 && Nat.eqb e 26 | _ => false end)
    [(fun n => match n with AssignmentStmt s e _ _ _ => Nat.eqb s 0 && Nat.eqb e 23 | _ => false end);
     (fun n => match n with AtomName s e _ => Nat.eqb s 0 && Nat.eqb e 2 | _ => false end);
     (fun n => match n with TestList s e _ _ => Nat.eqb s 4 && Nat.eqb e 11 | _ => false end)]
    [(fun t => is T_TypeComment t && span_is 11 23 t);
     (fun t => is PyAssign t && span_is 2 3 t);
     (fun t => is T_Newline t && span_is 23 26 t && trivia_none t && break_is CR LF t)] = true.
Proof. vm_compute. reflexivity. Qed.
(* 2833 *)
Example statements_expression_single_assign_with_annotation :
  tree_has (parse1 F_stmt [97; 58; 32; 105; 110; 116; 13; 10])
    (fun n => match n with SimpleStmtList s e _ _ _ => Nat.eqb s 0 && Nat.eqb e 9 | _ => false end)
    [(fun n => match n with AnnAssignStmt s e _ _ _ _ => Nat.eqb s 0 && Nat.eqb e 6 | _ => false end);
     (fun n => match n with AtomName s e _ => Nat.eqb s 0 && Nat.eqb e 1 | _ => false end);
     (fun n => match n with AtomName s e _ => Nat.eqb s 3 && Nat.eqb e 6 | _ => false end)]
    [(fun t => is PyColon t && span_is 1 2 t);
     (fun t => is T_Newline t && span_is 6 9 t && trivia_none t && break_is CR LF t)] = true.
Proof. vm_compute. reflexivity. Qed.
(* 2879 *)
Example statements_expression_single_assign_with_annotation_and_assignment :
  tree_has (parse1 F_stmt [97; 58; 32; 105; 110; 116; 32; 61; 32; 118; 13; 10])
    (fun n => match n with SimpleStmtList s e _ _ _ => Nat.eqb s 0 && Nat.eqb e 13 | _ => false end)
    [(fun n => match n with AnnAssignStmt s e _ _ _ _ => Nat.eqb s 0 && Nat.eqb e 10 | _ => false end);
     (fun n => match n with AtomName s e _ => Nat.eqb s 0 && Nat.eqb e 1 | _ => false end);
     (fun n => match n with AtomName s e _ => Nat.eqb s 3 && Nat.eqb e 7 | _ => false end);
     (fun n => match n with AtomName s e _ => Nat.eqb s 9 && Nat.eqb e 10 | _ => false end)]
    [(fun t => is PyColon t && span_is 1 2 t);
     (fun t => is PyAssign t && span_is 7 8 t);
     (fun t => is T_Newline t && span_is 10 13 t && trivia_none t && break_is CR LF t)] = true.
Proof. vm_compute. reflexivity. Qed.
(* 2938 *)
Example statements_expression_multiple_assign_testlist :
  tree_has (parse1 F_stmt [97; 32; 61; 32; 97; 44; 32; 98; 44; 32; 99; 32; 61; 32; 49; 44; 32; 50; 44; 32; 51; 13; 10])
    (fun n => match n with SimpleStmtList s e _ _ _ => Nat.eqb s 0 && Nat.eqb e 24 | _ => false end)
    [(fun n => match n with AssignmentStmt s e _ _ _ => Nat.eqb s 0 && Nat.eqb e 21 | _ => false end);
     (fun n => match n with AtomName s e _ => Nat.eqb s 0 && Nat.eqb e 2 | _ => false end);
     (fun n => match n with TestList s e _ _ => Nat.eqb s 14 && Nat.eqb e 21 | _ => false end);
     (fun n => match n with TestList s e _ _ => Nat.eqb s 4 && Nat.eqb e 12 | _ => false end)]
    [(fun t => is PyAssign t && span_is 12 13 t);
     (fun t => is PyAssign t && span_is 2 3 t);
     (fun t => is T_Newline t && span_is 21 24 t && trivia_none t && break_is CR LF t)] = true.
Proof. vm_compute. reflexivity. Qed.
(* 3003 *)
Example statements_expression_multiple_assign_testlist_with_type_comment :
  tree_has (parse1 F_stmt [97; 32; 61; 32; 97; 44; 32; 98; 44; 32; 99; 32; 61; 32; 49; 44; 32; 50; 44; 32; 51; 32; 35; 32; 116; 121; 112; 101; 58; 32; 105; 110; 116; 13; 10])
    (fun n => match n with SimpleStmtList s e _ _ _ => Nat.eqb s 0 && Nat.eqb e 36 | _ => false end)
    [(fun n => match n with AssignmentStmt s e _ _ _ => Nat.eqb s 0 && Nat.eqb e 33 | _ => false end);
     (fun n => match n with AtomName s e _ => Nat.eqb s 0 && Nat.eqb e 2 | _ => false end);
     (fun n => match n with TestList s e _ _ => Nat.eqb s 14 && Nat.eqb e 22 | _ => false end);
     (fun n => match n with TestList s e _ _ => Nat.eqb s 4 && Nat.eqb e 12 | _ => false end)]
    [(fun t => is PyAssign t && span_is 12 13 t);
     (fun t => is PyAssign t && span_is 2 3 t);
     (fun t => is T_Newline t && span_is 33 36 t && trivia_none t && break_is CR LF t)] = true.
Proof. vm_compute. reflexivity. Qed.
(* 3068 *)
Example statements_expression_single_assign_with_annotation_and_assignmentwith_yield :
  tree_has (parse1 F_stmt [97; 58; 32; 105; 110; 116; 32; 61; 32; 121; 105; 101; 108; 100; 32; 97; 13; 10])
    (fun n => match n with SimpleStmtList s e _ _ _ => Nat.eqb s 0 && Nat.eqb e 19 | _ => false end)
    [(fun n => match n with AnnAssignStmt s e _ _ _ _ => Nat.eqb s 0 && Nat.eqb e 16 | _ => false end);
     (fun n => match n with AtomName s e _ => Nat.eqb s 0 && Nat.eqb e 1 | _ => false end);
     (fun n => match n with AtomName s e _ => Nat.eqb s 3 && Nat.eqb e 7 | _ => false end);
     (fun n => match n with YieldExpr s e _ _ => Nat.eqb s 9 && Nat.eqb e 16 | _ => false end)]
    [(fun t => is PyColon t && span_is 1 2 t);
     (fun t => is PyAssign t && span_is 7 8 t);
     (fun t => is T_Newline t && span_is 16 19 t && trivia_none t && break_is CR LF t)] = true.
Proof. vm_compute. reflexivity. Qed.
(* 3127 *)
Example statements_del_statement_with_exprlist :
  tree_has (parse1 F_stmt [100; 101; 108; 32; 97; 44; 32; 98; 44; 32; 99; 13; 10])
    (fun n => match n with SimpleStmtList s e _ _ _ => Nat.eqb s 0 && Nat.eqb e 14 | _ => false end)
    [(fun n => match n with DelStmt s e _ _ => Nat.eqb s 0 && Nat.eqb e 11 | _ => false end);
     (fun n => match n with ExprList s e _ _ => Nat.eqb s 4 && Nat.eqb e 11 | _ => false end);
     (fun n => match n with AtomName s e _ => Nat.eqb s 4 && Nat.eqb e 5 | _ => false end);
     (fun n => match n with AtomName s e _ => Nat.eqb s 7 && Nat.eqb e 8 | _ => false end);
     (fun n => match n with AtomName s e _ => Nat.eqb s 10 && Nat.eqb e 11 | _ => false end)]
    [(fun t => is PyDel t && span_is 0 3 t);
     (fun t => is PyComa t && span_is 5 6 t);
     (fun t => is PyComa t && span_is 8 9 t);
     (fun t => is T_AtomName t);
     (fun t => is T_AtomName t);
     (fun t => is T_AtomName t);
     (fun t => is T_Newline t && span_is 11 14 t && trivia_none t && break_is CR LF t);
     (text_is $"a");
     (text_is $"b");
     (text_is $"c")] = true.
Proof. vm_compute. reflexivity. Qed.
