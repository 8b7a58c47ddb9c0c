(** /repo/src/parser/tokenizer.rs *)
From Coq Require Import ZArith.
From Verif Require Import Chars SourceBuffer Token.

(** tokenizer.rs 6-15, struct PythonCoreTokenizer.
    Simplifications: [source_buffer] is the (position, remaining text) view of SourceBuffer.v;
    [parenthesis] and [indent_stack] are lists whose head is the last element of the Vec;
    the private constants [tab_size] and [is_interactive], set once at 33-34 and never
    assigned, are the definitions below instead of fields; counters are unbounded. *)
Record lexer := mk_lexer
  { lx_cur : cursor;
    lx_start : nat;            (* token_start_position *)
    lx_parens : list char;     (* parenthesis: expected closers *)
    lx_bol : bool;             (* is_at_beginning_of_line *)
    lx_pending : Z;            (* pending *)
    lx_indents : list nat }.   (* indent_stack *)

(** tokenizer.rs 33 *)
Definition tab_size : nat := 4.
(** tokenizer.rs 34 *)
Definition is_interactive : bool := false.

(** tokenizer.rs 27-38 *)
Definition lexer_new (text : str) : lexer :=
  mk_lexer (mk_cursor 0 text) 0 [] true 0 [0%nat].

(** tokenizer.rs 1060-1062 *)
Definition lexer_get_position (l : lexer) : nat := lx_start l.

Definition set_cur (l : lexer) (c : cursor) : lexer :=
  mk_lexer c (lx_start l) (lx_parens l) (lx_bol l) (lx_pending l) (lx_indents l).
Definition set_start (l : lexer) (s : nat) : lexer :=
  mk_lexer (lx_cur l) s (lx_parens l) (lx_bol l) (lx_pending l) (lx_indents l).
Definition set_parens (l : lexer) (ps : list char) : lexer :=
  mk_lexer (lx_cur l) (lx_start l) ps (lx_bol l) (lx_pending l) (lx_indents l).
Definition set_bol (l : lexer) (b : bool) : lexer :=
  mk_lexer (lx_cur l) (lx_start l) (lx_parens l) b (lx_pending l) (lx_indents l).
Definition set_layout (l : lexer) (p : Z) (is : list nat) : lexer :=
  mk_lexer (lx_cur l) (lx_start l) (lx_parens l) (lx_bol l) p is.

Definition lx_pos (l : lexer) : nat := cu_pos (lx_cur l).
Definition lx_rest (l : lexer) : list char := cu_rest (lx_cur l).
Definition lx_char (l : lexer) : char := cu_char (lx_cur l).
Definition lx_skip (n : nat) (l : lexer) : lexer := set_cur l (cu_skip n (lx_cur l)).

(** Result of get_symbol.  [LFuel] is the model's out-of-fuel value. *)
Inductive lexed :=
| LOk (t : token) (l : lexer)
| LErr (e : err) (l : lexer)
| LFuel.

(** [match trivia_collector.len() { 0 => None, _ => Some({ reverse(); .. }) }] (155, 175, 192, ...) *)
Definition finish_trivia (tr : list trivia) : option (list trivia) :=
  match tr with [] => None | _ => Some (rev tr) end.

(** ** Character loops.  All consume a prefix of the remaining text; each is structural on it.
    A loop condition that held at NUL would not stop at the end of the text; none does. *)

(** [while p(get_char()) { push; advance }] *)
Fixpoint run_while (p : char -> bool) (r : list char) : str * list char :=
  match r with
  | [] => ([], [])
  | c :: r' => if p c then let '(t, r'') := run_while p r' in (c :: t, r'') else ([], r)
  end.

Definition cu_run_while (p : char -> bool) (c : cursor) : str * cursor :=
  let '(t, r) := run_while p (cu_rest c) in (t, mk_cursor (cu_pos c + length t) r).

(** tokenizer.rs 54-69: leading blanks of a line, returning the column. *)
Fixpoint indent_column (col : nat) (pos : nat) (r : list char) : nat * cursor :=
  match r with
  | c :: r' =>
      if c =? SP then indent_column (col + 1) (S pos) r'
      else if c =? TAB then indent_column ((col / tab_size + 1) * tab_size) (S pos) r'
      else (col, mk_cursor pos r)
  | [] => (col, mk_cursor pos [])
  end.

(** tokenizer.rs 94-97: pop levels deeper than the column, never the last one. *)
Fixpoint pop_levels (col : nat) (pending : Z) (levels : list nat) : Z * list nat :=
  match levels with
  | top :: ((_ :: _) as below) =>
      if Nat.ltb col top then pop_levels col (pending - 1) below else (pending, levels)
  | _ => (pending, levels)
  end.

Definition last_level (levels : list nat) : nat := hd 0%nat levels.

(** tokenizer.rs 71-91: does the line count as blank, and its column. *)
Definition blank_check (c : char) (col : nat) (blank : bool) : bool * nat :=
  if (c =? #"#") || (c =? CR) || (c =? LF) || (c =? BSL) then
    if Nat.eqb col 0 && is_interactive then
      ((if (c =? CR) || (c =? LF) then false else blank), col)
    else if is_interactive then (false, 0%nat)
    else (true, col)
  else (blank, col).

(** tokenizer.rs 84-103: compare the column with the open levels. *)
Definition layout_update (l : lexer) (col : nat) : lexer + err * lexer :=
  let levels := lx_indents l in
  let nonempty := match levels with [] => false | _ => true end in
  if nonempty && Nat.eqb col (last_level levels) then inl l
  else if nonempty && Nat.ltb (last_level levels) col then
    inl (set_layout l (lx_pending l + 1) (col :: levels))
  else
    let '(p, levels') := pop_levels col (lx_pending l) levels in
    let l' := set_layout l p levels' in
    if match levels' with [] => true | _ => Nat.ltb col (last_level levels') end
    then inr (EMsg "Inconsistent indentation level in block control!", l')
    else inl l'.

(** tokenizer.rs 50-107: the block run at the beginning of a line.
    Returns the lexer and the updated is_blank_line, or the indentation error. *)
Definition begin_line (l : lexer) (blank : bool) : (lexer * bool) + (err * lexer) :=
  if lx_bol l then
    let l1 := set_bol l false in
    let '(col0, c) := indent_column 0 (lx_pos l1) (lx_rest l1) in
    let l2 := set_cur l1 c in
    let '(blank', col) := blank_check (lx_char l2) col0 blank in
    if negb blank' && (match lx_parens l2 with [] => true | _ => false end) then
      match layout_update l2 col with
      | inl l3 => inl (l3, blank')
      | inr e => inr e
      end
    else inl (l2, blank')
  else inl (l, blank).

(** tokenizer.rs 110-120: a pending Dedent or Indent. *)
Definition pending_token (l : lexer) : option (token * lexer) :=
  if (lx_pending l <? 0)%Z then
    Some (Tok T_Dedent NoSpan None NoPayload, set_layout l (lx_pending l + 1) (lx_indents l))
  else if (0 <? lx_pending l)%Z then
    Some (Tok T_Indent NoSpan None NoPayload, set_layout l (lx_pending l - 1) (lx_indents l))
  else None.

(** Result of the 'outer loop: it either returns from get_symbol or breaks. *)
Inductive scanned :=
| SReturn (r : lexed)
| SBreak (l : lexer) (tr : list trivia).

Definition comment_char (c : char) : bool := negb ((c =? CR) || (c =? LF) || (c =? NUL)).

(** tokenizer.rs 183-236: width of the line break advanced over and the two characters stored
    in a Newline token.  (CR LF advances three characters, 185.) *)
Definition newline_at (p : char * char * char) : option (nat * char * char) :=
  let '(a, b, _) := p in
  if (a =? CR) && (b =? LF) then Some (3%nat, CR, LF)
  else if a =? CR then Some (1%nat, CR, SP)
  else if a =? LF then Some (1%nat, LF, SP)
  else None.

(** tokenizer.rs 239-259: backslash at the read position: width and stored characters of a
    line continuation, or [Some None] for the error. *)
Definition continuation_at (p : char * char * char) : option (option (nat * char * char)) :=
  let '(a, b, c) := p in
  if (a =? BSL) && (b =? CR) && (c =? LF) then Some (Some (3%nat, CR, LF))
  else if (a =? BSL) && (b =? CR) then Some (Some (2%nat, CR, SP))
  else if (a =? BSL) && (b =? LF) then Some (Some (2%nat, LF, SP))
  else if a =? BSL then Some None
  else None.

(** tokenizer.rs 47-263: the 'outer and 'inner loops.  [outer] tells whether the iteration
    starts at 'outer (begin-of-line block and pending check) or at 'inner.  The whitespace
    loop 125-144 is the head of 'inner, so one of its iterations followed by going back to
    the head of 'inner is a [continue 'inner]. *)
Fixpoint scan (fuel : nat) (outer : bool) (l : lexer) (tr : list trivia) (blank : bool)
  : scanned :=
  match fuel with
  | O => SReturn LFuel
  | S fuel' =>
    match (if outer then begin_line l blank else inl (l, blank)) with
    | inr (e, l1) => SReturn (LErr e l1)
    | inl (l1, blank1) =>
      match (if outer then pending_token l1 else None) with
      | Some (t, l2) => SReturn (LOk t l2)
      | None =>
        (* 125-137 *)
        if lx_char l1 =? SP then
          let '(_, c) := cu_run_while (fun c => c =? SP) (lx_cur l1) in
          let l2 := set_cur (set_start l1 (lx_pos l1)) c in
          scan fuel' false l2 (tr ++ [WhiteSpace (lx_start l2) (lx_pos l2) SP]) blank1
        (* 138-143 *)
        else if lx_char l1 =? TAB then
          let l2 := lx_skip 1 (set_start l1 (lx_pos l1)) in
          scan fuel' false l2 (tr ++ [WhiteSpace (lx_start l2) (lx_pos l2) TAB]) blank1
        else
        (* 146 *)
        let l2 := set_start l1 (lx_pos l1) in
        (* 149-170 *)
        if lx_char l2 =? #"#" then
          let '(text, c) := cu_run_while comment_char (lx_cur l2) in
          let l3 := set_cur l2 c in
          if starts_with $"# type:" text then
            SReturn (LOk (Tok T_TypeComment (Range (lx_start l3) (lx_pos l3))
                              (finish_trivia tr) (Text text)) l3)
          else scan fuel' false l3 (tr ++ [Comment (lx_start l3) (lx_pos l3) text]) blank1
        (* 173-178 *)
        else if lx_char l2 =? NUL then
          SReturn (LOk (Tok T_EOF (At (lx_pos l2)) (finish_trivia tr) NoPayload) l2)
        else
        (* 180 re-assigns the same start position *)
        match newline_at (cu_peek (lx_cur l2)) with
        | Some (n, c1, c2) =>
            let l3 := set_bol (lx_skip n l2) true in
            if blank1 || (match lx_parens l3 with [] => false | _ => true end) then
              scan fuel' true l3 (tr ++ [TrNewline (lx_start l3) (lx_pos l3) CR LF]) blank1
            else
              SReturn (LOk (Tok T_Newline (Range (lx_start l3) (lx_pos l3))
                                (finish_trivia tr) (Break c1 c2)) l3)
        | None =>
          match continuation_at (cu_peek (lx_cur l2)) with
          | Some (Some (n, c1, c2)) =>
              let l3 := lx_skip n l2 in
              scan fuel' false l3
                   (tr ++ [LineContinuation (lx_start l3) (lx_pos l3) BSL c1 c2]) blank1
          | Some None =>
              SReturn (LErr (EAt "Line continuation at {} not followed by newline!" (lx_pos l2)) l2)
          | None => SBreak l2 tr
          end
        end
      end
    end
  end.

(** ** Operators and delimiters, tokenizer.rs 268-488: arms in source order. *)
Inductive pat := PAny | PChar (c : char) | PNotDigit.

Definition pat_match (p : pat) (c : char) : bool :=
  match p with
  | PAny => true
  | PChar d => c =? d
  | PNotDigit => negb (is_digit c)
  end.

Definition arm := (pat * pat * pat * kind * nat)%type.

Definition operator_arms : list arm :=
  [ (PChar #"*", PChar #"*", PChar #"=", PyPowerAssign, 3%nat);    (* 269 *)
    (PChar #"*", PChar #"*", PAny, PyPower, 2%nat);                (* 274 *)
    (PChar #"*", PChar #"=", PAny, PyMulAssign, 2%nat);            (* 279 *)
    (PChar #"*", PAny, PAny, PyMul, 1%nat);                        (* 284 *)
    (PChar #"/", PChar #"/", PChar #"=", PyFloorDivAssign, 3%nat); (* 289 *)
    (PChar #"/", PChar #"/", PAny, PyFloorDiv, 2%nat);             (* 294 *)
    (PChar #"/", PChar #"=", PAny, PyDivAssign, 2%nat);            (* 299 *)
    (PChar #"/", PAny, PAny, PyDiv, 1%nat);                        (* 304 *)
    (PChar #"<", PChar #"<", PChar #"=", PyShiftLeftAssign, 3%nat);(* 309 *)
    (PChar #"<", PChar #"<", PAny, PyShiftLeft, 2%nat);            (* 314 *)
    (PChar #"<", PChar #"=", PAny, PyLessEqual, 2%nat);            (* 319 *)
    (PChar #"<", PChar #">", PAny, PyNotEqual, 2%nat);             (* 324 *)
    (PChar #"<", PAny, PAny, PyLess, 1%nat);                       (* 329 *)
    (PChar #">", PChar #">", PChar #"=", PyShiftRightAssign, 3%nat);(* 334 *)
    (PChar #">", PChar #">", PAny, PyShiftRight, 2%nat);           (* 339 *)
    (PChar #">", PChar #"=", PAny, PyGreaterEqual, 2%nat);         (* 344 *)
    (PChar #">", PAny, PAny, PyGreater, 1%nat);                    (* 349 *)
    (PChar #".", PChar #".", PChar #".", PyElipsis, 3%nat);        (* 354 *)
    (PChar #".", PNotDigit, PAny, PyDot, 1%nat);                   (* 359 *)
    (PChar #"+", PChar #"=", PAny, PyPlusAssign, 2%nat);           (* 364 *)
    (PChar #"+", PAny, PAny, PyPlus, 1%nat);                       (* 369 *)
    (PChar #"-", PChar #"=", PAny, PyMinusAssign, 2%nat);          (* 374 *)
    (PChar #"-", PChar #">", PAny, PyArrow, 2%nat);                (* 379 *)
    (PChar #"-", PAny, PAny, PyMinus, 1%nat);                      (* 384 *)
    (PChar #"%", PChar #"=", PAny, PyModuloAssign, 2%nat);         (* 389 *)
    (PChar #"%", PAny, PAny, PyModulo, 1%nat);                     (* 394 *)
    (PChar #"@", PChar #"=", PAny, PyMatriceAssign, 2%nat);        (* 399 *)
    (PChar #"@", PAny, PAny, PyMatrice, 1%nat);                    (* 404 *)
    (PChar #":", PChar #"=", PAny, PyColonAssign, 2%nat);          (* 409 *)
    (PChar #":", PAny, PAny, PyColon, 1%nat);                      (* 414 *)
    (PChar #"&", PChar #"=", PAny, PyBitAndAssign, 2%nat);         (* 419 *)
    (PChar #"&", PAny, PAny, PyBitAnd, 1%nat);                     (* 424 *)
    (PChar #"|", PChar #"=", PAny, PyBitOrAssign, 2%nat);          (* 429 *)
    (PChar #"|", PAny, PAny, PyBitOr, 1%nat);                      (* 434 *)
    (PChar #"^", PChar #"=", PAny, PyBitXorAssign, 2%nat);         (* 439 *)
    (PChar #"^", PAny, PAny, PyBitXor, 1%nat);                     (* 444 *)
    (PChar #"~", PAny, PAny, PyBitInvert, 1%nat);                  (* 449 *)
    (PChar #";", PAny, PAny, PySemiColon, 1%nat);                  (* 454 *)
    (PChar #",", PAny, PAny, PyComa, 1%nat);                       (* 459 *)
    (PChar #"=", PChar #"=", PAny, PyEqual, 2%nat);                (* 464 *)
    (PChar #"=", PAny, PAny, PyAssign, 1%nat);                     (* 469 *)
    (PChar #"!", PChar #"=", PAny, PyNotEqual, 2%nat) ].           (* 474 *)

Definition arm_match (p : char * char * char) (x : arm) : bool :=
  let '(a, b, c) := p in
  let '(pa, pb, pc, _, _) := x in
  pat_match pa a && pat_match pb b && pat_match pc c.

(** First matching arm, as Rust's [match] does. *)
Definition operator_at (p : char * char * char) : option (kind * nat) :=
  match find (arm_match p) operator_arms with
  | Some (_, _, _, k, n) => Some (k, n)
  | None => None
  end.

(** tokenizer.rs 479-496: opening brackets and the closer they push. *)
Definition opener_at (a : char) : option (kind * char) :=
  if a =? #"(" then Some (PyLeftParen, #")")
  else if a =? #"[" then Some (PyLeftBracket, #"]")
  else if a =? #"{" then Some (PyLeftCurly, #"}")
  else None.

(** tokenizer.rs 497-538: closing brackets. *)
Definition closer_at (a : char) : option (kind * String.string) :=
  if a =? #")" then
    Some (PyRightParen, "Syntax Error at {} - Mismatch in parenthesis, expected ')'!"%string)
  else if a =? #"]" then
    Some (PyRightBracket, "Syntax Error at {} - Mismatch in parenthesis, expected ']'!"%string)
  else if a =? #"}" then
    Some (PyRightCurly, "Syntax Error at {} - Mismatch in parenthesis, expected right curly!"%string)
  else None.

(** ** Names, keywords, string prefixes *)

(** tokenizer.rs 546-615 *)
Definition keyword_table : list (str * kind) :=
  [ ($"False", PyFalse); ($"None", PyNone); ($"True", PyTrue); ($"and", PyAnd); ($"as", PyAs);
    ($"assert", PyAssert); ($"async", PyAsync); ($"await", PyAwait); ($"break", PyBreak);
    ($"class", PyClass); ($"continue", PyContinue); ($"def", PyDef); ($"del", PyDel);
    ($"elif", PyElif); ($"else", PyElse); ($"except", PyExcept); ($"finally", PyFinally);
    ($"for", PyFor); ($"from", PyFrom); ($"global", PyGlobal); ($"if", PyIf);
    ($"import", PyImport); ($"in", PyIn); ($"is", PyIs); ($"lambda", PyLambda);
    ($"nonlocal", PyNonLocal); ($"not", PyNot); ($"or", PyOr); ($"pass", PyPass);
    ($"raise", PyRaise); ($"return", PyReturn); ($"try", PyTry); ($"while", PyWhile);
    ($"with", PyWith); ($"yield", PyYield) ].

Definition keyword_of (w : str) : option kind :=
  match find (fun x => str_eqb w (fst x)) keyword_table with
  | Some (_, k) => Some k
  | None => None
  end.

(** tokenizer.rs 616-629 *)
Definition prefix_table : list str :=
  [ $"r"; $"u"; $"R"; $"U"; $"f"; $"F"; $"fr"; $"Fr"; $"fR"; $"FR"; $"rf"; $"rF"; $"Rf"; $"RF" ].

Definition is_prefix_word (w : str) : bool := existsb (str_eqb w) prefix_table.

Definition is_quote (c : char) : bool := (c =? SQ) || (c =? DQ).

(** tokenizer.rs 539 and 541 *)
Definition ident_start (U : unicode) (c : char) : bool := is_alphabetic U c || (c =? #"_").
Definition ident_char (U : unicode) (c : char) : bool := is_alphanumeric U c || (c =? #"_").

(** ** Strings *)

(** tokenizer.rs 1039-1055: after the opening quote; the third component is false when the
    loop returns the unterminated-string error. *)
Fixpoint single_body (q : char) (r : list char) : str * list char * bool :=
  match r with
  | [] => ([], [], false)
  | c :: r' =>
      if (c =? NUL) || (c =? CR) || (c =? LF) then ([], r, false)
      else if c =? q then ([c], r', true)
      else let '(t, r'', ok) := single_body q r' in (c :: t, r'', ok)
  end.

(** tokenizer.rs 1009-1032: after the three opening quotes. *)
Fixpoint triple_body (q : char) (r : list char) : str * list char * bool :=
  match r with
  | [] => ([], [], false)
  | a :: r1 =>
      if a =? NUL then ([], r, false)
      else
        let step := let '(t, r', ok) := triple_body q r1 in (a :: t, r', ok) in
        if a =? CR then
          match r1 with
          | b :: r2 =>
              if b =? LF then let '(t, r', ok) := triple_body q r2 in (a :: b :: t, r', ok)
              else step
          | [] => step
          end
        else if a =? LF then step
        else
          let '(x, y, z) := peek3 r in
          if (q =? x) && (q =? y) && (q =? z) then (firstn 3 r, skipn 3 r, true)
          else step
  end.

Definition cu_after (c : cursor) (t : str) (r : list char) : cursor :=
  mk_cursor (cu_pos c + length t) r.

(** tokenizer.rs 1003-1058 *)
Definition handle_string (l : lexer) (start : nat) (triple : bool) (prefix : option str)
  (tr : list trivia) : lexed :=
  let quote := lx_char l in
  if triple then
    let c1 := cu_skip 3 (lx_cur l) in
    let '(t, r, ok) := triple_body quote (cu_rest c1) in
    let l' := set_cur l (cu_after c1 t r) in
    if ok then
      LOk (Tok T_AtomString (Range start (lx_pos l')) (finish_trivia tr)
               (StringLit (firstn 3 (lx_rest l) ++ t) prefix)) l'
    else LErr (EMsg "MORE DATA!") l'
  else
    let c1 := cu_skip 1 (lx_cur l) in
    let '(t, r, ok) := single_body quote (cu_rest c1) in
    let l' := set_cur l (cu_after c1 t r) in
    if ok then
      LOk (Tok T_AtomString (Range start (lx_pos l')) (finish_trivia tr)
               (StringLit (quote :: t) prefix)) l'
    else LErr (EAt "Unterminated single quote string at {}!" (lx_pos l')) l'.

(** tokenizer.rs 630-643 and 983-995: dispatch on the quotes at the read position.  Called only
    when the first character is a quote, so equality of the three characters is exactly the
    pattern pair in the source. *)
Definition lex_string (l : lexer) (start : nat) (prefix : option str) (tr : list trivia) : lexed :=
  let '(a, b, c) := cu_peek (lx_cur l) in
  if (a =? b) && (b =? c) then handle_string l start true prefix tr
  else if a =? b then
    let l' := lx_skip 2 l in
    LOk (Tok T_AtomString (Range start (lx_pos l')) (finish_trivia tr)
             (StringLit [a; b] prefix)) l'
  else handle_string l start false prefix tr.

(** tokenizer.rs 539-648 *)
Definition lex_word (U : unicode) (l : lexer) (tr : list trivia) : lexed :=
  let '(w, c) := cu_run_while (ident_char U) (lx_cur l) in
  let l' := set_cur l c in
  match keyword_of w with
  | Some k => LOk (Tok k (Range (lx_start l') (lx_pos l')) (finish_trivia tr) NoPayload) l'
  | None =>
      if is_prefix_word w && is_quote (lx_char l') then lex_string l' (lx_start l') (Some w) tr
      else LOk (Tok T_AtomName (Range (lx_start l') (lx_pos l')) (finish_trivia tr) (Text w)) l'
  end.

(** ** Numbers: [buffer] and read position. *)
Definition num := (str * cursor)%type.
Inductive numres := NumOk (x : num) | NumErr (m : String.string) (x : num).

Definition num_char (x : num) : char := cu_char (snd x).
(** [buffer.push(get_char()); advance()] *)
Definition num_push (x : num) : num := (fst x ++ [cu_char (snd x)], cu_advance (snd x)).

Definition num_bind (r : numres) (k : num -> numres) : numres :=
  match r with NumOk x => k x | NumErr m x => NumErr m x end.

(** The loop [while match get_char() { '_' => { push; advance; next must be a digit }, digit =>
    { push; advance }, _ => false }], tokenizer.rs 661-681, 695-715, 730-749, 767-783, 796-812,
    842-858, 867-883, 900-916, 925-941, 952-968.  The third component is false when an
    underscore is not followed by a digit. *)
Fixpoint digit_run (isd : char -> bool) (r : list char) : str * list char * bool :=
  match r with
  | [] => ([], [], true)
  | c :: r' =>
      if c =? #"_" then
        if isd (hd NUL r') then let '(t, r'', ok) := digit_run isd r' in (c :: t, r'', ok)
        else ([c], r', false)
      else if isd c then let '(t, r'', ok) := digit_run isd r' in (c :: t, r'', ok)
      else ([], r, true)
  end.

Definition num_digits (isd : char -> bool) (msg : String.string) (x : num) : numres :=
  let '(t, r, ok) := digit_run isd (cu_rest (snd x)) in
  let x' := (fst x ++ t, cu_after (snd x) t r) in
  if ok then NumOk x' else NumErr msg x'.

Definition msg_hex : String.string :=
  "Syntax Error at {} - Expected digit or '_' after '0x' or '0X'!".
Definition msg_oct : String.string :=
  "Syntax Error at {} - Expected digit or '_' after '0o' or '0O'!".
Definition msg_bin : String.string :=
  "Syntax Error at {} - Expected digit or '_' after '0b' or '0B'!".
Definition msg_dot : String.string := "Syntax Error at {} - Expected digit after '.'!".
Definition msg_zero : String.string :=
  "Syntax Error at {} - Leading zero in a integer number is not allowed'!".

(** tokenizer.rs 654-682 (hex), 683-716 (octal), 717-750 (binary): prefix letter already seen,
    not yet pushed. *)
Definition radix_number (isd : char -> bool) (msg : String.string) (x : num) : numres :=
  let x1 := num_push x in
  if isd (num_char x1) || (num_char x1 =? #"_") then num_digits isd msg x1
  else NumErr msg x1.

(** tokenizer.rs 760-786 and 917-944: optional fraction. *)
Definition num_fraction (x : num) : numres :=
  if num_char x =? #"." then
    let x1 := num_push x in
    if num_char x1 =? #"_" then NumErr msg_dot x1
    else num_digits is_digit msg_hex x1
  else NumOk x.

(** tokenizer.rs 787-816, 859-886, 945-971: optional exponent. *)
Definition num_exponent (x : num) : numres :=
  if (num_char x =? #"e") || (num_char x =? #"E") then
    let x1 := num_push x in
    let x2 := if (num_char x1 =? #"+") || (num_char x1 =? #"-") then num_push x1 else x1 in
    num_digits is_digit msg_hex x2
  else NumOk x.

(** tokenizer.rs 817-824, 887-893, 972-978: optional imaginary suffix. *)
Definition num_imaginary (x : num) : num :=
  if (num_char x =? #"j") || (num_char x =? #"J") then num_push x else x.

(** tokenizer.rs 751-834: '0' not followed by a radix letter.  The character after the zero,
    whatever it is, is pushed first. *)
Definition zero_number (x : num) : numres :=
  let x1 := num_push x in
  let '(t, r) := run_while is_digit (cu_rest (snd x1)) in
  let x2 := (fst x1 ++ t, cu_after (snd x1) t r) in
  let nz := existsb is_nonzero_digit t in
  let nz1 := if num_char x2 =? #"." then false else nz in
  num_bind (num_fraction x2) (fun x3 =>
  let nz2 := if (num_char x3 =? #"e") || (num_char x3 =? #"E") then false else nz1 in
  num_bind (num_exponent x3) (fun x4 =>
  let nz3 := if (num_char x4 =? #"j") || (num_char x4 =? #"J") then false else nz2 in
  let x5 := num_imaginary x4 in
  if nz3 then NumErr msg_zero x5 else NumOk x5)).

(** tokenizer.rs 649-832 *)
Definition number_from_zero (c : cursor) : numres :=
  let x := num_push ([], c) in
  let d := num_char x in
  if (d =? #"x") || (d =? #"X") then radix_number is_hex_digit msg_hex x
  else if (d =? #"o") || (d =? #"O") then radix_number is_oct_digit msg_oct x
  else if (d =? #"b") || (d =? #"B") then radix_number is_bin_digit msg_bin x
  else zero_number x.

(** tokenizer.rs 836-894 *)
Definition number_from_dot (c : cursor) : numres :=
  let x := num_push (num_push ([], c)) in
  num_bind (num_digits is_digit msg_hex x) (fun x1 =>
  num_bind (num_exponent x1) (fun x2 => NumOk (num_imaginary x2))).

(** tokenizer.rs 898-979 *)
Definition number_from_nonzero (c : cursor) : numres :=
  num_bind (num_digits is_digit msg_hex ([], c)) (fun x1 =>
  num_bind (num_fraction x1) (fun x2 =>
  num_bind (num_exponent x2) (fun x3 => NumOk (num_imaginary x3)))).

(** tokenizer.rs 833-834, 895-896, 980-981: the number token; errors carry get_position(). *)
Definition lex_number (l : lexer) (tr : list trivia) (r : numres) : lexed :=
  match r with
  | NumOk (text, c) =>
      let l' := set_cur l c in
      LOk (Tok T_AtomNumber (Range (lx_start l') (lx_pos l')) (finish_trivia tr) (Text text)) l'
  | NumErr m (_, c) => LErr (EAt m (lx_start l)) (set_cur l c)
  end.

(** tokenizer.rs 265-1000: everything after the 'outer loop. *)
Definition lex_token (U : unicode) (l0 : lexer) (tr : list trivia) : lexed :=
  let l := set_start l0 (lx_pos l0) in
  let p := cu_peek (lx_cur l) in
  let '(a, b, c) := p in
  match operator_at p with
  | Some (k, n) =>
      let l' := lx_skip n l in
      LOk (Tok k (Range (lx_start l') (lx_pos l')) (finish_trivia tr) NoPayload) l'
  | None =>
    match opener_at a with
    | Some (k, closer) =>
        let l' := set_parens (lx_skip 1 l) (closer :: lx_parens l) in
        LOk (Tok k (Range (lx_start l') (lx_pos l')) (finish_trivia tr) NoPayload) l'
    | None =>
      match closer_at a with
      | Some (k, msg) =>
          let l' := lx_skip 1 l in
          match lx_parens l' with
          | top :: below =>
              if top =? a then
                LOk (Tok k (Range (lx_start l') (lx_pos l')) (finish_trivia tr) NoPayload)
                    (set_parens l' below)
              else LErr (EAt msg (lx_start l')) l'
          | [] => LErr (EAt msg (lx_start l')) l'
          end
      | None =>
          if ident_start U a then lex_word U l tr
          else if a =? #"0" then lex_number l tr (number_from_zero (lx_cur l))
          else if (a =? #".") && is_digit b then lex_number l tr (number_from_dot (lx_cur l))
          else if is_nonzero_digit a then lex_number l tr (number_from_nonzero (lx_cur l))
          else if is_quote a then lex_string l (lx_start l) None tr
          else LErr (EAtChar "Lexical error at ({}), found '{}'" (lx_pos l) (lx_char l)) l
      end
    end
  end.

(** tokenizer.rs 40-1001 *)
Definition get_symbol (U : unicode) (l : lexer) : lexed :=
  let l0 := set_start l (lx_pos l) in
  match scan (S (length (lx_rest l0))) true l0 [] false with
  | SReturn r => r
  | SBreak l1 tr => lex_token U l1 tr
  end.
