(** Specifications for the tokenizer properties (C01-C29), independent of the way the tokenizer
    works: they mention the source text, the public calls [lexer_new] / [get_symbol] /
    [get_position] and the returned tokens only. *)
From Coq Require Import ZArith Arith.
From Verif Require Import Chars SourceBuffer Token Tokenizer.

(** The characters of [text] from position [s] up to, not including, [e]. *)
Definition slice (text : str) (s e : nat) : str := firstn (e - s) (skipn s text).

(** ** Histories of calls *)

(** [history U text evs l]: starting from a fresh tokenizer on [text], the calls so far returned
    [evs] (oldest first; tokens or errors, calling goes on after an error) and left it in [l]. *)
Inductive history (U : unicode) (text : str) : list (token + err) -> lexer -> Prop :=
| H_start : history U text [] (lexer_new text)
| H_ok evs l t l' :
    history U text evs l -> get_symbol U l = LOk t l' -> history U text (evs ++ [inl t]) l'
| H_err evs l e l' :
    history U text evs l -> get_symbol U l = LErr e l' -> history U text (evs ++ [inr e]) l'.

(** [get_symbol] with the trivia loop run for any number of rounds. *)
Definition get_symbol_within (fuel : nat) (U : unicode) (l : lexer) : lexed :=
  let l0 := set_start l (lx_pos l) in
  match scan fuel true l0 [] false with
  | SReturn r => r
  | SBreak l1 tr => lex_token U l1 tr
  end.


Definition tokens_of (evs : list (token + err)) : list token :=
  flat_map (fun e => match e with inl t => [t] | inr _ => [] end) evs.

Definition kinds_of (evs : list (token + err)) : list kind := map tk_kind (tokens_of evs).

(** The lexer run as a function: at most [n] calls, stopping after EOF or an error. *)
Fixpoint lex_all (U : unicode) (n : nat) (l : lexer) : list (token + err) :=
  match n with
  | O => []
  | S n' =>
      match get_symbol U l with
      | LOk t l' => inl t :: (if kind_eqb (tk_kind t) T_EOF then [] else lex_all U n' l')
      | LErr e _ => [inr e]
      | LFuel => []
      end
  end.

(** ** Spans *)
Definition span_start (t : token) : option nat :=
  match tk_span t with NoSpan => None | At p => Some p | Range s _ => Some s end.
Definition span_end (t : token) : option nat :=
  match tk_span t with NoSpan => None | At p => Some p | Range _ e => Some e end.

(** ** Brackets: a checker over the token kinds returned so far, with its own stack. *)
Definition closer_of (k : kind) : option kind :=
  match k with
  | PyLeftParen => Some PyRightParen
  | PyLeftBracket => Some PyRightBracket
  | PyLeftCurly => Some PyRightCurly
  | _ => None
  end.
Definition is_closer (k : kind) : bool :=
  match k with PyRightParen | PyRightBracket | PyRightCurly => true | _ => false end.

(** [nest ks stack]: the closers still expected after reading [ks], innermost first;
    [None] if some closer does not match the most recent unclosed opener. *)
Fixpoint nest (ks : list kind) (stack : list kind) : option (list kind) :=
  match ks with
  | [] => Some stack
  | k :: ks' =>
      match closer_of k with
      | Some c => nest ks' (c :: stack)
      | None =>
          if is_closer k then
            match stack with
            | top :: below => if kind_eqb top k then nest ks' below else None
            | [] => None
            end
          else nest ks' stack
      end
  end.

(** ** Counting layout tokens *)
Definition count (k : kind) (ks : list kind) : nat :=
  length (filter (fun x => kind_eqb x k) ks).

(** ** Tiling of the text by trivia and tokens *)
Definition blank_char (c : char) : Prop := c = SP \/ c = TAB.

Inductive piece :=
| PTrivia (x : trivia)
| PToken (s e : nat) (newline : bool).

(** The pieces of a token in source order: its trivia (stored reversed) and its span. *)
Definition pieces (t : token) : list piece :=
  map PTrivia (rev (match tk_trivia t with Some tr => tr | None => [] end)) ++
  match tk_span t with
  | Range s e => [PToken s e (kind_eqb (tk_kind t) T_Newline)]
  | _ => []
  end.

Definition is_newline_trivia (x : trivia) : bool :=
  match x with TrNewline _ _ _ _ => true | _ => false end.

(** A line break at the head of [r]: CR LF, a CR not followed by LF, or LF; [n] characters long. *)
Inductive line_break : list char -> nat -> Prop :=
| LB_crlf r : line_break (CR :: LF :: r) 2
| LB_cr r : hd NUL r <> LF -> line_break (CR :: r) 1
| LB_lf r : line_break (LF :: r) 1.

(** What the code advances over for a line break: three characters for CR LF. *)
Inductive line_break_as_coded : list char -> nat -> Prop :=
| LBC_crlf r : line_break_as_coded (CR :: LF :: r) 3
| LBC_one r : line_break r 1 -> line_break_as_coded r 1.

(** The source text of a trivia. *)
Inductive trivia_source (text : str) : trivia -> Prop :=
| TS_blanks s e : (s < e)%nat -> slice text s e = repeat SP (e - s) -> nth e text NUL <> SP ->
    trivia_source text (WhiteSpace s e SP)
| TS_tab s : slice text s (s + 1) = [TAB] -> trivia_source text (WhiteSpace s (s + 1) TAB)
| TS_comment s e : (s < e)%nat -> hd NUL (slice text s e) = #"#" ->
    (forall c, In c (slice text s e) -> c <> CR /\ c <> LF /\ c <> NUL) ->
    (let c := nth e text NUL in c = CR \/ c = LF \/ c = NUL) ->
    starts_with $"# type:" (slice text s e) = false ->
    trivia_source text (Comment s e (slice text s e))
| TS_newline s n : line_break_as_coded (skipn s text) n ->
    trivia_source text (TrNewline s (s + n) CR LF)
| TS_continuation s n r c1 c2 : skipn s text = BSL :: r -> line_break r n ->
    c1 = hd NUL r -> c2 = (if Nat.eqb n 2 then LF else SP) ->
    trivia_source text (LineContinuation s (s + 1 + n) BSL c1 c2).

(** [tiled text bol p ps bol' q]: the pieces [ps] cover the text from [p] to [q], in order and
    without overlap; only blanks at the beginning of a line ([bol]) may be left out, and then all
    the leading blanks of that line. *)
Inductive tiled (text : str) : bool -> nat -> list piece -> bool -> nat -> Prop :=
| TL_nil b p : tiled text b p [] b p
| TL_indent p w r ps b q :
    skipn p text = w ++ r -> Forall blank_char w -> ~ blank_char (hd NUL r) ->
    tiled text false (p + length w) ps b q ->
    tiled text true p ps b q
| TL_trivia p x ps b q :
    trivia_start x = p -> trivia_source text x ->
    tiled text (is_newline_trivia x) (trivia_end x) ps b q ->
    tiled text false p (PTrivia x :: ps) b q
| TL_token p e nl ps b q :
    (p < e)%nat -> tiled text nl e ps b q ->
    tiled text false p (PToken p e nl :: ps) b q.

(** The same without leaving anything out. *)
Inductive tiled_exactly : nat -> list piece -> nat -> Prop :=
| TE_nil p : tiled_exactly p [] p
| TE_trivia p x ps q : trivia_start x = p -> (p < trivia_end x)%nat ->
    tiled_exactly (trivia_end x) ps q -> tiled_exactly p (PTrivia x :: ps) q
| TE_token p e nl ps q : (p < e)%nat -> tiled_exactly e ps q -> tiled_exactly p (PToken p e nl :: ps) q.

(** ** Number literals *)

(** (["_"] digit)*, the digits being those of [isd]. *)
Inductive udigits (isd : char -> bool) : str -> Prop :=
| UD_nil : udigits isd []
| UD_digit d w : isd d = true -> udigits isd w -> udigits isd (d :: w)
| UD_under d w : isd d = true -> udigits isd w -> udigits isd (#"_" :: d :: w).

(** digit (["_"] digit)* *)
Definition digitpart (isd : char -> bool) (w : str) : Prop :=
  udigits isd w /\ w <> [] /\ hd NUL w <> #"_".

(** [w] is the longest prefix of [w ++ r] made of digits and underscores. *)
Definition digits_and_underscores (isd : char -> bool) (w r : str) : Prop :=
  Forall (fun c => isd c = true \/ c = #"_") w /\ isd (hd NUL r) = false /\ hd NUL r <> #"_".

(** Radix literals: prefix letters, digits. *)
Inductive radix : char -> (char -> bool) -> Prop :=
| Rx c : In c [#"x"; #"X"] -> radix c is_hex_digit
| Ro c : In c [#"o"; #"O"] -> radix c is_oct_digit
| Rb c : In c [#"b"; #"B"] -> radix c is_bin_digit.

(** The parts of a decimal number at the head of a text: optional fraction, exponent and
    imaginary suffix, each as long as possible, followed by [r]. *)
Definition frac_part (f r : str) : Prop :=
  (f = [] /\ hd NUL r <> #".") \/
  exists w : str, f = #"." :: w /\ digits_and_underscores is_digit w r.
Definition exp_part (ex r : str) : Prop :=
  (ex = [] /\ hd NUL r <> #"e" /\ hd NUL r <> #"E") \/
  exists (c : char) (s w : str), ex = c :: s ++ w /\ (c = #"e" \/ c = #"E") /\
    (s = [#"+"] \/ s = [#"-"] \/ s = [] /\ hd NUL (w ++ r) <> #"+" /\ hd NUL (w ++ r) <> #"-") /\
    digits_and_underscores is_digit w r.
Definition imag_part (im r : str) : Prop :=
  (im = [] /\ hd NUL r <> #"j" /\ hd NUL r <> #"J") \/ im = [#"j"] \/ im = [#"J"].

Definition number_parts (ip f ex im r : str) : Prop :=
  digits_and_underscores is_digit ip (f ++ ex ++ im ++ r) /\
  frac_part f (ex ++ im ++ r) /\ exp_part ex (im ++ r) /\ imag_part im r.

(** What Python's grammar asks of the fraction, of the exponent, and what the code asks of it. *)
Definition frac_ok (f : str) : Prop := f = [] \/ f = [#"."] \/ exists w : str, f = #"." :: w /\ digitpart is_digit w.
Definition exp_ok (ex : str) : Prop :=
  ex = [] \/ exists (c : char) (s w : str), ex = c :: s ++ w /\ (c = #"e" \/ c = #"E") /\
    (s = [#"+"] \/ s = [#"-"] \/ s = []) /\ digitpart is_digit w.
Definition exp_as_coded (ex : str) : Prop :=
  ex = [] \/ exists (c : char) (s w : str), ex = c :: s ++ w /\ (c = #"e" \/ c = #"E") /\
    (s = [#"+"] \/ s = [#"-"] \/ s = []) /\ udigits is_digit w.

(** Decimal literals of the Python reference not starting with 0: integers, point floats,
    exponent floats and imaginary numbers. *)
Inductive python_decimal : str -> Prop :=
| PD_int ip f ex im : digitpart is_digit ip -> is_nonzero_digit (hd NUL ip) = true ->
    frac_ok f -> exp_ok ex -> In im [[]; [#"j"]; [#"J"]] -> python_decimal (ip ++ f ++ ex ++ im)
| PD_dot w ex im : digitpart is_digit w -> exp_ok ex -> In im [[]; [#"j"]; [#"J"]] ->
    python_decimal ((#"." :: w) ++ ex ++ im).

(** A state in the middle of a line: nothing pending. *)
Definition mid_line (l : lexer) : Prop := lx_bol l = false /\ lx_pending l = 0%Z.

(** The lexer after reading [n] characters as one token. *)
Definition after (l : lexer) (n : nat) : lexer :=
  mk_lexer (mk_cursor (lx_pos l + n) (skipn n (lx_rest l))) (lx_pos l) (lx_parens l) (lx_bol l)
    (lx_pending l) (lx_indents l).

(** The tokenizer standing at position [s] of [text] inside a line, the closers [ps] being
    expected and the levels [is] open. *)
Definition at_position (text : str) (s : nat) (ps : list char) (is : list nat) : lexer :=
  mk_lexer (mk_cursor s (skipn s text)) s ps false 0%Z is.

Definition without_trivia (t : token) : token := Tok (tk_kind t) (tk_span t) None (tk_payload t).

(** The parts the code reads after a [0] and the character following it. *)
Definition zero_parts (ip f ex im r : str) : Prop :=
  Forall (fun c => is_digit c = true) ip /\ is_digit (hd NUL (f ++ ex ++ im ++ r)) = false /\
  frac_part f (ex ++ im ++ r) /\ exp_part ex (im ++ r) /\ imag_part im r.

Definition radix_letter (c : char) : Prop := In c [#"x"; #"X"; #"o"; #"O"; #"b"; #"B"].

(** ** Numbers starting with 0 in the Python reference *)

(** 0 (["_"] 0)*, point floats, exponent floats and imaginary numbers. *)
Inductive python_zero : str -> Prop :=
| PZ_int ip : digitpart (fun c => c =? #"0") ip -> hd NUL ip = #"0" -> python_zero ip
| PZ_float ip f ex im : digitpart is_digit ip -> hd NUL ip = #"0" ->
    frac_ok f -> exp_ok ex -> In im [[]; [#"j"]; [#"J"]] -> f ++ ex ++ im <> [] -> python_zero (ip ++ f ++ ex ++ im).

(** A character that cannot continue a decimal number. *)
Definition ends_number (c : char) : Prop :=
  is_digit c = false /\ ~ In c [#"_"; #"."; #"e"; #"E"; #"j"; #"J"; #"x"; #"X"; #"o"; #"O"; #"b"; #"B"].

(** ** What stands before a token *)

(** [x] added to the trivia of the token as the first in source order (trivia are stored
    backwards). *)
Definition first_trivia (x : trivia) (r : lexed) : lexed :=
  match r with
  | LOk t l => LOk (Tok (tk_kind t) (tk_span t)
                     (Some ((match tk_trivia t with Some tr => tr | None => [] end) ++ [x]))
                     (tk_payload t)) l
  | _ => r
  end.

(** A run of comment characters up to the end of the line or of the text. *)
Definition comment_run (w r : str) : Prop :=
  hd NUL w = #"#" /\ Forall (fun c => c <> CR /\ c <> LF /\ c <> NUL) w /\
  (hd NUL r = CR \/ hd NUL r = LF \/ hd NUL r = NUL).

(** ** Indentation *)

(** The next multiple of four: the column after a tab. *)
Definition next_tab (k k' : nat) : Prop := (k < k')%nat /\ (k' <= k + 4)%nat /\ exists m, k' = (4 * m)%nat.

(** [column_of w k]: reading the blanks and tabs [w] from column 0 ends in column [k]. *)
Inductive column_of : str -> nat -> Prop :=
| CO_nil : column_of [] 0
| CO_blank w k : column_of w k -> column_of (w ++ [SP]) (k + 1)
| CO_tab w k k' : column_of w k -> next_tab k k' -> column_of (w ++ [TAB]) k'.

(** The characters after the indentation that make the code treat a line as blank. *)
Definition blank_line_start (c : char) : Prop := In c [#"#"; CR; LF; BSL].

(** [calls U l ts l']: calling from [l] returns the tokens [ts] one after the other. *)
Inductive calls (U : unicode) : lexer -> list token -> lexer -> Prop :=
| C_nil l : calls U l [] l
| C_cons l t l1 ts l2 : get_symbol U l = LOk t l1 -> calls U l1 ts l2 -> calls U l (t :: ts) l2.

Definition dedent_token : token := Tok T_Dedent NoSpan None NoPayload.
Definition indent_token : token := Tok T_Indent NoSpan None NoPayload.
