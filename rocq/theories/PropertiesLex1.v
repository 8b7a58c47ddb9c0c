(** Tokenizer properties about histories of calls: C01-C05, C18-C20, C22. *)
From Coq Require Import ZArith Arith Sorted.
From Verif Require Import Chars SourceBuffer Token Tokenizer LexSpec HistoryProofs.

(** C01.  After [k] advances the buffer is at position [k] and reads the text positionally,
    NUL past the end; reading does not move (reads return no new buffer). *)
Theorem C01_buffer_reads : forall text k,
  let b := Nat.iter k sb_advance (sb_new text) in
  sb_get_position b = k /\
  sb_get_char b = nth k text NUL /\
  sb_peek_three_chars b = (nth k text NUL, nth (k + 1) text NUL, nth (k + 2) text NUL) /\
  sb_count b = length text.
Proof. exact buffer_reads. Qed.
Print Assumptions C01_buffer_reads.

(** C01.  The (position, remaining text) view used by the tokenizer model is the index buffer. *)
Theorem C01_cursor_refines_buffer : forall b,
  cu_char (cursor_of b) = sb_get_char b /\
  cu_peek (cursor_of b) = sb_peek_three_chars b /\
  cu_pos (cursor_of b) = sb_get_position b /\
  cu_advance (cursor_of b) = cursor_of (sb_advance b).
Proof. exact cursor_refines. Qed.
Print Assumptions C01_cursor_refines_buffer.

Example C01_case : let b := Nat.iter 2 sb_advance (sb_new $"abc") in
  sb_get_char b = #"c" /\ sb_peek_three_chars b = (#"c", NUL, NUL).
Proof. vm_compute. auto. Qed.

(** C02.  After any history of calls the next call returns a token or an error, and does so
    whatever number of rounds above the text length the loop is allowed. *)
Theorem C02_get_symbol_returns : forall U text evs l, history U text evs l ->
  exists r, ((exists t l', r = LOk t l') \/ (exists e l', r = LErr e l')) /\
    forall fuel, (length text < fuel)%nat -> get_symbol_within fuel U l = r.
Proof. exact call_returns. Qed.
Print Assumptions C02_get_symbol_returns.

(** C03.  After 3*len+4 calls an EOF token or an error has been returned. *)
Theorem C03_finishes : forall U text evs l, history U text evs l ->
  (3 * length text + 4 <= length evs)%nat ->
  exists ev, In ev evs /\ match ev with inl t => tk_kind t = T_EOF | inr _ => True end.
Proof. exact history_finishes. Qed.
Print Assumptions C03_finishes.

(** C03.  Once EOF has been returned the next call returns EOF at the same position and leaves the
    tokenizer as it is (so every later call does). *)
Theorem C03_eof_absorbs : forall U text evs l t l', history U text evs l ->
  get_symbol U l = LOk t l' -> tk_kind t = T_EOF ->
  tk_span t = At (lx_pos l') /\
  get_symbol U l' = LOk (Tok T_EOF (At (lx_pos l')) None NoPayload) l'.
Proof. exact eof_absorbs. Qed.
Print Assumptions C03_eof_absorbs.

Example C03_case : exists evs l,
  history ascii_only $"a" evs l /\ length evs = 7%nat /\
  map tk_kind (tokens_of evs) = [T_AtomName; T_EOF; T_EOF; T_EOF; T_EOF; T_EOF; T_EOF].
Proof.
  eexists _, _. split; [apply (history_of_run _ _ 7); vm_compute; reflexivity|].
  vm_compute. auto.
Qed.

(** C04.  The read position never decreases. *)
Theorem C04_position_monotone : forall U text evs l, history U text evs l ->
  match get_symbol U l with
  | LOk _ l' | LErr _ l' => (lx_pos l <= lx_pos l')%nat
  | LFuel => False
  end.
Proof. exact position_monotone. Qed.
Print Assumptions C04_position_monotone.

(** C04.  Bounds on the position, the token start, the indentation columns and their number, and
    the pending counter. *)
Theorem C04_bounds : forall U text evs l, history U text evs l ->
  (lx_pos l <= length text + 1)%nat /\ (lx_start l <= lx_pos l)%nat /\
  Forall (fun c => (c <= 4 * (length text + 1))%nat) (lx_indents l) /\
  (length (lx_indents l) <= length text + 2)%nat /\
  (- Z.of_nat (length text + 2) <= lx_pending l <= 1)%Z.
Proof. exact positions_bounded. Qed.
Print Assumptions C04_bounds.

(** C04.  Hence no counter leaves its 32-bit range on texts shorter than 2^30 characters; the
    peek of index+2 included. *)
Theorem C04_no_overflow : forall U text evs l, history U text evs l ->
  (Z.of_nat (length text) < 2 ^ 30 - 2)%Z ->
  (Z.of_nat (lx_pos l) + 2 < 2 ^ 32)%Z /\ (Z.of_nat (lx_start l) < 2 ^ 32)%Z /\
  Forall (fun c => (Z.of_nat c < 2 ^ 32)%Z) (lx_indents l) /\
  (- 2 ^ 31 <= lx_pending l < 2 ^ 31)%Z.
Proof. exact counters_in_range. Qed.
Print Assumptions C04_no_overflow.

(** C05.  The span of a token, and get_position after the call. *)
Theorem C05_token_span : forall U text evs l t l', history U text evs l ->
  get_symbol U l = LOk t l' ->
  match tk_span t with
  | NoSpan => tk_kind t = T_Indent \/ tk_kind t = T_Dedent
  | At p => tk_kind t = T_EOF /\ lexer_get_position l' = p /\ p = lx_pos l'
  | Range s e => (s < e)%nat /\ lexer_get_position l' = s /\ e = lx_pos l' /\
      tk_kind t <> T_Indent /\ tk_kind t <> T_Dedent /\ tk_kind t <> T_EOF
  end.
Proof. exact call_span. Qed.
Print Assumptions C05_token_span.

(** C05.  A token never starts before the end of an earlier one (errors in between included). *)
Theorem C05_spans_ordered : forall U text evs l, history U text evs l ->
  forall i j ti tj e s, (i < j)%nat ->
  nth_error evs i = Some (inl ti) -> nth_error evs j = Some (inl tj) ->
  span_end ti = Some e -> span_start tj = Some s -> (e <= s)%nat.
Proof. exact history_span_order. Qed.
Print Assumptions C05_spans_ordered.

Example C05_case : exists evs l,
  history ascii_only $"a $ b" evs l /\ evs <> [] /\
  map (fun ev => match ev with inl t => Some (tk_span t) | inr _ => None end) evs
  = [Some (Range 0 1); None; None].
Proof.
  eexists _, _. split; [apply (history_of_run _ _ 3); vm_compute; reflexivity|].
  vm_compute. split; [discriminate|reflexivity].
Qed.

(** C18.  The bracket tokens returned so far are a prefix of a well-nested word: the checker with
    its own stack never fails. *)
Theorem C18_brackets_nest : forall U text evs l, history U text evs l ->
  exists open, nest (kinds_of evs) [] = Some open.
Proof. exact brackets_nest. Qed.
Print Assumptions C18_brackets_nest.

(** C18.  A closing bracket at the read position of a state reached inside a line is a token
    exactly when it closes the most recent unclosed opening bracket; otherwise the call is an
    error naming its position. *)
Theorem C18_closer_decided : forall U text evs l open k c r, history U text evs l ->
  nest (kinds_of evs) [] = Some open ->
  lx_bol l = false -> lx_pending l = 0%Z -> lx_rest l = c :: r ->
  In (c, k) [(#")", PyRightParen); (#"]", PyRightBracket); (#"}", PyRightCurly)] ->
  (hd_error open = Some k ->
     exists l', get_symbol U l = LOk (Tok k (Range (lx_pos l) (lx_pos l + 1)) None NoPayload) l') /\
  (hd_error open <> Some k ->
     exists msg l', get_symbol U l = LErr (EAt msg (lx_pos l)) l').
Proof. exact closer_decided. Qed.
Print Assumptions C18_closer_decided.

Example C18_case : exists evs l,
  history ascii_only $"([a]" evs l /\ kinds_of evs = [PyLeftParen; PyLeftBracket; T_AtomName; PyRightBracket] /\
  nest (kinds_of evs) [] = Some [PyRightParen].
Proof.
  eexists _, _. split; [apply (history_of_run _ _ 4); vm_compute; reflexivity|].
  vm_compute. auto.
Qed.

(** C19.  While a bracket is open a call returns no Newline, Indent or Dedent and does not touch
    the indentation levels. *)
Theorem C19_no_layout_inside_brackets : forall U text evs l t l', history U text evs l ->
  get_symbol U l = LOk t l' ->
  forall open, nest (kinds_of evs) [] = Some open -> open <> [] ->
  tk_kind t <> T_Newline /\ tk_kind t <> T_Indent /\ tk_kind t <> T_Dedent /\
  lx_indents l' = lx_indents l.
Proof. exact no_layout_inside. Qed.
Print Assumptions C19_no_layout_inside_brackets.

Theorem C19_no_layout_inside_brackets_error : forall U text evs l e l', history U text evs l ->
  get_symbol U l = LErr e l' ->
  forall open, nest (kinds_of evs) [] = Some open -> open <> [] -> lx_indents l' = lx_indents l.
Proof. exact no_layout_inside_err. Qed.
Print Assumptions C19_no_layout_inside_brackets_error.

Example C19_case : exists evs l t l',
  history ascii_only [#"("; LF; SP; #"a"; #")"] evs l /\ kinds_of evs = [PyLeftParen] /\
  get_symbol ascii_only l = LOk t l' /\ tk_kind t = T_AtomName /\
  tk_trivia t = Some [TrNewline 1 2 CR LF].
Proof.
  eexists _, _, _, _. split; [apply (history_of_run _ _ 1); vm_compute; reflexivity|].
  vm_compute. auto.
Qed.

(** C20.  The open columns strictly increase from 0; Indents minus Dedents returned is the number
    of open levels above 0 less the pending ones; Dedents never exceed Indents. *)
Theorem C20_indents_balance : forall U text evs l, history U text evs l ->
  exists up, lx_indents l = up ++ [0%nat] /\
    StronglySorted (fun a b => (b < a)%nat) (lx_indents l) /\
    Forall (fun c => (0 < c)%nat) up /\
    (Z.of_nat (count T_Indent (kinds_of evs)) - Z.of_nat (count T_Dedent (kinds_of evs))
     = Z.of_nat (length up) - lx_pending l)%Z /\
    (count T_Dedent (kinds_of evs) <= count T_Indent (kinds_of evs))%nat.
Proof. exact history_levels. Qed.
Print Assumptions C20_indents_balance.

Example C20_case : exists evs l,
  history ascii_only [#"a"; LF; SP; #"b"; LF; SP; SP; #"c"; LF; #"d"] evs l /\
  kinds_of evs = [T_AtomName; T_Newline; T_Indent; T_AtomName; T_Newline; T_Indent; T_AtomName;
                  T_Newline; T_Dedent; T_Dedent; T_AtomName].
Proof.
  eexists _, _. split; [apply (history_of_run _ _ 11); vm_compute; reflexivity|].
  vm_compute. auto.
Qed.
