(** Vocabulary of the property about the errors of the tokenizer (C62).  Not modelled code.

    [error_at U open p r e]: reading at position [p], where the text goes on with [r] and the closing
    brackets [open] are awaited (innermost first), is the error [e]. *)
From Coq Require Import List String NArith.
From Verif Require Import Chars SourceBuffer Token Tokenizer LexSpec TokenSpec.
Import ListNotations.
Local Open Scope string_scope.
Local Open Scope list_scope.

(** ** Messages *)
Definition digits_message : string := "Syntax Error at {} - Expected digit or '_' after '0x' or '0X'!".
Definition octal_message : string := "Syntax Error at {} - Expected digit or '_' after '0o' or '0O'!".
Definition binary_message : string := "Syntax Error at {} - Expected digit or '_' after '0b' or '0B'!".
Definition point_message : string := "Syntax Error at {} - Expected digit after '.'!".
Definition zero_message : string := "Syntax Error at {} - Leading zero in a integer number is not allowed'!".
Definition unterminated_message : string := "Unterminated single quote string at {}!".
Definition more_message : string := "MORE DATA!".
Definition continuation_message : string := "Line continuation at {} not followed by newline!".

Definition closing : list (char * (kind * string)) :=
  [ (#")", (PyRightParen, "Syntax Error at {} - Mismatch in parenthesis, expected ')'!"));
    (#"]", (PyRightBracket, "Syntax Error at {} - Mismatch in parenthesis, expected ']'!"));
    (#"}", (PyRightCurly, "Syntax Error at {} - Mismatch in parenthesis, expected right curly!")) ].

(** The messages of the three radices. *)
Inductive radix_message : char -> string -> Prop :=
| RM_hex c : In c [#"x"; #"X"] -> radix_message c digits_message
| RM_oct c : In c [#"o"; #"O"] -> radix_message c octal_message
| RM_bin c : In c [#"b"; #"B"] -> radix_message c binary_message.

(** ** Numbers *)

(** A fraction that is none: an underscore right behind the point, or underscores that do not stand
    between two digits. *)
Definition fraction_fault (f : str) (m : string) : Prop :=
  ~ frac_ok f /\
  ((exists w, f = #"." :: #"_" :: w) /\ m = point_message \/
   (forall w, f <> #"." :: #"_" :: w) /\ m = digits_message).

(** The first faulty part decides. *)
Inductive number_fault : str -> string -> Prop :=
| NF_radix c isd m w r :
    radix c isd -> radix_message c m -> digits_and_underscores isd w r -> ~ (udigits isd w /\ w <> []) ->
    number_fault (#"0" :: c :: w ++ r) m
| NF_digits ip f ex im r :
    number_parts ip f ex im r -> is_nonzero_digit (hd NUL ip) = true -> ~ udigits is_digit ip ->
    number_fault (ip ++ f ++ ex ++ im ++ r) digits_message
| NF_fraction ip f ex im r m :
    number_parts ip f ex im r -> is_nonzero_digit (hd NUL ip) = true -> udigits is_digit ip -> fraction_fault f m ->
    number_fault (ip ++ f ++ ex ++ im ++ r) m
| NF_exponent ip f ex im r :
    number_parts ip f ex im r -> is_nonzero_digit (hd NUL ip) = true -> udigits is_digit ip -> frac_ok f ->
    ~ exp_as_coded ex ->
    number_fault (ip ++ f ++ ex ++ im ++ r) digits_message
| NF_dot d w ex im r :
    is_digit d = true -> digits_and_underscores is_digit w (ex ++ im ++ r) -> exp_part ex (im ++ r) -> imag_part im r ->
    ~ (udigits is_digit w /\ exp_as_coded ex) ->
    number_fault ((#"." :: d :: w) ++ ex ++ im ++ r) digits_message
| NF_zero_fraction s ip f ex im r m :
    ~ radix_letter (hd NUL s) -> tl s = (ip ++ f ++ ex ++ im ++ r)%list -> zero_parts ip f ex im r -> fraction_fault f m ->
    number_fault (#"0" :: s) m
| NF_zero_exponent s ip f ex im r :
    ~ radix_letter (hd NUL s) -> tl s = (ip ++ f ++ ex ++ im ++ r)%list -> zero_parts ip f ex im r -> frac_ok f ->
    ~ exp_as_coded ex ->
    number_fault (#"0" :: s) digits_message
| NF_zero_leading s ip r :
    ~ radix_letter (hd NUL s) -> tl s = (ip ++ r)%list -> zero_parts ip [] [] [] r ->
    existsb is_nonzero_digit ip = true ->
    number_fault (#"0" :: s) zero_message.

(** ** Everything *)
Inductive error_at (U : unicode) (open : list kind) (p : nat) : str -> err -> Prop :=
| EA_unknown r :
    starts_nothing U r -> error_at U open p r (lexical_error p (hd NUL r))
| EA_closer c r k m :
    In (c, (k, m)) closing -> hd_error open <> Some k -> error_at U open p (c :: r) (EAt m p)
| EA_continuation r :
    (forall n, ~ line_break r n) -> error_at U open p (BSL :: r) (EAt continuation_message p)
| EA_single w q b r :
    w = [] \/ string_prefix w -> quote q -> Forall (fun c => c <> q /\ c <> CR /\ c <> LF /\ c <> NUL) b ->
    In (hd NUL r) [CR; LF; NUL] ->
    error_at U open p (w ++ q :: b ++ r) (EAt unterminated_message (p + length (w ++ q :: b)))
| EA_triple w q r :
    w = [] \/ string_prefix w -> quote q -> no_triple_end q r ->
    error_at U open p (w ++ [q; q; q] ++ r) (EMsg more_message)
| EA_number r m :
    number_fault r m -> error_at U open p r (EAt m p).

(** Something to read that is no trivia stands at the head of [r]. *)
Definition starts_something (r : str) : Prop :=
  ~ In (hd NUL r) [SP; TAB; #"#"; NUL; CR; LF] /\ forall r' n, r = BSL :: r' -> ~ line_break r' n.

(** ** What the messages say of the text, and whether it is so *)

(** The messages about numbers and brackets: the text at the place stated and the bracket awaited are as
    the message has it. *)
Definition as_stated (open : list kind) (r : str) (m : string) : Prop :=
  (m = digits_message -> exists c r', r = #"0" :: c :: r' /\ In c [#"x"; #"X"]) /\
  (m = octal_message -> exists c r', r = #"0" :: c :: r' /\ In c [#"o"; #"O"]) /\
  (m = binary_message -> exists c r', r = #"0" :: c :: r' /\ In c [#"b"; #"B"]) /\
  (m = zero_message -> exists r', r = #"0" :: r') /\
  (m = point_message -> exists a b c, r = (a ++ #"." :: c :: b)%list /\ is_digit c = false) /\
  (m = continuation_message -> exists r', r = BSL :: r' /\ hd NUL r' <> CR /\ hd NUL r' <> LF) /\
  (forall c k, In (c, (k, m)) closing -> hd_error open = Some k).
