(** Which sequences of tokens a text can have: the specification side of C56. *)
From Coq Require Import List Arith.
From Verif Require Import Chars SourceBuffer Token Tokenizer LexSpec TokenSpec.
Import ListNotations.
Local Open Scope nat_scope.

(** A token (kind and text) as it stands at the head of some text: a mark, a reserved word, a name, a number or a string.
    The character it begins with is none that layout, a comment or the end of the text begins with. *)
Definition genuine (U : unicode) (k : kind) (pay : payload) : Prop :=
  exists s n, ~ In (hd NUL s) [SP; TAB; #"#"; NUL; CR; LF; BSL] /\ token_at U s k n pay.

(** Where the next token stands.
    [Start]: at the beginning of the text or after a Newline, nothing decided about the block yet;
    [Bare]: at the beginning of a line that belongs to the current block;
    [Laid]: after the Indent or the Dedents of a line;
    [Mid]: after a token of the line;
    [Noted]: after a type comment, which reaches to the end of the line. *)
Inductive spot := Start | Bare | Laid | Mid | Noted.

(** [stream U s d o fs]: the tokens [fs], up to the end of file, can follow at the spot [s] of a line in a block of depth [d],
    the closing brackets [o] being expected, innermost first. *)
Inductive stream (U : unicode) : spot -> nat -> list kind -> list (kind * payload) -> Prop :=
(** The end of file may come anywhere: brackets and blocks may be left open. *)
| SQ_eof s d o : s <> Start -> stream U s d o [(T_EOF, NoPayload)]
(** A token; closing brackets match; after a type comment only inside brackets, where a line end is no token. *)
| SQ_item s d o k pay o' fs : s = Bare \/ s = Laid \/ s = Mid \/ (s = Noted /\ o <> []) ->
    genuine U k pay -> nest [k] o = Some o' -> stream U Mid d o' fs -> stream U s d o ((k, pay) :: fs)
(** The end of a line that has a token, outside brackets. *)
| SQ_newline s d fs : s = Mid \/ s = Noted -> stream U Start d [] fs -> stream U s d [] ((T_Newline, NoPayload) :: fs)
(** A type comment; never as the first token of a line that is indented or dedented. *)
| SQ_comment s d o fs : s = Bare \/ s = Mid \/ (s = Noted /\ o <> []) -> stream U Noted d o fs ->
    stream U s d o ((T_TypeComment, NoPayload) :: fs)
(** A line of the same block, one of a new block, or one of an enclosing block. *)
| SQ_same d fs : stream U Bare d [] fs -> stream U Start d [] fs
| SQ_deeper d fs : stream U Laid (S d) [] fs -> stream U Start d [] ((T_Indent, NoPayload) :: fs)
| SQ_back d k fs : 0 < k <= d -> stream U Laid (d - k) [] fs -> stream U Start d [] (repeat (T_Dedent, NoPayload) k ++ fs).
