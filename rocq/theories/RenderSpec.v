(** Writing tokens as source text: the specification side of the round trip C29. *)
From Coq Require Import ZArith Arith.
From Verif Require Import Chars SourceBuffer Token Tokenizer LexSpec TokenSpec.

(** [plain U w k pay]: the text [w] alone is a token of kind [k] carrying [pay]. *)
Inductive plain (U : unicode) : str -> kind -> payload -> Prop :=
| PL_operator w k : In (w, k) operator_table -> plain U w k NoPayload
| PL_bracket c k : In (c, k) brackets -> plain U [c] k NoPayload
| PL_keyword w k : In (w, k) reserved -> plain U w k NoPayload
| PL_name w : w <> [] -> word_start U (hd NUL w) -> Forall (word_char U) w -> ~ In w (map fst reserved) ->
    plain U w T_AtomName (Text w)
| PL_number w : python_decimal w -> plain U w T_AtomNumber (Text w)
| PL_radix c isd w : radix c isd -> udigits isd w -> w <> [] ->
    plain U (#"0" :: c :: w) T_AtomNumber (Text (#"0" :: c :: w))
| PL_string t : string_token t [SP] -> plain U t T_AtomString (StringLit t None)
| PL_prefixed p t : string_prefix p -> string_token t [SP] -> plain U (p ++ t) T_AtomString (StringLit t (Some p)).

(** A token with its text; a line: an indentation and tokens, each preceded by a gap. *)
Record item := Item { it_gap : str; it_text : str; it_kind : kind; it_payload : payload }.

Definition item_ok (U : unicode) (x : item) : Prop := plain U (it_text x) (it_kind x) (it_payload x).

(** Any non-empty run of blanks and tabs. *)
Definition gap (g : str) : Prop := g <> [] /\ Forall blank_char g.

Record line := Line { ln_indent : str; ln_first : item; ln_more : list item }.
Definition ln_items (x : line) : list item := ln_first x :: ln_more x.

(** The gap of the first token of a line is the indentation, its own is not written. *)
Definition line_text (x : line) : str :=
  ln_indent x ++ it_text (ln_first x) ++ flat_map (fun i => it_gap i ++ it_text i) (ln_more x) ++ [LF].
Definition text_of (xs : list line) : str := flat_map line_text xs.

Definition line_ok (U : unicode) (x : line) (col : nat) : Prop :=
  column_of (ln_indent x) col /\ Forall (item_ok U) (ln_items x) /\ Forall (fun i => gap (it_gap i)) (ln_more x) /\
  nest (map it_kind (ln_items x)) [] = Some [].

Definition item_seen (x : item) : kind * payload := (it_kind x, it_payload x).
Definition line_seen (x : line) : list (kind * payload) :=
  map item_seen (ln_items x) ++ [(T_Newline, Break LF SP)].

(** The levels deeper than the column are left. *)
Fixpoint leave (col : nat) (levels : list nat) : list nat :=
  match levels with
  | top :: below => if Nat.ltb col top then leave col below else levels
  | [] => []
  end.

(** [program U levels xs ts]: lines [xs] read with the levels [levels] open (innermost first) give
    the tokens [ts]. *)
Inductive program (U : unicode) : list nat -> list line -> list (kind * payload) -> Prop :=
| PR_end levels :
    program U levels [] (repeat (T_Dedent, NoPayload) (length levels - 1) ++ [(T_EOF, NoPayload)])
| PR_same levels x xs ts :
    line_ok U x (hd 0%nat levels) -> program U levels xs ts ->
    program U levels (x :: xs) (line_seen x ++ ts)
| PR_deeper levels x col xs ts :
    line_ok U x col -> (hd 0 levels < col)%nat -> program U (col :: levels) xs ts ->
    program U levels (x :: xs) ((T_Indent, NoPayload) :: line_seen x ++ ts)
| PR_back levels x col xs ts :
    line_ok U x col -> (col < hd 0 levels)%nat -> program U (leave col levels) xs ts ->
    program U levels (x :: xs)
      (repeat (T_Dedent, NoPayload) (length levels - length (leave col levels)) ++ line_seen x ++ ts).

Definition seen (ev : token + err) : option (kind * payload) :=
  match ev with inl t => Some (tk_kind t, tk_payload t) | inr _ => None end.
