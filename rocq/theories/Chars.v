(** Characters and strings.

    Rust [char] is a Unicode scalar value; it is modelled by its code point, an [N].
    Rust [String] / [Vec<char>] is a [list char]. *)
From Coq Require Import Ascii String.
From Coq Require Export NArith List Bool.
Export ListNotations.
Export String.StringSyntax Ascii.AsciiSyntax.
Delimit Scope char_scope with char.
Delimit Scope string_scope with string.
Open Scope N_scope.

Definition char := N.
Definition str := list char.

(** Compile-time literals: [#"x"] is the code point of [x], [$"abc"] the list of code points.
    They elaborate to numerals, so nothing about [ascii] survives in the model. *)
Fixpoint chars_of_string (s : string) : str :=
  match s with
  | EmptyString => []
  | String a s' => N_of_ascii a :: chars_of_string s'
  end.

Ltac char_lit a := let x := eval compute in (N_of_ascii a) in exact x.
Ltac str_lit s := let x := eval compute in (chars_of_string s) in exact x.
Notation "# a" := (ltac:(char_lit a%char))
  (at level 1, a constr, only parsing).
Notation "$ s" := (ltac:(str_lit s%string))
  (at level 1, s constr, only parsing).

Definition NUL : char := 0.
Definition TAB : char := 9.
Definition LF  : char := 10.
Definition CR  : char := 13.
Definition SP  : char := 32.
Definition DQ  : char := 34.   (* double quote *)
Definition SQ  : char := 39.   (* single quote *)
Definition BSL : char := 92.   (* backslash *)

Definition in_range (lo hi c : char) : bool := (lo <=? c) && (c <=? hi).

(** [char::is_ascii_digit] and the patterns '0'..='9', '1'..='9', '0'..='7', '0' | '1',
    '0'..='9' | 'a'..='f' | 'A'..='F' used by the tokenizer. *)
Definition is_digit (c : char) : bool := in_range #"0" #"9" c.
Definition is_nonzero_digit (c : char) : bool := in_range #"1" #"9" c.
Definition is_oct_digit (c : char) : bool := in_range #"0" #"7" c.
Definition is_bin_digit (c : char) : bool := (c =? #"0") || (c =? #"1").
Definition is_hex_digit (c : char) : bool :=
  is_digit c || in_range #"a" #"f" c || in_range #"A" #"F" c.

Definition ascii_letter (c : char) : bool := in_range #"a" #"z" c || in_range #"A" #"Z" c.

(** The part of Rust std's Unicode data the tokenizer depends on: the Alphabetic table and
    the Numeric (N* categories) table.  Both are arbitrary parameters: every theorem
    quantifies over them and no property of the tables is assumed. *)
Record unicode := { uni_alphabetic : char -> bool; uni_numeric : char -> bool }.

(** [char::is_alphabetic] of Rust std: letters by ASCII fast path, the table above 0x7F. *)
Definition is_alphabetic (U : unicode) (c : char) : bool :=
  ascii_letter c || ((127 <? c) && uni_alphabetic U c).

(** [char::is_numeric] of Rust std. *)
Definition is_numeric (U : unicode) (c : char) : bool :=
  is_digit c || ((127 <? c) && uni_numeric U c).

(** [char::is_alphanumeric] of Rust std: alphabetic or numeric. *)
Definition is_alphanumeric (U : unicode) (c : char) : bool :=
  is_alphabetic U c || is_numeric U c.

(** Table used in examples: nothing above ASCII is a letter or a number. *)
Definition ascii_only : unicode :=
  {| uni_alphabetic := fun _ => false; uni_numeric := fun _ => false |}.

Fixpoint str_eqb (a b : str) : bool :=
  match a, b with
  | [], [] => true
  | x :: a', y :: b' => (x =? y) && str_eqb a' b'
  | _, _ => false
  end.

Fixpoint starts_with (p s : str) : bool :=
  match p, s with
  | [], _ => true
  | x :: p', y :: s' => (x =? y) && starts_with p' s'
  | _ :: _, [] => false
  end.
