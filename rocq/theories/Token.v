(** /repo/src/parser/trivias.rs and /repo/src/parser/tokens.rs *)
From Coq Require String.
From Verif Require Import Chars.

(** trivias.rs 3-8 *)
Inductive trivia :=
| WhiteSpace (s e : nat) (c : char)
| TrNewline (s e : nat) (c1 c2 : char)
| LineContinuation (s e : nat) (c1 c2 c3 : char)
| Comment (s e : nat) (text : str).

Definition trivia_start (t : trivia) : nat :=
  match t with
  | WhiteSpace s _ _ | TrNewline s _ _ _ | LineContinuation s _ _ _ _ | Comment s _ _ => s
  end.
Definition trivia_end (t : trivia) : nat :=
  match t with
  | WhiteSpace _ e _ | TrNewline _ e _ _ | LineContinuation _ e _ _ _ | Comment _ e _ => e
  end.

(** tokens.rs 5-96: the variants of [enum Token], in order.  [T_X] stands for variant [X]
    whose name is shared with a tree node. *)
Inductive kind :=
| PyFalse
| PyNone
| PyTrue
| PyAnd
| PyAs
| PyAssert
| PyAsync
| PyAwait
| PyBreak
| PyClass
| PyContinue
| PyDef
| PyDel
| PyElif
| PyElse
| PyExcept
| PyFinally
| PyFor
| PyFrom
| PyGlobal
| PyIf
| PyImport
| PyIn
| PyIs
| PyLambda
| PyNonLocal
| PyNot
| PyOr
| PyPass
| PyRaise
| PyReturn
| PyTry
| PyWhile
| PyWith
| PyYield
| PyPlus
| PyMinus
| PyMul
| PyPower
| PyDiv
| PyFloorDiv
| PyModulo
| PyMatrice
| PyShiftLeft
| PyShiftRight
| PyBitAnd
| PyBitOr
| PyBitXor
| PyBitInvert
| PyColonAssign
| PyLess
| PyGreater
| PyLessEqual
| PyGreaterEqual
| PyEqual
| PyNotEqual
| PyLeftParen
| PyLeftBracket
| PyLeftCurly
| PyRightParen
| PyRightBracket
| PyRightCurly
| PyComa
| PyColon
| PyDot
| PySemiColon
| PyAssign
| PyArrow
| PyPlusAssign
| PyMinusAssign
| PyMulAssign
| PyDivAssign
| PyFloorDivAssign
| PyModuloAssign
| PyMatriceAssign
| PyBitAndAssign
| PyBitOrAssign
| PyBitXorAssign
| PyShiftLeftAssign
| PyShiftRightAssign
| PyPowerAssign
| PyElipsis
| T_AtomName
| T_AtomNumber
| T_AtomString
| T_Newline
| T_Indent
| T_Dedent
| T_TypeComment
| T_EOF.

(** Numbering used to decide equality. *)
Definition kind_id (k : kind) : N :=
  match k with
  | PyFalse => 0
  | PyNone => 1
  | PyTrue => 2
  | PyAnd => 3
  | PyAs => 4
  | PyAssert => 5
  | PyAsync => 6
  | PyAwait => 7
  | PyBreak => 8
  | PyClass => 9
  | PyContinue => 10
  | PyDef => 11
  | PyDel => 12
  | PyElif => 13
  | PyElse => 14
  | PyExcept => 15
  | PyFinally => 16
  | PyFor => 17
  | PyFrom => 18
  | PyGlobal => 19
  | PyIf => 20
  | PyImport => 21
  | PyIn => 22
  | PyIs => 23
  | PyLambda => 24
  | PyNonLocal => 25
  | PyNot => 26
  | PyOr => 27
  | PyPass => 28
  | PyRaise => 29
  | PyReturn => 30
  | PyTry => 31
  | PyWhile => 32
  | PyWith => 33
  | PyYield => 34
  | PyPlus => 35
  | PyMinus => 36
  | PyMul => 37
  | PyPower => 38
  | PyDiv => 39
  | PyFloorDiv => 40
  | PyModulo => 41
  | PyMatrice => 42
  | PyShiftLeft => 43
  | PyShiftRight => 44
  | PyBitAnd => 45
  | PyBitOr => 46
  | PyBitXor => 47
  | PyBitInvert => 48
  | PyColonAssign => 49
  | PyLess => 50
  | PyGreater => 51
  | PyLessEqual => 52
  | PyGreaterEqual => 53
  | PyEqual => 54
  | PyNotEqual => 55
  | PyLeftParen => 56
  | PyLeftBracket => 57
  | PyLeftCurly => 58
  | PyRightParen => 59
  | PyRightBracket => 60
  | PyRightCurly => 61
  | PyComa => 62
  | PyColon => 63
  | PyDot => 64
  | PySemiColon => 65
  | PyAssign => 66
  | PyArrow => 67
  | PyPlusAssign => 68
  | PyMinusAssign => 69
  | PyMulAssign => 70
  | PyDivAssign => 71
  | PyFloorDivAssign => 72
  | PyModuloAssign => 73
  | PyMatriceAssign => 74
  | PyBitAndAssign => 75
  | PyBitOrAssign => 76
  | PyBitXorAssign => 77
  | PyShiftLeftAssign => 78
  | PyShiftRightAssign => 79
  | PyPowerAssign => 80
  | PyElipsis => 81
  | T_AtomName => 82
  | T_AtomNumber => 83
  | T_AtomString => 84
  | T_Newline => 85
  | T_Indent => 86
  | T_Dedent => 87
  | T_TypeComment => 88
  | T_EOF => 89
  end.

Definition kind_of_id (n : N) : kind :=
  match n with
  | 0 => PyFalse
  | 1 => PyNone
  | 2 => PyTrue
  | 3 => PyAnd
  | 4 => PyAs
  | 5 => PyAssert
  | 6 => PyAsync
  | 7 => PyAwait
  | 8 => PyBreak
  | 9 => PyClass
  | 10 => PyContinue
  | 11 => PyDef
  | 12 => PyDel
  | 13 => PyElif
  | 14 => PyElse
  | 15 => PyExcept
  | 16 => PyFinally
  | 17 => PyFor
  | 18 => PyFrom
  | 19 => PyGlobal
  | 20 => PyIf
  | 21 => PyImport
  | 22 => PyIn
  | 23 => PyIs
  | 24 => PyLambda
  | 25 => PyNonLocal
  | 26 => PyNot
  | 27 => PyOr
  | 28 => PyPass
  | 29 => PyRaise
  | 30 => PyReturn
  | 31 => PyTry
  | 32 => PyWhile
  | 33 => PyWith
  | 34 => PyYield
  | 35 => PyPlus
  | 36 => PyMinus
  | 37 => PyMul
  | 38 => PyPower
  | 39 => PyDiv
  | 40 => PyFloorDiv
  | 41 => PyModulo
  | 42 => PyMatrice
  | 43 => PyShiftLeft
  | 44 => PyShiftRight
  | 45 => PyBitAnd
  | 46 => PyBitOr
  | 47 => PyBitXor
  | 48 => PyBitInvert
  | 49 => PyColonAssign
  | 50 => PyLess
  | 51 => PyGreater
  | 52 => PyLessEqual
  | 53 => PyGreaterEqual
  | 54 => PyEqual
  | 55 => PyNotEqual
  | 56 => PyLeftParen
  | 57 => PyLeftBracket
  | 58 => PyLeftCurly
  | 59 => PyRightParen
  | 60 => PyRightBracket
  | 61 => PyRightCurly
  | 62 => PyComa
  | 63 => PyColon
  | 64 => PyDot
  | 65 => PySemiColon
  | 66 => PyAssign
  | 67 => PyArrow
  | 68 => PyPlusAssign
  | 69 => PyMinusAssign
  | 70 => PyMulAssign
  | 71 => PyDivAssign
  | 72 => PyFloorDivAssign
  | 73 => PyModuloAssign
  | 74 => PyMatriceAssign
  | 75 => PyBitAndAssign
  | 76 => PyBitOrAssign
  | 77 => PyBitXorAssign
  | 78 => PyShiftLeftAssign
  | 79 => PyShiftRightAssign
  | 80 => PyPowerAssign
  | 81 => PyElipsis
  | 82 => T_AtomName
  | 83 => T_AtomNumber
  | 84 => T_AtomString
  | 85 => T_Newline
  | 86 => T_Indent
  | 87 => T_Dedent
  | 88 => T_TypeComment
  | _ => T_EOF
  end.

Definition kind_eqb (a b : kind) : bool := kind_id a =? kind_id b.

(** Fields of the variants.  A plain variant is [Py*(u32, u32, trivia)]. *)
Inductive span :=
| NoSpan                 (* Indent, Dedent *)
| At (p : nat)           (* EOF *)
| Range (s e : nat).     (* everything else *)

Inductive payload :=
| NoPayload
| Text (t : str)                          (* AtomName, AtomNumber, TypeComment *)
| StringLit (t : str) (prefix : option str)   (* AtomString *)
| Break (c1 c2 : char).                   (* Newline *)

(** tokens.rs 5-96: one record for all variants (kind = variant name). *)
Record token := Tok
  { tk_kind : kind; tk_span : span; tk_trivia : option (list trivia); tk_payload : payload }.

Definition is (k : kind) (t : token) : bool := kind_eqb (tk_kind t) k.
Definition is_one_of (ks : list kind) (t : token) : bool := existsb (fun k => is k t) ks.

Definition text_of (t : token) : str :=
  match tk_payload t with
  | Text s => s
  | StringLit s _ => s
  | _ => []
  end.

Bind Scope string_scope with String.string.
(** [Err(String)]: messages built by [format!] are kept as template and arguments. *)
Inductive err :=
| EMsg (msg : String.string)                            (* plain string *)
| EAt (msg : String.string) (pos : nat)                 (* one position argument *)
| EAtChar (msg : String.string) (pos : nat) (c : char). (* position and character *)
