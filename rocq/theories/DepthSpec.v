(** The depth of the recursion (C65).  Not modelled code. *)
From Coq Require Import List Arith Bool.
From Verif Require Import Chars SourceBuffer Token Tokenizer LexSpec Node ParserState Parser.
Import ListNotations.
Local Open Scope nat_scope.

(** The parser with at most [d] calls below each other and loops of at most [n] rounds ([run] bounds both by one number).
    It ends in [Fuel] when a deeper call is made: when the stack has no room for more. *)
Fixpoint run_deep (U : unicode) (n d : nat) (f : fn) : M node :=
  match d with
  | O => fun _ => Fuel
  | S d' => body U n (run_deep U n d') f
  end.

(** ** Nesting, read off the kinds of the tokens alone *)
(** Brackets and indents. *)
Definition opening (k : kind) : bool := match k with PyLeftParen | PyLeftBracket | PyLeftCurly | T_Indent => true | _ => false end.
(** Signs before an operand, the only use of two of them next to each other. *)
Definition sign (k : kind) : bool := match k with PyPlus | PyMinus | PyBitInvert => true | _ => false end.
(** Operators and words whose last operand may be of the same form. *)
Definition nesting_word (k : kind) : bool := match k with PyPower | PyLambda | PyElse | PyIf | PyFor => true | _ => false end.
Definition negation (k : kind) : bool := match k with PyNot => true | _ => false end.
Definition deepens (last k : kind) : bool := nesting_word k || sign k && sign last || negation k && negation last.

(** Open blocks; nesting words of the innermost bracket (or line, outside brackets) and how many of its lambdas wait for
    their colon; the open brackets, each with these two numbers for what is before it; the last token. *)
Record place := { blocks : nat; words : nat; pending : nat; around : list (kind * (nat * nat)); last : kind }.
Fixpoint height_around (l : list (kind * (nat * nat))) : nat := match l with [] => 0 | (_, (c, _)) :: l => 1 + c + height_around l end.
Definition height (p : place) : nat := blocks p + words p + height_around (around p).
Definition start_place : place := {| blocks := 0; words := 0; pending := 0; around := []; last := T_Newline |}.

(** The place behind one more token. *)
Definition next_place (p : place) (k : kind) : place :=
  match k with
  | PyLeftParen | PyLeftBracket | PyLeftCurly =>
    {| blocks := blocks p; words := 0; pending := 0; around := (k, (words p, pending p)) :: around p; last := k |}
  | PyRightParen | PyRightBracket | PyRightCurly =>
    match around p with
    | (_, (c, l)) :: r => {| blocks := blocks p; words := c; pending := l; around := r; last := k |}
    | [] => {| blocks := blocks p; words := words p; pending := pending p; around := []; last := k |}
    end
  | T_Newline => {| blocks := blocks p; words := 0; pending := 0; around := around p; last := k |}
  | T_Indent => {| blocks := S (blocks p); words := words p; pending := pending p; around := around p; last := k |}
  | T_Dedent => {| blocks := pred (blocks p); words := words p; pending := pending p; around := around p; last := k |}
  | PyLambda => {| blocks := blocks p; words := S (words p); pending := S (pending p); around := around p; last := k |}
  | PyColon => {| blocks := blocks p; words := words p; pending := pred (pending p); around := around p; last := k |}
  | _ => {| blocks := blocks p; words := (if deepens (last p) k then S (words p) else words p); pending := pending p;
            around := around p; last := k |}
  end.
Definition place_after (ks : list kind) (p : place) : place := fold_left next_place ks p.

(** A colon directly within round or square brackets that is not the one of a lambda: a slice. *)
Definition slice_colon (p : place) (k : kind) : bool :=
  match k, pending p, around p with PyColon, 0, (PyLeftParen, _) :: _ | PyColon, 0, (PyLeftBracket, _) :: _ => true | _, _, _ => false end.
Fixpoint sliced (p : place) (ks : list kind) : bool :=
  match ks with [] => false | k :: ks => slice_colon p k || sliced (next_place p k) ks end.

(** No tokens of the text before its first lexical error reach beyond height [m]; there is no slice among them. *)
Definition nested_within (U : unicode) (text : str) (m : nat) : Prop :=
  forall ts l, history U text (map inl ts) l -> height (place_after (map tk_kind ts) start_place) <= m.
Definition without_slices (U : unicode) (text : str) : Prop :=
  forall ts l, history U text (map inl ts) l -> sliced start_place (map tk_kind ts) = false.
(** All brackets, indents and nesting words of a text. *)
Fixpoint amount (last : kind) (ks : list kind) : nat :=
  match ks with [] => 0 | k :: ks => (if opening k || deepens last k then 1 else 0) + amount k ks end.
Definition amounts_to (U : unicode) (text : str) (m : nat) : Prop :=
  forall ts l, history U text (map inl ts) l -> amount T_Newline (map tk_kind ts) <= m.
