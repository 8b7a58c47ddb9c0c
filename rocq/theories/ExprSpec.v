(** Expressions as Python defines them: abstract trees, their levels of precedence, the tokens that
    write them down and the reading of a syntax tree as such a tree (C35).  Not modelled code. *)
From Coq Require Import List Arith.
From Verif Require Import Chars SourceBuffer Token Tokenizer LexSpec TokenSpec RenderSpec Node.
Import ListNotations.
Local Open Scope nat_scope.

(** Names, numbers and constants are words; [Group] is a pair of parentheses around an expression.
    The last six are parts of others: elements of displays, entries of dictionaries, parameters, clauses
    of comprehensions.  A flag [comma] says whether a comma ends the list. *)
Inductive ast :=
| Word (k : kind) (p : payload)
| Strings (p : payload) (ps : list payload)
| Group (e : ast)
| Tuple (es : list ast)
| ListOf (es : list ast)
| Attribute (e : ast) (name : payload)
| Call (e : ast) (es : list ast)
| Index (e : ast) (es : list ast)
| Await (e : ast)
| Power (a b : ast)
| Unary (k : kind) (e : ast)
| Infix (k : kind) (a b : ast)
| NotIn (a b : ast)
| IsNot (a b : ast)
| Not (e : ast)
| If (a c b : ast)                     (* a if c else b *)
| Named (a b : ast)                    (* a := b *)
| SetOf (comma : bool) (es : list ast)
| DictOf (comma : bool) (es : list ast)
| Func (ps : list ast) (e : ast)       (* lambda ps: e *)
| Starred (e : ast)                    (* *e *)
| Spread (e : ast)                     (* **e *)
| Pair (a b : ast)                     (* a: b *)
| Default (n : payload) (e : ast)      (* n=e *)
| Comp (square : bool) (e : ast) (cs : list ast)   (* (e cs) or [e cs] *)
| Yielding (es : list ast)             (* (yield es) *)
| YieldingFrom (e : ast)               (* (yield from e) *)
| ForIn (async : bool) (ts : list ast) (comma : bool) (s : ast)   (* for ts in s *)
| When (c : ast).                      (* if c *)

(** What stands on its own, in a tuple or list, in a set, in a dictionary, before the colon of a lambda. *)
Definition stands (e : ast) : bool := match e with Starred _ | Spread _ | Pair _ _ | Default _ _ | ForIn _ _ _ _ | When _ => false | _ => true end.
Definition in_display (e : ast) : bool := match e with Starred _ => true | _ => stands e end.
Definition in_dictionary (e : ast) : bool := match e with Spread _ | Pair _ _ => true | _ => false end.
Definition in_lambda (e : ast) : bool := match e with Word T_AtomName _ | Default _ _ => true | _ => false end.

Definition in_comprehension (e : ast) : bool := match e with ForIn _ _ _ _ | When _ => true | _ => false end.
(** The first clause says what the comprehension runs over. *)
Definition runs_over (cs : list ast) : bool := match cs with ForIn _ _ _ _ :: _ => true | _ => false end.
(** The targets before 'in': the parser takes [a in b] for a comparison, so only a comma or a starred target can stand there. *)
Definition closed_targets (comma : bool) (ts : list ast) : bool := comma || match rev ts with Starred _ :: _ => true | _ => false end.

(** ** Precedence: the table of the Python language reference, loosest first *)
Definition infix_level (k : kind) : option nat :=
  match k with
  | PyOr => Some 2
  | PyAnd => Some 3
  | PyLess | PyGreater | PyEqual | PyGreaterEqual | PyLessEqual | PyNotEqual | PyIn | PyIs => Some 5
  | PyBitOr => Some 6
  | PyBitXor => Some 7
  | PyBitAnd => Some 8
  | PyShiftLeft | PyShiftRight => Some 9
  | PyPlus | PyMinus => Some 10
  | PyMul | PyMatrice | PyDiv | PyFloorDiv | PyModulo => Some 11
  | _ => None
  end.
Definition level (e : ast) : nat :=
  match e with
  | Named _ _ | Starred _ | Spread _ | Pair _ _ | Default _ _ | ForIn _ _ _ _ | When _ => 0
  | If _ _ _ | Func _ _ => 1
  | Infix k _ _ => match infix_level k with Some n => n | None => 0 end
  | Not _ => 4
  | NotIn _ _ | IsNot _ _ => 5
  | Unary _ _ => 12
  | Power _ _ => 13
  | Await _ => 14
  | Attribute _ _ | Call _ _ | Index _ _ => 15
  | Word _ _ | Strings _ _ | Group _ | Tuple _ | ListOf _ | SetOf _ _ | DictOf _ _ | Comp _ _ _ | Yielding _ | YieldingFrom _ => 16
  end.
Definition in_set (e : ast) : bool := match e with Starred _ => true | _ => 1 <=? level e end.

(** A condition of a comprehension: no conditional expression, and no lambda with one. *)
Definition no_cond (e : ast) : bool := match e with Func _ b => 2 <=? level b | _ => 2 <=? level e end.

(** Tokens that carry a text. *)
Definition carries (k : kind) : bool := match k with T_AtomName | T_AtomNumber | T_AtomString => true | _ => false end.
Definition is_word (k : kind) (p : payload) : Prop :=
  In k [T_AtomName; T_AtomNumber; PyElipsis; PyNone; PyTrue; PyFalse] /\ (carries k = false -> p = NoPayload).
Definition is_unary (k : kind) : Prop := In k [PyPlus; PyMinus; PyBitInvert].

(** Every operand binds tightly enough for its place: operators of one level group to the left, the
    power operator and conditional expressions to the right.  (A tuple of one element needs a trailing
    comma, which the parser rejects; it also rejects the empty dictionary, any of more than two entries, and
    one of two entries that ends in a comma.) *)
Fixpoint proper (e : ast) : Prop :=
  let all := fix all (k : nat) (es : list ast) : Prop :=
    match es with [] => True | d :: ds => (proper d /\ k <= level d) /\ all k ds end in
  match e with
  | Word k p => is_word k p
  | Strings _ _ => True
  | Group a => stands a = true /\ proper a
  | Tuple es => length es <> 1 /\ forallb in_display es = true /\ all 0 es
  | ListOf es => forallb in_display es = true /\ all 0 es
  | Attribute a _ => proper a /\ 15 <= level a
  | Call a es => (proper a /\ 15 <= level a) /\ all 1 es
  | Index a es => (proper a /\ 15 <= level a) /\ es <> [] /\ all 1 es
  | Await a => proper a /\ 15 <= level a
  | Power a b => (proper a /\ 14 <= level a) /\ (proper b /\ 12 <= level b)
  | Unary k a => is_unary k /\ proper a /\ 12 <= level a
  | Infix k a b =>
      match infix_level k with Some n => (proper a /\ n <= level a) /\ (proper b /\ S n <= level b) | None => False end
  | NotIn a b | IsNot a b => (proper a /\ 5 <= level a) /\ (proper b /\ 6 <= level b)
  | Not a => proper a /\ 4 <= level a
  | If a c b => (proper a /\ 2 <= level a) /\ (proper c /\ 2 <= level c) /\ (proper b /\ 1 <= level b)
  | Named a b => (proper a /\ 1 <= level a) /\ (proper b /\ 1 <= level b)
  | SetOf _ es => es <> [] /\ forallb in_set es = true /\ all 0 es
  | DictOf c es => 1 <= length es <= (if c then 1 else 2) /\ forallb in_dictionary es = true /\ all 0 es
  | Func ps b => forallb in_lambda ps = true /\ all 0 ps /\ (proper b /\ 1 <= level b)
  | Starred a | Spread a => proper a /\ 6 <= level a
  | Pair a b => (proper a /\ 1 <= level a) /\ (proper b /\ 1 <= level b)
  | Default _ a => proper a /\ 1 <= level a
  | Comp _ a cs => (stands a = true /\ proper a) /\ runs_over cs = true /\ forallb in_comprehension cs = true /\ all 0 cs
  | Yielding es => es <> [] /\ forallb in_set es = true /\ all 0 es
  | YieldingFrom a => proper a /\ 1 <= level a
  | ForIn _ ts c a => ts <> [] /\ forallb in_display ts = true /\ all 0 ts /\ closed_targets c ts = true /\ (proper a /\ 2 <= level a)
  | When a => proper a /\ no_cond a = true
  end.

(** ** The tokens that write an expression *)
Definition mark (k : kind) : kind * payload := (k, NoPayload).
Definition between {A} (sep : A) (ls : list (list A)) : list A :=
  match ls with [] => [] | l :: ls => l ++ flat_map (fun m => sep :: m) ls end.
Definition comma_if (c : bool) : list (kind * payload) := if c then [mark PyComa] else [].
Fixpoint flatten (e : ast) : list (kind * payload) :=
  match e with
  | Word k p => [(k, p)]
  | Strings p ps => map (pair T_AtomString) (p :: ps)
  | Group a => mark PyLeftParen :: flatten a ++ [mark PyRightParen]
  | Tuple es => mark PyLeftParen :: between (mark PyComa) (map flatten es) ++ [mark PyRightParen]
  | ListOf es => mark PyLeftBracket :: between (mark PyComa) (map flatten es) ++ [mark PyRightBracket]
  | Attribute a p => flatten a ++ [mark PyDot; (T_AtomName, p)]
  | Call a es => flatten a ++ mark PyLeftParen :: between (mark PyComa) (map flatten es) ++ [mark PyRightParen]
  | Index a es => flatten a ++ mark PyLeftBracket :: between (mark PyComa) (map flatten es) ++ [mark PyRightBracket]
  | Await a => mark PyAwait :: flatten a
  | Power a b => flatten a ++ mark PyPower :: flatten b
  | Unary k a => mark k :: flatten a
  | Infix k a b => flatten a ++ mark k :: flatten b
  | NotIn a b => flatten a ++ mark PyNot :: mark PyIn :: flatten b
  | IsNot a b => flatten a ++ mark PyIs :: mark PyNot :: flatten b
  | Not a => mark PyNot :: flatten a
  | If a c b => flatten a ++ mark PyIf :: flatten c ++ mark PyElse :: flatten b
  | Named a b => flatten a ++ mark PyColonAssign :: flatten b
  | SetOf c es | DictOf c es => mark PyLeftCurly :: (between (mark PyComa) (map flatten es) ++ comma_if c) ++ [mark PyRightCurly]
  | Func ps b => mark PyLambda :: between (mark PyComa) (map flatten ps) ++ mark PyColon :: flatten b
  | Starred a => mark PyMul :: flatten a
  | Spread a => mark PyPower :: flatten a
  | Pair a b => flatten a ++ mark PyColon :: flatten b
  | Default n a => (T_AtomName, n) :: mark PyAssign :: flatten a
  | Comp q a cs =>
      mark (if q then PyLeftBracket else PyLeftParen) :: (flatten a ++ flat_map flatten cs) ++ [mark (if q then PyRightBracket else PyRightParen)]
  | Yielding es => mark PyLeftParen :: (mark PyYield :: between (mark PyComa) (map flatten es)) ++ [mark PyRightParen]
  | YieldingFrom a => mark PyLeftParen :: (mark PyYield :: mark PyFrom :: flatten a) ++ [mark PyRightParen]
  | ForIn w ts c a =>
      (if w then [mark PyAsync] else []) ++ mark PyFor :: (between (mark PyComa) (map flatten ts) ++ comma_if c) ++ mark PyIn :: flatten a
  | When a => mark PyIf :: flatten a
  end.
(** What of a token matters: its kind, and its text if it has one. *)
Definition face (t : token) : kind * payload := (tk_kind t, if carries (tk_kind t) then tk_payload t else NoPayload).

(** ** Parentheses where they are needed *)
Definition wrap (k : nat) (e : ast) : ast := if k <=? level e then e else Group e.
Definition wrap_in_set (e : ast) : ast := if in_set e then e else Group e.
Definition wrap_cond (e : ast) : ast := if no_cond e then e else Group e.
Fixpoint canon (e : ast) : ast :=
  match e with
  | Word _ _ | Strings _ _ => e
  | Group a => Group (canon a)
  | Tuple es => Tuple (map canon es)
  | ListOf es => ListOf (map canon es)
  | Attribute a p => Attribute (wrap 15 (canon a)) p
  | Call a es => Call (wrap 15 (canon a)) (map (fun d => wrap 1 (canon d)) es)
  | Index a es => Index (wrap 15 (canon a)) (map (fun d => wrap 1 (canon d)) es)
  | Await a => Await (wrap 15 (canon a))
  | Power a b => Power (wrap 14 (canon a)) (wrap 12 (canon b))
  | Unary k a => Unary k (wrap 12 (canon a))
  | Infix k a b => Infix k (wrap (level e) (canon a)) (wrap (S (level e)) (canon b))
  | NotIn a b => NotIn (wrap 5 (canon a)) (wrap 6 (canon b))
  | IsNot a b => IsNot (wrap 5 (canon a)) (wrap 6 (canon b))
  | Not a => Not (wrap 4 (canon a))
  | If a c b => If (wrap 2 (canon a)) (wrap 2 (canon c)) (wrap 1 (canon b))
  | Named a b => Named (wrap 1 (canon a)) (wrap 1 (canon b))
  | SetOf c es => SetOf c (map (fun d => wrap_in_set (canon d)) es)
  | DictOf c es => DictOf c (map canon es)
  | Func ps b => Func (map canon ps) (wrap 1 (canon b))
  | Starred a => Starred (wrap 6 (canon a))
  | Spread a => Spread (wrap 6 (canon a))
  | Pair a b => Pair (wrap 1 (canon a)) (wrap 1 (canon b))
  | Default n a => Default n (wrap 1 (canon a))
  | Comp q a cs => Comp q (canon a) (map canon cs)
  | Yielding es => Yielding (map (fun d => wrap_in_set (canon d)) es)
  | YieldingFrom a => YieldingFrom (wrap 1 (canon a))
  | ForIn w ts c a => ForIn w (map canon ts) c (wrap 2 (canon a))
  | When a => When (wrap_cond (canon a))
  end.
(** The tree without parentheses. *)
Fixpoint bare (e : ast) : ast :=
  match e with
  | Word _ _ | Strings _ _ => e
  | Group a => bare a
  | Tuple es => Tuple (map bare es)
  | ListOf es => ListOf (map bare es)
  | Attribute a p => Attribute (bare a) p
  | Call a es => Call (bare a) (map bare es)
  | Index a es => Index (bare a) (map bare es)
  | Await a => Await (bare a)
  | Power a b => Power (bare a) (bare b)
  | Unary k a => Unary k (bare a)
  | Infix k a b => Infix k (bare a) (bare b)
  | NotIn a b => NotIn (bare a) (bare b)
  | IsNot a b => IsNot (bare a) (bare b)
  | Not a => Not (bare a)
  | If a c b => If (bare a) (bare c) (bare b)
  | Named a b => Named (bare a) (bare b)
  | SetOf c es => SetOf c (map bare es)
  | DictOf c es => DictOf c (map bare es)
  | Func ps b => Func (map bare ps) (bare b)
  | Starred a => Starred (bare a)
  | Spread a => Spread (bare a)
  | Pair a b => Pair (bare a) (bare b)
  | Default n a => Default n (bare a)
  | Comp q a cs => Comp q (bare a) (map bare cs)
  | Yielding es => Yielding (map bare es)
  | YieldingFrom a => YieldingFrom (bare a)
  | ForIn w ts c a => ForIn w (map bare ts) c (bare a)
  | When a => When (bare a)
  end.
(** Any tree over these words and operators, whatever its operands, every part in its place. *)
Fixpoint made (e : ast) : Prop :=
  let all := fix all (es : list ast) : Prop := match es with [] => True | d :: ds => made d /\ all ds end in
  let operand (a : ast) : Prop := stands a = true /\ made a in
  match e with
  | Word k p => is_word k p
  | Strings _ _ => True
  | Group a | Attribute a _ | Await a | Not a | Starred a | Spread a | Default _ a | YieldingFrom a | When a => operand a
  | Tuple es => length es <> 1 /\ forallb in_display es = true /\ all es
  | ListOf es => forallb in_display es = true /\ all es
  | SetOf _ es | Yielding es => es <> [] /\ forallb in_display es = true /\ all es
  | DictOf c es => 1 <= length es <= (if c then 1 else 2) /\ forallb in_dictionary es = true /\ all es
  | Call a es => operand a /\ forallb stands es = true /\ all es
  | Index a es => operand a /\ es <> [] /\ forallb stands es = true /\ all es
  | Unary k a => is_unary k /\ operand a
  | Infix k a b => infix_level k <> None /\ operand a /\ operand b
  | Power a b | NotIn a b | IsNot a b | Named a b | Pair a b => operand a /\ operand b
  | If a c b => operand a /\ operand c /\ operand b
  | Func ps b => forallb in_lambda ps = true /\ all ps /\ operand b
  | Comp _ a cs => operand a /\ runs_over cs = true /\ forallb in_comprehension cs = true /\ all cs
  | ForIn _ ts c a => ts <> [] /\ forallb in_display ts = true /\ all ts /\ closed_targets c ts = true /\ operand a
  end.
Definition valid (e : ast) : Prop := stands e = true /\ made e.

(** ** Reading a syntax tree *)
Definition opts {A B} (f : A -> option B) : list A -> option (list B) :=
  fix go (xs : list A) : option (list B) :=
    match xs with
    | [] => Some []
    | x :: xs => match f x, go xs with Some y, Some ys => Some (y :: ys) | _, _ => None end
    end.
Definition foldo {A B} (f : B -> A -> option B) : B -> list A -> option B :=
  fix go (b : B) (xs : list A) : option B :=
    match xs with
    | [] => Some b
    | x :: xs => match f b x with Some c => go c xs | None => None end
    end.
(** Elements and separators as stored, last first, one separator between any two. *)
Definition elements {A B} (f : A -> option B) (xs : list A) (ts : list token) : option (list B) :=
  if S (length ts) =? length xs then option_map (@rev B) (opts f xs) else None.
(** The same where the list may end in a separator, in the order stored. *)
Definition trailing {A B} (f : A -> option B) (xs : list A) (ts : list token) : option (bool * list B) :=
  if S (length ts) =? length xs then option_map (pair false) (opts f xs)
  else if length ts =? length xs then option_map (pair true) (opts f xs) else None.
Definition both (f : ast -> ast -> ast) (a b : option ast) : option ast :=
  match a, b with Some x, Some y => Some (f x y) | _, _ => None end.

(** Comprehensions, where [r] reads expressions: an element, the targets, the clauses, the whole. *)
Definition displayed (r : node -> option ast) (s : node) : option ast :=
  match r s with Some e => Some e | None => match s with StarExpr _ _ _ y => option_map Starred (r y) | _ => None end end.
Definition targets (r : node -> option ast) (s : node) : option (bool * list ast) :=
  match s with
  | ExprList _ _ xs ts => trailing (displayed r) xs ts
  | _ => option_map (fun e => (false, [e])) (displayed r s)
  end.
Definition clauses (r : node -> option ast) : node -> option (list ast) :=
  fix go (y : node) : option (list ast) :=
    let rest (o : option node) := match o with None => Some [] | Some z => go z end in
    let runs (w : bool) (a s : node) (o : option node) :=
      match targets r a, r s, rest o with Some (c, ts), Some d, Some cs => Some (ForIn w ts c d :: cs) | _, _, _ => None end in
    match y with
    | CompForComprehension _ _ _ (SyncCompForComprehension _ _ _ a _ s o) => runs true a s o
    | SyncCompForComprehension _ _ _ a _ s o => runs false a s o
    | CompIfComprehension _ _ _ c o => match r c, rest o with Some d, Some cs => Some (When d :: cs) | _, _ => None end
    | _ => None
    end.
Definition comprehension (r : node -> option ast) (q : bool) (xs : list node) (ts : list token) : option ast :=
  match xs, ts with
  | [y; x], [] => match r x, clauses r y with Some e, Some cs => Some (Comp q e cs) | _, _ => None end
  | _, _ => None
  end.

Fixpoint tree_of (x : node) : option ast :=
  let word (k : kind) (t : token) := if is k t then Some (Word k (snd (face t))) else None in
  let unary (k : kind) (t : token) (a : node) := if is k t then option_map (Unary k) (tree_of a) else None in
  let operator (k : kind) (a : node) (t : token) (b : node) :=
    if is k t then both (Infix k) (tree_of a) (tree_of b) else None in
  let argument (s : node) := match s with Subscript _ _ (Some y) None None None None => tree_of y | _ => None end in
  let display := displayed tree_of in
  let member (s : node) := match tree_of s with Some e => Some e | None => match s with MulSet _ _ _ y => option_map Starred (tree_of y) | _ => None end end in
  let entry (s : node) :=
    match s with
    | DictionaryEntry _ _ a _ b => both Pair (tree_of a) (tree_of b)
    | PowerDictionary _ _ _ y => option_map Spread (tree_of y)
    | _ => None
    end in
  let parameter (s : node) :=
    match s with
    | VFPDef _ _ t => Some (Word T_AtomName (tk_payload t))
    | VFPAssign _ _ (VFPDef _ _ t) _ y => option_map (Default (tk_payload t)) (tree_of y)
    | _ => None
    end in
  let arguments (l : node) := match l with SubscriptList _ _ xs ts => elements argument xs ts | _ => None end in
  let trailer (e : ast) (y : node) :=
    match y with
    | DotNameTrailer _ _ _ t => Some (Attribute e (tk_payload t))
    | CallTrailer _ _ _ None _ => Some (Call e [])
    | CallTrailer _ _ _ (Some l) _ => option_map (Call e) (arguments l)
    | IndexTrailer _ _ _ l _ => option_map (Index e) (arguments l)
    | _ => None
    end in
  match x with
  | AtomName _ _ t => word T_AtomName t
  | AtomNumber _ _ t => word T_AtomNumber t
  | AtomElipsis _ _ t => word PyElipsis t
  | AtomNone _ _ t => word PyNone t
  | AtomTrue _ _ t => word PyTrue t
  | AtomFalse _ _ t => word PyFalse t
  | AtomString _ _ (t :: ts) => Some (Strings (tk_payload t) (map tk_payload ts))
  | AtomTuple _ _ _ None _ => Some (Tuple [])
  | AtomTuple _ _ _ (Some (TestListComp _ _ xs ts)) _ =>
      match elements display xs ts with
      | Some [Starred _] => None
      | Some [e] => Some (Group e)
      | Some es => Some (Tuple es)
      | None => comprehension tree_of false xs ts
      end
  | AtomTuple _ _ _ (Some (YieldExpr _ _ _ (TestListStarExpr _ _ xs ts))) _ => option_map Yielding (elements display xs ts)
  | AtomTuple _ _ _ (Some (YieldExpr _ _ _ y)) _ => option_map (fun e => Yielding [e]) (display y)
  | AtomTuple _ _ _ (Some (YieldFromExpr _ _ _ _ y)) _ => option_map YieldingFrom (tree_of y)
  | AtomList _ _ _ None _ => Some (ListOf [])
  | AtomList _ _ _ (Some (TestListComp _ _ xs ts)) _ =>
      match elements display xs ts with Some es => Some (ListOf es) | None => comprehension tree_of true xs ts end
  | AtomSet _ _ _ (Some (SetContainer _ _ xs ts)) _ => option_map (fun r => SetOf (fst r) (rev (snd r))) (trailing member xs ts)
  | AtomDictionary _ _ _ (Some (DictionaryContainer _ _ xs ts)) _ => option_map (fun r => DictOf (fst r) (rev (snd r))) (trailing entry xs ts)
  | Lambda _ _ _ None _ b => option_map (Func []) (tree_of b)
  | Lambda _ _ _ (Some (VarArgsList _ _ xs ts None None None None None)) _ b =>
      match elements parameter xs ts with Some ps => option_map (Func ps) (tree_of b) | None => None end
  | AtomExpr _ _ w a xs =>
      match tree_of a with
      | Some e => option_map (fun d => match w with Some _ => Await d | None => d end) (foldo trailer e xs)
      | None => None
      end
  | PowerExpr _ _ a _ b => both Power (tree_of a) (tree_of b)
  | UnaryPlus _ _ t a => unary PyPlus t a
  | UnaryMinus _ _ t a => unary PyMinus t a
  | UnaryInvert _ _ t a => unary PyBitInvert t a
  | MulTerm _ _ a t b => operator PyMul a t b
  | DivTerm _ _ a t b => operator PyDiv a t b
  | FloorDivTerm _ _ a t b => operator PyFloorDiv a t b
  | ModuloTerm _ _ a t b => operator PyModulo a t b
  | MatriceTerm _ _ a t b => operator PyMatrice a t b
  | PlusArithExpr _ _ a t b => operator PyPlus a t b
  | MinusArithExpr _ _ a t b => operator PyMinus a t b
  | ShiftLeftExpr _ _ a t b => operator PyShiftLeft a t b
  | ShiftRightExpr _ _ a t b => operator PyShiftRight a t b
  | AndExpr _ _ a t b => operator PyBitAnd a t b
  | XorExpr _ _ a t b => operator PyBitXor a t b
  | Expr _ _ a t b => operator PyBitOr a t b
  | LessComparison _ _ a t b => operator PyLess a t b
  | LessEqualComparison _ _ a t b => operator PyLessEqual a t b
  | EqualComparison _ _ a t b => operator PyEqual a t b
  | GreaterComparison _ _ a t b => operator PyGreater a t b
  | GreaterEqualComparison _ _ a t b => operator PyGreaterEqual a t b
  | NotEqualComparison _ _ a t b => operator PyNotEqual a t b
  | InComparison _ _ a t b => operator PyIn a t b
  | IsComparison _ _ a t b => operator PyIs a t b
  | AndTest _ _ a t b => operator PyAnd a t b
  | OrTest _ _ a t b => operator PyOr a t b
  | NotInComparison _ _ a _ _ b => both NotIn (tree_of a) (tree_of b)
  | IsNotComparison _ _ a _ _ b => both IsNot (tree_of a) (tree_of b)
  | NotTest _ _ _ a => option_map Not (tree_of a)
  | Test _ _ a _ c _ b => match tree_of c with Some d => both (fun x y => If x d y) (tree_of a) (tree_of b) | None => None end
  | NamedExpr _ _ a _ b => both Named (tree_of a) (tree_of b)
  | _ => None
  end.

(** ** A text for every expression: its tokens with a blank between them *)
Definition spelling (k : kind) : str :=
  match find (fun x => kind_eqb (snd x) k) (operator_table ++ map (fun x => ([fst x], snd x)) brackets ++ reserved) with
  | Some x => fst x
  | None => []
  end.
Definition token_text (x : kind * payload) : str :=
  match snd x with
  | Text w => w
  | StringLit t None => t
  | StringLit t (Some p) => p ++ t
  | _ => spelling (fst x)
  end.
Definition expression_text (e : ast) : str := between SP (map token_text (flatten e)) ++ [LF].
(** The names, numbers and strings of the expression are such as can be written. *)
Definition writable (U : unicode) (e : ast) : Prop :=
  Forall (fun x => carries (fst x) = true -> plain U (token_text x) (fst x) (snd x)) (flatten e).
