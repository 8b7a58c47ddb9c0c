(** Vocabulary of the property about what error messages say (C61).  Not modelled code.

    The claim a message makes about the look-ahead is read off its own text: "Expecting 'w' …" says
    that the look-ahead is not the token spelled w, "Expecting symbol …" that no token could be read. *)
From Coq Require Import List String Ascii NArith.
From Verif Require Import Chars Token Tokenizer Node ParserState TokenSpec GrammarSpec ParseBasics ParseSpec.
Import ListNotations.
Local Open Scope string_scope.

(** ** What a message says *)
Inductive claim :=
| Unreadable                (** the tokenizer could not read a token here *)
| Wants (ks : list kind)    (** the look-ahead is none of these *)
| Sees (ks : list kind)     (** the look-ahead is one of these *)
| Nothing.

(** Pieces of a text between the apostrophes in it. *)
Fixpoint pieces (cur : string) (s : string) : list string :=
  match s with
  | EmptyString => [cur]
  | String "'" r => cur :: pieces EmptyString r
  | String a r => pieces (cur ++ String a EmptyString) r
  end.
(** The words quoted at the head of a text: 'a', 'b' or 'c'. *)
Fixpoint quoted (l : list string) : list string :=
  match l with
  | sep :: w :: rest => if existsb (String.eqb sep) [""; ", "; " or "; " pr "] then w :: quoted rest else []
  | _ => []
  end.

Definition spelled (w : string) : list kind :=
  map snd (filter (fun x => str_eqb (fst x) ($w))
    (operator_table ++ map (fun x => ([fst x], snd x)) brackets ++ reserved)).

(** Other ways the messages name tokens. *)
Definition phrases : list (string * list kind) :=
  [ ("name literal ", [T_AtomName]); ("literal name ", [T_AtomName]); ("a valid name ", [T_AtomName]);
    ("Newline ", [T_Newline]); ("indentation ", [T_Indent]); ("dedent ", [T_Dedent]);
    ("end of block ", [T_Dedent]); ("end of file ", [T_EOF]); ("send of file ", [T_EOF]);
    ("end marker in dictionary", [PyRightCurly]);
    ("a valid trailer ", [PyLeftParen; PyLeftBracket; PyDot]);
    ("flow statement", [PyBreak; PyContinue; PyReturn; PyRaise; PyYield]);
    ("compound statement", [PyIf; PyWhile; PyFor; PyTry; PyWith; PyDef; PyClass; PyMatrice; PyAsync]) ].

Fixpoint drop (n : nat) (s : string) : string :=
  match n, s with S n', String _ r => drop n' r | _, _ => s end.
Definition after (p s : string) : option string :=
  if String.prefix p s then Some (drop (String.length p) s) else None.
(** The message without its heading. *)
Definition tail_of (m : string) : string :=
  match after "SyntaxError at {}: " m with
  | Some r => r
  | None => match after "Syntax Error at {} - " m with Some r => r | None => "" end
  end.

Definition says (m : string) : claim :=
  match after "Expecting " (tail_of m) with
  | Some r =>
      if String.prefix "symbol " r then Unreadable
      else if String.prefix "Symbol " r then Unreadable
      else match flat_map spelled (quoted (pieces "" r)) with
           | [] => match find (fun x => String.prefix (fst x) r) phrases with Some x => Wants (snd x) | None => Nothing end
           | ks => Wants ks
           end
  | None => if String.prefix "Missing elements between two ','" (tail_of m) then Sees [PyComa] else Nothing
  end.

(** What a claim says of the look-ahead, [None] standing for one the tokenizer could not read. *)
Definition holds (c : claim) (look_ahead : option token) : Prop :=
  match c with
  | Unreadable => look_ahead = None
  | Wants ks => forall t, look_ahead = Some t -> ~ In (tk_kind t) ks
  | Sees ks => exists t, look_ahead = Some t /\ In (tk_kind t) ks
  | Nothing => True
  end.

(** ** Messages that do not say what is the case, and what can be said of the look-ahead instead *)
Definition departures : list (string * claim) :=
  [ (* also for a token that cannot begin an atom *)
    ("SyntaxError at {}: Expecting symbol in atom expression!",
     Wants [PyElipsis; PyFalse; PyNone; PyTrue; T_AtomName; T_AtomNumber; T_AtomString; PyLeftParen; PyLeftBracket; PyLeftCurly]);
    (* the message of an empty pair of braces, given after reading the closing one *)
    ("SyntaxError at {}: Expecting dictionary/set in atom expression!", Nothing);
    (* also for a token other than 'yield' *)
    ("Syntax Error at {} - Expecting symbol in comprehension 'yield' expression!", Wants [PyYield]);
    (* also for a token other than 'if' *)
    ("SyntaxError at {}: Expecting symbol in 'if' statement!", Wants [PyIf]);
    (* also for a token other than 'import' *)
    ("SyntaxError at {}: Expecting symbol in 'from' statement!", Wants [PyImport]);
    (* also for a missing end of line after a decorator *)
    ("SyntaxError at {}: Expecting end of file in function input!", Nothing);
    (* also for a missing ')' or '->' *)
    ("SyntaxError at {}: Expecting '(' in functional type!", Nothing);
    (* 'except*' after 'except', and the other way round *)
    ("SyntaxError at {}: Expecting 'except*' except statement!", Nothing);
    ("SyntaxError at {}: Expecting 'except' except statement!", Nothing) ].

Definition meaning (m : string) : claim :=
  match find (fun x => String.eqb (fst x) m) departures with Some x => snd x | None => says m end.

(** ** Where a message is placed *)
Inductive place :=
| Look                      (** at the look-ahead *)
| Opening (ks : list kind)  (** at a token of one of these kinds, already read: the one that begins the construct *)
| LookOr (ks : list kind)   (** either *)
| Anywhere.                 (** at the look-ahead or a token already read *)

Definition placed (pl : place) (at_ look_ahead : look) : Prop :=
  let opening ks := exists t, snd at_ = Some t /\ In (tk_kind t) ks in
  match pl with
  | Look => at_ = look_ahead
  | Opening ks => opening ks
  | LookOr ks => at_ = look_ahead \/ opening ks
  | Anywhere => True
  end.

(** All the messages there are. *)
Definition messages : list (string * place) :=
  [
    ("SyntaxError at {}: Expecting symbol in atom expression!", LookOr [PyLeftParen; PyLeftBracket; PyLeftCurly]);
    ("SyntaxError at {}: Expecting ')' in tuple atom expression!", Opening [PyLeftParen]);
    ("SyntaxError at {}: Expecting ']' in list atom expression!", Opening [PyLeftBracket]);
    ("SyntaxError at {}: Expecting dictionary/set in atom expression!", Opening [PyLeftCurly]);
    ("SyntaxError at {}: Expecting end marker in dictionary/set atom expression!", Opening [PyLeftCurly]);
    ("SyntaxError at {}: Expecting symbol in atom_expr expression!", Look);
    ("SyntaxError at {}: Expecting symbol in power expression!", Anywhere);
    ("SyntaxError at {}: Expecting symbol in factor expression!", Look);
    ("SyntaxError at {}: Expecting symbol in term expression!", Anywhere);
    ("SyntaxError at {}: Expecting symbol in arith expression!", Anywhere);
    ("SyntaxError at {}: Expecting symbol in shift expression!", Anywhere);
    ("SyntaxError at {}: Expecting symbol in and expression!", Anywhere);
    ("SyntaxError at {}: Expecting symbol in xor expression!", Anywhere);
    ("SyntaxError at {}: Expecting symbol in or expression!", Anywhere);
    ("SyntaxError at {}: Expecting symbol in star expression!", Look);
    ("SyntaxError at {}: Expecting '*' in star expression!", Look);
    ("SyntaxError at {}: Expecting symbol in comparison expression!", Anywhere);
    ("SyntaxError at {}: Expecting 'is' pr 'is not' in comparison expression!", Anywhere);
    ("SyntaxError at {}: Expecting 'in' pr 'not in' in comparison expression!", Anywhere);
    ("SyntaxError at {}: Expecting symbol in not test expression!", Look);
    ("SyntaxError at {}: Expecting symbol in and test expression!", Anywhere);
    ("SyntaxError at {}: Expecting symbol in 'lambda' expression!", Look);
    ("SyntaxError at {}: Expecting ':' in 'lambda' expression!", Look);
    ("SyntaxError at {}: Expecting symbol in non conditional test expression!", Look);
    ("SyntaxError at {}: Expecting symbol in test expression!", Look);
    ("SyntaxError at {}: Expecting 'else' in test expression!", Look);
    ("SyntaxError at {}: Expecting symbol in named expression!", Look);
    ("SyntaxError at {}: Expecting symbol in list expression!", Look);
    ("Syntax Error at {} - Expecting symbol in trailer expression!", Look);
    ("Syntax Error at {} - Expecting ')' in trailer expression!", Look);
    ("Syntax Error at {} - Expecting ']' in trailer expression!", Look);
    ("Syntax Error at {} - Expecting a valid name after '.' in trailer expression!", Look);
    ("Syntax Error at {} - Expecting a valid trailer expression!", Look);
    ("Syntax Error at {} - Expecting symbol in subscript list expression!", Look);
    ("Syntax Error at {} - Expecting symbol in subscript expression!", Look);
    ("SyntaxError at {}: Missing elements between two ',' in list expression!", Look);
    ("Syntax Error at {} - Expecting symbol in dictionary/set expression!", Look);
    ("Syntax Error at {} - Expecting symbol in argument list expression!", Look);
    ("SyntaxError at {}: Expecting symbol in argument list expression!", Look);
    ("SyntaxError at {}: Missing elements between two ',' in set list expression!", Look);
    ("SyntaxError at {}: Expecting ':' in dictionary entry expression!", Look);
    ("SyntaxError at {}: Missing elements between two ',' in argument list expression!", Look);
    ("Syntax Error at {} - Expecting symbol in argument expression!", Look);
    ("Syntax Error at {} - Expecting symbol in compiter expression!", Look);
    ("Syntax Error at {} - Expecting 'if', 'for' or 'async' in compiter expression!", Look);
    ("Syntax Error at {} - Expecting symbol in comprehension 'for' expression!", Look);
    ("Syntax Error at {} - Expecting 'for' in comprehension 'for' expression!", Look);
    ("Syntax Error at {} - Expecting 'in' in comprehension 'for' expression!", Look);
    ("Syntax Error at {} - Expecting symbol in comprehension 'async' expression!", Look);
    ("Syntax Error at {} - Expecting symbol in comprehension 'if' expression!", Look);
    ("Syntax Error at {} - Expecting 'if' in comprehension 'if' expression!", Look);
    ("Syntax Error at {} - Expecting symbol in comprehension 'yield' expression!", Look);
    ("Syntax Error at {} - Expecting symbol in variable arguments list expression!", Look);
    ("Syntax Error at {} - Expecting symbol in varargs assignment expression!", Look);
    ("Syntax Error at {} - Expecting symbol in vfpdef expression!", Look);
    ("Syntax Error at {} - Expecting name literal in vfpdef expression!", Look);
    ("SyntaxError at {}: Expecting symbol in statement", Look);
    ("SyntaxError at {}: Expecting symbol in statement list!", Anywhere);
    ("SyntaxError at {}: Expecting Newline at end of statement list!", Anywhere);
    ("SyntaxError at {}: Expecting symbol in simple statement!", Look);
    ("SyntaxError at {}: Expecting symbol in expression statement!", Anywhere);
    ("SyntaxError at {}: Expecting symbol in annotation assignment statement!", Anywhere);
    ("SyntaxError at {}: Expecting ':' in annotation assignment statement!", Anywhere);
    ("SyntaxError at {}: Expecting symbol in 'del' statement!", Look);
    ("SyntaxError at {}: Expecting 'del' in del statement!", Look);
    ("SyntaxError at {}: Expecting symbol in 'pass' statement!", Look);
    ("SyntaxError at {}: Expecting 'pass' in pass statement!", Look);
    ("SyntaxError at {}: Expecting symbol in flow statement!", Look);
    ("SyntaxError at {}: Expecting flow statement!", Look);
    ("SyntaxError at {}: Expecting symbol in 'break' statement!", Look);
    ("SyntaxError at {}: Expecting 'break' in break statement!", Look);
    ("SyntaxError at {}: Expecting symbol in 'continue' statement!", Look);
    ("SyntaxError at {}: Expecting 'continue' in pass statement!", Look);
    ("SyntaxError at {}: Expecting symbol in 'return' statement!", LookOr [PyReturn]);
    ("SyntaxError at {}: Expecting 'return' in 'return' statement!", Look);
    ("SyntaxError at {}: Expecting Symbol in 'raise' statement!", LookOr [PyRaise]);
    ("SyntaxError at {}: Expecting 'raise' in 'raise' statement!", Look);
    ("SyntaxError at {}: Expecting symbol in 'import' or 'from' statement!", Look);
    ("SyntaxError at {}: Expecting 'import' or 'from' in statement!", Look);
    ("SyntaxError at {}: Expecting symbol in 'import' statement!", Look);
    ("SyntaxError at {}: Expecting 'import' in import statement!", Look);
    ("SyntaxError at {}: Expecting symbol in 'from' statement!", LookOr [PyFrom]);
    ("SyntaxError at {}: Expecting 'from' in import statement!", Look);
    ("SyntaxError at {}: Expecting '.' in from part of import statement!", Opening [PyFrom]);
    ("SyntaxError at {}: Expecting 'import' in from import statement!", Opening [PyFrom]);
    ("SyntaxError at {}: Expecting ')' in from import statement!", Opening [PyFrom]);
    ("SyntaxError at {}: Expecting symbol in import as name statement!", LookOr [T_AtomName]);
    ("SyntaxError at {}: Expecting name literal in import as name statement!", LookOr [T_AtomName]);
    ("SyntaxError at {}: Expecting symbol in dotted as name statement!", Anywhere);
    ("SyntaxError at {}: Expecting name literal in dotted as name statement!", Anywhere);
    ("SyntaxError at {}: Expecting symbol in import as names statement!", Anywhere);
    ("SyntaxError at {}: Expecting symbol in dotted name statement!", LookOr [T_AtomName]);
    ("SyntaxError at {}: Expecting literal name in import statement!", LookOr [T_AtomName]);
    ("SyntaxError at {}: Expecting symbol in 'global' statement!", LookOr [PyGlobal]);
    ("SyntaxError at {}: Expecting 'global' in global statement!", LookOr [PyGlobal]);
    ("SyntaxError at {}: Expecting name literal in global statement!", Opening [PyGlobal]);
    ("SyntaxError at {}: Expecting symbol in 'nonlocal' statement!", LookOr [PyNonLocal]);
    ("SyntaxError at {}: Expecting 'nonlocal' in global statement!", Opening [PyNonLocal]);
    ("SyntaxError at {}: Expecting name literal in nonlocal statement!", Opening [PyNonLocal]);
    ("SyntaxError at {}: Expecting 'nonlocal' in nonlocal statement!", Look);
    ("SyntaxError at {}: Expecting symbol in 'assert' statement!", LookOr [PyAssert]);
    ("SyntaxError at {}: Expecting 'assert' in assert statement!", Look);
    ("SyntaxError at {}: Expecting symbol in compound statement!", Look);
    ("SyntaxError at {}: Expecting compound statement!", Look);
    ("SyntaxError at {}: Expecting symbol in async statement!", LookOr [PyAsync]);
    ("SyntaxError at {}: Expecting 'async' in async statement!", Look);
    ("SyntaxError at {}: Expecting 'def', 'with' or 'for' in 'async' statement!", Opening [PyAsync]);
    ("SyntaxError at {}: Expecting symbol in if statement!", LookOr [PyIf]);
    ("SyntaxError at {}: Expecting symbol in 'if' statement!", Look);
    ("SyntaxError at {}: Expecting ':' in if statement!", Opening [PyIf]);
    ("SyntaxError at {}: Expecting symbol in elif statement!", LookOr [PyElif; PyElse]);
    ("SyntaxError at {}: Expecting 'elif' in elif statement!", Look);
    ("SyntaxError at {}: Expecting ':' in elif statement!", Opening [PyElif]);
    ("SyntaxError at {}: Expecting symbol in else statement!", Look);
    ("SyntaxError at {}: Expecting 'else' in elif statement!", Look);
    ("SyntaxError at {}: Expecting ':' in else statement!", Opening [PyElse]);
    ("SyntaxError at {}: Expecting symbol in while statement!", LookOr [PyWhile]);
    ("SyntaxError at {}: Expecting 'while' in while statement!", Look);
    ("SyntaxError at {}: Expecting ':' in while statement!", Opening [PyWhile]);
    ("SyntaxError at {}: Expecting symbol in for statement!", LookOr [PyFor]);
    ("SyntaxError at {}: Expecting 'for' in for statement!", Look);
    ("SyntaxError at {}: Expecting 'in' in for statement!", Opening [PyFor]);
    ("SyntaxError at {}: Expecting ':' in for statement!", Opening [PyFor]);
    ("SyntaxError at {}: Expecting symbol in try statement!", LookOr [PyTry]);
    ("SyntaxError at {}: Expecting 'try' in try statement!", Look);
    ("SyntaxError at {}: Expecting ':' in try statement!", Opening [PyTry]);
    ("SyntaxError at {}: Expecting symbol in finally statement!", LookOr [PyFinally]);
    ("SyntaxError at {}: Expecting 'finally' in finally statement!", Look);
    ("SyntaxError at {}: Expecting ':' in finally statement!", Opening [PyFinally]);
    ("SyntaxError at {}: Expecting symbol in with statement!", LookOr [PyWith]);
    ("SyntaxError at {}: Expecting 'with' in finally statement!", Look);
    ("SyntaxError at {}: Expecting ')' in with statement!", Opening [PyWith]);
    ("SyntaxError at {}: Expecting ':' in with statement!", Opening [PyWith]);
    ("SyntaxError at {}: Expecting symbol in with item statement!", Anywhere);
    ("SyntaxError at {}: Expecting symbol in except statement!", Anywhere);
    ("SyntaxError at {}: Expecting ':' in except statement!", Anywhere);
    ("SyntaxError at {}: Expecting 'except*' except statement!", Opening [PyExcept]);
    ("SyntaxError at {}: Expecting 'except' except statement!", Opening [PyExcept]);
    ("SyntaxError at {}: Expecting symbol in except clause statement!", LookOr [PyExcept]);
    ("SyntaxError at {}: Expecting 'except' in except statement!", Look);
    ("SyntaxError at {}: Expecting name literal after 'as' in except statement!", Opening [PyExcept]);
    ("SyntaxError at {}: Expecting symbol in suite statement!", LookOr [T_Newline]);
    ("SyntaxError at {}: Expecting indentation in suite statement!", Opening [T_Newline]);
    ("SyntaxError at {}: Expecting dedent in suite statement!", Opening [T_Newline]);
    ("SyntaxError at {}: Expecting symbol in eval expression!", Anywhere);
    ("SyntaxError at {}: Expecting send of file in eval expression!", Anywhere);
    ("SyntaxError at {}: Expecting symbol in file input!", Anywhere);
    ("SyntaxError at {}: Expecting end of file in file input!", Anywhere);
    ("SyntaxError at {}: Expecting symbol in single input!", Anywhere);
    ("SyntaxError at {}: Expecting Newline after compound statement in single input!", Anywhere);
    ("SyntaxError at {}: Expecting symbol in functional input!", Anywhere);
    ("SyntaxError at {}: Expecting end of file in function input!", Anywhere);
    ("SyntaxError at {}: Expecting symbol in decorator statement!", Anywhere);
    ("SyntaxError at {}: Expecting '@' in decorator statement!", Look);
    ("SyntaxError at {}: Expecting ')' in functional input!", Opening [PyMatrice]);
    ("SyntaxError at {}: Expecting 'class', 'def' or 'async' after '@' in decorator statement!", Opening [PyMatrice]);
    ("SyntaxError at {}: Expecting symbol in function statement!", LookOr [PyDef]);
    ("SyntaxError at {}: Expecting 'def' in function statement!", LookOr [PyDef]);
    ("SyntaxError at {}: Expecting literal name in function statement!", Opening [PyDef]);
    ("SyntaxError at {}: Expecting ':' in function statement!", Opening [PyDef]);
    ("SyntaxError at {}: Expecting symbol in parameters of function statement!", LookOr [PyLeftParen]);
    ("SyntaxError at {}: Expecting '(' in parameters of function statement!", Look);
    ("SyntaxError at {}: Expecting ')' in parameters of function statement!", Opening [PyLeftParen]);
    ("SyntaxError at {}: Expecting symbol in parameter of function statement!", Anywhere);
    ("SyntaxError at {}: Expecting name literal in parameter of function statement!", Look);
    ("SyntaxError at {}: Expecting symbol in function body!", LookOr [T_Newline]);
    ("SyntaxError at {}: Expecting Newline after TypeComment in function body!", Opening [T_Newline]);
    ("SyntaxError at {}: Expecting indentation in function body!", Opening [T_Newline]);
    ("SyntaxError at {}: Expecting end of block in function body!", Opening [T_Newline]);
    ("SyntaxError at {}: Expecting symbol in class statement!", LookOr [PyClass]);
    ("SyntaxError at {}: Expecting 'class' in class statement!", Look);
    ("SyntaxError at {}: Expecting literal name in class statement!", Opening [PyClass]);
    ("SyntaxError at {}: Expecting ')' in class statement!", Opening [PyClass]);
    ("SyntaxError at {}: Expecting ':' in class statement!", Opening [PyClass]);
    ("SyntaxError at {}: Expecting symbol in functional type!", LookOr [PyLeftParen]);
    ("SyntaxError at {}: Expecting '(' in functional type!", LookOr [PyLeftParen]);
    ("SyntaxError at {}: Expecting symbol in functional type list!", Anywhere) ].

(** The message [m], placed at the token [at_] with the given look-ahead, is justified. *)
Definition justified (m : string) (at_ look_ahead : look) : Prop :=
  exists pl, In (m, pl) messages /\ placed pl at_ look_ahead /\ holds (meaning m) (snd look_ahead).

(** The tokens [l] read and the look-ahead of [s], with their places. *)
Definition looks (l : list ptok) (s : parser) : list look := map (fun x => (fst x, Some (snd x))) l ++ [view s].
