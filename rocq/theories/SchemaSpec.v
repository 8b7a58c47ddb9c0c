(** The schema of the syntax tree: which tokens and which kinds of nodes the fields of every node
    hold.  This is what a reader of the tree may rely on.  Not modelled code. *)
From Coq Require Import List Arith.
From Verif Require Import Chars Token Node.
Import ListNotations.
Local Open Scope nat_scope.

(** How tightly the outermost operator of an expression binds (the table of the Python language
    reference, loosest first); atoms are 16.  [None]: the node is not an expression. *)
Definition rank (x : node) : option nat :=
  match x with
  | NamedExpr _ _ _ _ _ => Some 0
  | Test _ _ _ _ _ _ _ | Lambda _ _ _ _ _ _ => Some 1
  | OrTest _ _ _ _ _ => Some 2
  | AndTest _ _ _ _ _ => Some 3
  | NotTest _ _ _ _ => Some 4
  | LessComparison _ _ _ _ _ | LessEqualComparison _ _ _ _ _ | EqualComparison _ _ _ _ _
  | GreaterComparison _ _ _ _ _ | GreaterEqualComparison _ _ _ _ _ | NotEqualComparison _ _ _ _ _
  | InComparison _ _ _ _ _ | IsComparison _ _ _ _ _ | NotInComparison _ _ _ _ _ _ | IsNotComparison _ _ _ _ _ _ => Some 5
  | Expr _ _ _ _ _ => Some 6
  | XorExpr _ _ _ _ _ => Some 7
  | AndExpr _ _ _ _ _ => Some 8
  | ShiftLeftExpr _ _ _ _ _ | ShiftRightExpr _ _ _ _ _ => Some 9
  | PlusArithExpr _ _ _ _ _ | MinusArithExpr _ _ _ _ _ => Some 10
  | MulTerm _ _ _ _ _ | DivTerm _ _ _ _ _ | FloorDivTerm _ _ _ _ _ | ModuloTerm _ _ _ _ _ | MatriceTerm _ _ _ _ _ => Some 11
  | UnaryPlus _ _ _ _ | UnaryMinus _ _ _ _ | UnaryInvert _ _ _ _ => Some 12
  | PowerExpr _ _ _ _ _ => Some 13
  | AtomExpr _ _ (Some _) _ _ => Some 14
  | AtomExpr _ _ None _ _ => Some 15
  | AtomName _ _ _ | AtomNumber _ _ _ | AtomString _ _ _ | AtomElipsis _ _ _ | AtomNone _ _ _ | AtomTrue _ _ _ | AtomFalse _ _ _
  | AtomTuple _ _ _ _ _ | AtomList _ _ _ _ _ | AtomDictionary _ _ _ _ _ | AtomSet _ _ _ _ _ => Some 16
  | _ => None
  end.

(** An expression that binds at least as tightly as [k]. *)
Definition expression (k : nat) (x : node) : Prop :=
  match rank x with Some r => k <= r | None => False end.
Notation test := (expression 1).

(** ** Kinds of nodes *)
Definition is_star (x : node) : Prop := match x with StarExpr _ _ _ _ => True | _ => False end.
Definition is_yield (x : node) : Prop := match x with YieldExpr _ _ _ _ | YieldFromExpr _ _ _ _ _ => True | _ => False end.
Definition is_elements (x : node) : Prop := match x with TestListComp _ _ _ _ => True | _ => False end.
Definition is_for (x : node) : Prop := match x with SyncCompForComprehension _ _ _ _ _ _ _ => True | _ => False end.
Definition is_comprehension (x : node) : Prop :=
  match x with SyncCompForComprehension _ _ _ _ _ _ _ | CompForComprehension _ _ _ _ => True | _ => False end.
Definition is_filter (x : node) : Prop :=
  match x with CompIfComprehension _ _ _ _ _ => True | _ => False end.
Definition is_trailer (x : node) : Prop :=
  match x with CallTrailer _ _ _ _ _ | IndexTrailer _ _ _ _ _ | DotNameTrailer _ _ _ _ => True | _ => False end.
Definition is_subscripts (x : node) : Prop := match x with SubscriptList _ _ _ _ => True | _ => False end.
Definition is_subscript (x : node) : Prop := match x with Subscript _ _ _ _ _ _ _ => True | _ => False end.
Definition is_entries (x : node) : Prop := match x with DictionaryContainer _ _ _ _ => True | _ => False end.
Definition is_members (x : node) : Prop := match x with SetContainer _ _ _ _ => True | _ => False end.
Definition is_pair (x : node) : Prop := match x with DictionaryEntry _ _ _ _ _ | PowerDictionary _ _ _ _ => True | _ => False end.
Definition is_spread (x : node) : Prop := match x with MulSet _ _ _ _ => True | _ => False end.
Definition is_arguments (x : node) : Prop := match x with ArgList _ _ _ _ => True | _ => False end.
Definition is_argument (x : node) : Prop := match x with Argument _ _ _ _ _ => True | _ => False end.
Definition is_parameters (x : node) : Prop := match x with VarArgsList _ _ _ _ _ _ _ _ _ => True | _ => False end.
Definition is_name (x : node) : Prop := match x with VFPDef _ _ _ => True | _ => False end.
Definition is_parameter (x : node) : Prop := match x with VFPDef _ _ _ | VFPAssign _ _ _ _ _ => True | _ => False end.
Definition is_typed_name (x : node) : Prop := match x with TFPDef _ _ _ _ => True | _ => False end.
Definition is_typed_parameter (x : node) : Prop := match x with TFPDef _ _ _ _ | TFPAssign _ _ _ _ _ => True | _ => False end.
Definition is_typed_parameters (x : node) : Prop := match x with TypedArgsList _ _ _ _ _ _ _ => True | _ => False end.
Definition is_dotted_name (x : node) : Prop := match x with DottedNameStmt _ _ _ _ => True | _ => False end.
Definition is_dotted_as_name (x : node) : Prop := match x with DottedAsNameStmt _ _ _ _ => True | _ => False end.
Definition is_dotted_as_names (x : node) : Prop := match x with DottedAsNamesStmt _ _ _ _ => True | _ => False end.
Definition is_import_name (x : node) : Prop := match x with ImportAsName _ _ _ _ => True | _ => False end.
Definition is_import_names (x : node) : Prop := match x with ImportAsNamesStmt _ _ _ _ => True | _ => False end.
Definition is_decorator (x : node) : Prop := match x with Decorator _ _ _ _ _ _ _ _ => True | _ => False end.
Definition is_decorators (x : node) : Prop := match x with Decorators _ _ _ => True | _ => False end.
Definition is_parameter_list (x : node) : Prop := match x with ParameterList _ _ _ None _ => True | _ => False end.
Definition is_type_list (x : node) : Prop := match x with TypeList _ _ _ _ _ _ _ _ => True | _ => False end.
Definition is_func_type (x : node) : Prop := match x with FuncType _ _ _ _ _ _ _ => True | _ => False end.
Definition is_with_item (x : node) : Prop := match x with WithItem _ _ _ None => True | ExceptStmt _ _ a _ b => test a /\ expression 6 b | _ => False end.
Definition is_elif (x : node) : Prop := match x with ElifStmt _ _ _ _ _ _ => True | _ => False end.
Definition is_else (x : node) : Prop := match x with ElseStmt _ _ _ _ _ => True | _ => False end.
Definition is_finally (x : node) : Prop := match x with FinallyStmt _ _ _ _ _ => True | _ => False end.
Definition is_except_clause (x : node) : Prop := match x with ExceptClauseStmt _ _ _ _ _ => True | _ => False end.
Definition is_simple (x : node) : Prop := match x with SimpleStmtList _ _ _ _ _ => True | _ => False end.
Definition is_suite (x : node) : Prop := match x with SimpleStmtList _ _ _ _ _ | SuiteStmt _ _ _ _ _ _ => True | _ => False end.
Definition is_except (x : node) : Prop := match x with ExceptStmt _ _ a _ b => is_except_clause a /\ is_suite b | _ => False end.
Definition is_body (x : node) : Prop :=
  match x with SimpleStmtList _ _ _ _ _ | FuncBodySuite _ _ _ _ _ _ _ _ => True | _ => False end.
Definition is_if (x : node) : Prop := match x with IfStmt _ _ _ _ _ _ _ _ => True | _ => False end.
Definition is_while (x : node) : Prop := match x with WhileStmt _ _ _ _ _ _ _ => True | _ => False end.
Definition is_for_stmt (x : node) : Prop := match x with ForStmt _ _ _ _ _ _ _ _ _ _ => True | _ => False end.
Definition is_try_stmt (x : node) : Prop := match x with TryStmt _ _ _ _ _ _ _ _ => True | _ => False end.
Definition is_with (x : node) : Prop := match x with WithStmt _ _ _ _ _ _ _ _ _ => True | _ => False end.
Definition is_def (x : node) : Prop := match x with FuncDef _ _ _ _ _ _ _ _ _ => True | _ => False end.
Definition is_class (x : node) : Prop := match x with ClassDef _ _ _ _ _ _ _ _ _ => True | _ => False end.
Definition is_async (x : node) : Prop := match x with AsyncStmt _ _ _ _ => True | _ => False end.
(** Compound statements; no decorated definition is among them. *)
Definition is_compound (x : node) : Prop :=
  is_if x \/ is_while x \/ is_for_stmt x \/ is_try_stmt x \/ is_with x \/ is_def x \/ is_class x \/ is_async x.
Definition is_stmt (x : node) : Prop := is_simple x \/ is_compound x.

(** Elements of displays and target lists; value lists. *)
Definition element (x : node) : Prop := is_star x \/ expression 0 x.
Definition star_or_test (x : node) : Prop := is_star x \/ test x.
Definition targets (x : node) : Prop := match x with ExprList _ _ _ _ => True | _ => element x end.
Definition values (x : node) : Prop := match x with TestList _ _ _ _ => True | _ => test x end.
Definition star_values (x : node) : Prop := match x with TestListStarExpr _ _ _ _ => True | _ => star_or_test x end.
Definition assigned (x : node) : Prop := is_yield x \/ values x.

Definition is_assignment (x : node) : Prop :=
  match x with
  | PlusAssignStmt _ _ _ _ _ | MinusAssignStmt _ _ _ _ _ | MulAssignStmt _ _ _ _ _ | DivAssignStmt _ _ _ _ _
  | FloorDivAssignStmt _ _ _ _ _ | ModuloAssignStmt _ _ _ _ _ | MatriceAssignStmt _ _ _ _ _ | PowerAssignStmt _ _ _ _ _
  | ShiftLeftAssignStmt _ _ _ _ _ | ShiftRightAssignStmt _ _ _ _ _ | BitOrAssignStmt _ _ _ _ _ | BitXorAssignStmt _ _ _ _ _
  | BitAndAssignStmt _ _ _ _ _ | AnnAssignStmt _ _ _ _ _ _ | AssignmentStmt _ _ _ _ _ => True
  | _ => False
  end.
Definition is_flow (x : node) : Prop :=
  match x with
  | BreakStmt _ _ _ | ContinueStmt _ _ _ | ReturnStmt _ _ _ _ | RaiseStmt _ _ _ _ => True
  | _ => is_yield x
  end.
(** Small statements; 'import' alone is not among them. *)
Definition is_small (x : node) : Prop :=
  match x with
  | DelStmt _ _ _ _ | PassStmt _ _ _ | ImportFromStmt _ _ _ _ _ _ _ _ _ | GlobalStmt _ _ _ _ _ | NonLocalStmt _ _ _ _ _
  | AssertStmt _ _ _ _ _ => True
  | _ => is_assignment x \/ is_flow x \/ star_values x
  end.

(** ** The fields *)
Definition if_any {A} (P : A -> Prop) (o : option A) : Prop := match o with Some a => P a | None => True end.
Definition kind_is (k : kind) (t : token) : Prop := tk_kind t = k.
Notation commas := (Forall (kind_is PyComa)).
Notation names := (Forall (kind_is T_AtomName)).

(** One separator between any two elements and none at the end. *)
Definition between_all {A} (xs : list A) (ts : list token) : Prop := S (length ts) = length xs.

(** At most one more at the end. *)
Definition spaced {A} (xs : list A) (ts : list token) : Prop := between_all xs ts \/ length ts = length xs.
(** What can stand before 'in': no expression but a starred one, for [a in b] is an expression itself. *)
Definition before_in (x : node) : Prop :=
  match x with
  | StarExpr _ _ _ _ => True
  | ExprList _ _ xs ts => length ts = length xs \/ exists ys y, xs = ys ++ [y] /\ is_star y
  | _ => False
  end.
(** The condition of a comprehension is no conditional expression, nor a lambda whose body is not an [or_test]. *)
Definition unconditional (x : node) : Prop :=
  match x with Lambda _ _ _ _ _ b => expression 2 b | _ => expression 2 x end.
(** No comma follows the values of a yield in parentheses. *)
Definition in_parentheses (x : node) : Prop :=
  match x with YieldExpr _ _ _ (TestListStarExpr _ _ xs ts) => between_all xs ts | _ => is_yield x end.

(** An operator that groups to the left: the right operand binds tighter. *)
Definition left (k : nat) (op : kind) (a : node) (t : token) (b : node) : Prop :=
  expression k a /\ kind_is op t /\ expression (S k) b.
Definition brackets (open close : kind) (t u : token) : Prop := kind_is open t /\ kind_is close u.
Definition augments (op : kind) (a : node) (t : token) (b : node) : Prop := star_values a /\ kind_is op t /\ assigned b.

Definition schema (x : node) : Prop :=
  match x with
  | NamedExpr _ _ a t b => test a /\ kind_is PyColonAssign t /\ test b
  | Test _ _ a t b u c => expression 2 a /\ kind_is PyIf t /\ expression 2 b /\ kind_is PyElse u /\ test c
  | Lambda _ _ t a u b => kind_is PyLambda t /\ if_any is_parameters a /\ kind_is PyColon u /\ test b
  | OrTest _ _ a t b => left 2 PyOr a t b
  | AndTest _ _ a t b => left 3 PyAnd a t b
  | NotTest _ _ t a => kind_is PyNot t /\ expression 4 a
  | LessComparison _ _ a t b => left 5 PyLess a t b
  | LessEqualComparison _ _ a t b => left 5 PyLessEqual a t b
  | EqualComparison _ _ a t b => left 5 PyEqual a t b
  | GreaterComparison _ _ a t b => left 5 PyGreater a t b
  | GreaterEqualComparison _ _ a t b => left 5 PyGreaterEqual a t b
  | NotEqualComparison _ _ a t b => left 5 PyNotEqual a t b
  | InComparison _ _ a t b => left 5 PyIn a t b
  | IsComparison _ _ a t b => left 5 PyIs a t b
  | NotInComparison _ _ a t u b => left 5 PyNot a t b /\ kind_is PyIn u
  | IsNotComparison _ _ a t u b => left 5 PyIs a t b /\ kind_is PyNot u
  | StarExpr _ _ t a => kind_is PyMul t /\ expression 6 a
  | Expr _ _ a t b => left 6 PyBitOr a t b
  | XorExpr _ _ a t b => left 7 PyBitXor a t b
  | AndExpr _ _ a t b => left 8 PyBitAnd a t b
  | ShiftLeftExpr _ _ a t b => left 9 PyShiftLeft a t b
  | ShiftRightExpr _ _ a t b => left 9 PyShiftRight a t b
  | PlusArithExpr _ _ a t b => left 10 PyPlus a t b
  | MinusArithExpr _ _ a t b => left 10 PyMinus a t b
  | MulTerm _ _ a t b => left 11 PyMul a t b
  | DivTerm _ _ a t b => left 11 PyDiv a t b
  | FloorDivTerm _ _ a t b => left 11 PyFloorDiv a t b
  | ModuloTerm _ _ a t b => left 11 PyModulo a t b
  | MatriceTerm _ _ a t b => left 11 PyMatrice a t b
  | UnaryPlus _ _ t a => kind_is PyPlus t /\ expression 12 a
  | UnaryMinus _ _ t a => kind_is PyMinus t /\ expression 12 a
  | UnaryInvert _ _ t a => kind_is PyBitInvert t /\ expression 12 a
  (* '**' groups to the right and binds tighter than an operator sign on its left only *)
  | PowerExpr _ _ a t b => expression 14 a /\ kind_is PyPower t /\ expression 12 b
  | AtomExpr _ _ o a xs => if_any (kind_is PyAwait) o /\ expression 16 a /\ Forall is_trailer xs /\ (o = None -> xs <> [])
  | AtomName _ _ t => kind_is T_AtomName t
  | AtomNumber _ _ t => kind_is T_AtomNumber t
  | AtomString _ _ ts => ts <> [] /\ Forall (kind_is T_AtomString) ts
  | AtomElipsis _ _ t => kind_is PyElipsis t
  | AtomNone _ _ t => kind_is PyNone t
  | AtomTrue _ _ t => kind_is PyTrue t
  | AtomFalse _ _ t => kind_is PyFalse t
  | AtomTuple _ _ t a u => brackets PyLeftParen PyRightParen t u /\ if_any (fun y => in_parentheses y \/ is_elements y) a
  | AtomList _ _ t a u => brackets PyLeftBracket PyRightBracket t u /\ if_any is_elements a
  | AtomDictionary _ _ t a u => brackets PyLeftCurly PyRightCurly t u /\ exists y, a = Some y /\ is_entries y
  | AtomSet _ _ t a u => brackets PyLeftCurly PyRightCurly t u /\ exists y, a = Some y /\ is_members y
  | TestListComp _ _ xs ts =>
      commas ts /\ (between_all xs ts /\ Forall element xs \/ exists y z, xs = [y; z] /\ ts = [] /\ is_comprehension y /\ element z)
  | CallTrailer _ _ t a u => brackets PyLeftParen PyRightParen t u /\ if_any is_subscripts a
  | IndexTrailer _ _ t a u => brackets PyLeftBracket PyRightBracket t u /\ is_subscripts a
  | DotNameTrailer _ _ t u => kind_is PyDot t /\ kind_is T_AtomName u
  | SubscriptList _ _ xs ts => between_all xs ts /\ Forall is_subscript xs /\ commas ts
  (* the second separator of a slice may be any token *)
  | Subscript _ _ a t b u c =>
      if_any test a /\ if_any test b /\ if_any test c /\ if_any (kind_is PyColon) t /\
      (t = None -> a <> None /\ b = None /\ u = None /\ c = None) /\ (t <> None -> u <> None)
  | ExprList _ _ xs ts => xs <> [] /\ Forall element xs /\ ts <> [] /\ commas ts /\ spaced xs ts
  | TestList _ _ xs ts => xs <> [] /\ Forall test xs /\ ts <> [] /\ commas ts /\ spaced xs ts
  | DictionaryContainer _ _ xs ts => 1 <= length xs <= 2 /\ Forall is_pair xs /\ commas ts /\ (between_all xs ts \/ length ts = length xs /\ length xs = 1)
  | DictionaryEntry _ _ a t b => test a /\ kind_is PyColon t /\ test b
  | SetContainer _ _ xs ts => xs <> [] /\ Forall (fun y => is_spread y \/ test y) xs /\ commas ts /\ spaced xs ts
  | MulSet _ _ t a => kind_is PyMul t /\ expression 6 a
  | PowerDictionary _ _ t a => kind_is PyPower t /\ expression 6 a
  | ArgList _ _ xs ts => xs <> [] /\ Forall is_argument xs /\ commas ts /\ spaced xs ts
  | Argument _ _ a t b =>
      match a, t, b with
      | Some x, None, None => test x
      | Some x, None, Some y => test x /\ is_comprehension y
      | Some x, Some t, Some y => test x /\ (kind_is PyAssign t \/ kind_is PyColonAssign t) /\ test y
      | None, Some t, Some y => (kind_is PyMul t \/ kind_is PyPower t) /\ test y
      | _, _, _ => False
      end
  | SyncCompForComprehension _ _ t a u b c =>
      kind_is PyFor t /\ targets a /\ before_in a /\ kind_is PyIn u /\ expression 2 b /\ if_any (fun y => is_comprehension y \/ is_filter y) c
  | CompForComprehension _ _ t a => kind_is PyAsync t /\ is_for a
  | CompIfComprehension _ _ t a b => kind_is PyIf t /\ unconditional a /\ if_any (fun y => is_comprehension y \/ is_filter y) b
  | YieldExpr _ _ t a => kind_is PyYield t /\ star_values a
  | YieldFromExpr _ _ t u a => kind_is PyYield t /\ kind_is PyFrom u /\ test a
  | TestListStarExpr _ _ xs ts => xs <> [] /\ Forall star_or_test xs /\ ts <> [] /\ commas ts /\ spaced xs ts
  | SimpleStmtList _ _ xs ts t => xs <> [] /\ Forall is_small xs /\ Forall (kind_is PySemiColon) ts /\ kind_is T_Newline t
  | PlusAssignStmt _ _ a t b => augments PyPlusAssign a t b
  | MinusAssignStmt _ _ a t b => augments PyMinusAssign a t b
  | MulAssignStmt _ _ a t b => augments PyMulAssign a t b
  | DivAssignStmt _ _ a t b => augments PyDivAssign a t b
  | FloorDivAssignStmt _ _ a t b => augments PyFloorDivAssign a t b
  | ModuloAssignStmt _ _ a t b => augments PyModuloAssign a t b
  | MatriceAssignStmt _ _ a t b => augments PyMatriceAssign a t b
  | PowerAssignStmt _ _ a t b => augments PyPowerAssign a t b
  | ShiftLeftAssignStmt _ _ a t b => augments PyShiftLeftAssign a t b
  | ShiftRightAssignStmt _ _ a t b => augments PyShiftRightAssign a t b
  | BitOrAssignStmt _ _ a t b => augments PyBitOrAssign a t b
  | BitXorAssignStmt _ _ a t b => augments PyBitXorAssign a t b
  | BitAndAssignStmt _ _ a t b => augments PyBitAndAssign a t b
  | AnnAssignStmt _ _ a t b c =>
      star_values a /\ kind_is PyColon t /\ test b /\ if_any (fun p => kind_is PyAssign (fst p) /\ assigned (snd p)) c
  | AssignmentStmt _ _ a xs o =>
      star_values a /\ xs <> [] /\ Forall (fun p => kind_is PyAssign (fst p) /\ assigned (snd p)) xs /\ if_any (kind_is T_TypeComment) o
  | DelStmt _ _ t a => kind_is PyDel t /\ targets a
  | PassStmt _ _ t => kind_is PyPass t
  | BreakStmt _ _ t => kind_is PyBreak t
  | ContinueStmt _ _ t => kind_is PyContinue t
  | ReturnStmt _ _ t a => kind_is PyReturn t /\ if_any star_values a
  | RaiseStmt _ _ t a =>
      kind_is PyRaise t /\ if_any (fun p => test (fst p) /\ if_any (fun q => kind_is PyFrom (fst q) /\ test (snd q)) (snd p)) a
  | ImportNameStmt _ _ t a => kind_is PyImport t /\ is_dotted_as_names a
  | ImportFromStmt _ _ t ds a u v b w =>
      kind_is PyFrom t /\ Forall (fun d => kind_is PyDot d \/ kind_is PyElipsis d) ds /\ if_any is_dotted_name a /\ (a = None -> ds <> []) /\
      kind_is PyImport u /\
      match v, b, w with
      | Some v, None, None => kind_is PyMul v
      | Some v, Some y, Some w => brackets PyLeftParen PyRightParen v w /\ is_import_names y
      | None, Some y, None => is_import_names y
      | _, _, _ => False
      end
  | ImportAsName _ _ t a => kind_is T_AtomName t /\ if_any (fun p => kind_is PyAs (fst p) /\ kind_is T_AtomName (snd p)) a
  | DottedAsNameStmt _ _ a b => is_dotted_name a /\ if_any (fun p => kind_is PyAs (fst p) /\ kind_is T_AtomName (snd p)) b
  | ImportAsNamesStmt _ _ xs ts => between_all xs ts /\ Forall is_import_name xs /\ commas ts
  | DottedAsNamesStmt _ _ xs ts => between_all xs ts /\ Forall is_dotted_as_name xs /\ commas ts
  | DottedNameStmt _ _ ns ts => between_all ns ts /\ names ns /\ Forall (kind_is PyDot) ts
  | GlobalStmt _ _ t ns ts => kind_is PyGlobal t /\ between_all ns ts /\ names ns /\ commas ts
  | NonLocalStmt _ _ t ns ts => kind_is PyNonLocal t /\ between_all ns ts /\ names ns /\ commas ts
  (* Python: a comma *)
  | AssertStmt _ _ t a b => kind_is PyAssert t /\ test a /\ if_any (fun p => kind_is PyFrom (fst p) /\ test (snd p)) b
  | AsyncStmt _ _ t a => kind_is PyAsync t /\ (is_with a \/ is_for_stmt a)
  | IfStmt _ _ t a u b xs c =>
      kind_is PyIf t /\ test a /\ kind_is PyColon u /\ is_suite b /\ Forall is_elif xs /\ if_any is_else c
  | ElifStmt _ _ t a u b => kind_is PyElif t /\ test a /\ kind_is PyColon u /\ is_suite b
  | ElseStmt _ _ t u b => kind_is PyElse t /\ kind_is PyColon u /\ is_suite b
  | WhileStmt _ _ t a u b c => kind_is PyWhile t /\ test a /\ kind_is PyColon u /\ is_suite b /\ if_any is_else c
  | ForStmt _ _ t a u b v o c d =>
      kind_is PyFor t /\ targets a /\ before_in a /\ kind_is PyIn u /\ values b /\ kind_is PyColon v /\ if_any (kind_is T_TypeComment) o /\
      is_suite c /\ if_any is_else d
  | TryStmt _ _ t u a cs b c =>
      kind_is PyTry t /\ kind_is PyColon u /\ is_suite a /\ if_any is_else b /\ if_any is_finally c /\
      match cs with
      | Some xs => xs <> [] /\ Forall is_except xs
      | None => b = None /\ c <> None
      end
  | FinallyStmt _ _ t u a => kind_is PyFinally t /\ kind_is PyColon u /\ is_suite a
  | WithStmt _ _ t v xs ts w u a =>
      kind_is PyWith t /\ xs <> [] /\ Forall is_with_item xs /\ commas ts /\ kind_is PyColon u /\ is_suite a /\
      match v, w with
      | Some v, Some w => brackets PyLeftParen PyRightParen v w
      | None, None => between_all xs ts
      | _, _ => False
      end
  | WithItem _ _ a b => test a /\ b = None
  | ExceptClauseStmt _ _ t o a =>
      kind_is PyExcept t /\ if_any (kind_is PyMul) o /\
      if_any (fun p => test (fst p) /\ if_any (fun q => kind_is PyAs (fst q) /\ kind_is T_AtomName (snd q)) (snd p)) a
  (* a clause with its suite, or a with item with 'as' *)
  | ExceptStmt _ _ a t b =>
      (is_except_clause a /\ kind_is PyColon t /\ is_suite b) \/ (test a /\ kind_is PyAs t /\ expression 6 b)
  | SuiteStmt _ _ t u xs v => kind_is T_Newline t /\ kind_is T_Indent u /\ xs <> [] /\ Forall is_stmt xs /\ kind_is T_Dedent v
  | FuncBodySuite _ _ t a b u xs v =>
      kind_is T_Newline t /\ if_any (kind_is T_TypeComment) a /\ if_any (kind_is T_Newline) b /\ (a = None <-> b = None) /\
      kind_is T_Indent u /\ xs <> [] /\ Forall is_stmt xs /\ kind_is T_Dedent v
  | ClassDef _ _ t u a b c v d =>
      kind_is PyClass t /\ kind_is T_AtomName u /\ if_any (kind_is PyLeftParen) a /\ if_any is_parameters b /\
      if_any (kind_is PyRightParen) c /\ (a = None <-> c = None) /\ (a = None -> b = None) /\ kind_is PyColon v /\ is_suite d
  | Decorator _ _ t a u b v w =>
      kind_is PyMatrice t /\ is_dotted_name a /\ if_any (kind_is PyLeftParen) u /\ if_any is_arguments b /\
      if_any (kind_is PyRightParen) v /\ (u = None <-> v = None) /\ (u = None -> b = None) /\ kind_is T_Newline w
  | Decorators _ _ xs => xs <> [] /\ Forall is_decorator xs
  | Decorated _ _ _ _ => False
  | FuncDef _ _ t u a b v o c =>
      kind_is PyDef t /\ kind_is T_AtomName u /\ if_any is_parameter_list a /\
      if_any (fun p => kind_is PyArrow (fst p) /\ test (snd p)) b /\ kind_is PyColon v /\ if_any (kind_is T_TypeComment) o /\ is_body c
  | ParameterList _ _ t a u => brackets PyLeftParen PyRightParen t u /\ a = None
  | TypedArgsList _ _ a b c d e => a = [] /\ b = [] /\ c = [] /\ d = None /\ e = None
  | TFPAssign _ _ a t b => is_typed_name a /\ kind_is PyAssign t /\ test b
  | TFPDef _ _ t a => kind_is T_AtomName t /\ if_any (fun p => kind_is PyColon (fst p) /\ test (snd p)) a
  | VarArgsList _ _ xs ts t a u b v =>
      Forall is_parameter xs /\ commas ts /\ if_any (kind_is PyMul) t /\ if_any is_parameter a /\ (t = None <-> a = None) /\
      if_any (kind_is PyPower) u /\ if_any is_parameter b /\ (u = None <-> b = None) /\ if_any (kind_is PyDiv) v /\
      (t = None -> u = None -> v = None -> between_all xs ts)
  | VFPAssign _ _ a t b => is_name a /\ kind_is PyAssign t /\ test b
  | VFPDef _ _ t => kind_is T_AtomName t
  | FuncType _ _ t a u v b =>
      brackets PyLeftParen PyRightParen t u /\ if_any is_type_list a /\ kind_is PyArrow v /\ test b
  | TypeList _ _ xs ts t a u b =>
      Forall test xs /\ commas ts /\ if_any (kind_is PyMul) t /\ if_any test a /\ (t = None <-> a = None) /\
      if_any (kind_is PyPower) u /\ if_any test b /\ (u = None <-> b = None)
  | SingleInput _ _ a t => if_any (kind_is T_Newline) t /\ if_any is_stmt a /\ (a = None -> t <> None) /\
      (forall y, a = Some y -> (is_simple y <-> t = None))
  | FileInput _ _ xs ts t => Forall is_stmt xs /\ Forall (kind_is T_Newline) ts /\ kind_is T_EOF t
  | EvalInput _ _ a ts t => values a /\ Forall (kind_is T_Newline) ts /\ kind_is T_EOF t
  | FuncTypeInput _ _ a ts t => is_func_type a /\ Forall (kind_is T_Newline) ts /\ kind_is T_EOF t
  end.
