(** /repo/src/parser/nodes.rs 4-136: [enum ASTNode], constructor by constructor, same field
    order; [Box<T>] is [T], [Vec] is [list], [u32] is [nat].
    [Parameter] (line 126) is called [ParameterList] here because [Parameter] is a Coq keyword. *)
From Verif Require Import Chars Token.

Inductive node :=
| NamedExpr (s e : nat) (_ : node) (_ : token) (_ : node)
| Test (s e : nat) (_ : node) (_ : token) (_ : node) (_ : token) (_ : node)
| Lambda (s e : nat) (_ : token) (_ : option node) (_ : token) (_ : node)
| OrTest (s e : nat) (_ : node) (_ : token) (_ : node)
| AndTest (s e : nat) (_ : node) (_ : token) (_ : node)
| NotTest (s e : nat) (_ : token) (_ : node)
| LessComparison (s e : nat) (_ : node) (_ : token) (_ : node)
| LessEqualComparison (s e : nat) (_ : node) (_ : token) (_ : node)
| EqualComparison (s e : nat) (_ : node) (_ : token) (_ : node)
| GreaterComparison (s e : nat) (_ : node) (_ : token) (_ : node)
| GreaterEqualComparison (s e : nat) (_ : node) (_ : token) (_ : node)
| NotEqualComparison (s e : nat) (_ : node) (_ : token) (_ : node)
| InComparison (s e : nat) (_ : node) (_ : token) (_ : node)
| IsComparison (s e : nat) (_ : node) (_ : token) (_ : node)
| NotInComparison (s e : nat) (_ : node) (_ : token) (_ : token) (_ : node)
| IsNotComparison (s e : nat) (_ : node) (_ : token) (_ : token) (_ : node)
| StarExpr (s e : nat) (_ : token) (_ : node)
| Expr (s e : nat) (_ : node) (_ : token) (_ : node)
| XorExpr (s e : nat) (_ : node) (_ : token) (_ : node)
| AndExpr (s e : nat) (_ : node) (_ : token) (_ : node)
| ShiftLeftExpr (s e : nat) (_ : node) (_ : token) (_ : node)
| ShiftRightExpr (s e : nat) (_ : node) (_ : token) (_ : node)
| PlusArithExpr (s e : nat) (_ : node) (_ : token) (_ : node)
| MinusArithExpr (s e : nat) (_ : node) (_ : token) (_ : node)
| MulTerm (s e : nat) (_ : node) (_ : token) (_ : node)
| DivTerm (s e : nat) (_ : node) (_ : token) (_ : node)
| FloorDivTerm (s e : nat) (_ : node) (_ : token) (_ : node)
| ModuloTerm (s e : nat) (_ : node) (_ : token) (_ : node)
| MatriceTerm (s e : nat) (_ : node) (_ : token) (_ : node)
| UnaryPlus (s e : nat) (_ : token) (_ : node)
| UnaryMinus (s e : nat) (_ : token) (_ : node)
| UnaryInvert (s e : nat) (_ : token) (_ : node)
| PowerExpr (s e : nat) (_ : node) (_ : token) (_ : node)
| AtomExpr (s e : nat) (_ : option token) (_ : node) (_ : list node)
| AtomName (s e : nat) (_ : token)
| AtomNumber (s e : nat) (_ : token)
| AtomString (s e : nat) (_ : list token)
| AtomElipsis (s e : nat) (_ : token)
| AtomNone (s e : nat) (_ : token)
| AtomTrue (s e : nat) (_ : token)
| AtomFalse (s e : nat) (_ : token)
| AtomTuple (s e : nat) (_ : token) (_ : option node) (_ : token)
| AtomList (s e : nat) (_ : token) (_ : option node) (_ : token)
| AtomDictionary (s e : nat) (_ : token) (_ : option node) (_ : token)
| AtomSet (s e : nat) (_ : token) (_ : option node) (_ : token)
| TestListComp (s e : nat) (_ : list node) (_ : list token)
| CallTrailer (s e : nat) (_ : token) (_ : option node) (_ : token)
| IndexTrailer (s e : nat) (_ : token) (_ : node) (_ : token)
| DotNameTrailer (s e : nat) (_ : token) (_ : token)
| SubscriptList (s e : nat) (_ : list node) (_ : list token)
| Subscript (s e : nat) (_ : option node) (_ : option token) (_ : option node) (_ : option token) (_ : option node)
| ExprList (s e : nat) (_ : list node) (_ : list token)
| TestList (s e : nat) (_ : list node) (_ : list token)
| DictionaryContainer (s e : nat) (_ : list node) (_ : list token)
| DictionaryEntry (s e : nat) (_ : node) (_ : token) (_ : node)
| SetContainer (s e : nat) (_ : list node) (_ : list token)
| MulSet (s e : nat) (_ : token) (_ : node)
| PowerDictionary (s e : nat) (_ : token) (_ : node)
| ClassDef (s e : nat) (_ : token) (_ : token) (_ : option token) (_ : option node) (_ : option token) (_ : token) (_ : node)
| ArgList (s e : nat) (_ : list node) (_ : list token)
| Argument (s e : nat) (_ : option node) (_ : option token) (_ : option node)
| SyncCompForComprehension (s e : nat) (_ : token) (_ : node) (_ : token) (_ : node) (_ : option node)
| CompForComprehension (s e : nat) (_ : token) (_ : node)
| CompIfComprehension (s e : nat) (_ : token) (_ : node) (_ : option node)
| YieldExpr (s e : nat) (_ : token) (_ : node)
| YieldFromExpr (s e : nat) (_ : token) (_ : token) (_ : node)
| FuncBodySuite (s e : nat) (_ : token) (_ : option token) (_ : option token) (_ : token) (_ : list node) (_ : token)
| FuncTypeInput (s e : nat) (_ : node) (_ : list token) (_ : token)
| FuncType (s e : nat) (_ : token) (_ : option node) (_ : token) (_ : token) (_ : node)
| TypeList (s e : nat) (_ : list node) (_ : list token) (_ : option token) (_ : option node) (_ : option token) (_ : option node)
| TestListStarExpr (s e : nat) (_ : list node) (_ : list token)
| SimpleStmtList (s e : nat) (_ : list node) (_ : list token) (_ : token)
| PlusAssignStmt (s e : nat) (_ : node) (_ : token) (_ : node)
| MinusAssignStmt (s e : nat) (_ : node) (_ : token) (_ : node)
| MulAssignStmt (s e : nat) (_ : node) (_ : token) (_ : node)
| DivAssignStmt (s e : nat) (_ : node) (_ : token) (_ : node)
| FloorDivAssignStmt (s e : nat) (_ : node) (_ : token) (_ : node)
| ModuloAssignStmt (s e : nat) (_ : node) (_ : token) (_ : node)
| MatriceAssignStmt (s e : nat) (_ : node) (_ : token) (_ : node)
| PowerAssignStmt (s e : nat) (_ : node) (_ : token) (_ : node)
| ShiftLeftAssignStmt (s e : nat) (_ : node) (_ : token) (_ : node)
| ShiftRightAssignStmt (s e : nat) (_ : node) (_ : token) (_ : node)
| BitOrAssignStmt (s e : nat) (_ : node) (_ : token) (_ : node)
| BitXorAssignStmt (s e : nat) (_ : node) (_ : token) (_ : node)
| BitAndAssignStmt (s e : nat) (_ : node) (_ : token) (_ : node)
| AnnAssignStmt (s e : nat) (_ : node) (_ : token) (_ : node) (_ : option (token * node))
| AssignmentStmt (s e : nat) (_ : node) (_ : list (token * node)) (_ : option token)
| DelStmt (s e : nat) (_ : token) (_ : node)
| PassStmt (s e : nat) (_ : token)
| BreakStmt (s e : nat) (_ : token)
| ContinueStmt (s e : nat) (_ : token)
| ReturnStmt (s e : nat) (_ : token) (_ : option node)
| RaiseStmt (s e : nat) (_ : token) (_ : option (node * (option (token * node))))
| ImportNameStmt (s e : nat) (_ : token) (_ : node)
| ImportFromStmt (s e : nat) (_ : token) (_ : list token) (_ : option node) (_ : token) (_ : option token) (_ : option node) (_ : option token)
| ImportAsName (s e : nat) (_ : token) (_ : option (token * token))
| DottedAsNameStmt (s e : nat) (_ : node) (_ : option (token * token))
| ImportAsNamesStmt (s e : nat) (_ : list node) (_ : list token)
| DottedAsNamesStmt (s e : nat) (_ : list node) (_ : list token)
| DottedNameStmt (s e : nat) (_ : list token) (_ : list token)
| GlobalStmt (s e : nat) (_ : token) (_ : list token) (_ : list token)
| NonLocalStmt (s e : nat) (_ : token) (_ : list token) (_ : list token)
| AssertStmt (s e : nat) (_ : token) (_ : node) (_ : option (token * node))
| AsyncStmt (s e : nat) (_ : token) (_ : node)
| IfStmt (s e : nat) (_ : token) (_ : node) (_ : token) (_ : node) (_ : list node) (_ : option node)
| ElifStmt (s e : nat) (_ : token) (_ : node) (_ : token) (_ : node)
| ElseStmt (s e : nat) (_ : token) (_ : token) (_ : node)
| WhileStmt (s e : nat) (_ : token) (_ : node) (_ : token) (_ : node) (_ : option node)
| ForStmt (s e : nat) (_ : token) (_ : node) (_ : token) (_ : node) (_ : token) (_ : option token) (_ : node) (_ : option node)
| TryStmt (s e : nat) (_ : token) (_ : token) (_ : node) (_ : option (list node)) (_ : option node) (_ : option node)
| FinallyStmt (s e : nat) (_ : token) (_ : token) (_ : node)
| WithStmt (s e : nat) (_ : token) (_ : option token) (_ : list node) (_ : list token) (_ : option token) (_ : token) (_ : node)
| WithItem (s e : nat) (_ : node) (_ : option (token * node))
| ExceptClauseStmt (s e : nat) (_ : token) (_ : option token) (_ : option (node * (option (token * token))))
| ExceptStmt (s e : nat) (_ : node) (_ : token) (_ : node)
| SuiteStmt (s e : nat) (_ : token) (_ : token) (_ : list node) (_ : token)
| Decorator (s e : nat) (_ : token) (_ : node) (_ : option token) (_ : option node) (_ : option token) (_ : token)
| Decorators (s e : nat) (_ : list node)
| Decorated (s e : nat) (_ : node) (_ : node)
| FuncDef (s e : nat) (_ : token) (_ : token) (_ : option node) (_ : option (token * node)) (_ : token) (_ : option token) (_ : node)
| ParameterList (s e : nat) (_ : token) (_ : option node) (_ : token)
| TypedArgsList (s e : nat) (_ : list node) (_ : list token) (_ : list token) (_ : option (token * node)) (_ : option (token * node))
| TFPAssign (s e : nat) (_ : node) (_ : token) (_ : node)
| TFPDef (s e : nat) (_ : token) (_ : option (token * node))
| VarArgsList (s e : nat) (_ : list node) (_ : list token) (_ : option token) (_ : option node) (_ : option token) (_ : option node) (_ : option token)
| VFPAssign (s e : nat) (_ : node) (_ : token) (_ : node)
| VFPDef (s e : nat) (_ : token)
| SingleInput (s e : nat) (_ : option node) (_ : option token)
| FileInput (s e : nat) (_ : list node) (_ : list token) (_ : token)
| EvalInput (s e : nat) (_ : node) (_ : list token) (_ : token).

Definition node_start (n : node) : nat :=
  match n with
  | NamedExpr s _ _ _ _ => s
  | Test s _ _ _ _ _ _ => s
  | Lambda s _ _ _ _ _ => s
  | OrTest s _ _ _ _ => s
  | AndTest s _ _ _ _ => s
  | NotTest s _ _ _ => s
  | LessComparison s _ _ _ _ => s
  | LessEqualComparison s _ _ _ _ => s
  | EqualComparison s _ _ _ _ => s
  | GreaterComparison s _ _ _ _ => s
  | GreaterEqualComparison s _ _ _ _ => s
  | NotEqualComparison s _ _ _ _ => s
  | InComparison s _ _ _ _ => s
  | IsComparison s _ _ _ _ => s
  | NotInComparison s _ _ _ _ _ => s
  | IsNotComparison s _ _ _ _ _ => s
  | StarExpr s _ _ _ => s
  | Expr s _ _ _ _ => s
  | XorExpr s _ _ _ _ => s
  | AndExpr s _ _ _ _ => s
  | ShiftLeftExpr s _ _ _ _ => s
  | ShiftRightExpr s _ _ _ _ => s
  | PlusArithExpr s _ _ _ _ => s
  | MinusArithExpr s _ _ _ _ => s
  | MulTerm s _ _ _ _ => s
  | DivTerm s _ _ _ _ => s
  | FloorDivTerm s _ _ _ _ => s
  | ModuloTerm s _ _ _ _ => s
  | MatriceTerm s _ _ _ _ => s
  | UnaryPlus s _ _ _ => s
  | UnaryMinus s _ _ _ => s
  | UnaryInvert s _ _ _ => s
  | PowerExpr s _ _ _ _ => s
  | AtomExpr s _ _ _ _ => s
  | AtomName s _ _ => s
  | AtomNumber s _ _ => s
  | AtomString s _ _ => s
  | AtomElipsis s _ _ => s
  | AtomNone s _ _ => s
  | AtomTrue s _ _ => s
  | AtomFalse s _ _ => s
  | AtomTuple s _ _ _ _ => s
  | AtomList s _ _ _ _ => s
  | AtomDictionary s _ _ _ _ => s
  | AtomSet s _ _ _ _ => s
  | TestListComp s _ _ _ => s
  | CallTrailer s _ _ _ _ => s
  | IndexTrailer s _ _ _ _ => s
  | DotNameTrailer s _ _ _ => s
  | SubscriptList s _ _ _ => s
  | Subscript s _ _ _ _ _ _ => s
  | ExprList s _ _ _ => s
  | TestList s _ _ _ => s
  | DictionaryContainer s _ _ _ => s
  | DictionaryEntry s _ _ _ _ => s
  | SetContainer s _ _ _ => s
  | MulSet s _ _ _ => s
  | PowerDictionary s _ _ _ => s
  | ClassDef s _ _ _ _ _ _ _ _ => s
  | ArgList s _ _ _ => s
  | Argument s _ _ _ _ => s
  | SyncCompForComprehension s _ _ _ _ _ _ => s
  | CompForComprehension s _ _ _ => s
  | CompIfComprehension s _ _ _ _ => s
  | YieldExpr s _ _ _ => s
  | YieldFromExpr s _ _ _ _ => s
  | FuncBodySuite s _ _ _ _ _ _ _ => s
  | FuncTypeInput s _ _ _ _ => s
  | FuncType s _ _ _ _ _ _ => s
  | TypeList s _ _ _ _ _ _ _ => s
  | TestListStarExpr s _ _ _ => s
  | SimpleStmtList s _ _ _ _ => s
  | PlusAssignStmt s _ _ _ _ => s
  | MinusAssignStmt s _ _ _ _ => s
  | MulAssignStmt s _ _ _ _ => s
  | DivAssignStmt s _ _ _ _ => s
  | FloorDivAssignStmt s _ _ _ _ => s
  | ModuloAssignStmt s _ _ _ _ => s
  | MatriceAssignStmt s _ _ _ _ => s
  | PowerAssignStmt s _ _ _ _ => s
  | ShiftLeftAssignStmt s _ _ _ _ => s
  | ShiftRightAssignStmt s _ _ _ _ => s
  | BitOrAssignStmt s _ _ _ _ => s
  | BitXorAssignStmt s _ _ _ _ => s
  | BitAndAssignStmt s _ _ _ _ => s
  | AnnAssignStmt s _ _ _ _ _ => s
  | AssignmentStmt s _ _ _ _ => s
  | DelStmt s _ _ _ => s
  | PassStmt s _ _ => s
  | BreakStmt s _ _ => s
  | ContinueStmt s _ _ => s
  | ReturnStmt s _ _ _ => s
  | RaiseStmt s _ _ _ => s
  | ImportNameStmt s _ _ _ => s
  | ImportFromStmt s _ _ _ _ _ _ _ _ => s
  | ImportAsName s _ _ _ => s
  | DottedAsNameStmt s _ _ _ => s
  | ImportAsNamesStmt s _ _ _ => s
  | DottedAsNamesStmt s _ _ _ => s
  | DottedNameStmt s _ _ _ => s
  | GlobalStmt s _ _ _ _ => s
  | NonLocalStmt s _ _ _ _ => s
  | AssertStmt s _ _ _ _ => s
  | AsyncStmt s _ _ _ => s
  | IfStmt s _ _ _ _ _ _ _ => s
  | ElifStmt s _ _ _ _ _ => s
  | ElseStmt s _ _ _ _ => s
  | WhileStmt s _ _ _ _ _ _ => s
  | ForStmt s _ _ _ _ _ _ _ _ _ => s
  | TryStmt s _ _ _ _ _ _ _ => s
  | FinallyStmt s _ _ _ _ => s
  | WithStmt s _ _ _ _ _ _ _ _ => s
  | WithItem s _ _ _ => s
  | ExceptClauseStmt s _ _ _ _ => s
  | ExceptStmt s _ _ _ _ => s
  | SuiteStmt s _ _ _ _ _ => s
  | Decorator s _ _ _ _ _ _ _ => s
  | Decorators s _ _ => s
  | Decorated s _ _ _ => s
  | FuncDef s _ _ _ _ _ _ _ _ => s
  | ParameterList s _ _ _ _ => s
  | TypedArgsList s _ _ _ _ _ _ => s
  | TFPAssign s _ _ _ _ => s
  | TFPDef s _ _ _ => s
  | VarArgsList s _ _ _ _ _ _ _ _ => s
  | VFPAssign s _ _ _ _ => s
  | VFPDef s _ _ => s
  | SingleInput s _ _ _ => s
  | FileInput s _ _ _ _ => s
  | EvalInput s _ _ _ _ => s
  end.

Definition node_end (n : node) : nat :=
  match n with
  | NamedExpr _ e _ _ _ => e
  | Test _ e _ _ _ _ _ => e
  | Lambda _ e _ _ _ _ => e
  | OrTest _ e _ _ _ => e
  | AndTest _ e _ _ _ => e
  | NotTest _ e _ _ => e
  | LessComparison _ e _ _ _ => e
  | LessEqualComparison _ e _ _ _ => e
  | EqualComparison _ e _ _ _ => e
  | GreaterComparison _ e _ _ _ => e
  | GreaterEqualComparison _ e _ _ _ => e
  | NotEqualComparison _ e _ _ _ => e
  | InComparison _ e _ _ _ => e
  | IsComparison _ e _ _ _ => e
  | NotInComparison _ e _ _ _ _ => e
  | IsNotComparison _ e _ _ _ _ => e
  | StarExpr _ e _ _ => e
  | Expr _ e _ _ _ => e
  | XorExpr _ e _ _ _ => e
  | AndExpr _ e _ _ _ => e
  | ShiftLeftExpr _ e _ _ _ => e
  | ShiftRightExpr _ e _ _ _ => e
  | PlusArithExpr _ e _ _ _ => e
  | MinusArithExpr _ e _ _ _ => e
  | MulTerm _ e _ _ _ => e
  | DivTerm _ e _ _ _ => e
  | FloorDivTerm _ e _ _ _ => e
  | ModuloTerm _ e _ _ _ => e
  | MatriceTerm _ e _ _ _ => e
  | UnaryPlus _ e _ _ => e
  | UnaryMinus _ e _ _ => e
  | UnaryInvert _ e _ _ => e
  | PowerExpr _ e _ _ _ => e
  | AtomExpr _ e _ _ _ => e
  | AtomName _ e _ => e
  | AtomNumber _ e _ => e
  | AtomString _ e _ => e
  | AtomElipsis _ e _ => e
  | AtomNone _ e _ => e
  | AtomTrue _ e _ => e
  | AtomFalse _ e _ => e
  | AtomTuple _ e _ _ _ => e
  | AtomList _ e _ _ _ => e
  | AtomDictionary _ e _ _ _ => e
  | AtomSet _ e _ _ _ => e
  | TestListComp _ e _ _ => e
  | CallTrailer _ e _ _ _ => e
  | IndexTrailer _ e _ _ _ => e
  | DotNameTrailer _ e _ _ => e
  | SubscriptList _ e _ _ => e
  | Subscript _ e _ _ _ _ _ => e
  | ExprList _ e _ _ => e
  | TestList _ e _ _ => e
  | DictionaryContainer _ e _ _ => e
  | DictionaryEntry _ e _ _ _ => e
  | SetContainer _ e _ _ => e
  | MulSet _ e _ _ => e
  | PowerDictionary _ e _ _ => e
  | ClassDef _ e _ _ _ _ _ _ _ => e
  | ArgList _ e _ _ => e
  | Argument _ e _ _ _ => e
  | SyncCompForComprehension _ e _ _ _ _ _ => e
  | CompForComprehension _ e _ _ => e
  | CompIfComprehension _ e _ _ _ => e
  | YieldExpr _ e _ _ => e
  | YieldFromExpr _ e _ _ _ => e
  | FuncBodySuite _ e _ _ _ _ _ _ => e
  | FuncTypeInput _ e _ _ _ => e
  | FuncType _ e _ _ _ _ _ => e
  | TypeList _ e _ _ _ _ _ _ => e
  | TestListStarExpr _ e _ _ => e
  | SimpleStmtList _ e _ _ _ => e
  | PlusAssignStmt _ e _ _ _ => e
  | MinusAssignStmt _ e _ _ _ => e
  | MulAssignStmt _ e _ _ _ => e
  | DivAssignStmt _ e _ _ _ => e
  | FloorDivAssignStmt _ e _ _ _ => e
  | ModuloAssignStmt _ e _ _ _ => e
  | MatriceAssignStmt _ e _ _ _ => e
  | PowerAssignStmt _ e _ _ _ => e
  | ShiftLeftAssignStmt _ e _ _ _ => e
  | ShiftRightAssignStmt _ e _ _ _ => e
  | BitOrAssignStmt _ e _ _ _ => e
  | BitXorAssignStmt _ e _ _ _ => e
  | BitAndAssignStmt _ e _ _ _ => e
  | AnnAssignStmt _ e _ _ _ _ => e
  | AssignmentStmt _ e _ _ _ => e
  | DelStmt _ e _ _ => e
  | PassStmt _ e _ => e
  | BreakStmt _ e _ => e
  | ContinueStmt _ e _ => e
  | ReturnStmt _ e _ _ => e
  | RaiseStmt _ e _ _ => e
  | ImportNameStmt _ e _ _ => e
  | ImportFromStmt _ e _ _ _ _ _ _ _ => e
  | ImportAsName _ e _ _ => e
  | DottedAsNameStmt _ e _ _ => e
  | ImportAsNamesStmt _ e _ _ => e
  | DottedAsNamesStmt _ e _ _ => e
  | DottedNameStmt _ e _ _ => e
  | GlobalStmt _ e _ _ _ => e
  | NonLocalStmt _ e _ _ _ => e
  | AssertStmt _ e _ _ _ => e
  | AsyncStmt _ e _ _ => e
  | IfStmt _ e _ _ _ _ _ _ => e
  | ElifStmt _ e _ _ _ _ => e
  | ElseStmt _ e _ _ _ => e
  | WhileStmt _ e _ _ _ _ _ => e
  | ForStmt _ e _ _ _ _ _ _ _ _ => e
  | TryStmt _ e _ _ _ _ _ _ => e
  | FinallyStmt _ e _ _ _ => e
  | WithStmt _ e _ _ _ _ _ _ _ => e
  | WithItem _ e _ _ => e
  | ExceptClauseStmt _ e _ _ _ => e
  | ExceptStmt _ e _ _ _ => e
  | SuiteStmt _ e _ _ _ _ => e
  | Decorator _ e _ _ _ _ _ _ => e
  | Decorators _ e _ => e
  | Decorated _ e _ _ => e
  | FuncDef _ e _ _ _ _ _ _ _ => e
  | ParameterList _ e _ _ _ => e
  | TypedArgsList _ e _ _ _ _ _ => e
  | TFPAssign _ e _ _ _ => e
  | TFPDef _ e _ _ => e
  | VarArgsList _ e _ _ _ _ _ _ _ => e
  | VFPAssign _ e _ _ _ => e
  | VFPDef _ e _ => e
  | SingleInput _ e _ _ => e
  | FileInput _ e _ _ _ => e
  | EvalInput _ e _ _ _ => e
  end.
