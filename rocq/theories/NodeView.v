(** Views of the syntax tree of Node.v: direct components of a node in field order, all tokens
    stored in a tree, all its subtrees, and an induction principle.  Not modelled code. *)
From Coq Require Import Arith Lia.
From Verif Require Import Chars Token Node.

Inductive item := Leaf (t : token) | Sub (n : node).

Definition opt_nodes (o : option node) : list item :=
  match o with Some a => [Sub a] | None => [] end.
Definition opt_tokens (o : option token) : list item :=
  match o with Some t => [Leaf t] | None => [] end.
Definition opt_list_nodes (o : option (list node)) : list item :=
  match o with Some l => map Sub l | None => [] end.
Definition pairs (l : list (token * node)) : list item :=
  flat_map (fun p => [Leaf (fst p); Sub (snd p)]) l.
Definition opt_pair (o : option (token * node)) : list item :=
  match o with Some (t, a) => [Leaf t; Sub a] | None => [] end.
Definition opt_tokens2 (o : option (token * token)) : list item :=
  match o with Some (t, u) => [Leaf t; Leaf u] | None => [] end.
Definition opt_node_pair (o : option (node * option (token * node))) : list item :=
  match o with
  | Some (a, Some (t, b)) => [Sub a; Leaf t; Sub b]
  | Some (a, None) => [Sub a]
  | None => []
  end.
Definition opt_node_tokens2 (o : option (node * option (token * token))) : list item :=
  match o with
  | Some (a, Some (t, u)) => [Sub a; Leaf t; Leaf u]
  | Some (a, None) => [Sub a]
  | None => []
  end.

(** Components in field order. *)
Definition items (n : node) : list item :=
  match n with
  | NamedExpr _ _ a b c => ([Sub a]) ++ ([Leaf b]) ++ ([Sub c])
  | Test _ _ a b c d f => ([Sub a]) ++ ([Leaf b]) ++ ([Sub c]) ++ ([Leaf d]) ++ ([Sub f])
  | Lambda _ _ a b c d => ([Leaf a]) ++ (opt_nodes b) ++ ([Leaf c]) ++ ([Sub d])
  | OrTest _ _ a b c => ([Sub a]) ++ ([Leaf b]) ++ ([Sub c])
  | AndTest _ _ a b c => ([Sub a]) ++ ([Leaf b]) ++ ([Sub c])
  | NotTest _ _ a b => ([Leaf a]) ++ ([Sub b])
  | LessComparison _ _ a b c => ([Sub a]) ++ ([Leaf b]) ++ ([Sub c])
  | LessEqualComparison _ _ a b c => ([Sub a]) ++ ([Leaf b]) ++ ([Sub c])
  | EqualComparison _ _ a b c => ([Sub a]) ++ ([Leaf b]) ++ ([Sub c])
  | GreaterComparison _ _ a b c => ([Sub a]) ++ ([Leaf b]) ++ ([Sub c])
  | GreaterEqualComparison _ _ a b c => ([Sub a]) ++ ([Leaf b]) ++ ([Sub c])
  | NotEqualComparison _ _ a b c => ([Sub a]) ++ ([Leaf b]) ++ ([Sub c])
  | InComparison _ _ a b c => ([Sub a]) ++ ([Leaf b]) ++ ([Sub c])
  | IsComparison _ _ a b c => ([Sub a]) ++ ([Leaf b]) ++ ([Sub c])
  | NotInComparison _ _ a b c d => ([Sub a]) ++ ([Leaf b]) ++ ([Leaf c]) ++ ([Sub d])
  | IsNotComparison _ _ a b c d => ([Sub a]) ++ ([Leaf b]) ++ ([Leaf c]) ++ ([Sub d])
  | StarExpr _ _ a b => ([Leaf a]) ++ ([Sub b])
  | Expr _ _ a b c => ([Sub a]) ++ ([Leaf b]) ++ ([Sub c])
  | XorExpr _ _ a b c => ([Sub a]) ++ ([Leaf b]) ++ ([Sub c])
  | AndExpr _ _ a b c => ([Sub a]) ++ ([Leaf b]) ++ ([Sub c])
  | ShiftLeftExpr _ _ a b c => ([Sub a]) ++ ([Leaf b]) ++ ([Sub c])
  | ShiftRightExpr _ _ a b c => ([Sub a]) ++ ([Leaf b]) ++ ([Sub c])
  | PlusArithExpr _ _ a b c => ([Sub a]) ++ ([Leaf b]) ++ ([Sub c])
  | MinusArithExpr _ _ a b c => ([Sub a]) ++ ([Leaf b]) ++ ([Sub c])
  | MulTerm _ _ a b c => ([Sub a]) ++ ([Leaf b]) ++ ([Sub c])
  | DivTerm _ _ a b c => ([Sub a]) ++ ([Leaf b]) ++ ([Sub c])
  | FloorDivTerm _ _ a b c => ([Sub a]) ++ ([Leaf b]) ++ ([Sub c])
  | ModuloTerm _ _ a b c => ([Sub a]) ++ ([Leaf b]) ++ ([Sub c])
  | MatriceTerm _ _ a b c => ([Sub a]) ++ ([Leaf b]) ++ ([Sub c])
  | UnaryPlus _ _ a b => ([Leaf a]) ++ ([Sub b])
  | UnaryMinus _ _ a b => ([Leaf a]) ++ ([Sub b])
  | UnaryInvert _ _ a b => ([Leaf a]) ++ ([Sub b])
  | PowerExpr _ _ a b c => ([Sub a]) ++ ([Leaf b]) ++ ([Sub c])
  | AtomExpr _ _ a b c => (opt_tokens a) ++ ([Sub b]) ++ (map Sub c)
  | AtomName _ _ a => ([Leaf a])
  | AtomNumber _ _ a => ([Leaf a])
  | AtomString _ _ a => (map Leaf a)
  | AtomElipsis _ _ a => ([Leaf a])
  | AtomNone _ _ a => ([Leaf a])
  | AtomTrue _ _ a => ([Leaf a])
  | AtomFalse _ _ a => ([Leaf a])
  | AtomTuple _ _ a b c => ([Leaf a]) ++ (opt_nodes b) ++ ([Leaf c])
  | AtomList _ _ a b c => ([Leaf a]) ++ (opt_nodes b) ++ ([Leaf c])
  | AtomDictionary _ _ a b c => ([Leaf a]) ++ (opt_nodes b) ++ ([Leaf c])
  | AtomSet _ _ a b c => ([Leaf a]) ++ (opt_nodes b) ++ ([Leaf c])
  | TestListComp _ _ a b => (map Sub a) ++ (map Leaf b)
  | CallTrailer _ _ a b c => ([Leaf a]) ++ (opt_nodes b) ++ ([Leaf c])
  | IndexTrailer _ _ a b c => ([Leaf a]) ++ ([Sub b]) ++ ([Leaf c])
  | DotNameTrailer _ _ a b => ([Leaf a]) ++ ([Leaf b])
  | SubscriptList _ _ a b => (map Sub a) ++ (map Leaf b)
  | Subscript _ _ a b c d f => (opt_nodes a) ++ (opt_tokens b) ++ (opt_nodes c) ++ (opt_tokens d) ++ (opt_nodes f)
  | ExprList _ _ a b => (map Sub a) ++ (map Leaf b)
  | TestList _ _ a b => (map Sub a) ++ (map Leaf b)
  | DictionaryContainer _ _ a b => (map Sub a) ++ (map Leaf b)
  | DictionaryEntry _ _ a b c => ([Sub a]) ++ ([Leaf b]) ++ ([Sub c])
  | SetContainer _ _ a b => (map Sub a) ++ (map Leaf b)
  | MulSet _ _ a b => ([Leaf a]) ++ ([Sub b])
  | PowerDictionary _ _ a b => ([Leaf a]) ++ ([Sub b])
  | ClassDef _ _ a b c d f g h => ([Leaf a]) ++ ([Leaf b]) ++ (opt_tokens c) ++ (opt_nodes d) ++ (opt_tokens f) ++ ([Leaf g]) ++ ([Sub h])
  | ArgList _ _ a b => (map Sub a) ++ (map Leaf b)
  | Argument _ _ a b c => (opt_nodes a) ++ (opt_tokens b) ++ (opt_nodes c)
  | SyncCompForComprehension _ _ a b c d f => ([Leaf a]) ++ ([Sub b]) ++ ([Leaf c]) ++ ([Sub d]) ++ (opt_nodes f)
  | CompForComprehension _ _ a b => ([Leaf a]) ++ ([Sub b])
  | CompIfComprehension _ _ a b c => ([Leaf a]) ++ ([Sub b]) ++ (opt_nodes c)
  | YieldExpr _ _ a b => ([Leaf a]) ++ ([Sub b])
  | YieldFromExpr _ _ a b c => ([Leaf a]) ++ ([Leaf b]) ++ ([Sub c])
  | FuncBodySuite _ _ a b c d f g => ([Leaf a]) ++ (opt_tokens b) ++ (opt_tokens c) ++ ([Leaf d]) ++ (map Sub f) ++ ([Leaf g])
  | FuncTypeInput _ _ a b c => ([Sub a]) ++ (map Leaf b) ++ ([Leaf c])
  | FuncType _ _ a b c d f => ([Leaf a]) ++ (opt_nodes b) ++ ([Leaf c]) ++ ([Leaf d]) ++ ([Sub f])
  | TypeList _ _ a b c d f g => (map Sub a) ++ (map Leaf b) ++ (opt_tokens c) ++ (opt_nodes d) ++ (opt_tokens f) ++ (opt_nodes g)
  | TestListStarExpr _ _ a b => (map Sub a) ++ (map Leaf b)
  | SimpleStmtList _ _ a b c => (map Sub a) ++ (map Leaf b) ++ ([Leaf c])
  | PlusAssignStmt _ _ a b c => ([Sub a]) ++ ([Leaf b]) ++ ([Sub c])
  | MinusAssignStmt _ _ a b c => ([Sub a]) ++ ([Leaf b]) ++ ([Sub c])
  | MulAssignStmt _ _ a b c => ([Sub a]) ++ ([Leaf b]) ++ ([Sub c])
  | DivAssignStmt _ _ a b c => ([Sub a]) ++ ([Leaf b]) ++ ([Sub c])
  | FloorDivAssignStmt _ _ a b c => ([Sub a]) ++ ([Leaf b]) ++ ([Sub c])
  | ModuloAssignStmt _ _ a b c => ([Sub a]) ++ ([Leaf b]) ++ ([Sub c])
  | MatriceAssignStmt _ _ a b c => ([Sub a]) ++ ([Leaf b]) ++ ([Sub c])
  | PowerAssignStmt _ _ a b c => ([Sub a]) ++ ([Leaf b]) ++ ([Sub c])
  | ShiftLeftAssignStmt _ _ a b c => ([Sub a]) ++ ([Leaf b]) ++ ([Sub c])
  | ShiftRightAssignStmt _ _ a b c => ([Sub a]) ++ ([Leaf b]) ++ ([Sub c])
  | BitOrAssignStmt _ _ a b c => ([Sub a]) ++ ([Leaf b]) ++ ([Sub c])
  | BitXorAssignStmt _ _ a b c => ([Sub a]) ++ ([Leaf b]) ++ ([Sub c])
  | BitAndAssignStmt _ _ a b c => ([Sub a]) ++ ([Leaf b]) ++ ([Sub c])
  | AnnAssignStmt _ _ a b c d => ([Sub a]) ++ ([Leaf b]) ++ ([Sub c]) ++ (opt_pair d)
  | AssignmentStmt _ _ a b c => ([Sub a]) ++ (pairs b) ++ (opt_tokens c)
  | DelStmt _ _ a b => ([Leaf a]) ++ ([Sub b])
  | PassStmt _ _ a => ([Leaf a])
  | BreakStmt _ _ a => ([Leaf a])
  | ContinueStmt _ _ a => ([Leaf a])
  | ReturnStmt _ _ a b => ([Leaf a]) ++ (opt_nodes b)
  | RaiseStmt _ _ a b => ([Leaf a]) ++ (opt_node_pair b)
  | ImportNameStmt _ _ a b => ([Leaf a]) ++ ([Sub b])
  | ImportFromStmt _ _ a b c d f g h => ([Leaf a]) ++ (map Leaf b) ++ (opt_nodes c) ++ ([Leaf d]) ++ (opt_tokens f) ++ (opt_nodes g) ++ (opt_tokens h)
  | ImportAsName _ _ a b => ([Leaf a]) ++ (opt_tokens2 b)
  | DottedAsNameStmt _ _ a b => ([Sub a]) ++ (opt_tokens2 b)
  | ImportAsNamesStmt _ _ a b => (map Sub a) ++ (map Leaf b)
  | DottedAsNamesStmt _ _ a b => (map Sub a) ++ (map Leaf b)
  | DottedNameStmt _ _ a b => (map Leaf a) ++ (map Leaf b)
  | GlobalStmt _ _ a b c => ([Leaf a]) ++ (map Leaf b) ++ (map Leaf c)
  | NonLocalStmt _ _ a b c => ([Leaf a]) ++ (map Leaf b) ++ (map Leaf c)
  | AssertStmt _ _ a b c => ([Leaf a]) ++ ([Sub b]) ++ (opt_pair c)
  | AsyncStmt _ _ a b => ([Leaf a]) ++ ([Sub b])
  | IfStmt _ _ a b c d f g => ([Leaf a]) ++ ([Sub b]) ++ ([Leaf c]) ++ ([Sub d]) ++ (map Sub f) ++ (opt_nodes g)
  | ElifStmt _ _ a b c d => ([Leaf a]) ++ ([Sub b]) ++ ([Leaf c]) ++ ([Sub d])
  | ElseStmt _ _ a b c => ([Leaf a]) ++ ([Leaf b]) ++ ([Sub c])
  | WhileStmt _ _ a b c d f => ([Leaf a]) ++ ([Sub b]) ++ ([Leaf c]) ++ ([Sub d]) ++ (opt_nodes f)
  | ForStmt _ _ a b c d f g h i => ([Leaf a]) ++ ([Sub b]) ++ ([Leaf c]) ++ ([Sub d]) ++ ([Leaf f]) ++ (opt_tokens g) ++ ([Sub h]) ++ (opt_nodes i)
  | TryStmt _ _ a b c d f g => ([Leaf a]) ++ ([Leaf b]) ++ ([Sub c]) ++ (opt_list_nodes d) ++ (opt_nodes f) ++ (opt_nodes g)
  | FinallyStmt _ _ a b c => ([Leaf a]) ++ ([Leaf b]) ++ ([Sub c])
  | WithStmt _ _ a b c d f g h => ([Leaf a]) ++ (opt_tokens b) ++ (map Sub c) ++ (map Leaf d) ++ (opt_tokens f) ++ ([Leaf g]) ++ ([Sub h])
  | WithItem _ _ a b => ([Sub a]) ++ (opt_pair b)
  | ExceptClauseStmt _ _ a b c => ([Leaf a]) ++ (opt_tokens b) ++ (opt_node_tokens2 c)
  | ExceptStmt _ _ a b c => ([Sub a]) ++ ([Leaf b]) ++ ([Sub c])
  | SuiteStmt _ _ a b c d => ([Leaf a]) ++ ([Leaf b]) ++ (map Sub c) ++ ([Leaf d])
  | Decorator _ _ a b c d f g => ([Leaf a]) ++ ([Sub b]) ++ (opt_tokens c) ++ (opt_nodes d) ++ (opt_tokens f) ++ ([Leaf g])
  | Decorators _ _ a => (map Sub a)
  | Decorated _ _ a b => ([Sub a]) ++ ([Sub b])
  | FuncDef _ _ a b c d f g h => ([Leaf a]) ++ ([Leaf b]) ++ (opt_nodes c) ++ (opt_pair d) ++ ([Leaf f]) ++ (opt_tokens g) ++ ([Sub h])
  | ParameterList _ _ a b c => ([Leaf a]) ++ (opt_nodes b) ++ ([Leaf c])
  | TypedArgsList _ _ a b c d f => (map Sub a) ++ (map Leaf b) ++ (map Leaf c) ++ (opt_pair d) ++ (opt_pair f)
  | TFPAssign _ _ a b c => ([Sub a]) ++ ([Leaf b]) ++ ([Sub c])
  | TFPDef _ _ a b => ([Leaf a]) ++ (opt_pair b)
  | VarArgsList _ _ a b c d f g h => (map Sub a) ++ (map Leaf b) ++ (opt_tokens c) ++ (opt_nodes d) ++ (opt_tokens f) ++ (opt_nodes g) ++ (opt_tokens h)
  | VFPAssign _ _ a b c => ([Sub a]) ++ ([Leaf b]) ++ ([Sub c])
  | VFPDef _ _ a => ([Leaf a])
  | SingleInput _ _ a b => (opt_nodes a) ++ (opt_tokens b)
  | FileInput _ _ a b c => (map Sub a) ++ (map Leaf b) ++ ([Leaf c])
  | EvalInput _ _ a b c => ([Sub a]) ++ (map Leaf b) ++ ([Leaf c])
  end.

(** All tokens stored in the tree, in field order. *)
Fixpoint tokens (n : node) : list token :=
  match n with
  | NamedExpr _ _ a b c => (tokens a) ++ [b] ++ (tokens c)
  | Test _ _ a b c d f => (tokens a) ++ [b] ++ (tokens c) ++ [d] ++ (tokens f)
  | Lambda _ _ a b c d => [a] ++ (match b with Some a => tokens a | None => [] end) ++ [c] ++ (tokens d)
  | OrTest _ _ a b c => (tokens a) ++ [b] ++ (tokens c)
  | AndTest _ _ a b c => (tokens a) ++ [b] ++ (tokens c)
  | NotTest _ _ a b => [a] ++ (tokens b)
  | LessComparison _ _ a b c => (tokens a) ++ [b] ++ (tokens c)
  | LessEqualComparison _ _ a b c => (tokens a) ++ [b] ++ (tokens c)
  | EqualComparison _ _ a b c => (tokens a) ++ [b] ++ (tokens c)
  | GreaterComparison _ _ a b c => (tokens a) ++ [b] ++ (tokens c)
  | GreaterEqualComparison _ _ a b c => (tokens a) ++ [b] ++ (tokens c)
  | NotEqualComparison _ _ a b c => (tokens a) ++ [b] ++ (tokens c)
  | InComparison _ _ a b c => (tokens a) ++ [b] ++ (tokens c)
  | IsComparison _ _ a b c => (tokens a) ++ [b] ++ (tokens c)
  | NotInComparison _ _ a b c d => (tokens a) ++ [b] ++ [c] ++ (tokens d)
  | IsNotComparison _ _ a b c d => (tokens a) ++ [b] ++ [c] ++ (tokens d)
  | StarExpr _ _ a b => [a] ++ (tokens b)
  | Expr _ _ a b c => (tokens a) ++ [b] ++ (tokens c)
  | XorExpr _ _ a b c => (tokens a) ++ [b] ++ (tokens c)
  | AndExpr _ _ a b c => (tokens a) ++ [b] ++ (tokens c)
  | ShiftLeftExpr _ _ a b c => (tokens a) ++ [b] ++ (tokens c)
  | ShiftRightExpr _ _ a b c => (tokens a) ++ [b] ++ (tokens c)
  | PlusArithExpr _ _ a b c => (tokens a) ++ [b] ++ (tokens c)
  | MinusArithExpr _ _ a b c => (tokens a) ++ [b] ++ (tokens c)
  | MulTerm _ _ a b c => (tokens a) ++ [b] ++ (tokens c)
  | DivTerm _ _ a b c => (tokens a) ++ [b] ++ (tokens c)
  | FloorDivTerm _ _ a b c => (tokens a) ++ [b] ++ (tokens c)
  | ModuloTerm _ _ a b c => (tokens a) ++ [b] ++ (tokens c)
  | MatriceTerm _ _ a b c => (tokens a) ++ [b] ++ (tokens c)
  | UnaryPlus _ _ a b => [a] ++ (tokens b)
  | UnaryMinus _ _ a b => [a] ++ (tokens b)
  | UnaryInvert _ _ a b => [a] ++ (tokens b)
  | PowerExpr _ _ a b c => (tokens a) ++ [b] ++ (tokens c)
  | AtomExpr _ _ a b c => (match a with Some t => [t] | None => [] end) ++ (tokens b) ++ (flat_map tokens c)
  | AtomName _ _ a => [a]
  | AtomNumber _ _ a => [a]
  | AtomString _ _ a => a
  | AtomElipsis _ _ a => [a]
  | AtomNone _ _ a => [a]
  | AtomTrue _ _ a => [a]
  | AtomFalse _ _ a => [a]
  | AtomTuple _ _ a b c => [a] ++ (match b with Some a => tokens a | None => [] end) ++ [c]
  | AtomList _ _ a b c => [a] ++ (match b with Some a => tokens a | None => [] end) ++ [c]
  | AtomDictionary _ _ a b c => [a] ++ (match b with Some a => tokens a | None => [] end) ++ [c]
  | AtomSet _ _ a b c => [a] ++ (match b with Some a => tokens a | None => [] end) ++ [c]
  | TestListComp _ _ a b => (flat_map tokens a) ++ b
  | CallTrailer _ _ a b c => [a] ++ (match b with Some a => tokens a | None => [] end) ++ [c]
  | IndexTrailer _ _ a b c => [a] ++ (tokens b) ++ [c]
  | DotNameTrailer _ _ a b => [a] ++ [b]
  | SubscriptList _ _ a b => (flat_map tokens a) ++ b
  | Subscript _ _ a b c d f => (match a with Some a => tokens a | None => [] end) ++ (match b with Some t => [t] | None => [] end) ++ (match c with Some a => tokens a | None => [] end) ++ (match d with Some t => [t] | None => [] end) ++ (match f with Some a => tokens a | None => [] end)
  | ExprList _ _ a b => (flat_map tokens a) ++ b
  | TestList _ _ a b => (flat_map tokens a) ++ b
  | DictionaryContainer _ _ a b => (flat_map tokens a) ++ b
  | DictionaryEntry _ _ a b c => (tokens a) ++ [b] ++ (tokens c)
  | SetContainer _ _ a b => (flat_map tokens a) ++ b
  | MulSet _ _ a b => [a] ++ (tokens b)
  | PowerDictionary _ _ a b => [a] ++ (tokens b)
  | ClassDef _ _ a b c d f g h => [a] ++ [b] ++ (match c with Some t => [t] | None => [] end) ++ (match d with Some a => tokens a | None => [] end) ++ (match f with Some t => [t] | None => [] end) ++ [g] ++ (tokens h)
  | ArgList _ _ a b => (flat_map tokens a) ++ b
  | Argument _ _ a b c => (match a with Some a => tokens a | None => [] end) ++ (match b with Some t => [t] | None => [] end) ++ (match c with Some a => tokens a | None => [] end)
  | SyncCompForComprehension _ _ a b c d f => [a] ++ (tokens b) ++ [c] ++ (tokens d) ++ (match f with Some a => tokens a | None => [] end)
  | CompForComprehension _ _ a b => [a] ++ (tokens b)
  | CompIfComprehension _ _ a b c => [a] ++ (tokens b) ++ (match c with Some a => tokens a | None => [] end)
  | YieldExpr _ _ a b => [a] ++ (tokens b)
  | YieldFromExpr _ _ a b c => [a] ++ [b] ++ (tokens c)
  | FuncBodySuite _ _ a b c d f g => [a] ++ (match b with Some t => [t] | None => [] end) ++ (match c with Some t => [t] | None => [] end) ++ [d] ++ (flat_map tokens f) ++ [g]
  | FuncTypeInput _ _ a b c => (tokens a) ++ b ++ [c]
  | FuncType _ _ a b c d f => [a] ++ (match b with Some a => tokens a | None => [] end) ++ [c] ++ [d] ++ (tokens f)
  | TypeList _ _ a b c d f g => (flat_map tokens a) ++ b ++ (match c with Some t => [t] | None => [] end) ++ (match d with Some a => tokens a | None => [] end) ++ (match f with Some t => [t] | None => [] end) ++ (match g with Some a => tokens a | None => [] end)
  | TestListStarExpr _ _ a b => (flat_map tokens a) ++ b
  | SimpleStmtList _ _ a b c => (flat_map tokens a) ++ b ++ [c]
  | PlusAssignStmt _ _ a b c => (tokens a) ++ [b] ++ (tokens c)
  | MinusAssignStmt _ _ a b c => (tokens a) ++ [b] ++ (tokens c)
  | MulAssignStmt _ _ a b c => (tokens a) ++ [b] ++ (tokens c)
  | DivAssignStmt _ _ a b c => (tokens a) ++ [b] ++ (tokens c)
  | FloorDivAssignStmt _ _ a b c => (tokens a) ++ [b] ++ (tokens c)
  | ModuloAssignStmt _ _ a b c => (tokens a) ++ [b] ++ (tokens c)
  | MatriceAssignStmt _ _ a b c => (tokens a) ++ [b] ++ (tokens c)
  | PowerAssignStmt _ _ a b c => (tokens a) ++ [b] ++ (tokens c)
  | ShiftLeftAssignStmt _ _ a b c => (tokens a) ++ [b] ++ (tokens c)
  | ShiftRightAssignStmt _ _ a b c => (tokens a) ++ [b] ++ (tokens c)
  | BitOrAssignStmt _ _ a b c => (tokens a) ++ [b] ++ (tokens c)
  | BitXorAssignStmt _ _ a b c => (tokens a) ++ [b] ++ (tokens c)
  | BitAndAssignStmt _ _ a b c => (tokens a) ++ [b] ++ (tokens c)
  | AnnAssignStmt _ _ a b c d => (tokens a) ++ [b] ++ (tokens c) ++ (match d with Some (t, a) => t :: tokens a | None => [] end)
  | AssignmentStmt _ _ a b c => (tokens a) ++ (flat_map (fun p => fst p :: tokens (snd p)) b) ++ (match c with Some t => [t] | None => [] end)
  | DelStmt _ _ a b => [a] ++ (tokens b)
  | PassStmt _ _ a => [a]
  | BreakStmt _ _ a => [a]
  | ContinueStmt _ _ a => [a]
  | ReturnStmt _ _ a b => [a] ++ (match b with Some a => tokens a | None => [] end)
  | RaiseStmt _ _ a b => [a] ++ (match b with Some (a, Some (t, b)) => tokens a ++ t :: tokens b | Some (a, None) => tokens a | None => [] end)
  | ImportNameStmt _ _ a b => [a] ++ (tokens b)
  | ImportFromStmt _ _ a b c d f g h => [a] ++ b ++ (match c with Some a => tokens a | None => [] end) ++ [d] ++ (match f with Some t => [t] | None => [] end) ++ (match g with Some a => tokens a | None => [] end) ++ (match h with Some t => [t] | None => [] end)
  | ImportAsName _ _ a b => [a] ++ (match b with Some (t, u) => [t; u] | None => [] end)
  | DottedAsNameStmt _ _ a b => (tokens a) ++ (match b with Some (t, u) => [t; u] | None => [] end)
  | ImportAsNamesStmt _ _ a b => (flat_map tokens a) ++ b
  | DottedAsNamesStmt _ _ a b => (flat_map tokens a) ++ b
  | DottedNameStmt _ _ a b => a ++ b
  | GlobalStmt _ _ a b c => [a] ++ b ++ c
  | NonLocalStmt _ _ a b c => [a] ++ b ++ c
  | AssertStmt _ _ a b c => [a] ++ (tokens b) ++ (match c with Some (t, a) => t :: tokens a | None => [] end)
  | AsyncStmt _ _ a b => [a] ++ (tokens b)
  | IfStmt _ _ a b c d f g => [a] ++ (tokens b) ++ [c] ++ (tokens d) ++ (flat_map tokens f) ++ (match g with Some a => tokens a | None => [] end)
  | ElifStmt _ _ a b c d => [a] ++ (tokens b) ++ [c] ++ (tokens d)
  | ElseStmt _ _ a b c => [a] ++ [b] ++ (tokens c)
  | WhileStmt _ _ a b c d f => [a] ++ (tokens b) ++ [c] ++ (tokens d) ++ (match f with Some a => tokens a | None => [] end)
  | ForStmt _ _ a b c d f g h i => [a] ++ (tokens b) ++ [c] ++ (tokens d) ++ [f] ++ (match g with Some t => [t] | None => [] end) ++ (tokens h) ++ (match i with Some a => tokens a | None => [] end)
  | TryStmt _ _ a b c d f g => [a] ++ [b] ++ (tokens c) ++ (match d with Some l => flat_map tokens l | None => [] end) ++ (match f with Some a => tokens a | None => [] end) ++ (match g with Some a => tokens a | None => [] end)
  | FinallyStmt _ _ a b c => [a] ++ [b] ++ (tokens c)
  | WithStmt _ _ a b c d f g h => [a] ++ (match b with Some t => [t] | None => [] end) ++ (flat_map tokens c) ++ d ++ (match f with Some t => [t] | None => [] end) ++ [g] ++ (tokens h)
  | WithItem _ _ a b => (tokens a) ++ (match b with Some (t, a) => t :: tokens a | None => [] end)
  | ExceptClauseStmt _ _ a b c => [a] ++ (match b with Some t => [t] | None => [] end) ++ (match c with Some (a, Some (t, u)) => tokens a ++ [t; u] | Some (a, None) => tokens a | None => [] end)
  | ExceptStmt _ _ a b c => (tokens a) ++ [b] ++ (tokens c)
  | SuiteStmt _ _ a b c d => [a] ++ [b] ++ (flat_map tokens c) ++ [d]
  | Decorator _ _ a b c d f g => [a] ++ (tokens b) ++ (match c with Some t => [t] | None => [] end) ++ (match d with Some a => tokens a | None => [] end) ++ (match f with Some t => [t] | None => [] end) ++ [g]
  | Decorators _ _ a => (flat_map tokens a)
  | Decorated _ _ a b => (tokens a) ++ (tokens b)
  | FuncDef _ _ a b c d f g h => [a] ++ [b] ++ (match c with Some a => tokens a | None => [] end) ++ (match d with Some (t, a) => t :: tokens a | None => [] end) ++ [f] ++ (match g with Some t => [t] | None => [] end) ++ (tokens h)
  | ParameterList _ _ a b c => [a] ++ (match b with Some a => tokens a | None => [] end) ++ [c]
  | TypedArgsList _ _ a b c d f => (flat_map tokens a) ++ b ++ c ++ (match d with Some (t, a) => t :: tokens a | None => [] end) ++ (match f with Some (t, a) => t :: tokens a | None => [] end)
  | TFPAssign _ _ a b c => (tokens a) ++ [b] ++ (tokens c)
  | TFPDef _ _ a b => [a] ++ (match b with Some (t, a) => t :: tokens a | None => [] end)
  | VarArgsList _ _ a b c d f g h => (flat_map tokens a) ++ b ++ (match c with Some t => [t] | None => [] end) ++ (match d with Some a => tokens a | None => [] end) ++ (match f with Some t => [t] | None => [] end) ++ (match g with Some a => tokens a | None => [] end) ++ (match h with Some t => [t] | None => [] end)
  | VFPAssign _ _ a b c => (tokens a) ++ [b] ++ (tokens c)
  | VFPDef _ _ a => [a]
  | SingleInput _ _ a b => (match a with Some a => tokens a | None => [] end) ++ (match b with Some t => [t] | None => [] end)
  | FileInput _ _ a b c => (flat_map tokens a) ++ b ++ [c]
  | EvalInput _ _ a b c => (tokens a) ++ b ++ [c]
  end.

(** The tree and all its subtrees. *)
Fixpoint subnodes (n : node) : list node :=
  n :: match n with
  | NamedExpr _ _ a _ c => (subnodes a) ++ (subnodes c)
  | Test _ _ a _ c _ f => (subnodes a) ++ (subnodes c) ++ (subnodes f)
  | Lambda _ _ _ b _ d => (match b with Some a => subnodes a | None => [] end) ++ (subnodes d)
  | OrTest _ _ a _ c => (subnodes a) ++ (subnodes c)
  | AndTest _ _ a _ c => (subnodes a) ++ (subnodes c)
  | NotTest _ _ _ b => (subnodes b)
  | LessComparison _ _ a _ c => (subnodes a) ++ (subnodes c)
  | LessEqualComparison _ _ a _ c => (subnodes a) ++ (subnodes c)
  | EqualComparison _ _ a _ c => (subnodes a) ++ (subnodes c)
  | GreaterComparison _ _ a _ c => (subnodes a) ++ (subnodes c)
  | GreaterEqualComparison _ _ a _ c => (subnodes a) ++ (subnodes c)
  | NotEqualComparison _ _ a _ c => (subnodes a) ++ (subnodes c)
  | InComparison _ _ a _ c => (subnodes a) ++ (subnodes c)
  | IsComparison _ _ a _ c => (subnodes a) ++ (subnodes c)
  | NotInComparison _ _ a _ _ d => (subnodes a) ++ (subnodes d)
  | IsNotComparison _ _ a _ _ d => (subnodes a) ++ (subnodes d)
  | StarExpr _ _ _ b => (subnodes b)
  | Expr _ _ a _ c => (subnodes a) ++ (subnodes c)
  | XorExpr _ _ a _ c => (subnodes a) ++ (subnodes c)
  | AndExpr _ _ a _ c => (subnodes a) ++ (subnodes c)
  | ShiftLeftExpr _ _ a _ c => (subnodes a) ++ (subnodes c)
  | ShiftRightExpr _ _ a _ c => (subnodes a) ++ (subnodes c)
  | PlusArithExpr _ _ a _ c => (subnodes a) ++ (subnodes c)
  | MinusArithExpr _ _ a _ c => (subnodes a) ++ (subnodes c)
  | MulTerm _ _ a _ c => (subnodes a) ++ (subnodes c)
  | DivTerm _ _ a _ c => (subnodes a) ++ (subnodes c)
  | FloorDivTerm _ _ a _ c => (subnodes a) ++ (subnodes c)
  | ModuloTerm _ _ a _ c => (subnodes a) ++ (subnodes c)
  | MatriceTerm _ _ a _ c => (subnodes a) ++ (subnodes c)
  | UnaryPlus _ _ _ b => (subnodes b)
  | UnaryMinus _ _ _ b => (subnodes b)
  | UnaryInvert _ _ _ b => (subnodes b)
  | PowerExpr _ _ a _ c => (subnodes a) ++ (subnodes c)
  | AtomExpr _ _ _ b c => (subnodes b) ++ (flat_map subnodes c)
  | AtomName _ _ _ => []
  | AtomNumber _ _ _ => []
  | AtomString _ _ _ => []
  | AtomElipsis _ _ _ => []
  | AtomNone _ _ _ => []
  | AtomTrue _ _ _ => []
  | AtomFalse _ _ _ => []
  | AtomTuple _ _ _ b _ => (match b with Some a => subnodes a | None => [] end)
  | AtomList _ _ _ b _ => (match b with Some a => subnodes a | None => [] end)
  | AtomDictionary _ _ _ b _ => (match b with Some a => subnodes a | None => [] end)
  | AtomSet _ _ _ b _ => (match b with Some a => subnodes a | None => [] end)
  | TestListComp _ _ a _ => (flat_map subnodes a)
  | CallTrailer _ _ _ b _ => (match b with Some a => subnodes a | None => [] end)
  | IndexTrailer _ _ _ b _ => (subnodes b)
  | DotNameTrailer _ _ _ _ => []
  | SubscriptList _ _ a _ => (flat_map subnodes a)
  | Subscript _ _ a _ c _ f => (match a with Some a => subnodes a | None => [] end) ++ (match c with Some a => subnodes a | None => [] end) ++ (match f with Some a => subnodes a | None => [] end)
  | ExprList _ _ a _ => (flat_map subnodes a)
  | TestList _ _ a _ => (flat_map subnodes a)
  | DictionaryContainer _ _ a _ => (flat_map subnodes a)
  | DictionaryEntry _ _ a _ c => (subnodes a) ++ (subnodes c)
  | SetContainer _ _ a _ => (flat_map subnodes a)
  | MulSet _ _ _ b => (subnodes b)
  | PowerDictionary _ _ _ b => (subnodes b)
  | ClassDef _ _ _ _ _ d _ _ h => (match d with Some a => subnodes a | None => [] end) ++ (subnodes h)
  | ArgList _ _ a _ => (flat_map subnodes a)
  | Argument _ _ a _ c => (match a with Some a => subnodes a | None => [] end) ++ (match c with Some a => subnodes a | None => [] end)
  | SyncCompForComprehension _ _ _ b _ d f => (subnodes b) ++ (subnodes d) ++ (match f with Some a => subnodes a | None => [] end)
  | CompForComprehension _ _ _ b => (subnodes b)
  | CompIfComprehension _ _ _ b c => (subnodes b) ++ (match c with Some a => subnodes a | None => [] end)
  | YieldExpr _ _ _ b => (subnodes b)
  | YieldFromExpr _ _ _ _ c => (subnodes c)
  | FuncBodySuite _ _ _ _ _ _ f _ => (flat_map subnodes f)
  | FuncTypeInput _ _ a _ _ => (subnodes a)
  | FuncType _ _ _ b _ _ f => (match b with Some a => subnodes a | None => [] end) ++ (subnodes f)
  | TypeList _ _ a _ _ d _ g => (flat_map subnodes a) ++ (match d with Some a => subnodes a | None => [] end) ++ (match g with Some a => subnodes a | None => [] end)
  | TestListStarExpr _ _ a _ => (flat_map subnodes a)
  | SimpleStmtList _ _ a _ _ => (flat_map subnodes a)
  | PlusAssignStmt _ _ a _ c => (subnodes a) ++ (subnodes c)
  | MinusAssignStmt _ _ a _ c => (subnodes a) ++ (subnodes c)
  | MulAssignStmt _ _ a _ c => (subnodes a) ++ (subnodes c)
  | DivAssignStmt _ _ a _ c => (subnodes a) ++ (subnodes c)
  | FloorDivAssignStmt _ _ a _ c => (subnodes a) ++ (subnodes c)
  | ModuloAssignStmt _ _ a _ c => (subnodes a) ++ (subnodes c)
  | MatriceAssignStmt _ _ a _ c => (subnodes a) ++ (subnodes c)
  | PowerAssignStmt _ _ a _ c => (subnodes a) ++ (subnodes c)
  | ShiftLeftAssignStmt _ _ a _ c => (subnodes a) ++ (subnodes c)
  | ShiftRightAssignStmt _ _ a _ c => (subnodes a) ++ (subnodes c)
  | BitOrAssignStmt _ _ a _ c => (subnodes a) ++ (subnodes c)
  | BitXorAssignStmt _ _ a _ c => (subnodes a) ++ (subnodes c)
  | BitAndAssignStmt _ _ a _ c => (subnodes a) ++ (subnodes c)
  | AnnAssignStmt _ _ a _ c d => (subnodes a) ++ (subnodes c) ++ (match d with Some (_, a) => subnodes a | None => [] end)
  | AssignmentStmt _ _ a b _ => (subnodes a) ++ (flat_map (fun p => subnodes (snd p)) b)
  | DelStmt _ _ _ b => (subnodes b)
  | PassStmt _ _ _ => []
  | BreakStmt _ _ _ => []
  | ContinueStmt _ _ _ => []
  | ReturnStmt _ _ _ b => (match b with Some a => subnodes a | None => [] end)
  | RaiseStmt _ _ _ b => (match b with Some (a, Some (_, b)) => subnodes a ++ subnodes b | Some (a, None) => subnodes a | None => [] end)
  | ImportNameStmt _ _ _ b => (subnodes b)
  | ImportFromStmt _ _ _ _ c _ _ g _ => (match c with Some a => subnodes a | None => [] end) ++ (match g with Some a => subnodes a | None => [] end)
  | ImportAsName _ _ _ _ => []
  | DottedAsNameStmt _ _ a _ => (subnodes a)
  | ImportAsNamesStmt _ _ a _ => (flat_map subnodes a)
  | DottedAsNamesStmt _ _ a _ => (flat_map subnodes a)
  | DottedNameStmt _ _ _ _ => []
  | GlobalStmt _ _ _ _ _ => []
  | NonLocalStmt _ _ _ _ _ => []
  | AssertStmt _ _ _ b c => (subnodes b) ++ (match c with Some (_, a) => subnodes a | None => [] end)
  | AsyncStmt _ _ _ b => (subnodes b)
  | IfStmt _ _ _ b _ d f g => (subnodes b) ++ (subnodes d) ++ (flat_map subnodes f) ++ (match g with Some a => subnodes a | None => [] end)
  | ElifStmt _ _ _ b _ d => (subnodes b) ++ (subnodes d)
  | ElseStmt _ _ _ _ c => (subnodes c)
  | WhileStmt _ _ _ b _ d f => (subnodes b) ++ (subnodes d) ++ (match f with Some a => subnodes a | None => [] end)
  | ForStmt _ _ _ b _ d _ _ h i => (subnodes b) ++ (subnodes d) ++ (subnodes h) ++ (match i with Some a => subnodes a | None => [] end)
  | TryStmt _ _ _ _ c d f g => (subnodes c) ++ (match d with Some l => flat_map subnodes l | None => [] end) ++ (match f with Some a => subnodes a | None => [] end) ++ (match g with Some a => subnodes a | None => [] end)
  | FinallyStmt _ _ _ _ c => (subnodes c)
  | WithStmt _ _ _ _ c _ _ _ h => (flat_map subnodes c) ++ (subnodes h)
  | WithItem _ _ a b => (subnodes a) ++ (match b with Some (_, a) => subnodes a | None => [] end)
  | ExceptClauseStmt _ _ _ _ c => (match c with Some (a, _) => subnodes a | None => [] end)
  | ExceptStmt _ _ a _ c => (subnodes a) ++ (subnodes c)
  | SuiteStmt _ _ _ _ c _ => (flat_map subnodes c)
  | Decorator _ _ _ b _ d _ _ => (subnodes b) ++ (match d with Some a => subnodes a | None => [] end)
  | Decorators _ _ a => (flat_map subnodes a)
  | Decorated _ _ a b => (subnodes a) ++ (subnodes b)
  | FuncDef _ _ _ _ c d _ _ h => (match c with Some a => subnodes a | None => [] end) ++ (match d with Some (_, a) => subnodes a | None => [] end) ++ (subnodes h)
  | ParameterList _ _ _ b _ => (match b with Some a => subnodes a | None => [] end)
  | TypedArgsList _ _ a _ _ d f => (flat_map subnodes a) ++ (match d with Some (_, a) => subnodes a | None => [] end) ++ (match f with Some (_, a) => subnodes a | None => [] end)
  | TFPAssign _ _ a _ c => (subnodes a) ++ (subnodes c)
  | TFPDef _ _ _ b => (match b with Some (_, a) => subnodes a | None => [] end)
  | VarArgsList _ _ a _ _ d _ g _ => (flat_map subnodes a) ++ (match d with Some a => subnodes a | None => [] end) ++ (match g with Some a => subnodes a | None => [] end)
  | VFPAssign _ _ a _ c => (subnodes a) ++ (subnodes c)
  | VFPDef _ _ _ => []
  | SingleInput _ _ a _ => (match a with Some a => subnodes a | None => [] end)
  | FileInput _ _ a _ _ => (flat_map subnodes a)
  | EvalInput _ _ a _ _ => (subnodes a)
  end.

Definition item_tokens (i : item) : list token :=
  match i with Leaf t => [t] | Sub n => tokens n end.
Definition item_subnodes (i : item) : list node :=
  match i with Leaf _ => [] | Sub n => subnodes n end.

Lemma flat_map_Leaf : forall l, flat_map item_tokens (map Leaf l) = l.
Proof. induction l; cbn; congruence. Qed.
Lemma flat_map_Sub : forall l, flat_map item_tokens (map Sub l) = flat_map tokens l.
Proof. induction l; cbn; congruence. Qed.
Lemma flat_map_pairs : forall l,
  flat_map item_tokens (pairs l) = flat_map (fun p => fst p :: tokens (snd p)) l.
Proof. induction l; cbn; auto. unfold pairs in *. cbn. rewrite IHl. auto. Qed.
Lemma flat_map_Leaf' : forall l, flat_map item_subnodes (map Leaf l) = [].
Proof. induction l; cbn; congruence. Qed.
Lemma flat_map_Sub' : forall l, flat_map item_subnodes (map Sub l) = flat_map subnodes l.
Proof. induction l; cbn; congruence. Qed.
Lemma flat_map_pairs' : forall l,
  flat_map item_subnodes (pairs l) = flat_map (fun p => subnodes (snd p)) l.
Proof. induction l; cbn; auto. unfold pairs in *. cbn. rewrite IHl. auto. Qed.

Lemma tokens_items : forall n, tokens n = flat_map item_tokens (items n).
Proof.
  destruct n; cbn [tokens items];
  repeat match goal with
  | o : option _ |- _ => destruct o as [?|]
  | p : (_ * _)%type |- _ => destruct p
  end; cbn [opt_nodes opt_tokens opt_list_nodes opt_pair opt_tokens2 opt_node_pair opt_node_tokens2];
  rewrite ?flat_map_app, ?flat_map_Leaf, ?flat_map_Sub, ?flat_map_pairs; cbn [flat_map item_tokens app];
  rewrite ?app_nil_r, <- ?app_assoc; reflexivity.
Qed.

Lemma subnodes_items : forall n, subnodes n = n :: flat_map item_subnodes (items n).
Proof.
  destruct n; cbn [subnodes items]; f_equal;
  repeat match goal with
  | o : option _ |- _ => destruct o as [?|]
  | p : (_ * _)%type |- _ => destruct p
  end; cbn [opt_nodes opt_tokens opt_list_nodes opt_pair opt_tokens2 opt_node_pair opt_node_tokens2];
  rewrite ?flat_map_app, ?flat_map_Leaf', ?flat_map_Sub', ?flat_map_pairs'; cbn [flat_map item_subnodes app];
  rewrite ?app_nil_r, <- ?app_assoc; reflexivity.
Qed.

(** Induction over the components. *)
Lemma length_item : forall m l, In (Sub m) l ->
  (length (subnodes m) <= length (flat_map item_subnodes l))%nat.
Proof.
  induction l as [|i l IH]; cbn; [tauto|]. intros [E|H]; rewrite app_length.
  - subst. cbn. apply Nat.le_add_r.
  - etransitivity; [apply IH; auto|]. rewrite Nat.add_comm. apply Nat.le_add_r.
Qed.

Lemma node_items_ind : forall P : node -> Prop,
  (forall n, (forall m, In (Sub m) (items n) -> P m) -> P n) -> forall n, P n.
Proof.
  intros P step.
  assert (H : forall k n, (length (subnodes n) <= k)%nat -> P n).
  { induction k; intros n Hn; apply step; intros m Hm; apply length_item in Hm;
      rewrite subnodes_items in Hn; cbn in Hn.
    - inversion Hn.
    - apply IHk. apply le_S_n in Hn. etransitivity; eauto. }
  intros n. exact (H _ n (le_n _)).
Qed.
