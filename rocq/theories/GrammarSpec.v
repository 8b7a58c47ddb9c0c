(** The grammar accepted by the parser, as an inductive definition over sequences of tokens.
    It does not use the parser functions: [fn] only serves as the name of the non-terminals.

    A sentence is a list of tokens, each with the position reported by the tokenizer when the
    token was read.  A derivation also mentions the look-ahead: the position of the next token and
    the token itself, or no token if the tokenizer failed there.  Every node records the position
    of its first token and the position of the look-ahead.

    The rules follow the Python LL(1) grammar quoted in the source comments.  Restrictions on the
    look-ahead ([stops], [differs]) say that repetition and options are taken whenever possible.
    Where the implementation departs from the Python grammar the rule says so. *)
From Coq Require Import List.
From Verif Require Import Chars Token Node ParserState.
Import ListNotations.

Definition ptok := (nat * token)%type.
Definition look := (nat * option token)%type.

(** What follows a part of a sentence: the next token of the sentence, or the look-ahead. *)
Definition ahead (l : list ptok) (la : look) : look :=
  match l with (p, t) :: _ => (p, Some t) | [] => la end.

(** Start position of a phrase. *)
Definition start (l : list ptok) (la : look) : nat := fst (ahead l la).

(** The look-ahead is a token, and not one of [ks]. *)
Definition stops (ks : list kind) (la : look) : Prop :=
  exists t, snd la = Some t /\ ~ In (tk_kind t) ks.
(** The look-ahead is a token, and one of [ks]. *)
Definition before (ks : list kind) (la : look) : Prop :=
  exists t, snd la = Some t /\ In (tk_kind t) ks.
(** The look-ahead is not a token of one of [ks]; it may be a tokenizer error. *)
Definition differs (ks : list kind) (la : look) : Prop :=
  forall t, snd la = Some t -> ~ In (tk_kind t) ks.

(** ** Tables *)

(** Node built from start, end, left operand, operator and right operand. *)
Definition infix := nat -> nat -> node -> token -> node -> node.

(** The levels of left-associative binary operators: operand level and operators. *)
Definition binary (f : fn) : option (fn * list (kind * infix)) :=
  match f with
  | F_or_test => Some (F_and_test, [(PyOr, OrTest)])
  | F_and_test => Some (F_not_test, [(PyAnd, AndTest)])
  | F_comparison => Some (F_expr,
      [(PyLess, LessComparison); (PyLessEqual, LessEqualComparison); (PyEqual, EqualComparison);
       (PyGreaterEqual, GreaterEqualComparison); (PyGreater, GreaterComparison);
       (PyNotEqual, NotEqualComparison); (PyIn, InComparison); (PyIs, IsComparison)])
  | F_expr => Some (F_xor_expr, [(PyBitOr, Expr)])
  | F_xor_expr => Some (F_and_expr, [(PyBitXor, XorExpr)])
  | F_and_expr => Some (F_shift, [(PyBitAnd, AndExpr)])
  | F_shift => Some (F_arith, [(PyShiftLeft, ShiftLeftExpr); (PyShiftRight, ShiftRightExpr)])
  | F_arith => Some (F_term, [(PyPlus, PlusArithExpr); (PyMinus, MinusArithExpr)])
  | F_term => Some (F_factor,
      [(PyMul, MulTerm); (PyDiv, DivTerm); (PyFloorDiv, FloorDivTerm); (PyModulo, ModuloTerm);
       (PyMatrice, MatriceTerm)])
  | _ => None
  end.

(** Tokens that continue a chain of a binary level ('not' begins 'not in'). *)
Definition continues (f : fn) : list kind :=
  match binary f with
  | Some (_, ops) => map fst ops ++ match f with F_comparison => [PyNot] | _ => [] end
  | None => []
  end.

Definition unary : list (kind * (nat -> nat -> token -> node -> node)) :=
  [(PyPlus, UnaryPlus); (PyMinus, UnaryMinus); (PyBitInvert, UnaryInvert)].

Definition constants : list (kind * (nat -> nat -> token -> node)) :=
  [(PyElipsis, AtomElipsis); (PyFalse, AtomFalse); (PyNone, AtomNone); (PyTrue, AtomTrue);
   (T_AtomName, AtomName); (T_AtomNumber, AtomNumber)].

Definition augmented : list (kind * infix) :=
  [(PyPlusAssign, PlusAssignStmt); (PyMinusAssign, MinusAssignStmt); (PyMulAssign, MulAssignStmt);
   (PyPowerAssign, PowerAssignStmt); (PyDivAssign, DivAssignStmt);
   (PyFloorDivAssign, FloorDivAssignStmt); (PyModuloAssign, ModuloAssignStmt);
   (PyMatriceAssign, MatriceAssignStmt); (PyBitAndAssign, BitAndAssignStmt);
   (PyBitOrAssign, BitOrAssignStmt); (PyBitXorAssign, BitXorAssignStmt);
   (PyShiftLeftAssign, ShiftLeftAssignStmt); (PyShiftRightAssign, ShiftRightAssignStmt)].

(** Tokens that may follow the trailing comma of an expression list statement. *)
Definition ends_star_list : list kind := map fst augmented ++ [PyAssign; PySemiColon; T_Newline; T_EOF; PyColon].

(** '**', '*' and '/' parameters of a parameter list. *)
Definition fst_opt {A B} (o : option (A * B)) : option A :=
  match o with Some (a, _) => Some a | None => None end.
Definition snd_opt {A B} (o : option (A * B)) : option B :=
  match o with Some (_, b) => Some b | None => None end.

(** (sep NAME)* *)
Inductive E_names : kind -> list ptok -> list token -> list token -> Prop :=
| names_nil k : E_names k [] [] []
| names_cons k p t q u l ns ts :
    tk_kind t = k -> tk_kind u = T_AtomName -> E_names k l ns ts ->
    E_names k ((p, t) :: (q, u) :: l) (u :: ns) (t :: ts).

(** ** Phrases that contain no suite: expressions, simple statements, decorators, types *)
Inductive E : fn -> list ptok -> look -> node -> Prop :=
(* atom: NAME | NUMBER | '...' | 'None' | 'True' | 'False' *)
| E_constant c p t la :
    In (tk_kind t, c) constants ->
    E F_atom [(p, t)] la (c p (fst la) t)
(* atom: STRING+ *)
| E_strings p t l la :
    tk_kind t = T_AtomString -> Forall (fun x => tk_kind (snd x) = T_AtomString) l ->
    differs [T_AtomString] la ->
    E F_atom ((p, t) :: l) la (AtomString p (fst la) (t :: map snd l))
(* atom: '(' [yield_expr | testlist_comp] ')' *)
| E_tuple_empty p t q u la :
    tk_kind t = PyLeftParen -> tk_kind u = PyRightParen ->
    E F_atom [(p, t); (q, u)] la (AtomTuple p (fst la) t None u)
| E_tuple f p t l x q u la :
    tk_kind t = PyLeftParen -> tk_kind u = PyRightParen ->
    In f [F_yield_expr; F_testlist_comp] ->
    E f l (q, Some u) x ->
    E F_atom ((p, t) :: l ++ [(q, u)]) la (AtomTuple p (fst la) t (Some x) u)
(* atom: '[' [testlist_comp] ']' *)
| E_list_empty p t q u la :
    tk_kind t = PyLeftBracket -> tk_kind u = PyRightBracket ->
    E F_atom [(p, t); (q, u)] la (AtomList p (fst la) t None u)
| E_list p t l x q u la :
    tk_kind t = PyLeftBracket -> tk_kind u = PyRightBracket ->
    E F_testlist_comp l (q, Some u) x ->
    E F_atom ((p, t) :: l ++ [(q, u)]) la (AtomList p (fst la) t (Some x) u)
(* atom: '{' dictorsetmaker '}'; Python also has '{' '}' *)
| E_dictionary p t l a b ns ts q u la :
    tk_kind t = PyLeftCurly -> tk_kind u = PyRightCurly ->
    E F_dictorset_maker l (q, Some u) (DictionaryContainer a b ns ts) ->
    E F_atom ((p, t) :: l ++ [(q, u)]) la
      (AtomDictionary p (fst la) t (Some (DictionaryContainer a b ns ts)) u)
| E_set p t l a b ns ts q u la :
    tk_kind t = PyLeftCurly -> tk_kind u = PyRightCurly ->
    E F_dictorset_maker l (q, Some u) (SetContainer a b ns ts) ->
    E F_atom ((p, t) :: l ++ [(q, u)]) la (AtomSet p (fst la) t (Some (SetContainer a b ns ts)) u)

(* atom_expr: ['await'] atom trailer* *)
| E_atom_expr_atom l la x :
    E F_atom l la x ->
    differs [PyLeftParen; PyLeftBracket; PyDot] la ->
    E F_atom_expr l la x
| E_atom_expr_trailers l1 a l2 xs la :
    E F_atom l1 (ahead l2 la) a -> E_many F_trailer l2 la xs -> xs <> [] ->
    differs [PyLeftParen; PyLeftBracket; PyDot] la ->
    E F_atom_expr (l1 ++ l2) la (AtomExpr (start l1 (ahead l2 la)) (fst la) None a xs)
| E_atom_expr_await p t l1 a l2 xs la :
    tk_kind t = PyAwait ->
    E F_atom l1 (ahead l2 la) a -> E_many F_trailer l2 la xs ->
    differs [PyLeftParen; PyLeftBracket; PyDot] la ->
    E F_atom_expr ((p, t) :: l1 ++ l2) la (AtomExpr p (fst la) (Some t) a xs)

(* power: atom_expr ['**' factor] *)
| E_power_base l la x :
    E F_atom_expr l la x -> stops [PyPower] la ->
    E F_power l la x
| E_power l1 a p t l2 b la :
    E F_atom_expr l1 (p, Some t) a -> tk_kind t = PyPower -> E F_factor l2 la b ->
    E F_power (l1 ++ (p, t) :: l2) la (PowerExpr (start l1 (p, Some t)) (fst la) a t b)

(* factor: ('+' | '-' | '~') factor | power *)
| E_unary c p t l la x :
    In (tk_kind t, c) unary -> E F_factor l la x ->
    E F_factor ((p, t) :: l) la (c p (fst la) t x)
| E_factor_power l la x :
    E F_power l la x ->
    E F_factor l la x

(* term, arith_expr, shift_expr, and_expr, xor_expr, expr, comparison, and_test, or_test *)
| E_binary f g ops l la x :
    binary f = Some (g, ops) -> E_chain f l la x -> stops (continues f) la ->
    E f l la x

(* star_expr: '*' expr *)
| E_star_expr p t l la x :
    tk_kind t = PyMul -> E F_expr l la x ->
    E F_star_expr ((p, t) :: l) la (StarExpr p (fst la) t x)

(* not_test: 'not' not_test | comparison *)
| E_not p t l la x :
    tk_kind t = PyNot -> E F_not_test l la x ->
    E F_not_test ((p, t) :: l) la (NotTest p (fst la) t x)
| E_not_comparison l la x :
    E F_comparison l la x ->
    E F_not_test l la x

(* lambdef: 'lambda' [varargslist] ':' test; lambdef_nocond: the same with or_test.
   The first token is whatever stands there: the callers have found 'lambda'. *)
| E_lambda cond p t l1 o q u l2 x la :
    E_opt F_var_args_list l1 (q, Some u) o -> tk_kind u = PyColon ->
    E (if cond : bool then F_test else F_or_test) l2 la x ->
    E (F_lambda_def cond) ((p, t) :: l1 ++ (q, u) :: l2) la (Lambda p (fst la) t o u x)

(* test_nocond: or_test | lambdef_nocond *)
| E_nocond_lambda p t l la x :
    tk_kind t = PyLambda -> E (F_lambda_def false) ((p, t) :: l) la x ->
    E F_no_cond_test ((p, t) :: l) la x
| E_nocond_or l la x :
    E F_or_test l la x ->
    E F_no_cond_test l la x

(* test: or_test ['if' or_test 'else' test] | lambdef *)
| E_test_lambda p t l la x :
    tk_kind t = PyLambda -> E (F_lambda_def true) ((p, t) :: l) la x ->
    E F_test ((p, t) :: l) la x
| E_test_or l la x :
    E F_or_test l la x -> stops [PyIf] la ->
    E F_test l la x
| E_test_if l1 a p t l2 b q u l3 c la :
    E F_or_test l1 (p, Some t) a -> tk_kind t = PyIf ->
    E F_or_test l2 (q, Some u) b -> tk_kind u = PyElse ->
    E F_test l3 la c ->
    E F_test (l1 ++ (p, t) :: l2 ++ (q, u) :: l3) la
      (Test (start l1 (p, Some t)) (fst la) a t b u c)

(* namedexpr_test: test [':=' test] *)
| E_named_test l la x :
    E F_test l la x -> stops [PyColonAssign] la ->
    E F_named_expression l la x
| E_named l1 a p t l2 b la :
    E F_test l1 (p, Some t) a -> tk_kind t = PyColonAssign -> E F_test l2 la b ->
    E F_named_expression (l1 ++ (p, t) :: l2) la (NamedExpr (start l1 (p, Some t)) (fst la) a t b)

(* testlist_comp: (namedexpr_test|star_expr) ( comp_for | (',' (namedexpr_test|star_expr))* );
   Python also has a trailing comma *)
| E_testlist_comp_for f l1 x l2 y la :
    In f [F_star_expr; F_named_expression] -> E f l1 (ahead l2 la) x -> E F_comp_for l2 la y ->
    E F_testlist_comp (l1 ++ l2) la (TestListComp (start l1 (ahead l2 la)) (fst la) [y; x] [])
| E_testlist_comp l la xs ts :
    E_items [F_star_expr; F_named_expression] PyComa l la xs ts ->
    stops (PyComa :: match ts with [] => [PyFor; PyAsync] | _ => [] end) la ->
    E F_testlist_comp l la (TestListComp (start l la) (fst la) (rev xs) (rev ts))

(* trailer: '(' [subscriptlist] ')' | '[' subscriptlist ']' | '.' NAME;
   Python has arglist between the parentheses *)
| E_call p t l o q u la :
    tk_kind t = PyLeftParen -> tk_kind u = PyRightParen ->
    E_opt F_subscript_list l (q, Some u) o ->
    E F_trailer ((p, t) :: l ++ [(q, u)]) la (CallTrailer p (fst la) t o u)
| E_index p t l x q u la :
    tk_kind t = PyLeftBracket -> tk_kind u = PyRightBracket ->
    E F_subscript_list l (q, Some u) x ->
    E F_trailer ((p, t) :: l ++ [(q, u)]) la (IndexTrailer p (fst la) t x u)
| E_dot p t q u la :
    tk_kind t = PyDot -> tk_kind u = T_AtomName ->
    E F_trailer [(p, t); (q, u)] la (DotNameTrailer p (fst la) t u)

(* subscriptlist: subscript (',' subscript)*; Python also has a trailing comma *)
| E_subscript_list l la xs ts :
    E_items [F_subscript] PyComa l la xs ts -> stops [PyComa] la ->
    E F_subscript_list l la (SubscriptList (start l la) (fst la) (rev xs) (rev ts))

(* subscript: test | [test] ':' [test] ANY [test].
   Python: test | [test] ':' [test] [':' [test]]; the implementation takes whatever token follows
   the second bound as the second separator *)
| E_subscript l la x :
    E F_test l la x -> stops [PyColon] la ->
    E F_subscript l la (Subscript (start l la) (fst la) (Some x) None None None None)
| E_slice l1 o1 p t l2 o2 q u l3 o3 la :
    E_opt F_test l1 (p, Some t) o1 -> tk_kind t = PyColon ->
    E_opt F_test l2 (q, Some u) o2 -> (o2 = None -> In (tk_kind u) [PyRightBracket; PyColon]) ->
    E_opt F_test l3 la o3 -> (o3 = None -> before [PyRightBracket; PyColon] la) ->
    E F_subscript (l1 ++ (p, t) :: l2 ++ (q, u) :: l3) la
      (Subscript (start l1 (p, Some t)) (fst la) o1 (Some t) o2 (Some u) o3)

(* exprlist: (namedexpr_test|star_expr) (',' (namedexpr_test|star_expr))* [','] before 'in' *)
| E_exprlist_one f l la x :
    In f [F_star_expr; F_named_expression] -> E f l la x -> stops [PyComa] la ->
    E F_exprlist l la x
| E_exprlist l la xs ts :
    E_items [F_star_expr; F_named_expression] PyComa l la xs ts -> ts <> [] -> stops [PyComa] la ->
    E F_exprlist l la (ExprList (start l la) (fst la) xs ts)
| E_exprlist_comma l xs ts p t la :
    E_items [F_star_expr; F_named_expression] PyComa l (p, Some t) xs ts -> tk_kind t = PyComa ->
    before [PyIn] la ->
    E F_exprlist (l ++ [(p, t)]) la (ExprList (start l (p, Some t)) (fst la) xs (ts ++ [t]))

(* testlist: test (',' test)* [','] before the end of the statement *)
| E_testlist_one l la x :
    E F_test l la x -> stops [PyComa] la ->
    E F_testlist l la x
| E_testlist l la xs ts :
    E_items [F_test] PyComa l la xs ts -> ts <> [] -> stops [PyComa] la ->
    E F_testlist l la (TestList (start l la) (fst la) xs ts)
| E_testlist_comma l xs ts p t la :
    E_items [F_test] PyComa l (p, Some t) xs ts -> tk_kind t = PyComa ->
    before [T_Newline; PySemiColon; T_EOF] la ->
    E F_testlist (l ++ [(p, t)]) la (TestList (start l (p, Some t)) (fst la) xs (ts ++ [t]))

(* dictorsetmaker, dictionary: entry [',' entry] | entry ','.
   Python: entry (',' entry)* [','] *)
| E_dict_one l la x :
    E_entry true (start l la) l la x -> stops [PyComa] la ->
    E F_dictorset_maker l la (DictionaryContainer (start l la) (fst la) [x] [])
| E_dict_comma l x p t la :
    E_entry true (start l (p, Some t)) l (p, Some t) x -> tk_kind t = PyComa ->
    before [PyRightCurly] la ->
    E F_dictorset_maker (l ++ [(p, t)]) la
      (DictionaryContainer (start l (p, Some t)) (fst la) [x] [t])
| E_dict_two l1 x p t l2 y la :
    E_entry true (start l1 (p, Some t)) l1 (p, Some t) x -> tk_kind t = PyComa ->
    E_entry true (start l1 (p, Some t)) l2 la y ->
    E F_dictorset_maker (l1 ++ (p, t) :: l2) la
      (DictionaryContainer (start l1 (p, Some t)) (fst la) [y; x] [t])
(* dictorsetmaker, set: entry (',' entry)* [','] before '}' *)
| E_set_items l1 x l2 xs ts la :
    E_set_first (start l1 (ahead l2 la)) l1 (ahead l2 la) x ->
    E_set_rest (start l1 (ahead l2 la)) l2 la xs ts ->
    stops [PyComa] la ->
    E F_dictorset_maker (l1 ++ l2) la
      (SetContainer (start l1 (ahead l2 la)) (fst la) (rev (x :: xs)) (rev ts))
| E_set_items_comma l1 x l2 xs ts p t la :
    E_set_first (start l1 (ahead l2 (p, Some t))) l1 (ahead l2 (p, Some t)) x ->
    E_set_rest (start l1 (ahead l2 (p, Some t))) l2 (p, Some t) xs ts ->
    tk_kind t = PyComa -> before [PyRightCurly] la ->
    E F_dictorset_maker (l1 ++ l2 ++ [(p, t)]) la
      (SetContainer (start l1 (ahead l2 (p, Some t))) (fst la) (rev (x :: xs)) (rev (ts ++ [t])))

(* arglist: argument (',' argument)* [','] before ')' *)
| E_arglist l la xs ts :
    E_items [F_argument] PyComa l la xs ts -> stops [PyComa] la ->
    E F_arglist l la (ArgList (start l la) (fst la) (rev xs) (rev ts))
| E_arglist_comma l xs ts p t la :
    E_items [F_argument] PyComa l (p, Some t) xs ts -> tk_kind t = PyComa ->
    before [PyRightParen] la ->
    E F_arglist (l ++ [(p, t)]) la (ArgList (start l (p, Some t)) (fst la) (rev xs) (rev (ts ++ [t])))

(* argument: test [comp_for] | test (':=' | '=') test | ('*' | '**') test *)
| E_argument_star p t l la x :
    In (tk_kind t) [PyMul; PyPower] -> E F_test l la x ->
    E F_argument ((p, t) :: l) la (Argument p (fst la) None (Some t) (Some x))
| E_argument l la x :
    E F_test l la x -> stops [PyFor; PyAsync; PyColonAssign; PyAssign] la ->
    E F_argument l la (Argument (start l la) (fst la) (Some x) None None)
| E_argument_for l1 x l2 y la :
    E F_test l1 (ahead l2 la) x -> E F_comp_for l2 la y ->
    E F_argument (l1 ++ l2) la
      (Argument (start l1 (ahead l2 la)) (fst la) (Some x) None (Some y))
| E_argument_assign l1 x p t l2 y la :
    E F_test l1 (p, Some t) x -> In (tk_kind t) [PyColonAssign; PyAssign] -> E F_test l2 la y ->
    E F_argument (l1 ++ (p, t) :: l2) la
      (Argument (start l1 (p, Some t)) (fst la) (Some x) (Some t) (Some y))

(* comp_iter: comp_for | comp_if *)
| E_comp_iter f l la x :
    In f [F_comp_for; F_comp_if] -> E f l la x ->
    E F_comp_iter l la x
(* sync_comp_for: 'for' exprlist 'in' or_test [comp_iter] *)
| E_sync_comp_for p t l1 a q u l2 b l3 o la :
    tk_kind t = PyFor -> E F_exprlist l1 (q, Some u) a -> tk_kind u = PyIn ->
    E F_or_test l2 (ahead l3 la) b -> E_opt F_comp_iter l3 la o ->
    (o = None -> stops [PyAsync; PyFor; PyIf] la) ->
    E F_sync_comp_for ((p, t) :: l1 ++ (q, u) :: l2 ++ l3) la
      (SyncCompForComprehension p (fst la) t a u b o)
(* comp_for: ['async'] sync_comp_for *)
| E_comp_for_async p t l la x :
    tk_kind t = PyAsync -> E F_sync_comp_for l la x ->
    E F_comp_for ((p, t) :: l) la (CompForComprehension p (fst la) t x)
| E_comp_for l la x :
    E F_sync_comp_for l la x ->
    E F_comp_for l la x
(* comp_if: 'if' test_nocond [comp_iter] *)
| E_comp_if p t l1 a l2 o la :
    tk_kind t = PyIf -> E F_no_cond_test l1 (ahead l2 la) a -> E_opt F_comp_iter l2 la o ->
    (o = None -> stops [PyAsync; PyFor; PyIf] la) ->
    E F_comp_if ((p, t) :: l1 ++ l2) la (CompIfComprehension p (fst la) t a o)
(* yield_expr: 'yield' 'from' test | 'yield' testlist_star_expr; Python also has a bare 'yield' *)
| E_yield_from p t q u l la x :
    tk_kind t = PyYield -> tk_kind u = PyFrom -> E F_test l la x ->
    E F_yield_expr ((p, t) :: (q, u) :: l) la (YieldFromExpr p (fst la) t u x)
| E_yield p t l la x :
    tk_kind t = PyYield -> E F_testlist_star_expr l la x ->
    E F_yield_expr ((p, t) :: l) la (YieldExpr p (fst la) t x)
(* testlist_star_expr: (test|star_expr) (',' (test|star_expr))* [','] before the end *)
| E_star_list_one f l la x :
    In f [F_star_expr; F_test] -> E f l la x -> stops [PyComa] la ->
    E F_testlist_star_expr l la x
| E_star_list l la xs ts :
    E_items [F_star_expr; F_test] PyComa l la xs ts -> ts <> [] -> stops [PyComa] la ->
    E F_testlist_star_expr l la (TestListStarExpr (start l la) (fst la) (rev xs) (rev ts))
| E_star_list_comma l xs ts p t la :
    E_items [F_star_expr; F_test] PyComa l (p, Some t) xs ts -> tk_kind t = PyComa ->
    before ends_star_list la ->
    E F_testlist_star_expr (l ++ [(p, t)]) la
      (TestListStarExpr (start l (p, Some t)) (fst la) (rev xs) (rev (ts ++ [t])))

(* varargslist: stars | items [',' stars] | items ',' '/' (',' item)* [',' stars] *)
| E_var_args_stars l la ns ts m w :
    E_stars l la ns ts m w ->
    E F_var_args_list l la
      (VarArgsList (start l la) (fst la) (rev ns) (rev ts) (fst_opt m) (snd_opt m) (fst_opt w) (snd_opt w) None)
| E_var_args l la ns ts :
    E_items [F_var_args_assignments] PyComa l la ns ts -> stops [PyComa] la ->
    E F_var_args_list l la
      (VarArgsList (start l la) (fst la) (rev ns) (rev ts) None None None None None)
| E_var_args_then_stars l1 ns ts p t l2 ns2 ts2 m w la :
    E_items [F_var_args_assignments] PyComa l1 (p, Some t) ns ts -> tk_kind t = PyComa ->
    E_stars l2 la ns2 ts2 m w ->
    E F_var_args_list (l1 ++ (p, t) :: l2) la
      (VarArgsList (start l1 (p, Some t)) (fst la) (rev (ns ++ ns2)) (rev (ts ++ t :: ts2))
         (fst_opt m) (snd_opt m) (fst_opt w) (snd_opt w) None)
| E_var_args_slash l1 ns ts p t q u l2 ns2 ts2 la :
    E_items [F_var_args_assignments] PyComa l1 (p, Some t) ns ts -> tk_kind t = PyComa ->
    tk_kind u = PyDiv ->
    E_rest [F_var_args_assignments] PyComa l2 la ns2 ts2 -> stops [PyComa] la ->
    E F_var_args_list (l1 ++ (p, t) :: (q, u) :: l2) la
      (VarArgsList (start l1 (p, Some t)) (fst la) (rev (ns ++ ns2)) (rev (ts ++ t :: ts2))
         None None None None (Some u))
| E_var_args_slash_stars l1 ns ts p t q u l2 ns2 ts2 r v l3 ns3 ts3 m w la :
    E_items [F_var_args_assignments] PyComa l1 (p, Some t) ns ts -> tk_kind t = PyComa ->
    tk_kind u = PyDiv ->
    E_rest [F_var_args_assignments] PyComa l2 (r, Some v) ns2 ts2 -> tk_kind v = PyComa ->
    E_stars l3 la ns3 ts3 m w ->
    E F_var_args_list (l1 ++ (p, t) :: (q, u) :: l2 ++ (r, v) :: l3) la
      (VarArgsList (start l1 (p, Some t)) (fst la) (rev (ns ++ ns2 ++ ns3))
         (rev (ts ++ t :: ts2 ++ v :: ts3)) (fst_opt m) (snd_opt m) (fst_opt w) (snd_opt w) (Some u))
(* item: vfpdef ['=' test];  vfpdef: NAME *)
| E_var_arg l la x :
    E F_vfp_def l la x -> stops [PyAssign] la ->
    E F_var_args_assignments l la x
| E_var_arg_default l1 a p t l2 b la :
    E F_vfp_def l1 (p, Some t) a -> tk_kind t = PyAssign -> E F_test l2 la b ->
    E F_var_args_assignments (l1 ++ (p, t) :: l2) la (VFPAssign (start l1 (p, Some t)) (fst la) a t b)
| E_vfp_def p t la :
    tk_kind t = T_AtomName ->
    E F_vfp_def [(p, t)] la (VFPDef p (fst la) t)

(* simple_stmt: small_stmt (';' small_stmt)* [';'] NEWLINE *)
| E_simple_stmt l xs ts p t la :
    E_items [F_small_stmt] PySemiColon l (p, Some t) xs ts -> tk_kind t = T_Newline ->
    E F_simple_stmt (l ++ [(p, t)]) la
      (SimpleStmtList (start l (p, Some t)) (fst la) (rev xs) (rev ts) t)
| E_simple_stmt_semi l xs ts q u p t la :
    E_items [F_small_stmt] PySemiColon l (q, Some u) xs ts -> tk_kind u = PySemiColon ->
    tk_kind t = T_Newline ->
    E F_simple_stmt (l ++ [(q, u); (p, t)]) la
      (SimpleStmtList (start l (q, Some u)) (fst la) (rev xs) (rev (ts ++ [u])) t)
(* small_stmt: expr_stmt | del_stmt | pass_stmt | flow_stmt | import_stmt | global_stmt |
   nonlocal_stmt | assert_stmt *)
| E_small_stmt f l la x :
    In f [F_del_stmt; F_pass_stmt; F_flow_stmt; F_import_stmt; F_global_stmt; F_nonlocal_stmt;
          F_assert_stmt; F_expr_stmt] ->
    E f l la x ->
    E F_small_stmt l la x
(* expr_stmt: testlist_star_expr (annassign | augassign (yield_expr|testlist) |
   [('=' (yield_expr|testlist))+ [TYPE_COMMENT]] ) *)
| E_expr_stmt l la x :
    E F_testlist_star_expr l la x -> stops (PyColon :: PyAssign :: map fst augmented) la ->
    E F_expr_stmt l la x
| E_expr_stmt_ann l1 a l2 la x :
    E F_testlist_star_expr l1 (ahead l2 la) a ->
    E (F_ann_assign (start l1 (ahead l2 la)) a) l2 la x ->
    E F_expr_stmt (l1 ++ l2) la x
| E_expr_stmt_aug c f l1 a p t l2 b la :
    E F_testlist_star_expr l1 (p, Some t) a -> In (tk_kind t, c) augmented ->
    In f [F_yield_expr; F_testlist] -> E f l2 la b ->
    E F_expr_stmt (l1 ++ (p, t) :: l2) la (c (start l1 (p, Some t)) (fst la) a t b)
| E_expr_stmt_assign l1 a l2 xs la :
    E F_testlist_star_expr l1 (ahead l2 la) a -> E_assigns l2 la xs -> xs <> [] ->
    stops [PyAssign; T_TypeComment] la ->
    E F_expr_stmt (l1 ++ l2) la (AssignmentStmt (start l1 (ahead l2 la)) (fst la) a xs None)
| E_expr_stmt_assign_comment l1 a l2 xs p t la :
    E F_testlist_star_expr l1 (ahead l2 (p, Some t)) a -> E_assigns l2 (p, Some t) xs -> xs <> [] ->
    tk_kind t = T_TypeComment ->
    E F_expr_stmt (l1 ++ l2 ++ [(p, t)]) la
      (AssignmentStmt (start l1 (ahead l2 (p, Some t))) (fst la) a xs (Some t))
(* annassign: ':' test ['=' (yield_expr|testlist)] *)
| E_ann_assign s a p t l la x :
    tk_kind t = PyColon -> E F_test l la x -> stops [PyAssign] la ->
    E (F_ann_assign s a) ((p, t) :: l) la (AnnAssignStmt s (fst la) a t x None)
| E_ann_assign_value s a f p t l1 x q u l2 y la :
    tk_kind t = PyColon -> E F_test l1 (q, Some u) x -> tk_kind u = PyAssign ->
    In f [F_yield_expr; F_testlist] -> E f l2 la y ->
    E (F_ann_assign s a) ((p, t) :: l1 ++ (q, u) :: l2) la
      (AnnAssignStmt s (fst la) a t x (Some (u, y)))
| E_del p t l la x :
    tk_kind t = PyDel -> E F_exprlist l la x ->
    E F_del_stmt ((p, t) :: l) la (DelStmt p (fst la) t x)
| E_pass p t la : tk_kind t = PyPass -> E F_pass_stmt [(p, t)] la (PassStmt p (fst la) t)
(* flow_stmt: break_stmt | continue_stmt | return_stmt | raise_stmt | yield_stmt *)
| E_flow f l la x :
    In f [F_break_stmt; F_continue_stmt; F_return_stmt; F_raise_stmt; F_yield_stmt] -> E f l la x ->
    E F_flow_stmt l la x
| E_break p t la : tk_kind t = PyBreak -> E F_break_stmt [(p, t)] la (BreakStmt p (fst la) t)
| E_continue p t la :
    tk_kind t = PyContinue -> E F_continue_stmt [(p, t)] la (ContinueStmt p (fst la) t)
| E_return p t la :
    tk_kind t = PyReturn -> before [PySemiColon; T_Newline; T_EOF] la ->
    E F_return_stmt [(p, t)] la (ReturnStmt p (fst la) t None)
| E_return_value p t l la x :
    tk_kind t = PyReturn -> E F_testlist_star_expr l la x ->
    E F_return_stmt ((p, t) :: l) la (ReturnStmt p (fst la) t (Some x))
| E_yield_stmt l la x : E F_yield_expr l la x -> E F_yield_stmt l la x
(* raise_stmt: 'raise' [test ['from' test]] *)
| E_raise p t la :
    tk_kind t = PyRaise -> before [PySemiColon; T_Newline; T_EOF] la ->
    E F_raise_stmt [(p, t)] la (RaiseStmt p (fst la) t None)
| E_raise_value p t l la x :
    tk_kind t = PyRaise -> E F_test l la x -> stops [PyFrom] la ->
    E F_raise_stmt ((p, t) :: l) la (RaiseStmt p (fst la) t (Some (x, None)))
| E_raise_from p t l1 x q u l2 y la :
    tk_kind t = PyRaise -> E F_test l1 (q, Some u) x -> tk_kind u = PyFrom -> E F_test l2 la y ->
    E F_raise_stmt ((p, t) :: l1 ++ (q, u) :: l2) la
      (RaiseStmt p (fst la) t (Some (x, Some (u, y))))
(* import_stmt: import_from; Python also has import_name, on which the implementation recurses *)
| E_import_stmt l la x : E F_import_from l la x -> E F_import_stmt l la x
| E_import_name p t l la x :
    tk_kind t = PyImport -> E F_dotted_as_names l la x ->
    E F_import_name ((p, t) :: l) la (ImportNameStmt p (fst la) t x)
(* import_from: 'from' (('.' | '...')* dotted_name | ('.' | '...')+)
   'import' ('*' | '(' import_as_names ')' | import_as_names) *)
| E_import_from p t dots l1 o q u l2 a x b la :
    tk_kind t = PyFrom -> Forall (fun d => In (tk_kind (snd d)) [PyDot; PyElipsis]) dots ->
    E_opt F_dotted_name l1 (q, Some u) o -> (o = None -> dots <> []) ->
    tk_kind u = PyImport -> E_import_list l2 la a x b ->
    E F_import_from ((p, t) :: dots ++ l1 ++ (q, u) :: l2) la
      (ImportFromStmt p (fst la) t (rev (map snd dots)) o u a x b)
| E_import_as_name p t la :
    tk_kind t = T_AtomName -> stops [PyAs] la ->
    E F_import_as_name [(p, t)] la (ImportAsName p (fst la) t None)
| E_import_as_name_as p t q u r v la :
    tk_kind t = T_AtomName -> tk_kind u = PyAs -> tk_kind v = T_AtomName ->
    E F_import_as_name [(p, t); (q, u); (r, v)] la (ImportAsName p (fst la) t (Some (u, v)))
| E_dotted_as_name l la x :
    E F_dotted_name l la x -> stops [PyAs] la ->
    E F_dotted_as_name l la (DottedAsNameStmt (start l la) (fst la) x None)
| E_dotted_as_name_as l x q u r v la :
    E F_dotted_name l (q, Some u) x -> tk_kind u = PyAs -> tk_kind v = T_AtomName ->
    E F_dotted_as_name (l ++ [(q, u); (r, v)]) la
      (DottedAsNameStmt (start l (q, Some u)) (fst la) x (Some (u, v)))
| E_import_as_names l la xs ts :
    E_items [F_import_as_name] PyComa l la xs ts -> stops [PyComa] la ->
    E F_import_as_names l la (ImportAsNamesStmt (start l la) (fst la) (rev xs) (rev ts))
| E_dotted_as_names l la xs ts :
    E_items [F_dotted_as_name] PyComa l la xs ts -> stops [PyComa] la ->
    E F_dotted_as_names l la (DottedAsNamesStmt (start l la) (fst la) (rev xs) (rev ts))
| E_dotted_name p t l ns ts la :
    tk_kind t = T_AtomName -> E_names PyDot l ns ts -> stops [PyDot] la ->
    E F_dotted_name ((p, t) :: l) la (DottedNameStmt p (fst la) (rev (t :: ns)) (rev ts))
| E_global p t q u l ns ts la :
    tk_kind t = PyGlobal -> tk_kind u = T_AtomName -> E_names PyComa l ns ts -> stops [PyComa] la ->
    E F_global_stmt ((p, t) :: (q, u) :: l) la (GlobalStmt p (fst la) t (rev (u :: ns)) (rev ts))
| E_nonlocal p t q u l ns ts la :
    tk_kind t = PyNonLocal -> tk_kind u = T_AtomName -> E_names PyComa l ns ts -> stops [PyComa] la ->
    E F_nonlocal_stmt ((p, t) :: (q, u) :: l) la (NonLocalStmt p (fst la) t (rev (u :: ns)) (rev ts))
(* assert_stmt: 'assert' test ['from' test]; Python has ',' *)
| E_assert p t l la x :
    tk_kind t = PyAssert -> E F_test l la x -> stops [PyFrom] la ->
    E F_assert_stmt ((p, t) :: l) la (AssertStmt p (fst la) t x None)
| E_assert_from p t l1 x q u l2 y la :
    tk_kind t = PyAssert -> E F_test l1 (q, Some u) x -> tk_kind u = PyFrom -> E F_test l2 la y ->
    E F_assert_stmt ((p, t) :: l1 ++ (q, u) :: l2) la (AssertStmt p (fst la) t x (Some (u, y)))

(* with_item: test ['as' expr]; with 'as' the node is an ExceptStmt *)
| E_with_item l la x :
    E F_test l la x -> stops [PyAs] la ->
    E F_with_item l la (WithItem (start l la) (fst la) x None)
| E_with_item_as l1 x p t l2 y la :
    E F_test l1 (p, Some t) x -> tk_kind t = PyAs -> E F_expr l2 la y ->
    E F_with_item (l1 ++ (p, t) :: l2) la (ExceptStmt (start l1 (p, Some t)) (fst la) x t y)

(* decorator: '@' dotted_name ['(' [arglist] ')'], up to the NEWLINE, which is stored, not read *)
| E_decorator p t l1 x q u :
    tk_kind t = PyMatrice -> E F_dotted_name l1 (q, Some u) x -> tk_kind u = T_Newline ->
    E F_decorator ((p, t) :: l1) (q, Some u) (Decorator p q t x None None None u)
| E_decorator_call p t l1 x q u l2 o r v z w :
    tk_kind t = PyMatrice -> E F_dotted_name l1 (q, Some u) x ->
    tk_kind u = PyLeftParen -> E_opt F_arglist l2 (r, Some v) o -> tk_kind v = PyRightParen ->
    tk_kind w = T_Newline ->
    E F_decorator ((p, t) :: l1 ++ (q, u) :: l2 ++ [(r, v)]) (z, Some w)
      (Decorator p z t x (Some u) o (Some v) w)
| E_decorators l la xs :
    E_many F_decorator l la xs -> xs <> [] -> stops [PyMatrice] la ->
    E F_decorators l la (Decorators (start l la) (fst la) (rev xs))

(* parameters: '(' ')'; Python: '(' [typedargslist] ')' *)
| E_parameters p t q u la :
    tk_kind t = PyLeftParen -> tk_kind u = PyRightParen ->
    E F_parameters [(p, t); (q, u)] la (ParameterList p (fst la) t None u)
| E_typed_args_list la :
    E F_typed_args_list [] la (TypedArgsList (fst la) (fst la) [] [] [] None None)
| E_tfp_def p t la :
    tk_kind t = T_AtomName -> stops [PyColon] la ->
    E F_tfp_def [(p, t)] la (TFPDef p (fst la) t None)
| E_tfp_def_type p t q u l x la :
    tk_kind t = T_AtomName -> tk_kind u = PyColon -> E F_test l la x ->
    E F_tfp_def ((p, t) :: (q, u) :: l) la (TFPDef p (fst la) t (Some (u, x)))
| E_tfp_assign l la x :
    E F_tfp_def l la x -> stops [PyAssign] la ->
    E F_tfp_def_assign l la x
| E_tfp_assign_default l1 a p t l2 b la :
    E F_tfp_def l1 (p, Some t) a -> tk_kind t = PyAssign -> E F_test l2 la b ->
    E F_tfp_def_assign (l1 ++ (p, t) :: l2) la (TFPAssign (start l1 (p, Some t)) (fst la) a t b)

(* func_type: '(' [typelist] ')' '->' test *)
| E_func_type p t l1 o q u r v l2 x la :
    tk_kind t = PyLeftParen -> E_opt F_type_list l1 (q, Some u) o -> tk_kind u = PyRightParen ->
    tk_kind v = PyArrow -> E F_test l2 la x ->
    E F_func_type ((p, t) :: l1 ++ (q, u) :: (r, v) :: l2) la (FuncType p (fst la) t o u v x)
(* typelist: typestars | test (',' test)* [',' typestars] *)
| E_type_list_stars l la ns ts m w :
    E_type_stars l la ns ts m w ->
    E F_type_list l la
      (TypeList (start l la) (fst la) (rev ns) (rev ts) (fst_opt m) (snd_opt m) (fst_opt w) (snd_opt w))
| E_type_list l la ns ts :
    E_items [F_test] PyComa l la ns ts -> stops [PyComa] la ->
    E F_type_list l la (TypeList (start l la) (fst la) (rev ns) (rev ts) None None None None)
| E_type_list_then_stars l1 ns ts p t l2 ns2 ts2 m w la :
    E_items [F_test] PyComa l1 (p, Some t) ns ts -> tk_kind t = PyComa ->
    E_type_stars l2 la ns2 ts2 m w ->
    E F_type_list (l1 ++ (p, t) :: l2) la
      (TypeList (start l1 (p, Some t)) (fst la) (rev (ns ++ ns2)) (rev (ts ++ t :: ts2))
         (fst_opt m) (snd_opt m) (fst_opt w) (snd_opt w))

(** Chain of a binary level: operand (op operand)*, grouped to the left. *)
with E_chain : fn -> list ptok -> look -> node -> Prop :=
| chain_operand f g ops l la x :
    binary f = Some (g, ops) -> E g l la x ->
    E_chain f l la x
| chain_operator f g ops c l1 a p t l2 b la :
    binary f = Some (g, ops) -> In (tk_kind t, c) ops ->
    E_chain f l1 (p, Some t) a -> E g l2 la b ->
    E_chain f (l1 ++ (p, t) :: l2) la (c (start l1 (p, Some t)) (fst la) a t b)
| chain_is_not l1 a p t q u l2 b la :
    tk_kind t = PyIs -> tk_kind u = PyNot ->
    E_chain F_comparison l1 (p, Some t) a -> E F_expr l2 la b ->
    E_chain F_comparison (l1 ++ (p, t) :: (q, u) :: l2) la
      (IsNotComparison (start l1 (p, Some t)) (fst la) a t u b)
| chain_not_in l1 a p t q u l2 b la :
    tk_kind t = PyNot -> tk_kind u = PyIn ->
    E_chain F_comparison l1 (p, Some t) a -> E F_expr l2 la b ->
    E_chain F_comparison (l1 ++ (p, t) :: (q, u) :: l2) la
      (NotInComparison (start l1 (p, Some t)) (fst la) a t u b)

(** [f]? *)
with E_opt : fn -> list ptok -> look -> option node -> Prop :=
| opt_none f la : E_opt f [] la None
| opt_some f l la x : E f l la x -> E_opt f l la (Some x)

(** [f]* *)
with E_many : fn -> list ptok -> look -> list node -> Prop :=
| many_nil f la : E_many f [] la []
| many_cons f l1 x l2 xs la :
    E f l1 (ahead l2 la) x -> E_many f l2 la xs -> E_many f (l1 ++ l2) la (x :: xs)

(** (sep [f])*, for [f] one of [fs] *)
with E_rest : list fn -> kind -> list ptok -> look -> list node -> list token -> Prop :=
| rest_nil fs k la : E_rest fs k [] la [] []
| rest_cons fs k f p t l1 x l2 xs ts la :
    tk_kind t = k -> In f fs -> E f l1 (ahead l2 la) x -> E_rest fs k l2 la xs ts ->
    E_rest fs k ((p, t) :: l1 ++ l2) la (x :: xs) (t :: ts)

(** [f] (sep [f])*, for [f] one of [fs] *)
with E_items : list fn -> kind -> list ptok -> look -> list node -> list token -> Prop :=
| items_intro fs k f l1 x l2 xs ts la :
    In f fs -> E f l1 (ahead l2 la) x -> E_rest fs k l2 la xs ts ->
    E_items fs k (l1 ++ l2) la (x :: xs) ts

(** Dictionary entry ([true]): '**' expr | test ':' test; set entry: '*' expr | test.
    Entry nodes record the start of the container, [s]. *)
with E_entry : bool -> nat -> list ptok -> look -> node -> Prop :=
| entry_mul s p t l la x :
    tk_kind t = PyMul -> E F_expr l la x ->
    E_entry false s ((p, t) :: l) la (MulSet s (fst la) t x)
| entry_test s l la x :
    E F_test l la x ->
    E_entry false s l la x
| entry_power s p t l la x :
    tk_kind t = PyPower -> E F_expr l la x ->
    E_entry true s ((p, t) :: l) la (PowerDictionary s (fst la) t x)
| entry_pair s l1 a p t l2 b la :
    E F_test l1 (p, Some t) a -> tk_kind t = PyColon -> E F_test l2 la b ->
    E_entry true s (l1 ++ (p, t) :: l2) la (DictionaryEntry s (fst la) a t b)

(** First entry of a set: not followed by ':', which would make it a dictionary. *)
with E_set_first : nat -> list ptok -> look -> node -> Prop :=
| set_first_mul s p t l la x :
    tk_kind t = PyMul -> E F_expr l la x ->
    E_set_first s ((p, t) :: l) la (MulSet s (fst la) t x)
| set_first_test s l la x :
    E F_test l la x -> stops [PyColon] la ->
    E_set_first s l la x

(** (',' entry)* of a set *)
with E_set_rest : nat -> list ptok -> look -> list node -> list token -> Prop :=
| set_rest_nil s la : E_set_rest s [] la [] []
| set_rest_cons s p t l1 x l2 xs ts la :
    tk_kind t = PyComa -> E_entry false s l1 (ahead l2 la) x -> E_set_rest s l2 la xs ts ->
    E_set_rest s ((p, t) :: l1 ++ l2) la (x :: xs) (t :: ts)

(** stars: '**' item [','] | '*' item (',' item)* [',' '**' item [',']] *)
with E_stars : list ptok -> look -> list node -> list token ->
               option (token * node) -> option (token * node) -> Prop :=
| stars_power p t l la x :
    tk_kind t = PyPower -> E F_var_args_assignments l la x -> stops [PyComa] la ->
    E_stars ((p, t) :: l) la [] [] None (Some (t, x))
| stars_power_comma p t l x q u la :
    tk_kind t = PyPower -> E F_var_args_assignments l (q, Some u) x -> tk_kind u = PyComa ->
    E_stars ((p, t) :: l ++ [(q, u)]) la [] [u] None (Some (t, x))
| stars_mul p t l la x xs ts :
    tk_kind t = PyMul -> E_items [F_var_args_assignments] PyComa l la (x :: xs) ts ->
    stops [PyComa] la ->
    E_stars ((p, t) :: l) la xs ts (Some (t, x)) None
| stars_mul_power p t l1 x xs ts q u l2 ts2 w la :
    tk_kind t = PyMul -> E_items [F_var_args_assignments] PyComa l1 (q, Some u) (x :: xs) ts ->
    tk_kind u = PyComa -> E_stars l2 la [] ts2 None w ->
    E_stars ((p, t) :: l1 ++ (q, u) :: l2) la xs (ts ++ u :: ts2) (Some (t, x)) w

(** typestars: '**' test | '*' test (',' test)* [',' '**' test] *)
with E_type_stars : list ptok -> look -> list node -> list token ->
               option (token * node) -> option (token * node) -> Prop :=
| type_stars_power p t l la x :
    tk_kind t = PyPower -> E F_test l la x ->
    E_type_stars ((p, t) :: l) la [] [] None (Some (t, x))
| type_stars_mul p t l la x xs ts :
    tk_kind t = PyMul -> E_items [F_test] PyComa l la (x :: xs) ts -> stops [PyComa] la ->
    E_type_stars ((p, t) :: l) la xs ts (Some (t, x)) None
| type_stars_mul_power p t l1 x xs ts q u l2 ts2 w la :
    tk_kind t = PyMul -> E_items [F_test] PyComa l1 (q, Some u) (x :: xs) ts ->
    tk_kind u = PyComa -> E_type_stars l2 la [] ts2 None w ->
    E_type_stars ((p, t) :: l1 ++ (q, u) :: l2) la xs (ts ++ u :: ts2) (Some (t, x)) w

(** ('=' (yield_expr|testlist))* *)
with E_assigns : list ptok -> look -> list (token * node) -> Prop :=
| assigns_nil la : E_assigns [] la []
| assigns_cons f p t l1 x l2 xs la :
    tk_kind t = PyAssign -> In f [F_yield_expr; F_testlist] ->
    E f l1 (ahead l2 la) x -> E_assigns l2 la xs ->
    E_assigns ((p, t) :: l1 ++ l2) la ((t, x) :: xs)

(** '*' | '(' import_as_names ')' | import_as_names *)
with E_import_list : list ptok -> look -> option token -> option node -> option token -> Prop :=
| import_star p t la : tk_kind t = PyMul -> E_import_list [(p, t)] la (Some t) None None
| import_paren p t l x q u la :
    tk_kind t = PyLeftParen -> E F_import_as_names l (q, Some u) x -> tk_kind u = PyRightParen ->
    E_import_list ((p, t) :: l ++ [(q, u)]) la (Some t) (Some x) (Some u)
| import_plain l la x :
    E F_import_as_names l la x ->
    E_import_list l la None (Some x) None.

Scheme E_ind' := Minimality for E Sort Prop
  with E_chain_ind' := Minimality for E_chain Sort Prop
  with E_opt_ind' := Minimality for E_opt Sort Prop
  with E_many_ind' := Minimality for E_many Sort Prop
  with E_rest_ind' := Minimality for E_rest Sort Prop
  with E_items_ind' := Minimality for E_items Sort Prop
  with E_entry_ind' := Minimality for E_entry Sort Prop
  with E_set_first_ind' := Minimality for E_set_first Sort Prop
  with E_set_rest_ind' := Minimality for E_set_rest Sort Prop
  with E_stars_ind' := Minimality for E_stars Sort Prop
  with E_type_stars_ind' := Minimality for E_type_stars Sort Prop
  with E_assigns_ind' := Minimality for E_assigns Sort Prop
  with E_import_list_ind' := Minimality for E_import_list Sort Prop.
Combined Scheme E_mutual from E_ind', E_chain_ind', E_opt_ind', E_many_ind', E_rest_ind',
  E_items_ind', E_entry_ind', E_set_first_ind', E_set_rest_ind', E_stars_ind', E_type_stars_ind', E_assigns_ind',
  E_import_list_ind'.

(** ** Phrases that may contain suites *)

(** The optional token [k]. *)
Inductive opt_token (k : kind) : list ptok -> option token -> Prop :=
| no_token : opt_token k [] None
| one_token p t : tk_kind t = k -> opt_token k [(p, t)] (Some t).

(** A statement starting with the name 'match' is not parsed (the implementation panics). *)
Definition starts_match (l : list ptok) : Prop :=
  exists p t l', l = (p, t) :: l' /\ tk_kind t = T_AtomName /\ text_of t = $"match".

Definition starts_with (k : kind) (l : list ptok) : Prop :=
  exists p t l', l = (p, t) :: l' /\ tk_kind t = k.

(** What the parser remembers of the clauses of a try statement: [b] = except*, not except. *)
Inductive except_step : bool -> except_status -> except_status -> Prop :=
| except_first b : except_step b ExceptNone (if b then ExceptMul else Except)
| except_again b : except_step b (if b : bool then ExceptMul else Except) (if b then ExceptMul else Except).

Definition is_some {A} (o : option A) : bool := match o with Some _ => true | None => false end.

(** ['->' test] *)
Inductive returns : list ptok -> look -> option (token * node) -> Prop :=
| returns_none la : returns [] la None
| returns_some p t l la x : tk_kind t = PyArrow -> E F_test l la x -> returns ((p, t) :: l) la (Some (t, x)).

(** ['(' [varargslist] ')'] *)
Inductive bases : list ptok -> option token -> option node -> option token -> Prop :=
| bases_none : bases [] None None None
| bases_some p t l o q u :
    tk_kind t = PyLeftParen -> tk_kind u = PyRightParen -> E_opt F_var_args_list l (q, Some u) o ->
    bases ((p, t) :: l ++ [(q, u)]) (Some t) o (Some u).

(** [TYPE_COMMENT NEWLINE] *)
Inductive comment_line : list ptok -> option token -> option token -> Prop :=
| comment_none : comment_line [] None None
| comment_some p t q u :
    tk_kind t = T_TypeComment -> tk_kind u = T_Newline -> comment_line [(p, t); (q, u)] (Some t) (Some u).

(** Items of a with statement: '(' with_item (',' with_item)* [','] ')' | with_item (',' with_item)*;
    a parenthesis after 'with' always opens the first form. *)
Inductive with_items : list ptok -> look -> option token -> list node -> list token -> option token -> Prop :=
| with_plain l la xs ts :
    E_items [F_with_item] PyComa l la xs ts -> ~ starts_with PyLeftParen l -> stops [PyComa] la ->
    with_items l la None xs ts None
| with_paren p t l xs ts q u la :
    tk_kind t = PyLeftParen -> E_items [F_with_item] PyComa l (q, Some u) xs ts ->
    tk_kind u = PyRightParen ->
    with_items ((p, t) :: l ++ [(q, u)]) la (Some t) xs ts (Some u)
| with_paren_comma p t l xs ts r v q u la :
    tk_kind t = PyLeftParen -> E_items [F_with_item] PyComa l (r, Some v) xs ts ->
    tk_kind v = PyComa -> tk_kind u = PyRightParen ->
    with_items ((p, t) :: l ++ [(r, v); (q, u)]) la (Some t) xs (ts ++ [v]) (Some u).

(** What follows 'except' ['*']: nothing before ':' | test ['as' NAME] *)
Inductive except_what : list ptok -> look -> option (node * option (token * token)) -> Prop :=
| except_any la : before [PyColon] la -> except_what [] la None
| except_test l la x : E F_test l la x -> stops [PyAs] la -> except_what l la (Some (x, None))
| except_as l x q u r v la :
    E F_test l (q, Some u) x -> tk_kind u = PyAs -> tk_kind v = T_AtomName ->
    except_what (l ++ [(q, u); (r, v)]) la (Some (x, Some (u, v))).

(** [B f c l la x c']: besides the phrase, the except/except* flag of the parser before and after. *)
Inductive B : fn -> except_status -> list ptok -> look -> node -> except_status -> Prop :=
(* stmt: simple_stmt | compound_stmt *)
| B_stmt_compound c l la x c' : B F_compound_stmt c l la x c' -> B F_stmt c l la x c'
| B_stmt_simple c l la x :
    E F_simple_stmt l la x -> ~ starts_match l ->
    B F_stmt c l la x c
(* compound_stmt: if_stmt | while_stmt | for_stmt | try_stmt | with_stmt | funcdef | classdef |
   decorated | async_stmt *)
| B_compound f c l la x c' :
    In f [F_if_stmt; F_while_stmt; F_for_stmt; F_try_stmt; F_with_stmt; F_func_def; F_class_def;
          F_decorated; F_async_stmt] ->
    B f c l la x c' ->
    B F_compound_stmt c l la x c'
(* async_stmt: 'async' (with_stmt | for_stmt); Python also has 'async' funcdef *)
| B_async f c p t l la x c' :
    tk_kind t = PyAsync -> In f [F_with_stmt; F_for_stmt] -> B f c l la x c' ->
    B F_async_stmt c ((p, t) :: l) la (AsyncStmt p (fst la) t x) c'
(* if_stmt: 'if' test ':' suite ('elif' test ':' suite)* ['else' ':' suite] *)
| B_if c p t l1 a q u l2 b c1 l3 xs c2 l4 o c3 la :
    tk_kind t = PyIf -> E F_test l1 (q, Some u) a -> tk_kind u = PyColon ->
    B F_suite c l2 (ahead (l3 ++ l4) la) b c1 ->
    B_many F_elif_stmt c1 l3 (ahead l4 la) xs c2 -> B_opt F_else_stmt c2 l4 la o c3 ->
    (o = None -> stops [PyElif; PyElse] la) ->
    B F_if_stmt c ((p, t) :: l1 ++ (q, u) :: l2 ++ l3 ++ l4) la
      (IfStmt p (fst la) t a u b (rev xs) o) c3
| B_elif c p t l1 a q u l2 b c' la :
    tk_kind t = PyElif -> E F_test l1 (q, Some u) a -> tk_kind u = PyColon ->
    B F_suite c l2 la b c' ->
    B F_elif_stmt c ((p, t) :: l1 ++ (q, u) :: l2) la (ElifStmt p (fst la) t a u b) c'
| B_else c p t q u l b c' la :
    tk_kind t = PyElse -> tk_kind u = PyColon -> B F_suite c l la b c' ->
    B F_else_stmt c ((p, t) :: (q, u) :: l) la (ElseStmt p (fst la) t u b) c'
(* while_stmt: 'while' test ':' suite ['else' ':' suite] *)
| B_while c p t l1 a q u l2 b c1 l3 o c2 la :
    tk_kind t = PyWhile -> E F_test l1 (q, Some u) a -> tk_kind u = PyColon ->
    B F_suite c l2 (ahead l3 la) b c1 -> B_opt F_else_stmt c1 l3 la o c2 ->
    (o = None -> stops [PyElse] la) ->
    B F_while_stmt c ((p, t) :: l1 ++ (q, u) :: l2 ++ l3) la (WhileStmt p (fst la) t a u b o) c2
(* for_stmt: 'for' exprlist 'in' testlist ':' [TYPE_COMMENT] suite ['else' ':' suite] *)
| B_for c p t l1 a q u l2 b r v l3 w l4 d c1 l5 o c2 la :
    tk_kind t = PyFor -> E F_exprlist l1 (q, Some u) a -> tk_kind u = PyIn ->
    E F_testlist l2 (r, Some v) b -> tk_kind v = PyColon -> opt_token T_TypeComment l3 w ->
    B F_suite c l4 (ahead l5 la) d c1 -> B_opt F_else_stmt c1 l5 la o c2 ->
    (o = None -> stops [PyElse] la) ->
    B F_for_stmt c ((p, t) :: l1 ++ (q, u) :: l2 ++ (r, v) :: l3 ++ l4 ++ l5) la
      (ForStmt p (fst la) t a u b v w d o) c2
(* try_stmt: 'try' ':' suite (finally | except_clause+ ['else' ':' suite] [finally]);
   the flag is reset at 'try' and not restored at the end *)
| B_try_finally c p t q u l1 a c1 l2 b c2 la :
    tk_kind t = PyTry -> tk_kind u = PyColon -> B F_suite ExceptNone l1 (ahead l2 la) a c1 ->
    B F_finally_stmt c1 l2 la b c2 ->
    B F_try_stmt c ((p, t) :: (q, u) :: l1 ++ l2) la (TryStmt p (fst la) t u a None None (Some b)) c2
| B_try c p t q u l1 a c1 l2 xs c2 l3 o3 c3 l4 o4 c4 la :
    tk_kind t = PyTry -> tk_kind u = PyColon ->
    B F_suite ExceptNone l1 (ahead (l2 ++ l3 ++ l4) la) a c1 ->
    B_many F_except_stmt c1 l2 (ahead (l3 ++ l4) la) xs c2 -> xs <> [] ->
    B_opt F_else_stmt c2 l3 (ahead l4 la) o3 c3 -> B_opt F_finally_stmt c3 l4 la o4 c4 ->
    (o4 = None -> stops (PyFinally :: match o3 with None => [PyExcept; PyElse] | _ => [] end) la) ->
    B F_try_stmt c ((p, t) :: (q, u) :: l1 ++ l2 ++ l3 ++ l4) la
      (TryStmt p (fst la) t u a (Some (rev xs)) o3 o4) c4
| B_finally c p t q u l b c' la :
    tk_kind t = PyFinally -> tk_kind u = PyColon -> B F_suite c l la b c' ->
    B F_finally_stmt c ((p, t) :: (q, u) :: l) la (FinallyStmt p (fst la) t u b) c'
| B_except_stmt c l1 a c1 q u l2 b c' la :
    B F_except_clause c l1 (q, Some u) a c1 -> tk_kind u = PyColon -> B F_suite c1 l2 la b c' ->
    B F_except_stmt c (l1 ++ (q, u) :: l2) la (ExceptStmt (start l1 (q, Some u)) (fst la) a u b) c'
(* except_clause: 'except' ['*'] [test ['as' NAME]] *)
| B_except_clause c p t l1 m c' l2 w la :
    tk_kind t = PyExcept -> opt_token PyMul l1 m -> except_step (is_some m) c c' ->
    except_what l2 la w ->
    B F_except_clause c ((p, t) :: l1 ++ l2) la (ExceptClauseStmt p (fst la) t m w) c'
(* with_stmt: 'with' with_items ':' suite *)
| B_with c p t l1 a xs ts b q u l2 x c' la :
    tk_kind t = PyWith -> with_items l1 (q, Some u) a xs ts b -> tk_kind u = PyColon ->
    B F_suite c l2 la x c' ->
    B F_with_stmt c ((p, t) :: l1 ++ (q, u) :: l2) la
      (WithStmt p (fst la) t a (rev xs) (rev ts) b u x) c'
(* suite: simple_stmt | NEWLINE INDENT stmt+ DEDENT *)
| B_suite_simple c l la x : E F_simple_stmt l la x -> B F_suite c l la x c
| B_suite_block c p t q u l xs c' r v la :
    tk_kind t = T_Newline -> tk_kind u = T_Indent -> B_many F_stmt c l (r, Some v) xs c' ->
    xs <> [] -> tk_kind v = T_Dedent ->
    B F_suite c ((p, t) :: (q, u) :: l ++ [(r, v)]) la (SuiteStmt p (fst la) t u (rev xs) v) c'
(* decorated: decorators (classdef | funcdef | async_funcdef) *)
| B_decorated f c l1 a l2 b c' la :
    E F_decorators l1 (ahead l2 la) a -> In f [F_class_def; F_func_def; F_async_func_def] ->
    B f c l2 la b c' ->
    B F_decorated c (l1 ++ l2) la (Decorated (start l1 (ahead l2 la)) (fst la) a b) c'
| B_async_func c p t l la x c' :
    tk_kind t = PyAsync -> B F_func_def c l la x c' ->
    B F_async_func_def c ((p, t) :: l) la (AsyncStmt p (fst la) t x) c'
(* funcdef: 'def' NAME [parameters] ['->' test] ':' [TYPE_COMMENT] func_body_suite *)
| B_func c p t q u l1 a l2 w r v l3 tc l4 b c' la :
    tk_kind t = PyDef -> tk_kind u = T_AtomName ->
    E_opt F_parameters l1 (ahead l2 (r, Some v)) a -> returns l2 (r, Some v) w ->
    tk_kind v = PyColon -> opt_token T_TypeComment l3 tc -> B F_func_body_suite c l4 la b c' ->
    B F_func_def c ((p, t) :: (q, u) :: l1 ++ l2 ++ (r, v) :: l3 ++ l4) la
      (FuncDef p (fst la) t u a w v tc b) c'
(* func_body_suite: simple_stmt | NEWLINE [TYPE_COMMENT NEWLINE] INDENT stmt+ DEDENT *)
| B_body_simple c l la x : E F_simple_stmt l la x -> B F_func_body_suite c l la x c
| B_body_block c p t l1 a b q u l2 xs c' r v la :
    tk_kind t = T_Newline -> comment_line l1 a b -> tk_kind u = T_Indent ->
    B_many F_stmt c l2 (r, Some v) xs c' -> xs <> [] -> tk_kind v = T_Dedent ->
    B F_func_body_suite c ((p, t) :: l1 ++ (q, u) :: l2 ++ [(r, v)]) la
      (FuncBodySuite p (fst la) t a b u (rev xs) v) c'
(* classdef: 'class' NAME ['(' [varargslist] ')'] ':' suite; Python has arglist *)
| B_class c p t q u l1 a o b r v l2 x c' la :
    tk_kind t = PyClass -> tk_kind u = T_AtomName -> bases l1 a o b -> tk_kind v = PyColon ->
    B F_suite c l2 la x c' ->
    B F_class_def c ((p, t) :: (q, u) :: l1 ++ (r, v) :: l2) la
      (ClassDef p (fst la) t u a o b v x) c'

with B_opt : fn -> except_status -> list ptok -> look -> option node -> except_status -> Prop :=
| B_none f c la : B_opt f c [] la None c
| B_some f c l la x c' : B f c l la x c' -> B_opt f c l la (Some x) c'

with B_many : fn -> except_status -> list ptok -> look -> list node -> except_status -> Prop :=
| B_nil f c la : B_many f c [] la [] c
| B_cons f c l1 x c1 l2 xs c' la :
    B f c l1 (ahead l2 la) x c1 -> B_many f c1 l2 la xs c' -> B_many f c (l1 ++ l2) la (x :: xs) c'.

Scheme B_ind' := Minimality for B Sort Prop
  with B_opt_ind' := Minimality for B_opt Sort Prop
  with B_many_ind' := Minimality for B_many Sort Prop.
Combined Scheme B_mutual from B_ind', B_opt_ind', B_many_ind'.

(** ** Complete inputs: the tokens after the first call of the tokenizer *)

(** (NEWLINE | stmt)* *)
Inductive lines : except_status -> list ptok -> look -> list node -> list token -> except_status -> Prop :=
| lines_nil c la : lines c [] la [] [] c
| lines_newline c p t l la xs ts c' :
    tk_kind t = T_Newline -> lines c l la xs ts c' -> lines c ((p, t) :: l) la xs (t :: ts) c'
| lines_stmt c l1 x c1 l2 la xs ts c' :
    B F_stmt c l1 (ahead l2 la) x c1 -> lines c1 l2 la xs ts c' ->
    lines c (l1 ++ l2) la (x :: xs) ts c'.

Inductive Input : fn -> except_status -> list ptok -> look -> node -> except_status -> Prop :=
(* file_input: (NEWLINE | stmt)* ENDMARKER; the end marker is the look-ahead *)
| I_file c l p t xs ts c' :
    lines c l (p, Some t) xs ts c' -> tk_kind t = T_EOF ->
    Input F_file_input c l (p, Some t) (FileInput (start l (p, Some t)) p (rev xs) (rev ts) t) c'
(* eval_input: testlist NEWLINE* ENDMARKER *)
| I_eval c l1 x l2 p t :
    E F_testlist l1 (ahead l2 (p, Some t)) x ->
    Forall (fun n => tk_kind (snd n) = T_Newline) l2 -> tk_kind t = T_EOF ->
    Input F_eval_input c (l1 ++ l2) (p, Some t)
      (EvalInput (start l1 (ahead l2 (p, Some t))) p x (rev (map snd l2)) t) c
(* func_type_input: func_type NEWLINE* ENDMARKER *)
| I_func_type c l1 x l2 p t :
    E F_func_type l1 (ahead l2 (p, Some t)) x ->
    Forall (fun n => tk_kind (snd n) = T_Newline) l2 -> tk_kind t = T_EOF ->
    Input F_func_type_input c (l1 ++ l2) (p, Some t)
      (FuncTypeInput (start l1 (ahead l2 (p, Some t))) p x (rev (map snd l2)) t) c
(* single_input: NEWLINE | simple_stmt | compound_stmt NEWLINE; the NEWLINE after a compound
   statement is stored, not read *)
| I_single_newline c p t la :
    tk_kind t = T_Newline ->
    Input F_single_input c [(p, t)] la (SingleInput p (fst la) None (Some t)) c
| I_single_simple c l la x :
    E F_simple_stmt l la x -> ~ starts_match l ->
    Input F_single_input c l la (SingleInput (start l la) (fst la) (Some x) None) c
| I_single_compound c l p t x c' :
    B F_compound_stmt c l (p, Some t) x c' -> tk_kind t = T_Newline ->
    Input F_single_input c l (p, Some t) (SingleInput (start l (p, Some t)) p (Some x) (Some t)) c'.
