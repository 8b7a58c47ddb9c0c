(** Vocabulary of layout independence (C54): the tokens of a text without their places and trivia,
    and trees that differ in places and trivia only.  Not modelled code. *)
From Coq Require Import List.
From Verif Require Import Chars SourceBuffer Token Tokenizer LexSpec Node ParserState Parser ExprSpec.
Import ListNotations.
Local Open Scope nat_scope.

(** What a call of the tokenizer returned, places and trivia aside. *)
Definition event_face (ev : token + err) : option (kind * payload) := match ev with inl t => Some (face t) | inr _ => None end.
(** All tokens of the text, up to the first error or the end (which come within this number of calls, C03). *)
Definition scanned (U : unicode) (text : str) : list (token + err) := lex_all U (3 * length text + 4) (lexer_new text).
Definition same_tokens (U : unicode) (text : str) (U' : unicode) (text' : str) : Prop :=
  map event_face (scanned U text) = map event_face (scanned U' text').

(** The tokenizer after [k] calls. *)
Fixpoint after (U : unicode) (k : nat) (l : lexer) : lexer :=
  match k with
  | O => l
  | S k => match get_symbol U l with LOk _ l' | LErr _ l' => after U k l' | LFuel => l end
  end.
(** [p] and [p'] are the positions reported after the same number of calls. *)
Definition corresponding (U : unicode) (text : str) (U' : unicode) (text' : str) (p p' : nat) : Prop :=
  exists k, p = lexer_get_position (after U k (lexer_new text)) /\ p' = lexer_get_position (after U' k (lexer_new text')).

(** ** Trees that differ in places and trivia only *)
Definition twin (t t' : token) : Prop := face t = face t'.
Inductive on_option {A} (R : A -> A -> Prop) : option A -> option A -> Prop :=
| on_none : on_option R None None
| on_some a a' : R a a' -> on_option R (Some a) (Some a').
Inductive on_pair {A B} (R : A -> A -> Prop) (S : B -> B -> Prop) : A * B -> A * B -> Prop :=
| on_both a a' b b' : R a a' -> S b b' -> on_pair R S (a, b) (a', b').

(** The same constructor throughout, positions related by [P] and tokens with the same faces. *)
Section Alike.
Variable P : nat -> nat -> Prop.
Inductive alike : node -> node -> Prop :=
| alike_NamedExpr p q p' q' a b c a' b' c' :
    P p p' -> P q q' -> alike a a' -> twin b b' -> alike c c' ->
    alike (NamedExpr p q a b c) (NamedExpr p' q' a' b' c')
| alike_Test p q p' q' a b c d e a' b' c' d' e' :
    P p p' -> P q q' -> alike a a' -> twin b b' -> alike c c' -> twin d d' -> alike e e' ->
    alike (Test p q a b c d e) (Test p' q' a' b' c' d' e')
| alike_Lambda p q p' q' a b c d a' b' c' d' :
    P p p' -> P q q' -> twin a a' -> on_option alike b b' -> twin c c' -> alike d d' ->
    alike (Lambda p q a b c d) (Lambda p' q' a' b' c' d')
| alike_OrTest p q p' q' a b c a' b' c' :
    P p p' -> P q q' -> alike a a' -> twin b b' -> alike c c' ->
    alike (OrTest p q a b c) (OrTest p' q' a' b' c')
| alike_AndTest p q p' q' a b c a' b' c' :
    P p p' -> P q q' -> alike a a' -> twin b b' -> alike c c' ->
    alike (AndTest p q a b c) (AndTest p' q' a' b' c')
| alike_NotTest p q p' q' a b a' b' :
    P p p' -> P q q' -> twin a a' -> alike b b' ->
    alike (NotTest p q a b) (NotTest p' q' a' b')
| alike_LessComparison p q p' q' a b c a' b' c' :
    P p p' -> P q q' -> alike a a' -> twin b b' -> alike c c' ->
    alike (LessComparison p q a b c) (LessComparison p' q' a' b' c')
| alike_LessEqualComparison p q p' q' a b c a' b' c' :
    P p p' -> P q q' -> alike a a' -> twin b b' -> alike c c' ->
    alike (LessEqualComparison p q a b c) (LessEqualComparison p' q' a' b' c')
| alike_EqualComparison p q p' q' a b c a' b' c' :
    P p p' -> P q q' -> alike a a' -> twin b b' -> alike c c' ->
    alike (EqualComparison p q a b c) (EqualComparison p' q' a' b' c')
| alike_GreaterComparison p q p' q' a b c a' b' c' :
    P p p' -> P q q' -> alike a a' -> twin b b' -> alike c c' ->
    alike (GreaterComparison p q a b c) (GreaterComparison p' q' a' b' c')
| alike_GreaterEqualComparison p q p' q' a b c a' b' c' :
    P p p' -> P q q' -> alike a a' -> twin b b' -> alike c c' ->
    alike (GreaterEqualComparison p q a b c) (GreaterEqualComparison p' q' a' b' c')
| alike_NotEqualComparison p q p' q' a b c a' b' c' :
    P p p' -> P q q' -> alike a a' -> twin b b' -> alike c c' ->
    alike (NotEqualComparison p q a b c) (NotEqualComparison p' q' a' b' c')
| alike_InComparison p q p' q' a b c a' b' c' :
    P p p' -> P q q' -> alike a a' -> twin b b' -> alike c c' ->
    alike (InComparison p q a b c) (InComparison p' q' a' b' c')
| alike_IsComparison p q p' q' a b c a' b' c' :
    P p p' -> P q q' -> alike a a' -> twin b b' -> alike c c' ->
    alike (IsComparison p q a b c) (IsComparison p' q' a' b' c')
| alike_NotInComparison p q p' q' a b c d a' b' c' d' :
    P p p' -> P q q' -> alike a a' -> twin b b' -> twin c c' -> alike d d' ->
    alike (NotInComparison p q a b c d) (NotInComparison p' q' a' b' c' d')
| alike_IsNotComparison p q p' q' a b c d a' b' c' d' :
    P p p' -> P q q' -> alike a a' -> twin b b' -> twin c c' -> alike d d' ->
    alike (IsNotComparison p q a b c d) (IsNotComparison p' q' a' b' c' d')
| alike_StarExpr p q p' q' a b a' b' :
    P p p' -> P q q' -> twin a a' -> alike b b' ->
    alike (StarExpr p q a b) (StarExpr p' q' a' b')
| alike_Expr p q p' q' a b c a' b' c' :
    P p p' -> P q q' -> alike a a' -> twin b b' -> alike c c' ->
    alike (Expr p q a b c) (Expr p' q' a' b' c')
| alike_XorExpr p q p' q' a b c a' b' c' :
    P p p' -> P q q' -> alike a a' -> twin b b' -> alike c c' ->
    alike (XorExpr p q a b c) (XorExpr p' q' a' b' c')
| alike_AndExpr p q p' q' a b c a' b' c' :
    P p p' -> P q q' -> alike a a' -> twin b b' -> alike c c' ->
    alike (AndExpr p q a b c) (AndExpr p' q' a' b' c')
| alike_ShiftLeftExpr p q p' q' a b c a' b' c' :
    P p p' -> P q q' -> alike a a' -> twin b b' -> alike c c' ->
    alike (ShiftLeftExpr p q a b c) (ShiftLeftExpr p' q' a' b' c')
| alike_ShiftRightExpr p q p' q' a b c a' b' c' :
    P p p' -> P q q' -> alike a a' -> twin b b' -> alike c c' ->
    alike (ShiftRightExpr p q a b c) (ShiftRightExpr p' q' a' b' c')
| alike_PlusArithExpr p q p' q' a b c a' b' c' :
    P p p' -> P q q' -> alike a a' -> twin b b' -> alike c c' ->
    alike (PlusArithExpr p q a b c) (PlusArithExpr p' q' a' b' c')
| alike_MinusArithExpr p q p' q' a b c a' b' c' :
    P p p' -> P q q' -> alike a a' -> twin b b' -> alike c c' ->
    alike (MinusArithExpr p q a b c) (MinusArithExpr p' q' a' b' c')
| alike_MulTerm p q p' q' a b c a' b' c' :
    P p p' -> P q q' -> alike a a' -> twin b b' -> alike c c' ->
    alike (MulTerm p q a b c) (MulTerm p' q' a' b' c')
| alike_DivTerm p q p' q' a b c a' b' c' :
    P p p' -> P q q' -> alike a a' -> twin b b' -> alike c c' ->
    alike (DivTerm p q a b c) (DivTerm p' q' a' b' c')
| alike_FloorDivTerm p q p' q' a b c a' b' c' :
    P p p' -> P q q' -> alike a a' -> twin b b' -> alike c c' ->
    alike (FloorDivTerm p q a b c) (FloorDivTerm p' q' a' b' c')
| alike_ModuloTerm p q p' q' a b c a' b' c' :
    P p p' -> P q q' -> alike a a' -> twin b b' -> alike c c' ->
    alike (ModuloTerm p q a b c) (ModuloTerm p' q' a' b' c')
| alike_MatriceTerm p q p' q' a b c a' b' c' :
    P p p' -> P q q' -> alike a a' -> twin b b' -> alike c c' ->
    alike (MatriceTerm p q a b c) (MatriceTerm p' q' a' b' c')
| alike_UnaryPlus p q p' q' a b a' b' :
    P p p' -> P q q' -> twin a a' -> alike b b' ->
    alike (UnaryPlus p q a b) (UnaryPlus p' q' a' b')
| alike_UnaryMinus p q p' q' a b a' b' :
    P p p' -> P q q' -> twin a a' -> alike b b' ->
    alike (UnaryMinus p q a b) (UnaryMinus p' q' a' b')
| alike_UnaryInvert p q p' q' a b a' b' :
    P p p' -> P q q' -> twin a a' -> alike b b' ->
    alike (UnaryInvert p q a b) (UnaryInvert p' q' a' b')
| alike_PowerExpr p q p' q' a b c a' b' c' :
    P p p' -> P q q' -> alike a a' -> twin b b' -> alike c c' ->
    alike (PowerExpr p q a b c) (PowerExpr p' q' a' b' c')
| alike_AtomExpr p q p' q' a b c a' b' c' :
    P p p' -> P q q' -> on_option twin a a' -> alike b b' -> Forall2 alike c c' ->
    alike (AtomExpr p q a b c) (AtomExpr p' q' a' b' c')
| alike_AtomName p q p' q' a a' :
    P p p' -> P q q' -> twin a a' ->
    alike (AtomName p q a) (AtomName p' q' a')
| alike_AtomNumber p q p' q' a a' :
    P p p' -> P q q' -> twin a a' ->
    alike (AtomNumber p q a) (AtomNumber p' q' a')
| alike_AtomString p q p' q' a a' :
    P p p' -> P q q' -> Forall2 twin a a' ->
    alike (AtomString p q a) (AtomString p' q' a')
| alike_AtomElipsis p q p' q' a a' :
    P p p' -> P q q' -> twin a a' ->
    alike (AtomElipsis p q a) (AtomElipsis p' q' a')
| alike_AtomNone p q p' q' a a' :
    P p p' -> P q q' -> twin a a' ->
    alike (AtomNone p q a) (AtomNone p' q' a')
| alike_AtomTrue p q p' q' a a' :
    P p p' -> P q q' -> twin a a' ->
    alike (AtomTrue p q a) (AtomTrue p' q' a')
| alike_AtomFalse p q p' q' a a' :
    P p p' -> P q q' -> twin a a' ->
    alike (AtomFalse p q a) (AtomFalse p' q' a')
| alike_AtomTuple p q p' q' a b c a' b' c' :
    P p p' -> P q q' -> twin a a' -> on_option alike b b' -> twin c c' ->
    alike (AtomTuple p q a b c) (AtomTuple p' q' a' b' c')
| alike_AtomList p q p' q' a b c a' b' c' :
    P p p' -> P q q' -> twin a a' -> on_option alike b b' -> twin c c' ->
    alike (AtomList p q a b c) (AtomList p' q' a' b' c')
| alike_AtomDictionary p q p' q' a b c a' b' c' :
    P p p' -> P q q' -> twin a a' -> on_option alike b b' -> twin c c' ->
    alike (AtomDictionary p q a b c) (AtomDictionary p' q' a' b' c')
| alike_AtomSet p q p' q' a b c a' b' c' :
    P p p' -> P q q' -> twin a a' -> on_option alike b b' -> twin c c' ->
    alike (AtomSet p q a b c) (AtomSet p' q' a' b' c')
| alike_TestListComp p q p' q' a b a' b' :
    P p p' -> P q q' -> Forall2 alike a a' -> Forall2 twin b b' ->
    alike (TestListComp p q a b) (TestListComp p' q' a' b')
| alike_CallTrailer p q p' q' a b c a' b' c' :
    P p p' -> P q q' -> twin a a' -> on_option alike b b' -> twin c c' ->
    alike (CallTrailer p q a b c) (CallTrailer p' q' a' b' c')
| alike_IndexTrailer p q p' q' a b c a' b' c' :
    P p p' -> P q q' -> twin a a' -> alike b b' -> twin c c' ->
    alike (IndexTrailer p q a b c) (IndexTrailer p' q' a' b' c')
| alike_DotNameTrailer p q p' q' a b a' b' :
    P p p' -> P q q' -> twin a a' -> twin b b' ->
    alike (DotNameTrailer p q a b) (DotNameTrailer p' q' a' b')
| alike_SubscriptList p q p' q' a b a' b' :
    P p p' -> P q q' -> Forall2 alike a a' -> Forall2 twin b b' ->
    alike (SubscriptList p q a b) (SubscriptList p' q' a' b')
| alike_Subscript p q p' q' a b c d e a' b' c' d' e' :
    P p p' -> P q q' -> on_option alike a a' -> on_option twin b b' -> on_option alike c c' -> on_option twin d d' -> on_option alike e e' ->
    alike (Subscript p q a b c d e) (Subscript p' q' a' b' c' d' e')
| alike_ExprList p q p' q' a b a' b' :
    P p p' -> P q q' -> Forall2 alike a a' -> Forall2 twin b b' ->
    alike (ExprList p q a b) (ExprList p' q' a' b')
| alike_TestList p q p' q' a b a' b' :
    P p p' -> P q q' -> Forall2 alike a a' -> Forall2 twin b b' ->
    alike (TestList p q a b) (TestList p' q' a' b')
| alike_DictionaryContainer p q p' q' a b a' b' :
    P p p' -> P q q' -> Forall2 alike a a' -> Forall2 twin b b' ->
    alike (DictionaryContainer p q a b) (DictionaryContainer p' q' a' b')
| alike_DictionaryEntry p q p' q' a b c a' b' c' :
    P p p' -> P q q' -> alike a a' -> twin b b' -> alike c c' ->
    alike (DictionaryEntry p q a b c) (DictionaryEntry p' q' a' b' c')
| alike_SetContainer p q p' q' a b a' b' :
    P p p' -> P q q' -> Forall2 alike a a' -> Forall2 twin b b' ->
    alike (SetContainer p q a b) (SetContainer p' q' a' b')
| alike_MulSet p q p' q' a b a' b' :
    P p p' -> P q q' -> twin a a' -> alike b b' ->
    alike (MulSet p q a b) (MulSet p' q' a' b')
| alike_PowerDictionary p q p' q' a b a' b' :
    P p p' -> P q q' -> twin a a' -> alike b b' ->
    alike (PowerDictionary p q a b) (PowerDictionary p' q' a' b')
| alike_ClassDef p q p' q' a b c d e f g a' b' c' d' e' f' g' :
    P p p' -> P q q' -> twin a a' -> twin b b' -> on_option twin c c' -> on_option alike d d' -> on_option twin e e' -> twin f f' -> alike g g' ->
    alike (ClassDef p q a b c d e f g) (ClassDef p' q' a' b' c' d' e' f' g')
| alike_ArgList p q p' q' a b a' b' :
    P p p' -> P q q' -> Forall2 alike a a' -> Forall2 twin b b' ->
    alike (ArgList p q a b) (ArgList p' q' a' b')
| alike_Argument p q p' q' a b c a' b' c' :
    P p p' -> P q q' -> on_option alike a a' -> on_option twin b b' -> on_option alike c c' ->
    alike (Argument p q a b c) (Argument p' q' a' b' c')
| alike_SyncCompForComprehension p q p' q' a b c d e a' b' c' d' e' :
    P p p' -> P q q' -> twin a a' -> alike b b' -> twin c c' -> alike d d' -> on_option alike e e' ->
    alike (SyncCompForComprehension p q a b c d e) (SyncCompForComprehension p' q' a' b' c' d' e')
| alike_CompForComprehension p q p' q' a b a' b' :
    P p p' -> P q q' -> twin a a' -> alike b b' ->
    alike (CompForComprehension p q a b) (CompForComprehension p' q' a' b')
| alike_CompIfComprehension p q p' q' a b c a' b' c' :
    P p p' -> P q q' -> twin a a' -> alike b b' -> on_option alike c c' ->
    alike (CompIfComprehension p q a b c) (CompIfComprehension p' q' a' b' c')
| alike_YieldExpr p q p' q' a b a' b' :
    P p p' -> P q q' -> twin a a' -> alike b b' ->
    alike (YieldExpr p q a b) (YieldExpr p' q' a' b')
| alike_YieldFromExpr p q p' q' a b c a' b' c' :
    P p p' -> P q q' -> twin a a' -> twin b b' -> alike c c' ->
    alike (YieldFromExpr p q a b c) (YieldFromExpr p' q' a' b' c')
| alike_FuncBodySuite p q p' q' a b c d e f a' b' c' d' e' f' :
    P p p' -> P q q' -> twin a a' -> on_option twin b b' -> on_option twin c c' -> twin d d' -> Forall2 alike e e' -> twin f f' ->
    alike (FuncBodySuite p q a b c d e f) (FuncBodySuite p' q' a' b' c' d' e' f')
| alike_FuncTypeInput p q p' q' a b c a' b' c' :
    P p p' -> P q q' -> alike a a' -> Forall2 twin b b' -> twin c c' ->
    alike (FuncTypeInput p q a b c) (FuncTypeInput p' q' a' b' c')
| alike_FuncType p q p' q' a b c d e a' b' c' d' e' :
    P p p' -> P q q' -> twin a a' -> on_option alike b b' -> twin c c' -> twin d d' -> alike e e' ->
    alike (FuncType p q a b c d e) (FuncType p' q' a' b' c' d' e')
| alike_TypeList p q p' q' a b c d e f a' b' c' d' e' f' :
    P p p' -> P q q' -> Forall2 alike a a' -> Forall2 twin b b' -> on_option twin c c' -> on_option alike d d' -> on_option twin e e' -> on_option alike f f' ->
    alike (TypeList p q a b c d e f) (TypeList p' q' a' b' c' d' e' f')
| alike_TestListStarExpr p q p' q' a b a' b' :
    P p p' -> P q q' -> Forall2 alike a a' -> Forall2 twin b b' ->
    alike (TestListStarExpr p q a b) (TestListStarExpr p' q' a' b')
| alike_SimpleStmtList p q p' q' a b c a' b' c' :
    P p p' -> P q q' -> Forall2 alike a a' -> Forall2 twin b b' -> twin c c' ->
    alike (SimpleStmtList p q a b c) (SimpleStmtList p' q' a' b' c')
| alike_PlusAssignStmt p q p' q' a b c a' b' c' :
    P p p' -> P q q' -> alike a a' -> twin b b' -> alike c c' ->
    alike (PlusAssignStmt p q a b c) (PlusAssignStmt p' q' a' b' c')
| alike_MinusAssignStmt p q p' q' a b c a' b' c' :
    P p p' -> P q q' -> alike a a' -> twin b b' -> alike c c' ->
    alike (MinusAssignStmt p q a b c) (MinusAssignStmt p' q' a' b' c')
| alike_MulAssignStmt p q p' q' a b c a' b' c' :
    P p p' -> P q q' -> alike a a' -> twin b b' -> alike c c' ->
    alike (MulAssignStmt p q a b c) (MulAssignStmt p' q' a' b' c')
| alike_DivAssignStmt p q p' q' a b c a' b' c' :
    P p p' -> P q q' -> alike a a' -> twin b b' -> alike c c' ->
    alike (DivAssignStmt p q a b c) (DivAssignStmt p' q' a' b' c')
| alike_FloorDivAssignStmt p q p' q' a b c a' b' c' :
    P p p' -> P q q' -> alike a a' -> twin b b' -> alike c c' ->
    alike (FloorDivAssignStmt p q a b c) (FloorDivAssignStmt p' q' a' b' c')
| alike_ModuloAssignStmt p q p' q' a b c a' b' c' :
    P p p' -> P q q' -> alike a a' -> twin b b' -> alike c c' ->
    alike (ModuloAssignStmt p q a b c) (ModuloAssignStmt p' q' a' b' c')
| alike_MatriceAssignStmt p q p' q' a b c a' b' c' :
    P p p' -> P q q' -> alike a a' -> twin b b' -> alike c c' ->
    alike (MatriceAssignStmt p q a b c) (MatriceAssignStmt p' q' a' b' c')
| alike_PowerAssignStmt p q p' q' a b c a' b' c' :
    P p p' -> P q q' -> alike a a' -> twin b b' -> alike c c' ->
    alike (PowerAssignStmt p q a b c) (PowerAssignStmt p' q' a' b' c')
| alike_ShiftLeftAssignStmt p q p' q' a b c a' b' c' :
    P p p' -> P q q' -> alike a a' -> twin b b' -> alike c c' ->
    alike (ShiftLeftAssignStmt p q a b c) (ShiftLeftAssignStmt p' q' a' b' c')
| alike_ShiftRightAssignStmt p q p' q' a b c a' b' c' :
    P p p' -> P q q' -> alike a a' -> twin b b' -> alike c c' ->
    alike (ShiftRightAssignStmt p q a b c) (ShiftRightAssignStmt p' q' a' b' c')
| alike_BitOrAssignStmt p q p' q' a b c a' b' c' :
    P p p' -> P q q' -> alike a a' -> twin b b' -> alike c c' ->
    alike (BitOrAssignStmt p q a b c) (BitOrAssignStmt p' q' a' b' c')
| alike_BitXorAssignStmt p q p' q' a b c a' b' c' :
    P p p' -> P q q' -> alike a a' -> twin b b' -> alike c c' ->
    alike (BitXorAssignStmt p q a b c) (BitXorAssignStmt p' q' a' b' c')
| alike_BitAndAssignStmt p q p' q' a b c a' b' c' :
    P p p' -> P q q' -> alike a a' -> twin b b' -> alike c c' ->
    alike (BitAndAssignStmt p q a b c) (BitAndAssignStmt p' q' a' b' c')
| alike_AnnAssignStmt p q p' q' a b c d a' b' c' d' :
    P p p' -> P q q' -> alike a a' -> twin b b' -> alike c c' -> on_option (on_pair twin alike) d d' ->
    alike (AnnAssignStmt p q a b c d) (AnnAssignStmt p' q' a' b' c' d')
| alike_AssignmentStmt p q p' q' a b c a' b' c' :
    P p p' -> P q q' -> alike a a' -> Forall2 (on_pair twin alike) b b' -> on_option twin c c' ->
    alike (AssignmentStmt p q a b c) (AssignmentStmt p' q' a' b' c')
| alike_DelStmt p q p' q' a b a' b' :
    P p p' -> P q q' -> twin a a' -> alike b b' ->
    alike (DelStmt p q a b) (DelStmt p' q' a' b')
| alike_PassStmt p q p' q' a a' :
    P p p' -> P q q' -> twin a a' ->
    alike (PassStmt p q a) (PassStmt p' q' a')
| alike_BreakStmt p q p' q' a a' :
    P p p' -> P q q' -> twin a a' ->
    alike (BreakStmt p q a) (BreakStmt p' q' a')
| alike_ContinueStmt p q p' q' a a' :
    P p p' -> P q q' -> twin a a' ->
    alike (ContinueStmt p q a) (ContinueStmt p' q' a')
| alike_ReturnStmt p q p' q' a b a' b' :
    P p p' -> P q q' -> twin a a' -> on_option alike b b' ->
    alike (ReturnStmt p q a b) (ReturnStmt p' q' a' b')
| alike_RaiseStmt p q p' q' a b a' b' :
    P p p' -> P q q' -> twin a a' -> on_option (on_pair alike (on_option (on_pair twin alike))) b b' ->
    alike (RaiseStmt p q a b) (RaiseStmt p' q' a' b')
| alike_ImportNameStmt p q p' q' a b a' b' :
    P p p' -> P q q' -> twin a a' -> alike b b' ->
    alike (ImportNameStmt p q a b) (ImportNameStmt p' q' a' b')
| alike_ImportFromStmt p q p' q' a b c d e f g a' b' c' d' e' f' g' :
    P p p' -> P q q' -> twin a a' -> Forall2 twin b b' -> on_option alike c c' -> twin d d' -> on_option twin e e' -> on_option alike f f' -> on_option twin g g' ->
    alike (ImportFromStmt p q a b c d e f g) (ImportFromStmt p' q' a' b' c' d' e' f' g')
| alike_ImportAsName p q p' q' a b a' b' :
    P p p' -> P q q' -> twin a a' -> on_option (on_pair twin twin) b b' ->
    alike (ImportAsName p q a b) (ImportAsName p' q' a' b')
| alike_DottedAsNameStmt p q p' q' a b a' b' :
    P p p' -> P q q' -> alike a a' -> on_option (on_pair twin twin) b b' ->
    alike (DottedAsNameStmt p q a b) (DottedAsNameStmt p' q' a' b')
| alike_ImportAsNamesStmt p q p' q' a b a' b' :
    P p p' -> P q q' -> Forall2 alike a a' -> Forall2 twin b b' ->
    alike (ImportAsNamesStmt p q a b) (ImportAsNamesStmt p' q' a' b')
| alike_DottedAsNamesStmt p q p' q' a b a' b' :
    P p p' -> P q q' -> Forall2 alike a a' -> Forall2 twin b b' ->
    alike (DottedAsNamesStmt p q a b) (DottedAsNamesStmt p' q' a' b')
| alike_DottedNameStmt p q p' q' a b a' b' :
    P p p' -> P q q' -> Forall2 twin a a' -> Forall2 twin b b' ->
    alike (DottedNameStmt p q a b) (DottedNameStmt p' q' a' b')
| alike_GlobalStmt p q p' q' a b c a' b' c' :
    P p p' -> P q q' -> twin a a' -> Forall2 twin b b' -> Forall2 twin c c' ->
    alike (GlobalStmt p q a b c) (GlobalStmt p' q' a' b' c')
| alike_NonLocalStmt p q p' q' a b c a' b' c' :
    P p p' -> P q q' -> twin a a' -> Forall2 twin b b' -> Forall2 twin c c' ->
    alike (NonLocalStmt p q a b c) (NonLocalStmt p' q' a' b' c')
| alike_AssertStmt p q p' q' a b c a' b' c' :
    P p p' -> P q q' -> twin a a' -> alike b b' -> on_option (on_pair twin alike) c c' ->
    alike (AssertStmt p q a b c) (AssertStmt p' q' a' b' c')
| alike_AsyncStmt p q p' q' a b a' b' :
    P p p' -> P q q' -> twin a a' -> alike b b' ->
    alike (AsyncStmt p q a b) (AsyncStmt p' q' a' b')
| alike_IfStmt p q p' q' a b c d e f a' b' c' d' e' f' :
    P p p' -> P q q' -> twin a a' -> alike b b' -> twin c c' -> alike d d' -> Forall2 alike e e' -> on_option alike f f' ->
    alike (IfStmt p q a b c d e f) (IfStmt p' q' a' b' c' d' e' f')
| alike_ElifStmt p q p' q' a b c d a' b' c' d' :
    P p p' -> P q q' -> twin a a' -> alike b b' -> twin c c' -> alike d d' ->
    alike (ElifStmt p q a b c d) (ElifStmt p' q' a' b' c' d')
| alike_ElseStmt p q p' q' a b c a' b' c' :
    P p p' -> P q q' -> twin a a' -> twin b b' -> alike c c' ->
    alike (ElseStmt p q a b c) (ElseStmt p' q' a' b' c')
| alike_WhileStmt p q p' q' a b c d e a' b' c' d' e' :
    P p p' -> P q q' -> twin a a' -> alike b b' -> twin c c' -> alike d d' -> on_option alike e e' ->
    alike (WhileStmt p q a b c d e) (WhileStmt p' q' a' b' c' d' e')
| alike_ForStmt p q p' q' a b c d e f g h a' b' c' d' e' f' g' h' :
    P p p' -> P q q' -> twin a a' -> alike b b' -> twin c c' -> alike d d' -> twin e e' -> on_option twin f f' -> alike g g' -> on_option alike h h' ->
    alike (ForStmt p q a b c d e f g h) (ForStmt p' q' a' b' c' d' e' f' g' h')
| alike_TryStmt p q p' q' a b c d e f a' b' c' d' e' f' :
    P p p' -> P q q' -> twin a a' -> twin b b' -> alike c c' -> on_option (Forall2 alike) d d' -> on_option alike e e' -> on_option alike f f' ->
    alike (TryStmt p q a b c d e f) (TryStmt p' q' a' b' c' d' e' f')
| alike_FinallyStmt p q p' q' a b c a' b' c' :
    P p p' -> P q q' -> twin a a' -> twin b b' -> alike c c' ->
    alike (FinallyStmt p q a b c) (FinallyStmt p' q' a' b' c')
| alike_WithStmt p q p' q' a b c d e f g a' b' c' d' e' f' g' :
    P p p' -> P q q' -> twin a a' -> on_option twin b b' -> Forall2 alike c c' -> Forall2 twin d d' -> on_option twin e e' -> twin f f' -> alike g g' ->
    alike (WithStmt p q a b c d e f g) (WithStmt p' q' a' b' c' d' e' f' g')
| alike_WithItem p q p' q' a b a' b' :
    P p p' -> P q q' -> alike a a' -> on_option (on_pair twin alike) b b' ->
    alike (WithItem p q a b) (WithItem p' q' a' b')
| alike_ExceptClauseStmt p q p' q' a b c a' b' c' :
    P p p' -> P q q' -> twin a a' -> on_option twin b b' -> on_option (on_pair alike (on_option (on_pair twin twin))) c c' ->
    alike (ExceptClauseStmt p q a b c) (ExceptClauseStmt p' q' a' b' c')
| alike_ExceptStmt p q p' q' a b c a' b' c' :
    P p p' -> P q q' -> alike a a' -> twin b b' -> alike c c' ->
    alike (ExceptStmt p q a b c) (ExceptStmt p' q' a' b' c')
| alike_SuiteStmt p q p' q' a b c d a' b' c' d' :
    P p p' -> P q q' -> twin a a' -> twin b b' -> Forall2 alike c c' -> twin d d' ->
    alike (SuiteStmt p q a b c d) (SuiteStmt p' q' a' b' c' d')
| alike_Decorator p q p' q' a b c d e f a' b' c' d' e' f' :
    P p p' -> P q q' -> twin a a' -> alike b b' -> on_option twin c c' -> on_option alike d d' -> on_option twin e e' -> twin f f' ->
    alike (Decorator p q a b c d e f) (Decorator p' q' a' b' c' d' e' f')
| alike_Decorators p q p' q' a a' :
    P p p' -> P q q' -> Forall2 alike a a' ->
    alike (Decorators p q a) (Decorators p' q' a')
| alike_Decorated p q p' q' a b a' b' :
    P p p' -> P q q' -> alike a a' -> alike b b' ->
    alike (Decorated p q a b) (Decorated p' q' a' b')
| alike_FuncDef p q p' q' a b c d e f g a' b' c' d' e' f' g' :
    P p p' -> P q q' -> twin a a' -> twin b b' -> on_option alike c c' -> on_option (on_pair twin alike) d d' -> twin e e' -> on_option twin f f' -> alike g g' ->
    alike (FuncDef p q a b c d e f g) (FuncDef p' q' a' b' c' d' e' f' g')
| alike_ParameterList p q p' q' a b c a' b' c' :
    P p p' -> P q q' -> twin a a' -> on_option alike b b' -> twin c c' ->
    alike (ParameterList p q a b c) (ParameterList p' q' a' b' c')
| alike_TypedArgsList p q p' q' a b c d e a' b' c' d' e' :
    P p p' -> P q q' -> Forall2 alike a a' -> Forall2 twin b b' -> Forall2 twin c c' -> on_option (on_pair twin alike) d d' -> on_option (on_pair twin alike) e e' ->
    alike (TypedArgsList p q a b c d e) (TypedArgsList p' q' a' b' c' d' e')
| alike_TFPAssign p q p' q' a b c a' b' c' :
    P p p' -> P q q' -> alike a a' -> twin b b' -> alike c c' ->
    alike (TFPAssign p q a b c) (TFPAssign p' q' a' b' c')
| alike_TFPDef p q p' q' a b a' b' :
    P p p' -> P q q' -> twin a a' -> on_option (on_pair twin alike) b b' ->
    alike (TFPDef p q a b) (TFPDef p' q' a' b')
| alike_VarArgsList p q p' q' a b c d e f g a' b' c' d' e' f' g' :
    P p p' -> P q q' -> Forall2 alike a a' -> Forall2 twin b b' -> on_option twin c c' -> on_option alike d d' -> on_option twin e e' -> on_option alike f f' -> on_option twin g g' ->
    alike (VarArgsList p q a b c d e f g) (VarArgsList p' q' a' b' c' d' e' f' g')
| alike_VFPAssign p q p' q' a b c a' b' c' :
    P p p' -> P q q' -> alike a a' -> twin b b' -> alike c c' ->
    alike (VFPAssign p q a b c) (VFPAssign p' q' a' b' c')
| alike_VFPDef p q p' q' a a' :
    P p p' -> P q q' -> twin a a' ->
    alike (VFPDef p q a) (VFPDef p' q' a')
| alike_SingleInput p q p' q' a b a' b' :
    P p p' -> P q q' -> on_option alike a a' -> on_option twin b b' ->
    alike (SingleInput p q a b) (SingleInput p' q' a' b')
| alike_FileInput p q p' q' a b c a' b' c' :
    P p p' -> P q q' -> Forall2 alike a a' -> Forall2 twin b b' -> twin c c' ->
    alike (FileInput p q a b c) (FileInput p' q' a' b' c')
| alike_EvalInput p q p' q' a b c a' b' c' :
    P p p' -> P q q' -> alike a a' -> Forall2 twin b b' -> twin c c' ->
    alike (EvalInput p q a b c) (EvalInput p' q' a' b' c').
End Alike.

(** The same outcome: trees alike, the same message at corresponding positions, a panic, or no end. *)
Definition same_outcome (P : nat -> nat -> Prop) (o o' : outcome node) : Prop :=
  match o, o' with
  | Ok x _, Ok x' _ => alike P x x'
  | Err e, Err e' => exists msg p p', e = EAt msg p /\ e' = EAt msg p' /\ P p p'
  | Panic, Panic | Fuel, Fuel => True
  | _, _ => False
  end.
