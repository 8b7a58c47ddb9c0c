(** Statements as Python defines them: abstract trees, the tokens and the lines that write them down,
    and the reading of a syntax tree as such a tree (C52).  Not modelled code. *)
From Coq Require Import List Arith Bool.
From Verif Require Import Chars SourceBuffer Token Tokenizer LexSpec TokenSpec RenderSpec Node ExprSpec.
Import ListNotations.
Local Open Scope nat_scope.

(** ** Trees *)

(** Expressions separated by commas, [*e] as [(true, e)], and whether a comma follows the last. *)
Record listing := Listing { ls_items : list (bool * ast); ls_comma : bool }.
(** What stands on the right of an assignment. *)
Inductive source := Values (r : listing) | Yields (r : listing) | YieldsFrom (e : ast).
(** [NAME] and [as NAME] *)
Definition alias := (payload * option payload)%type.
Inductive small :=
| Eval (r : listing)
| Assign (r : listing) (v : source) (vs : list source)        (* r = v = ... *)
| Augment (k : kind) (r : listing) (v : source)               (* r += v *)
| Annotate (r : listing) (e : ast) (v : option source)        (* r : e = v *)
| Del (r : listing)
| Pass
| Break
| Continue
| Return (r : option listing)
| Raise (e : option (ast * option ast))                       (* raise e from d *)
| YieldStmt (v : source)
| FromImport (dots : list kind) (m : list payload) (names : option (bool * (alias * list alias)))  (* in parentheses? *)
| Global (n : payload) (ns : list payload)
| NonLocal (n : payload) (ns : list payload)
| Assert (e : ast).
(** Simple statements on one line, and whether a semicolon follows the last. *)
Record smalls := Smalls { sm_first : small; sm_more : list small; sm_semi : bool }.
Inductive what := Anything | Exactly (e : ast) | Bound (e : ast) (n : payload).
(** [as] in a with statement *)
Definition with_part := (ast * option ast)%type.
Inductive stmt :=
| Simple (s : smalls)
| IfStmt (e : ast) (b : suite) (es : elifs) (o : clause)
| WhileStmt (e : ast) (b : suite) (o : clause)
| ForStmt (async : bool) (a : listing) (r : listing) (b : suite) (o : clause)
| TryStmt (b : suite) (hs : handlers) (o f : clause)
| WithStmt (async : bool) (brackets : option bool) (i : with_part) (is : list with_part) (b : suite)   (* ( i, ), with a comma? *)
| ClassDef (n : payload) (bases : option (list (payload * option ast))) (b : suite)
| FuncDef (n : payload) (r : option ast) (b : suite)          (* def n() -> r: b *)
with suite := Inline (s : smalls) | Block (b : block)
with block := Last (s : stmt) | Then (s : stmt) (b : block)
with elifs := NoElif | Elif (e : ast) (b : suite) (es : elifs)
with handlers := NoHandler | Handler (star : bool) (w : what) (b : suite) (hs : handlers)
with clause := Absent | Present (b : suite).

Scheme stmt_ind' := Induction for stmt Sort Prop
  with suite_ind' := Induction for suite Sort Prop
  with block_ind' := Induction for block Sort Prop
  with elifs_ind' := Induction for elifs Sort Prop
  with handlers_ind' := Induction for handlers Sort Prop
  with clause_ind' := Induction for clause Sort Prop.
Combined Scheme stmt_mutual from stmt_ind', suite_ind', block_ind', elifs_ind', handlers_ind', clause_ind'.

(** ** Tokens *)
Notation toks := (list (kind * payload)).
Definition name_token (p : payload) : kind * payload := (T_AtomName, p).
Definition separated {A} (k : kind) (f : A -> toks) (x : A) (xs : list A) : toks := between (mark k) (map f (x :: xs)).
Definition if_true (b : bool) (k : kind) : toks := if b then [mark k] else [].

Definition element_tokens (x : bool * ast) : toks := if_true (fst x) PyMul ++ flatten (snd x).
Definition listing_tokens (r : listing) : toks := between (mark PyComa) (map element_tokens (ls_items r)) ++ if_true (ls_comma r) PyComa.
Definition source_tokens (v : source) : toks :=
  match v with
  | Values r => listing_tokens r
  | Yields r => mark PyYield :: listing_tokens r
  | YieldsFrom e => mark PyYield :: mark PyFrom :: flatten e
  end.
Definition alias_tokens (a : alias) : toks :=
  name_token (fst a) :: match snd a with Some q => [mark PyAs; name_token q] | None => [] end.
Definition names_tokens (k : kind) (n : payload) (ns : list payload) : toks := separated k (fun p => [name_token p]) n ns.
Definition small_tokens (s : small) : toks :=
  match s with
  | Eval r => listing_tokens r
  | Assign r v vs => listing_tokens r ++ flat_map (fun v => mark PyAssign :: source_tokens v) (v :: vs)
  | Augment k r v => listing_tokens r ++ mark k :: source_tokens v
  | Annotate r e v => listing_tokens r ++ mark PyColon :: flatten e ++ match v with Some v => mark PyAssign :: source_tokens v | None => [] end
  | Del r => mark PyDel :: listing_tokens r
  | Pass => [mark PyPass]
  | Break => [mark PyBreak]
  | Continue => [mark PyContinue]
  | Return None => [mark PyReturn]
  | Return (Some r) => mark PyReturn :: listing_tokens r
  | Raise None => [mark PyRaise]
  | Raise (Some (e, None)) => mark PyRaise :: flatten e
  | Raise (Some (e, Some d)) => mark PyRaise :: flatten e ++ mark PyFrom :: flatten d
  | YieldStmt v => source_tokens v
  | FromImport dots m names =>
      mark PyFrom :: map mark dots ++ match m with [] => [] | n :: ns => names_tokens PyDot n ns end ++ mark PyImport ::
      match names with
      | None => [mark PyMul]
      | Some (b, (n, ns)) => if_true b PyLeftParen ++ separated PyComa alias_tokens n ns ++ if_true b PyRightParen
      end
  | Global n ns => mark PyGlobal :: names_tokens PyComa n ns
  | NonLocal n ns => mark PyNonLocal :: names_tokens PyComa n ns
  | Assert e => mark PyAssert :: flatten e
  end.
(** A line of simple statements, without its end. *)
Definition smalls_tokens (s : smalls) : toks :=
  separated PySemiColon small_tokens (sm_first s) (sm_more s) ++ if_true (sm_semi s) PySemiColon.

(** The beginnings of compound statements and of their clauses. *)
Definition if_head (k : kind) (e : ast) : toks := mark k :: flatten e ++ [mark PyColon].
Definition for_head (async : bool) (a r : listing) : toks :=
  if_true async PyAsync ++ mark PyFor :: listing_tokens a ++ mark PyIn :: listing_tokens r ++ [mark PyColon].
Definition word_head (k : kind) : toks := [mark k; mark PyColon].
Definition except_head (star : bool) (w : what) : toks :=
  mark PyExcept :: if_true star PyMul ++
  match w with Anything => [] | Exactly e => flatten e | Bound e n => flatten e ++ [mark PyAs; name_token n] end ++ [mark PyColon].
Definition part_tokens (i : with_part) : toks := flatten (fst i) ++ match snd i with Some e => mark PyAs :: flatten e | None => [] end.
Definition with_head (async : bool) (brackets : option bool) (i : with_part) (is : list with_part) : toks :=
  if_true async PyAsync ++ mark PyWith ::
  match brackets with
  | None => separated PyComa part_tokens i is
  | Some c => mark PyLeftParen :: separated PyComa part_tokens i is ++ if_true c PyComa ++ [mark PyRightParen]
  end ++ [mark PyColon].
Definition base_tokens (b : payload * option ast) : toks :=
  name_token (fst b) :: match snd b with Some e => mark PyAssign :: flatten e | None => [] end.
Definition class_head (n : payload) (bases : option (list (payload * option ast))) : toks :=
  mark PyClass :: name_token n ::
  match bases with None => [] | Some bs => mark PyLeftParen :: between (mark PyComa) (map base_tokens bs) ++ [mark PyRightParen] end ++ [mark PyColon].
Definition def_head (n : payload) (r : option ast) : toks :=
  mark PyDef :: name_token n :: mark PyLeftParen :: mark PyRightParen ::
  match r with Some e => mark PyArrow :: flatten e | None => [] end ++ [mark PyColon].

(** All tokens of a statement, with the ends of lines and the indentation. *)
Fixpoint stmt_tokens (s : stmt) : toks :=
  match s with
  | Simple s => smalls_tokens s ++ [mark T_Newline]
  | IfStmt e b es o => if_head PyIf e ++ suite_tokens b ++ elifs_tokens es ++ clause_tokens PyElse o
  | WhileStmt e b o => if_head PyWhile e ++ suite_tokens b ++ clause_tokens PyElse o
  | ForStmt y a r b o => for_head y a r ++ suite_tokens b ++ clause_tokens PyElse o
  | TryStmt b hs o f => word_head PyTry ++ suite_tokens b ++ handlers_tokens hs ++ clause_tokens PyElse o ++ clause_tokens PyFinally f
  | WithStmt y br i is b => with_head y br i is ++ suite_tokens b
  | ClassDef n bs b => class_head n bs ++ suite_tokens b
  | FuncDef n r b => def_head n r ++ suite_tokens b
  end
with suite_tokens (b : suite) : toks :=
  match b with
  | Inline s => smalls_tokens s ++ [mark T_Newline]
  | Block b => mark T_Newline :: mark T_Indent :: block_tokens b ++ [mark T_Dedent]
  end
with block_tokens (b : block) : toks :=
  match b with Last s => stmt_tokens s | Then s b => stmt_tokens s ++ block_tokens b end
with elifs_tokens (es : elifs) : toks :=
  match es with NoElif => [] | Elif e b es => if_head PyElif e ++ suite_tokens b ++ elifs_tokens es end
with handlers_tokens (hs : handlers) : toks :=
  match hs with NoHandler => [] | Handler st w b hs => except_head st w ++ suite_tokens b ++ handlers_tokens hs end
with clause_tokens (k : kind) (o : clause) : toks :=
  match o with Absent => [] | Present b => word_head k ++ suite_tokens b end.

(** ** Well-formed trees *)

Definition fits (k : nat) (e : ast) : Prop := proper e /\ stands e = true /\ k <= level e.
Definition element_fits (k : nat) (x : bool * ast) : Prop := fits (if fst x then 6 else k) (snd x).
Definition listing_fits (k : nat) (r : listing) : Prop := ls_items r <> [] /\ Forall (element_fits k) (ls_items r).
Definition unstarred (r : listing) : Prop := Forall (fun x => fst x = false) (ls_items r).
(** [comma]: is a trailing comma possible here? *)
Definition source_fits (comma : bool) (v : source) : Prop :=
  match v with
  | Values r => listing_fits 1 r /\ unstarred r /\ (comma = false -> ls_comma r = false)
  | Yields r => listing_fits 1 r
  | YieldsFrom e => fits 1 e
  end.
Definition is_augmented (k : kind) : Prop :=
  In k [PyPlusAssign; PyMinusAssign; PyMulAssign; PyPowerAssign; PyDivAssign; PyFloorDivAssign; PyModuloAssign; PyMatriceAssign;
        PyBitAndAssign; PyBitOrAssign; PyBitXorAssign; PyShiftLeftAssign; PyShiftRightAssign].
Definition on_some {A} (P : A -> Prop) (o : option A) : Prop := match o with Some a => P a | None => True end.
(** In a chain of assignments only the last value may end in a comma. *)
Fixpoint chain_fits (v : source) (vs : list source) : Prop :=
  match vs with [] => source_fits true v | w :: ws => source_fits false v /\ chain_fits w ws end.
Definition small_fits (s : small) : Prop :=
  match s with
  | Eval r => listing_fits 1 r
  | Assign r v vs => listing_fits 1 r /\ chain_fits v vs
  | Augment k r v => is_augmented k /\ listing_fits 1 r /\ source_fits true v
  | Annotate r e v => listing_fits 1 r /\ fits 1 e /\ on_some (source_fits true) v
  | Del r => listing_fits 0 r /\ ls_comma r = false
  | Pass | Break | Continue => True
  | Return o => on_some (listing_fits 1) o
  | Raise o => on_some (fun x => fits 1 (fst x) /\ on_some (fits 1) (snd x)) o
  | YieldStmt v => match v with Values _ => False | _ => source_fits true v end
  | FromImport dots m _ => Forall (fun k => k = PyDot \/ k = PyElipsis) dots /\ (m = [] -> dots <> [])
  | Global _ _ | NonLocal _ _ => True
  | Assert e => fits 1 e
  end.
Definition smalls_fit (s : smalls) : Prop := Forall small_fits (sm_first s :: sm_more s).
(** The parser does not take statements that begin with the name 'match'. *)
Definition begins (x : kind * payload) (l : toks) : Prop := exists l', l = x :: l'.
Definition no_match (s : smalls) : Prop :=
  forall p, begins (name_token p) (smalls_tokens s) -> match p with Text w | StringLit w _ => w <> $"match" | _ => True end.
(** The targets of a loop: the parser takes [x in y] for a comparison, so the target before 'in' has
    to end in a comma or be starred. *)
Definition ends_target (a : listing) : Prop := ls_comma a = true \/ exists xs e, ls_items a = xs ++ [(true, e)].
Definition part_fits (i : with_part) : Prop := fits 1 (fst i) /\ on_some (fits 6) (snd i).
Definition what_fits (w : what) : Prop := match w with Anything => True | Exactly e | Bound e _ => fits 1 e end.

Fixpoint stmt_fits (s : stmt) : Prop :=
  match s with
  | Simple s => smalls_fit s /\ no_match s
  | IfStmt e b es o => fits 1 e /\ suite_fits b /\ elifs_fit es /\ clause_fits o
  | WhileStmt e b o => fits 1 e /\ suite_fits b /\ clause_fits o
  | ForStmt _ a r b o =>
      (listing_fits 0 a /\ ends_target a) /\ (listing_fits 1 r /\ unstarred r /\ ls_comma r = false) /\ suite_fits b /\ clause_fits o
  | TryStmt b hs o f => suite_fits b /\ handlers_fit hs /\ clause_fits o /\ clause_fits f /\
      (hs = NoHandler -> o = Absent /\ f <> Absent)
  | WithStmt _ br i is b => Forall part_fits (i :: is) /\
      (br = None -> ~ begins (mark PyLeftParen) (separated PyComa part_tokens i is)) /\ suite_fits b
  | ClassDef n bs b => on_some (Forall (fun x => on_some (fits 1) (snd x))) bs /\ suite_fits b
  | FuncDef n r b => on_some (fits 1) r /\ suite_fits b
  end
with suite_fits (b : suite) : Prop :=
  match b with Inline s => smalls_fit s | Block b => block_fits b end
with block_fits (b : block) : Prop :=
  match b with Last s => stmt_fits s | Then s b => stmt_fits s /\ block_fits b end
with elifs_fit (es : elifs) : Prop :=
  match es with NoElif => True | Elif e b es => fits 1 e /\ suite_fits b /\ elifs_fit es end
with handlers_fit (hs : handlers) : Prop :=
  match hs with NoHandler => True | Handler _ w b hs => what_fits w /\ suite_fits b /\ handlers_fit hs end
with clause_fits (o : clause) : Prop :=
  match o with Absent => True | Present b => suite_fits b end.

(** The parser keeps one note of whether it saw 'except' or 'except*' last, and refuses the other one;
    'try' clears the note, but the end of an inner statement does not bring the outer one back.
    [stmt_note c s]: the note after [s] when it was [c] before ([Some true]: 'except*'), if [s] passes. *)
Definition andthen {A B} (o : option A) (f : A -> option B) : option B := match o with Some a => f a | None => None end.
Fixpoint stmt_note (c : option bool) (s : stmt) : option (option bool) :=
  match s with
  | Simple _ => Some c
  | IfStmt _ b es o => andthen (suite_note c b) (fun c => andthen (elifs_note c es) (fun c => clause_note c o))
  | WhileStmt _ b o => andthen (suite_note c b) (fun c => clause_note c o)
  | ForStmt _ _ _ b o => andthen (suite_note c b) (fun c => clause_note c o)
  | TryStmt b hs o f =>
      andthen (suite_note None b) (fun c => andthen (handlers_note c hs) (fun c => andthen (clause_note c o) (fun c => clause_note c f)))
  | WithStmt _ _ _ _ b => suite_note c b
  | ClassDef _ _ b => suite_note c b
  | FuncDef _ _ b => suite_note c b
  end
with suite_note (c : option bool) (b : suite) : option (option bool) :=
  match b with Inline _ => Some c | Block b => block_note c b end
with block_note (c : option bool) (b : block) : option (option bool) :=
  match b with Last s => stmt_note c s | Then s b => andthen (stmt_note c s) (fun c => block_note c b) end
with elifs_note (c : option bool) (es : elifs) : option (option bool) :=
  match es with NoElif => Some c | Elif _ b es => andthen (suite_note c b) (fun c => elifs_note c es) end
with handlers_note (c : option bool) (hs : handlers) : option (option bool) :=
  match hs with
  | NoHandler => Some c
  | Handler st _ b hs =>
      if match c with Some d => eqb d st | None => true end then andthen (suite_note (Some st) b) (fun c => handlers_note c hs) else None
  end
with clause_note (c : option bool) (o : clause) : option (option bool) :=
  match o with Absent => Some c | Present b => suite_note c b end.
Fixpoint module_note (c : option bool) (m : list stmt) : option (option bool) :=
  match m with [] => Some c | s :: m => andthen (stmt_note c s) (fun c => module_note c m) end.

(** ** Reading a syntax tree *)
Definition element_of (x : node) : option (bool * ast) :=
  match x with
  | StarExpr _ _ _ y => option_map (pair true) (tree_of y)
  | _ => option_map (pair false) (tree_of x)
  end.
Definition listed (xs : list node) (ts : list token) : option listing :=
  match opts element_of xs with
  | Some es =>
      if length ts =? length es then Some (Listing es true)
      else if S (length ts) =? length es then Some (Listing es false) else None
  | None => None
  end.
Definition listing_of (x : node) : option listing :=
  match x with
  | TestListStarExpr _ _ xs ts => listed (rev xs) ts
  | TestList _ _ xs ts | ExprList _ _ xs ts => listed xs ts
  | _ => option_map (fun e => Listing [e] false) (element_of x)
  end.
Definition source_of (x : node) : option source :=
  match x with
  | YieldExpr _ _ _ y => option_map Yields (listing_of y)
  | YieldFromExpr _ _ _ _ y => option_map YieldsFrom (tree_of y)
  | _ => option_map Values (listing_of x)
  end.
Definition bind2 {A B C} (f : A -> B -> option C) (a : option A) (b : option B) : option C :=
  match a, b with Some x, Some y => f x y | _, _ => None end.
Definition map2 {A B C} (f : A -> B -> C) : option A -> option B -> option C := bind2 (fun x y => Some (f x y)).
Definition inside {A B} (f : A -> option B) (o : option A) : option (option B) :=
  match o with Some a => option_map Some (f a) | None => Some None end.
Definition alias_of (x : node) : option alias :=
  match x with
  | ImportAsName _ _ t None => Some (tk_payload t, None)
  | ImportAsName _ _ t (Some (_, u)) => Some (tk_payload t, Some (tk_payload u))
  | _ => None
  end.
(** Names as stored, last first. *)
Definition names_of (ns : list token) : option (payload * list payload) :=
  match map tk_payload (rev ns) with n :: ns => Some (n, ns) | [] => None end.
Definition aliases_of (x : node) : option (alias * list alias) :=
  match x with
  | ImportAsNamesStmt _ _ xs ts => match elements alias_of xs ts with Some (n :: ns) => Some (n, ns) | _ => None end
  | _ => None
  end.
Definition module_name_of (o : option node) : option (list payload) :=
  match o with
  | None => Some []
  | Some (DottedNameStmt _ _ ns _) => Some (map tk_payload (rev ns))
  | Some _ => None
  end.
Definition small_of (x : node) : option small :=
  let aug k a t b := if is k t then map2 (Augment k) (listing_of a) (source_of b) else None in
  match x with
  | PlusAssignStmt _ _ a t b => aug PyPlusAssign a t b
  | MinusAssignStmt _ _ a t b => aug PyMinusAssign a t b
  | MulAssignStmt _ _ a t b => aug PyMulAssign a t b
  | PowerAssignStmt _ _ a t b => aug PyPowerAssign a t b
  | DivAssignStmt _ _ a t b => aug PyDivAssign a t b
  | FloorDivAssignStmt _ _ a t b => aug PyFloorDivAssign a t b
  | ModuloAssignStmt _ _ a t b => aug PyModuloAssign a t b
  | MatriceAssignStmt _ _ a t b => aug PyMatriceAssign a t b
  | BitAndAssignStmt _ _ a t b => aug PyBitAndAssign a t b
  | BitOrAssignStmt _ _ a t b => aug PyBitOrAssign a t b
  | BitXorAssignStmt _ _ a t b => aug PyBitXorAssign a t b
  | ShiftLeftAssignStmt _ _ a t b => aug PyShiftLeftAssign a t b
  | ShiftRightAssignStmt _ _ a t b => aug PyShiftRightAssign a t b
  | AssignmentStmt _ _ a xs None =>
      bind2 (fun r vs => match vs with v :: vs => Some (Assign r v vs) | [] => None end)
        (listing_of a) (opts (fun x => source_of (snd x)) xs)
  | AnnAssignStmt _ _ a _ y o =>
      bind2 (fun r e => option_map (Annotate r e) (inside (fun x => source_of (snd x)) o)) (listing_of a) (tree_of y)
  | DelStmt _ _ _ y => option_map Del (listing_of y)
  | PassStmt _ _ _ => Some Pass
  | BreakStmt _ _ _ => Some Break
  | ContinueStmt _ _ _ => Some Continue
  | ReturnStmt _ _ _ o => option_map Return (inside listing_of o)
  | RaiseStmt _ _ _ o =>
      option_map Raise (inside (fun x => map2 pair (tree_of (fst x)) (inside (fun y => tree_of (snd y)) (snd x))) o)
  | YieldExpr _ _ _ _ | YieldFromExpr _ _ _ _ _ => option_map YieldStmt (source_of x)
  | ImportFromStmt _ _ _ dots o _ (Some _) None None =>
      option_map (fun m => FromImport (map tk_kind (rev dots)) m None) (module_name_of o)
  | ImportFromStmt _ _ _ dots o _ None (Some y) None =>
      map2 (fun m a => FromImport (map tk_kind (rev dots)) m (Some (false, a))) (module_name_of o) (aliases_of y)
  | ImportFromStmt _ _ _ dots o _ (Some _) (Some y) (Some _) =>
      map2 (fun m a => FromImport (map tk_kind (rev dots)) m (Some (true, a))) (module_name_of o) (aliases_of y)
  | GlobalStmt _ _ _ ns _ => option_map (fun x => Global (fst x) (snd x)) (names_of ns)
  | NonLocalStmt _ _ _ ns _ => option_map (fun x => NonLocal (fst x) (snd x)) (names_of ns)
  | AssertStmt _ _ _ y None => option_map Assert (tree_of y)
  | _ => option_map Eval (listing_of x)
  end.
Definition smalls_of (x : node) : option smalls :=
  match x with
  | SimpleStmtList _ _ xs ts _ =>
      match opts small_of (rev xs) with
      | Some (s :: ss) =>
          if length ts =? S (length ss) then Some (Smalls s ss true)
          else if length ts =? length ss then Some (Smalls s ss false) else None
      | _ => None
      end
  | _ => None
  end.
Definition what_of (o : option (node * option (token * token))) : option what :=
  match o with
  | None => Some Anything
  | Some (x, None) => option_map Exactly (tree_of x)
  | Some (x, Some (_, t)) => option_map (fun e => Bound e (tk_payload t)) (tree_of x)
  end.
(** The parser builds an ExceptStmt for an item with 'as'. *)
Definition part_of (x : node) : option with_part :=
  match x with
  | WithItem _ _ y None => option_map (fun e => (e, None)) (tree_of y)
  | ExceptStmt _ _ y _ z => map2 (fun e d => (e, Some d)) (tree_of y) (tree_of z)
  | _ => None
  end.
Definition base_of (x : node) : option (payload * option ast) :=
  match x with
  | VFPDef _ _ t => Some (tk_payload t, None)
  | VFPAssign _ _ (VFPDef _ _ t) _ y => option_map (fun e => (tk_payload t, Some e)) (tree_of y)
  | _ => None
  end.
Definition bases_of (a : option token) (o : option node) (b : option token) : option (option (list (payload * option ast))) :=
  match a, o, b with
  | None, None, None => Some None
  | Some _, None, Some _ => Some (Some [])
  | Some _, Some (VarArgsList _ _ xs ts None None None None None), Some _ => option_map Some (elements base_of xs ts)
  | _, _, _ => None
  end.
Fixpoint block_of (ss : list stmt) : option block :=
  match ss with
  | [] => None
  | [s] => Some (Last s)
  | s :: ss => option_map (Then s) (block_of ss)
  end.
Fixpoint stmt_of (x : node) : option stmt :=
  let suite (y : node) : option suite :=
    match y with
    | SuiteStmt _ _ _ _ xs _ => match opts stmt_of xs with Some ss => option_map Block (block_of (rev ss)) | None => None end
    | FuncBodySuite _ _ _ None None _ xs _ => match opts stmt_of xs with Some ss => option_map Block (block_of (rev ss)) | None => None end
    | _ => option_map Inline (smalls_of y)
    end in
  let clause (o : option node) : option clause :=
    match o with
    | None => Some Absent
    | Some (ElseStmt _ _ _ _ b) => option_map Present (suite b)
    | Some (FinallyStmt _ _ _ _ b) => option_map Present (suite b)
    | Some _ => None
    end in
  let elif (y : node) :=
    match y with Node.ElifStmt _ _ _ a _ b => map2 Elif (tree_of a) (suite b) | _ => None end in
  let handler (y : node) :=
    match y with
    | ExceptStmt _ _ (ExceptClauseStmt _ _ _ m w) _ b =>
        map2 (Handler (match m with Some _ => true | None => false end)) (what_of w) (suite b)
    | _ => None
    end in
  let plain (x : node) (async : bool) : option stmt :=
    match x with
    | Node.ForStmt _ _ _ a _ r _ None b o =>
        bind2 (fun a r => map2 (ForStmt async a r) (suite b) (clause o)) (listing_of a) (listing_of r)
    | Node.WithStmt _ _ _ p xs ts q _ b =>
        bind2 (fun is b => match is with
                 | i :: is =>
                     match p, q with
                     | None, None => if length ts =? length is then Some (WithStmt async None i is b) else None
                     | Some _, Some _ =>
                         if length ts =? length is then Some (WithStmt async (Some false) i is b)
                         else if length ts =? S (length is) then Some (WithStmt async (Some true) i is b) else None
                     | _, _ => None
                     end
                 | [] => None
                 end) (opts part_of (rev xs)) (suite b)
    | _ => None
    end in
  match x with
  | Node.IfStmt _ _ _ a _ b xs o =>
      bind2 (fun e b => map2 (fun fs o => IfStmt e b (fold_left (fun es f => f es) fs NoElif) o) (opts elif xs) (clause o)) (tree_of a) (suite b)
  | Node.WhileStmt _ _ _ a _ b o => bind2 (fun e b => option_map (WhileStmt e b) (clause o)) (tree_of a) (suite b)
  | Node.ForStmt _ _ _ _ _ _ _ _ _ _ | Node.WithStmt _ _ _ _ _ _ _ _ _ => plain x false
  | AsyncStmt _ _ _ y => plain y true
  | Node.TryStmt _ _ _ _ a xs o f =>
      bind2 (fun b fs => map2 (TryStmt b (fold_left (fun hs f => f hs) fs NoHandler)) (clause o) (clause f))
        (suite a) (match xs with Some ys => opts handler ys | None => Some [] end)
  | Node.ClassDef _ _ _ t a o b _ y => map2 (ClassDef (tk_payload t)) (bases_of a o b) (suite y)
  | Node.FuncDef _ _ _ t (Some (ParameterList _ _ _ None _)) o _ None y =>
      map2 (FuncDef (tk_payload t)) (inside (fun r => tree_of (snd r)) o) (suite y)
  | _ => option_map Simple (smalls_of x)
  end.

(** ** Modules and their texts *)
Definition module_tokens (m : list stmt) : toks := flat_map stmt_tokens m.
Definition module_fits (m : list stmt) : Prop := Forall stmt_fits m /\ module_note None m <> None.
Definition module_of (x : node) : option (list stmt) :=
  match x with FileInput _ _ xs _ _ => option_map (@rev stmt) (opts stmt_of xs) | _ => None end.

(** The tokens of the statements, with newlines of their own between them. *)
Inductive laid : list stmt -> toks -> Prop :=
| laid_nil : laid [] []
| laid_newline m l : laid m l -> laid m (mark T_Newline :: l)
| laid_stmt s m l : laid m l -> laid (s :: m) (stmt_tokens s ++ l).

(** [x] writes the tokens [l] on one line that begins in column [col], with any blanks between the
    tokens. *)
Definition row (U : unicode) (col : nat) (l : toks) (x : line) : Prop :=
  column_of (ln_indent x) col /\ Forall (item_ok U) (ln_items x) /\ Forall (fun i => gap (it_gap i)) (ln_more x) /\
  map item_seen (ln_items x) = l.
(** The lines write the statement in column [col]: every block is indented by as much as one likes. *)
Inductive writes_stmt (U : unicode) (col : nat) : stmt -> list line -> Prop :=
| W_simple s x : row U col (smalls_tokens s) x -> writes_stmt U col (Simple s) [x]
| W_if e b es o l1 l2 l3 :
    writes_suite U col (if_head PyIf e) b l1 -> writes_elifs U col es l2 -> writes_clause U col PyElse o l3 ->
    writes_stmt U col (IfStmt e b es o) (l1 ++ l2 ++ l3)
| W_while e b o l1 l2 :
    writes_suite U col (if_head PyWhile e) b l1 -> writes_clause U col PyElse o l2 ->
    writes_stmt U col (WhileStmt e b o) (l1 ++ l2)
| W_for y a r b o l1 l2 :
    writes_suite U col (for_head y a r) b l1 -> writes_clause U col PyElse o l2 ->
    writes_stmt U col (ForStmt y a r b o) (l1 ++ l2)
| W_try b hs o f l1 l2 l3 l4 :
    writes_suite U col (word_head PyTry) b l1 -> writes_handlers U col hs l2 ->
    writes_clause U col PyElse o l3 -> writes_clause U col PyFinally f l4 ->
    writes_stmt U col (TryStmt b hs o f) (l1 ++ l2 ++ l3 ++ l4)
| W_with y br i is b l : writes_suite U col (with_head y br i is) b l -> writes_stmt U col (WithStmt y br i is b) l
| W_class n bs b l : writes_suite U col (class_head n bs) b l -> writes_stmt U col (ClassDef n bs b) l
| W_def n r b l : writes_suite U col (def_head n r) b l -> writes_stmt U col (FuncDef n r b) l
with writes_suite (U : unicode) (col : nat) : toks -> suite -> list line -> Prop :=   (* behind the given beginning *)
| W_inline h s x : row U col (h ++ smalls_tokens s) x -> writes_suite U col h (Inline s) [x]
| W_block h b x c ls : row U col h x -> col < c -> writes_block U c b ls -> writes_suite U col h (Block b) (x :: ls)
with writes_block (U : unicode) (col : nat) : block -> list line -> Prop :=
| W_last s ls : writes_stmt U col s ls -> writes_block U col (Last s) ls
| W_then s b l1 l2 : writes_stmt U col s l1 -> writes_block U col b l2 -> writes_block U col (Then s b) (l1 ++ l2)
with writes_elifs (U : unicode) (col : nat) : elifs -> list line -> Prop :=
| W_no_elif : writes_elifs U col NoElif []
| W_elif e b es l1 l2 :
    writes_suite U col (if_head PyElif e) b l1 -> writes_elifs U col es l2 -> writes_elifs U col (Elif e b es) (l1 ++ l2)
with writes_handlers (U : unicode) (col : nat) : handlers -> list line -> Prop :=
| W_no_handler : writes_handlers U col NoHandler []
| W_handler st w b hs l1 l2 :
    writes_suite U col (except_head st w) b l1 -> writes_handlers U col hs l2 -> writes_handlers U col (Handler st w b hs) (l1 ++ l2)
with writes_clause (U : unicode) (col : nat) : kind -> clause -> list line -> Prop :=
| W_absent k : writes_clause U col k Absent []
| W_present k b ls : writes_suite U col (word_head k) b ls -> writes_clause U col k (Present b) ls.
Scheme writes_stmt_ind' := Induction for writes_stmt Sort Prop
  with writes_suite_ind' := Induction for writes_suite Sort Prop
  with writes_block_ind' := Induction for writes_block Sort Prop
  with writes_elifs_ind' := Induction for writes_elifs Sort Prop
  with writes_handlers_ind' := Induction for writes_handlers Sort Prop
  with writes_clause_ind' := Induction for writes_clause Sort Prop.
Combined Scheme writes_mutual from writes_stmt_ind', writes_suite_ind', writes_block_ind', writes_elifs_ind', writes_handlers_ind', writes_clause_ind'.
Inductive writes_module (U : unicode) : list stmt -> list line -> Prop :=
| W_end : writes_module U [] []
| W_next s m l1 l2 : writes_stmt U 0 s l1 -> writes_module U m l2 -> writes_module U (s :: m) (l1 ++ l2).

(** The text with four blanks for every block and one between tokens. *)
Definition row_text (n : nat) (l : toks) : str := repeat SP (4 * n) ++ between SP (map token_text l) ++ [LF].
Fixpoint stmt_text (n : nat) (s : stmt) : str :=
  match s with
  | Simple s => row_text n (smalls_tokens s)
  | IfStmt e b es o => suite_text n (if_head PyIf e) b ++ elifs_text n es ++ clause_text n PyElse o
  | WhileStmt e b o => suite_text n (if_head PyWhile e) b ++ clause_text n PyElse o
  | ForStmt y a r b o => suite_text n (for_head y a r) b ++ clause_text n PyElse o
  | TryStmt b hs o f => suite_text n (word_head PyTry) b ++ handlers_text n hs ++ clause_text n PyElse o ++ clause_text n PyFinally f
  | WithStmt y br i is b => suite_text n (with_head y br i is) b
  | ClassDef m bs b => suite_text n (class_head m bs) b
  | FuncDef m r b => suite_text n (def_head m r) b
  end
with suite_text (n : nat) (h : toks) (b : suite) : str :=
  match b with Inline s => row_text n (h ++ smalls_tokens s) | Block b => row_text n h ++ block_text (S n) b end
with block_text (n : nat) (b : block) : str :=
  match b with Last s => stmt_text n s | Then s b => stmt_text n s ++ block_text n b end
with elifs_text (n : nat) (es : elifs) : str :=
  match es with NoElif => [] | Elif e b es => suite_text n (if_head PyElif e) b ++ elifs_text n es end
with handlers_text (n : nat) (hs : handlers) : str :=
  match hs with NoHandler => [] | Handler st w b hs => suite_text n (except_head st w) b ++ handlers_text n hs end
with clause_text (n : nat) (k : kind) (o : clause) : str :=
  match o with Absent => [] | Present b => suite_text n (word_head k) b end.
Definition module_text (m : list stmt) : str := flat_map (stmt_text 0) m.
(** The names, numbers and strings of the module are such as can be written. *)
Definition module_writable (U : unicode) (m : list stmt) : Prop :=
  Forall (fun x => carries (fst x) = true -> plain U (token_text x) (fst x) (snd x)) (module_tokens m).
