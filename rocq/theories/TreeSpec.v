(** The layout of a syntax tree over the tokens it was built from: how the direct components of a
    node partition its phrase, and which positions a node records.  Not modelled code. *)
From Coq Require Import List Permutation.
From Verif Require Import Chars Token Node NodeView ParserState GrammarSpec.
Import ListNotations.
Local Open Scope nat_scope.

(** Entries of dictionaries and sets record the start of the container instead of their own. *)
Definition entry (x : node) : bool :=
  match x with DictionaryEntry _ _ _ _ _ | PowerDictionary _ _ _ _ | MulSet _ _ _ _ => true | _ => false end.

(** Nodes that store the look-ahead, a token they do not consume. *)
Definition after (x : node) (la : look) : list item :=
  match x with
  | FileInput _ _ _ _ _ | EvalInput _ _ _ _ _ | FuncTypeInput _ _ _ _ _ | Decorator _ _ _ _ _ _ _ _
  | SingleInput _ _ (Some _) (Some _) => match snd la with Some t => [Leaf t] | None => [] end
  | _ => []
  end.

(** Elements and separators in turn, as long as both last. *)
Fixpoint weave (els : list (list item)) (ts : list token) : list item :=
  match els, ts with
  | e :: els', t :: ts' => e ++ Leaf t :: weave els' ts'
  | els, [] => concat els
  | [], ts => map Leaf ts
  end.
Definition one (x : node) : list item := [Sub x].
Definition word (t : token) : list item := [Leaf t].
(** A group of items as an element, if there are any. *)
Definition group (l : list item) : list (list item) := match l with [] => [] | _ => [l] end.

(** Two sequences mixed, each keeping its order. *)
Inductive shuffle {A} : list A -> list A -> list A -> Prop :=
| shuffle_nil : shuffle [] [] []
| shuffle_left x a b c : shuffle a b c -> shuffle (x :: a) b (x :: c)
| shuffle_right x a b c : shuffle a b c -> shuffle a (x :: b) (x :: c).

(** Elements with a separator between any two and perhaps one at the end. *)
Definition listed (els : list (list item)) (ts : list token) (ps : list item) : Prop :=
  ps = weave els ts /\ length ts <= length els <= S (length ts).

(** An element followed by its comprehension, no separator between them. *)
Definition comprehended (xs : list node) (ts : list token) (ps : list item) : Prop :=
  exists x y, xs = [y; x] /\ ts = [] /\ ps = [Sub x; Sub y] /\
    match y with SyncCompForComprehension _ _ _ _ _ _ _ | CompForComprehension _ _ _ _ => True | _ => False end.

(** [arranged x ps]: [ps] is the components of [x] in the order of the source.  For most nodes
    that is the order of the fields; the lists of most list nodes are stored backwards, elements
    and separators apart.  Parameters: [/] stands alone, [*] and [**] before a parameter. *)
Definition parameters (ns : list node) (slash star power : list item) (ts : list token) (ps : list item) : Prop :=
  exists n1 n2 n3, ns = n1 ++ n2 ++ n3 /\
    listed (map one n1 ++ group slash ++ map one n2 ++ group star ++ map one n3 ++ group power) ts ps.
Definition arranged (x : node) (ps : list item) : Prop :=
  match x with
  | TestListComp _ _ a b => listed (map one (rev a)) (rev b) ps \/ comprehended a b ps
  | SubscriptList _ _ a b | DictionaryContainer _ _ a b | SetContainer _ _ a b
  | ArgList _ _ a b | TestListStarExpr _ _ a b | ImportAsNamesStmt _ _ a b | DottedAsNamesStmt _ _ a b =>
      listed (map one (rev a)) (rev b) ps
  | ExprList _ _ a b | TestList _ _ a b => listed (map one a) b ps
  | SimpleStmtList _ _ a b c => exists qs, listed (map one (rev a)) (rev b) qs /\ ps = qs ++ [Leaf c]
  | DottedNameStmt _ _ a b => listed (map word (rev a)) (rev b) ps
  | GlobalStmt _ _ a b c | NonLocalStmt _ _ a b c => exists qs, listed (map word (rev b)) (rev c) qs /\ ps = Leaf a :: qs
  | ImportFromStmt _ _ a b c d f g h =>
      ps = Leaf a :: map Leaf (rev b) ++ opt_nodes c ++ Leaf d :: opt_tokens f ++ opt_nodes g ++ opt_tokens h
  | IfStmt _ _ a b c d f g => ps = Leaf a :: Sub b :: Leaf c :: Sub d :: map Sub (rev f) ++ opt_nodes g
  | TryStmt _ _ a b c (Some d) f g => ps = Leaf a :: Leaf b :: Sub c :: map Sub (rev d) ++ opt_nodes f ++ opt_nodes g
  | WithStmt _ _ a b c d f g h => exists qs, listed (map one (rev c)) (rev d) qs /\
      ps = Leaf a :: opt_tokens b ++ qs ++ opt_tokens f ++ [Leaf g; Sub h]
  | SuiteStmt _ _ a b c d => ps = Leaf a :: Leaf b :: map Sub (rev c) ++ [Leaf d]
  | FuncBodySuite _ _ a b c d f g => ps = Leaf a :: opt_tokens b ++ opt_tokens c ++ Leaf d :: map Sub (rev f) ++ [Leaf g]
  | Decorators _ _ a => ps = map Sub (rev a)
  | VarArgsList _ _ a b c d f g h =>
      parameters (rev a) (opt_tokens h) (opt_tokens c ++ opt_nodes d) (opt_tokens f ++ opt_nodes g) (rev b) ps
  | TypeList _ _ a b c d f g =>
      parameters (rev a) [] (opt_tokens c ++ opt_nodes d) (opt_tokens f ++ opt_nodes g) (rev b) ps
  | EvalInput _ _ a b c | FuncTypeInput _ _ a b c => ps = Sub a :: map Leaf (rev b) ++ [Leaf c]
  | FileInput _ _ a b c => exists qs, ps = qs ++ [Leaf c] /\ shuffle (map Sub (rev a)) (map Leaf (rev b)) qs
  | _ => ps = items x
  end.

(** [tiled s l la x]: the node [x] lies over the tokens [l] followed by [la], in a parent that
    starts at [s].  Its components, in the order of the source, are consecutive pieces of [l]: single
    tokens and child nodes, each lying over its piece.  The node starts at the first token of [l] and ends
    where the next token begins. *)
Inductive tiled : nat -> list ptok -> look -> node -> Prop :=
| tiled_intro s l la x ps :
    tiles (node_start x) l la ps ->
    arranged x (ps ++ after x la) ->
    node_start x = (if entry x then s else start l la) ->
    node_end x = fst la ->
    tiled s l la x
with tiles : nat -> list ptok -> look -> list item -> Prop :=
| tiles_nil s la : tiles s [] la []
| tiles_leaf s p t l la ps : tiles s l la ps -> tiles s ((p, t) :: l) la (Leaf t :: ps)
| tiles_sub s l1 l2 la y ps : tiled s l1 (ahead l2 la) y -> tiles s l2 la ps -> tiles s (l1 ++ l2) la (Sub y :: ps).

Scheme tiled_ind' := Minimality for tiled Sort Prop
  with tiles_ind' := Minimality for tiles Sort Prop.
Combined Scheme tiled_mutual from tiled_ind', tiles_ind'.

(** The number of separators of a list is that of its elements, or one less; an element with a
    comprehension has none. *)
Definition counted (y : node) : Prop :=
  match y with
  | TestListComp _ _ a b => length b <= length a <= S (length b) \/ (length a = 2 /\ b = [])
  | SubscriptList _ _ a b | DictionaryContainer _ _ a b | SetContainer _ _ a b
  | ArgList _ _ a b | TestListStarExpr _ _ a b | ImportAsNamesStmt _ _ a b | DottedAsNamesStmt _ _ a b
  | ExprList _ _ a b | TestList _ _ a b | SimpleStmtList _ _ a b _ | WithStmt _ _ _ _ a b _ _ _ =>
      length b <= length a <= S (length b)
  | DottedNameStmt _ _ a b | GlobalStmt _ _ _ a b | NonLocalStmt _ _ _ a b => length b <= length a <= S (length b)
  | _ => True
  end.

(** ** Reading a tree *)

(** [written x ts]: the tokens of the tree [x], taken node by node in the order of the source. *)
Inductive written : node -> list token -> Prop :=
| written_node x ps ts : arranged x ps -> written_items ps ts -> written x ts
with written_items : list item -> list token -> Prop :=
| written_nil : written_items [] []
| written_leaf t ps ts : written_items ps ts -> written_items (Leaf t :: ps) (t :: ts)
| written_sub y ps ts1 ts2 : written y ts1 -> written_items ps ts2 -> written_items (Sub y :: ps) (ts1 ++ ts2).

Scheme written_ind' := Minimality for written Sort Prop
  with written_items_ind' := Minimality for written_items Sort Prop.
Combined Scheme written_mutual from written_ind', written_items_ind'.

(** ** Order of positions *)

(** Where a token that was found at position [p] ends; layout tokens have no extent. *)
Definition finish (p : nat) (t : token) : nat :=
  match tk_span t with Range _ e => e | At _ | NoSpan => p end.
(** The position belongs to the token; exactly the layout tokens have no extent. *)
Definition placed (p : nat) (t : token) : Prop :=
  match tk_span t with
  | Range s e => p = s /\ s < e
  | At a => p = a /\ tk_kind t = T_EOF
  | NoSpan => tk_kind t = T_Indent \/ tk_kind t = T_Dedent
  end.

(** The tokens of [l] carry their positions, and none begins before the end of its predecessor. *)
Fixpoint ordered (l : list ptok) (la : look) : Prop :=
  match l with
  | (p, t) :: l' => placed p t /\ finish p t <= start l' la /\ ordered l' la
  | [] => True
  end.

(** [inside a b x]: every node of [x] lies between [a] and [b], children within their parents. *)
Inductive inside : nat -> nat -> node -> Prop :=
| inside_intro a b x :
    a <= node_start x -> node_start x <= node_end x -> node_end x <= b ->
    (forall y, In (Sub y) (items x) -> inside (node_start x) (node_end x) y) ->
    inside a b x.

(** What comes first ends before the other begins; the recorded start of an entry does not count. *)
Definition item_end (i : item) : nat :=
  match i with Sub y => node_end y | Leaf t => match tk_span t with Range _ e => e | At p => p | NoSpan => 0 end end.
Definition begins_after (i : item) (n : nat) : Prop :=
  match i with
  | Sub y => entry y = true \/ n <= node_start y
  | Leaf t => match tk_span t with Range s _ => n <= s | At p => n <= p | NoSpan => True end
  end.

Definition is_try (x : node) : bool := match x with TryStmt _ _ _ _ _ _ _ _ => true | _ => false end.
Definition no_try (x : node) : Prop := Forall (fun y => is_try y = false) (subnodes x).
(** The kind of an except clause: [Some true] for except*, [Some false] for except. *)
Definition starred (x : node) : option bool :=
  match x with
  | ExceptStmt _ _ (ExceptClauseStmt _ _ _ m _) _ _ => Some (match m with Some _ => true | None => false end)
  | _ => None
  end.
