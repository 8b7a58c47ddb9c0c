(** The parser with a meter (C67): the monad of ParserState.v that also counts.  MeterExpr.v, MeterStmt.v, MeterBlocks.v are the
    functions of Expressions.v, Statements.v, Blocks.v, unchanged, over it; MeterSame.v proves that the results are the same. *)
From Verif Require Import Chars SourceBuffer Token Tokenizer Node ParserState.

(** [steps]: calls of parser functions and rounds of their loops; [taken]: tokens taken from the tokenizer. *)
Record meter := mk_meter { steps : nat; taken : nat }.
Definition start_meter : meter := mk_meter 0 0.
Definition a_step (c : meter) : meter := mk_meter (S (steps c)) (taken c).
Definition a_token (c : meter) : meter := mk_meter (steps c) (S (taken c)).

Definition M (A : Type) := parser -> meter -> outcome A * meter.
(** A computation that counts nothing. *)
Definition plainly {A} (m : ParserState.M A) : M A := fun s c => (m s, c).

Definition ret {A} (a : A) : M A := plainly (ParserState.ret a).
Definition bind {A B} (m : M A) (f : A -> M B) : M B := fun s c =>
  match m s c with
  | (Ok a s', c') => f a s' c'
  | (Err e, c') => (Err e, c')
  | (Panic, c') => (Panic, c')
  | (Fuel, c') => (Fuel, c')
  end.
Notation "'do' x <- m ; k" := (bind m (fun x => k))
  (at level 200, x pattern, m at level 100, k at level 200, right associativity).
Notation "m ;; k" := (bind m (fun _ => k)) (at level 199, right associativity).

Definition fail {A} (msg : String.string) (pos : nat) : M A := plainly (ParserState.fail msg pos).
Definition position : M nat := plainly ParserState.position.
Definition fail_here {A} (msg : String.string) : M A := plainly (ParserState.fail_here msg).
Definition on_symbol {A} (e : M A) (k : token -> M A) : M A := fun s =>
  match ps_symbol s with
  | inl t => k t s
  | inr _ => e s
  end.
(** One call of the tokenizer. *)
Definition advance (U : unicode) : M unit := fun s c => (ParserState.advance U s, a_token c).
Definition expect (U : unicode) (k : kind) (pos : nat) (e1 e2 : String.string) : M token :=
  on_symbol (fail e1 pos) (fun s => if is k s then advance U;; ret s else fail e2 pos).
Definition get_except : M except_status := plainly ParserState.get_except.
Definition set_except (x : except_status) : M unit := plainly (ParserState.set_except x).
Definition panic {A} : M A := plainly ParserState.panic.
(** Every round is a step. *)
Fixpoint while_ (fuel : nat) {A} (step : A -> M (bool * A)) (a : A) : M A :=
  match fuel with
  | O => plainly (fun _ => Fuel)
  | S fuel' => fun s c => (do (again, a') <- step a; if again : bool then while_ fuel' step a' else ret a') s (a_step c)
  end.
