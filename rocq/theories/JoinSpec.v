(** Vocabulary of joining files (C66): what it takes to write one text after another.  Not modelled code. *)
From Coq Require Import List.
From Verif Require Import Chars SourceBuffer Token Tokenizer LexSpec LayoutSpec JoinLexer.
Import ListNotations.
Local Open Scope nat_scope.

(** The tokens of a text without lexical errors, the end aside. *)
Definition reads_as (U : unicode) (text : str) (ts : list token) : Prop :=
  exists e, LayoutSpec.scanned U text = map inl (ts ++ [e]) /\ tk_kind e = T_EOF.

(** The text ends with a line: its last character is the line feed of the last Newline, and [n] blocks
    are open there. *)
Definition ends_line (text : str) (ts : list token) (n : nat) : Prop :=
  exists us t ds s, ts = us ++ t :: ds /\ tk_kind t = T_Newline /\ tk_payload t = Break LF SP /\
    tk_span t = Range s (length text) /\ map tk_kind ds = repeat T_Dedent n.

(** The text begins with a line that is neither blank nor indented. *)
Definition flush (text : str) : Prop :=
  exists c r, text = c :: r /\ ~ In c [SP; TAB; #"#"; CR; LF; BSL].

(** Many texts one after the other: each is read without error, ends with a line, and is flush where blocks
    are left open by the text before it; [n] blocks are left open by the last. *)
Inductive chained (U : unicode) : list str -> list (list token) -> nat -> Prop :=
| chained_one text ts n : reads_as U text ts -> ends_line text ts n -> chained U [text] [ts] n
| chained_more texts tss m text ts n : chained U texts tss m -> reads_as U text ts -> ends_line text ts n ->
    m = 0 \/ flush text -> chained U (texts ++ [text]) (tss ++ [ts]) n.
