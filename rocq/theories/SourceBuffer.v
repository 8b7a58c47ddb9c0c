(** /repo/src/parser/source_buffer.rs *)
From Verif Require Import Chars.

(** source_buffer.rs 2-5: the struct, index-based as written.
    Simplification: [index : u32] is a [nat]; theorem C04 bounds it. *)
Record source_buffer := mk_buffer { sb_chars : list char; sb_index : nat }.

(** source_buffer.rs 19-24 *)
Definition sb_new (text : str) : source_buffer := mk_buffer text 0.

(** source_buffer.rs 27, 34-36: [if i < max then buffer[i] else NUL]. *)
Definition sb_at (b : source_buffer) (i : nat) : char :=
  if Nat.ltb i (length (sb_chars b)) then nth i (sb_chars b) NUL else NUL.

(** source_buffer.rs 26-30 *)
Definition sb_get_char (b : source_buffer) : char := sb_at b (sb_index b).

(** source_buffer.rs 32-39 *)
Definition sb_peek_three_chars (b : source_buffer) : char * char * char :=
  (sb_at b (sb_index b), sb_at b (sb_index b + 1), sb_at b (sb_index b + 2)).

(** source_buffer.rs 41-43 *)
Definition sb_advance (b : source_buffer) : source_buffer :=
  mk_buffer (sb_chars b) (sb_index b + 1).

(** source_buffer.rs 45-47 *)
Definition sb_get_position (b : source_buffer) : nat := sb_index b.

(** source_buffer.rs 49-51 *)
Definition sb_count (b : source_buffer) : nat := length (sb_chars b).

(** The view used by the tokenizer model: position and remaining text. *)
Record cursor := mk_cursor { cu_pos : nat; cu_rest : list char }.

Definition cu_char (c : cursor) : char := hd NUL (cu_rest c).

Definition peek3 (r : list char) : char * char * char :=
  (hd NUL r, hd NUL (tl r), hd NUL (tl (tl r))).

Definition cu_peek (c : cursor) : char * char * char := peek3 (cu_rest c).

Definition cu_advance (c : cursor) : cursor := mk_cursor (S (cu_pos c)) (tl (cu_rest c)).

(** The cursor seen by a buffer. *)
Definition cursor_of (b : source_buffer) : cursor :=
  mk_cursor (sb_index b) (skipn (sb_index b) (sb_chars b)).

(** [for _i in 1 ..= n { advance() }] *)
Fixpoint cu_skip (n : nat) (c : cursor) : cursor :=
  match n with
  | O => c
  | S n' => cu_skip n' (cu_advance c)
  end.
