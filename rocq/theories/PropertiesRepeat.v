(** C74: the tokenizer called on and on. *)
From Coq Require Import List Arith.
From Verif Require Import Chars SourceBuffer Token Tokenizer LexSpec HistoryProofs RepeatSpec RepeatProofs.
Import ListNotations.
Local Open Scope nat_scope.

(** C74.  After an error the tokenizer gives the same error for ever, if it is about an unknown character or a backslash that ends no
    line; after any other it has moved on behind the place it was called at. *)
Theorem C74_error_goes_on : forall U text evs l e l', history U text evs l -> get_symbol U l = LErr e l' ->
  (stays e /\ for_ever U text (evs ++ [inr e]) l' (inr e)) \/ (~ stays e /\ lx_pos l < lx_pos l').
Proof. exact error_goes_on. Qed.
Print Assumptions C74_error_goes_on.
(** Whatever the text, and errors or not, after three calls for each character and four more it gives one answer for ever:
    the end marker, or one of the errors that stay. *)
Theorem C74_settles : forall U text evs l, history U text evs l -> 3 * length text + 4 <= length evs ->
  exists ev, last_answer ev /\ for_ever U text evs l ev.
Proof. exact settles. Qed.
Print Assumptions C74_settles.

(** The end of the text is reached exactly if none of the errors before is one that stays. *)
Theorem C74_end_reached : forall U text evs l, history U text evs l -> 3 * length text + 5 <= length evs ->
  ((exists t, In (inl t) evs /\ tk_kind t = T_EOF) <-> forall e, In (inr e) evs -> ~ stays e).
Proof. exact end_reached. Qed.
Print Assumptions C74_end_reached.
(** The claim that it always comes to the end of the text in this way is false: who calls it until the end marker comes may wait for ever. *)
Theorem C74_reaches_end_refuted : exists text, forall evs l t, history ascii_only text evs l -> In (inl t) evs -> tk_kind t <> T_EOF.
Proof. exact end_unreached. Qed.
Print Assumptions C74_reaches_end_refuted.

(** Cases: behind '0x' the tokenizer goes on; at '?' it stays, and the rest is never read. *)
Example C74_case_on : exists evs l e l', history ascii_only $"0x b" evs l /\ get_symbol ascii_only l = LErr e l' /\
  lx_pos l = 0 /\ lx_pos l' = 2 /\ exists t m, get_symbol ascii_only l' = LOk t m /\ tk_payload t = Text $"b".
Proof.
  exists [], (lexer_new $"0x b"). eexists. eexists. split; [constructor|]. split; [vm_compute; reflexivity|].
  split; [reflexivity|]. split; [reflexivity|]. eexists. eexists. split; vm_compute; reflexivity.
Qed.
Example C74_case_stays : exists evs l e l', history ascii_only $"? b" evs l /\ get_symbol ascii_only l = LErr e l' /\
  lx_pos l' = lx_pos l /\ length evs = 16 /\ lx_pos l' + 3 = length $"? b".
Proof.
  eexists. eexists. eexists. eexists. split; [apply (history_of_run _ _ 16); vm_compute; reflexivity|].
  split; [vm_compute; reflexivity|]. vm_compute. auto.
Qed.
Example C74_case_end : exists evs l e t, history ascii_only $"0x b" evs l /\ length evs = 17 /\ In (inr e) evs /\
  In (inl t) evs /\ tk_kind t = T_EOF.
Proof.
  eexists. eexists. eexists. eexists. split; [apply (history_of_run _ _ 17); vm_compute; reflexivity|].
  split; [reflexivity|]. split; [left; reflexivity|]. split; [right; right; left; reflexivity|reflexivity].
Qed.
