(** The height of the trees: bounded by the tokens, not by their nesting (C70). *)
From Coq Require Import List Arith Bool Lia.
From Verif Require Import Chars SourceBuffer Token Tokenizer LexSpec TokenSpec RenderSpec RoundTrip Node NodeView ParserState Parser
  GrammarSpec ParseSpec SchemaSpec SchemaProofs LayoutSpec TwinProofs PrintProofs SizeProofs ExprSpec ExprProofs ExprText ExprPrint DepthSpec DepthText HeightSpec.
Import ListNotations.
Local Open Scope nat_scope.

(** ** Above *)
Lemma path_nodes : forall x k, path x k -> k < length (subnodes x).
Proof.
  intros x k H. induction H as [x|x y k I H IH]; rewrite subnodes_items; cbn [length]; [lia|].
  enough (length (subnodes y) <= length (flat_map item_subnodes (items x))) by lia.
  apply in_split in I. destruct I as (l & r & ->). rewrite flat_map_app, app_length. cbn [flat_map item_subnodes]. rewrite app_length. lia.
Qed.
Theorem height_linear : forall U n f s x s' k, usual f = true -> run U n f s = Ok x s' -> path x k -> k <= 2 * length (tokens x).
Proof. intros U n f s x s' k F H P. pose proof (nodes_linear U n f s x s' F H). apply path_nodes in P. lia. Qed.
Theorem height_of_text : forall U text n f x s' k, f = F_file_input \/ f = F_eval_input \/ f = F_func_type_input ->
  run U n f (fresh text) = Ok x s' -> path x k -> k + 1 < 2 * length (scanned U text).
Proof. intros U text n f x s' k F H P. pose proof (nodes_of_text U text n f x s' F H). apply path_nodes in P. lia. Qed.

(** ** Below: a row of sums *)
Fixpoint spine (e : ast) : nat := match e with Infix _ a _ => S (spine a) | _ => 0 end.
Lemma foldo_flat : forall (f : ast -> node -> option ast) xs e d, (forall a y c, f a y = Some c -> spine c = 0) ->
  foldo f e xs = Some d -> spine d = 0 \/ d = e.
Proof.
  intros f xs. induction xs as [|x xs IH]; intros e d F H; cbn [foldo] in H; [injection H as <-; auto|].
  destruct (f e x) as [c|] eqn:C; [|discriminate H]. destruct (IH c d F H) as [Z| ->]; [auto|]. left. eapply F. exact C.
Qed.
Lemma trailer_flat : forall a y c, trailer a y = Some c -> spine c = 0.
Proof.
  intros a y c H. destruct y; cbn [trailer] in H; try discriminate H.
  - destruct o as [l|]; [destruct (arguments l)|]; cbn [option_map] in H; try discriminate H; injection H as <-; reflexivity.
  - destruct (arguments y); cbn [option_map] in H; try discriminate H; injection H as <-; reflexivity.
  - injection H as <-. reflexivity.
Qed.
Lemma comprehension_flat : forall r q xs ts e, comprehension r q xs ts = Some e -> spine e = 0.
Proof.
  intros r q xs ts e H. destruct xs as [|y [|x [|]]]; try discriminate H. destruct ts; [|discriminate H]. cbn [comprehension] in H.
  destruct (r x); [|discriminate H]. destruct (clauses r y); [|discriminate H]. injection H as <-. reflexivity.
Qed.
Lemma path_less : forall x k, path x (S k) -> path x k.
Proof.
  intros x k. revert x. induction k as [|k IH]; intros x H; [apply P_here|]. inversion H as [|? y ? I P]; subst.
  apply (P_down x y); [exact I|]. apply IH, P.
Qed.
Ltac parts T := unfold both in T; repeat (match type of T with
  | match ?o with _ => _ end = _ => destruct o; try discriminate T
  | option_map _ ?o = _ => destruct o; [cbn [option_map] in T|discriminate T]
  end).
Lemma path_spine : forall x e, tree_of x = Some e -> path x (spine e).
Proof.
  induction x as [x IH] using node_items_ind. intros e T.
  assert (D : forall y d, In (Sub y) (items x) -> tree_of y = Some d -> path x (S (spine d))).
  { intros y d I Q. apply (P_down x y); [exact I|]. eapply IH; eassumption. }
  destruct (Nat.eq_dec (spine e) 0) as [Z|Z]; [rewrite Z; apply P_here|].
  destruct x; try (rewrite tree_of_atom_expr in T); cbn [tree_of] in T; try discriminate T.
  all: try (match type of T with context [both (Infix _) (tree_of ?a) (tree_of ?b)] =>
    match type of T with context [is ?k ?t] => destruct (is k t); [|discriminate T] end;
    unfold both in T; destruct (tree_of a) as [d|] eqn:A; [|discriminate T]; destruct (tree_of b); [|discriminate T];
    injection T as <-; cbn [spine]; apply (D a); [left; reflexivity|exact A] end).
  all: lazymatch type of T with
    | context [foldo] =>
      destruct (tree_of x) as [d|] eqn:A; [|discriminate T]; destruct (foldo trailer d l) as [c|] eqn:F; [|discriminate T];
      injection T as <-; destruct (foldo_flat trailer l d c trailer_flat F) as [Q| ->];
      [destruct o; [destruct (Z eq_refl)|contradiction]|destruct o; [destruct (Z eq_refl)|]];
      apply path_less, (D x d); [cbn [items]; apply in_or_app; right; left; reflexivity|exact A]
    | _ => exfalso; apply Z; clear Z D IH; parts T; first [apply (comprehension_flat _ _ _ _ _ T)|injection T as <-; reflexivity]
    end.
Qed.

Definition dots : ast := Word PyElipsis NoPayload.
Fixpoint sum (k : nat) : ast := match k with 0 => dots | S k => Infix PyPlus (sum k) dots end.
Fixpoint terms (k : nat) : list kind := match k with 0 => [] | S k => PyPlus :: PyElipsis :: terms k end.
Lemma sum_level : forall k, 10 <= level (sum k).
Proof. intros [|k]; cbn; lia. Qed.
Lemma sum_proper : forall k, proper (sum k).
Proof.
  assert (D : proper dots) by (vm_compute; tauto).
  induction k as [|k IH]; [exact D|]. cbn [sum proper infix_level]. split; split; [exact IH|apply sum_level|exact D|cbn; lia].
Qed.
Lemma sum_spine : forall k, spine (sum k) = k.
Proof. induction k as [|k IH]; [reflexivity|]. cbn [sum spine]. rewrite IH. reflexivity. Qed.
Lemma terms_more : forall k, terms k ++ [PyPlus; PyElipsis] = terms (S k).
Proof. induction k as [|k IH]; [reflexivity|]. cbn [terms app]. rewrite IH. reflexivity. Qed.
Lemma sum_flatten : forall k, flatten (sum k) = map mark (PyElipsis :: terms k).
Proof.
  induction k as [|k IH]; [reflexivity|]. cbn [sum flatten]. rewrite IH. rewrite <- terms_more.
  change (PyElipsis :: terms k ++ [PyPlus; PyElipsis]) with ((PyElipsis :: terms k) ++ [PyPlus; PyElipsis]). rewrite map_app. reflexivity.
Qed.
Lemma terms_flat : forall k q c, let p := {| blocks := 0; words := 0; pending := 0; around := []; last := q |} in
  q = PyElipsis -> c = [T_Newline; T_EOF] -> tallest p (terms k ++ c) = 0 /\ sliced p (terms k ++ c) = false.
Proof.
  induction k as [|k IH]; intros q c p -> ->; [split; reflexivity|]. destruct (IH PyElipsis _ eq_refl eq_refl) as (A & B).
  cbn [terms app tallest sliced]. split; [|exact B]. change (Nat.max 0 (Nat.max 0 (tallest {| blocks := 0; words := 0; pending := 0; around := []; last := PyElipsis |} (terms k ++ [T_Newline; T_EOF]))) = 0). rewrite A. reflexivity.
Qed.
(** However small the nesting, the tree can be as tall as one likes. *)
Theorem height_unbounded : forall U k, exists text x s', nested_within U text 0 /\ without_slices U text /\
  parsed U F_eval_input (fresh text) x s' /\ path x k.
Proof.
  intros U k. set (w := map item_of (map mark (terms k))). set (ln := Line [] (item_of (mark PyElipsis)) w).
  assert (M : map item_seen (ln_items ln) = flatten (sum k)).
  { rewrite sum_flatten. change (map item_seen (map item_of (map mark (PyElipsis :: terms k))) = map mark (PyElipsis :: terms k)). apply seen_of. }
  assert (IO : Forall (item_ok U) (ln_items ln)).
  { change (Forall (item_ok U) (map item_of (map mark (PyElipsis :: terms k)))). apply Forall_map, Forall_map, Forall_forall. intros q I.
    apply (spelled_mark U q). destruct I as [<-|I]; [reflexivity|]. clear - I. induction k as [|k IH]; [contradiction I|].
    destruct I as [<-|[<-|I]]; [reflexivity|reflexivity|exact (IH I)]. }
  assert (W : writes U ln (sum k)).
  { split; [reflexivity|]. split; [exact IO|]. split; [|exact M]. unfold ln, w. cbn [ln_more]. apply Forall_map, Forall_forall. intros y _.
    split; [discriminate|]. repeat constructor. }
  pose proof (sum_level k) as L.
  destruct (text_read U ln (sum k) (sum_proper k) ltac:(lia) W) as (a & b & y & n & t & s' & P & T).
  exists (RenderSpec.text_of [ln]), (EvalInput a b y [n] t), s'.
  assert (PR : program U [0] [ln] (map item_seen (ln_items ln) ++ [(T_Newline, Break LF SP); (T_EOF, NoPayload)])).
  { replace (_ ++ _) with (line_seen ln ++ repeat (T_Dedent, NoPayload) (length [0] - 1) ++ [(T_EOF, NoPayload)]).
    2:{ unfold line_seen. rewrite <- app_assoc. reflexivity. }
    apply PR_same; [exact (proj1 (writes_line U ln _ (sum_proper k) W))|apply PR_end]. }
  apply program_scanned in PR. rewrite M, sum_flatten in PR.
  destruct P as (N & P).
  destruct (tree_scanned U _ N F_eval_input _ _ (or_intror (or_introl eq_refl)) P) as (ts & _ & SC).
  assert (K : map tk_kind ts = PyElipsis :: terms k ++ [T_Newline; T_EOF]).
  { rewrite SC in PR. apply (f_equal (map (fun o => match o with Some z => fst z | None => T_EOF end))) in PR.
    rewrite !map_map, map_app, map_map in PR. rewrite (map_ext _ tk_kind) in PR by reflexivity. rewrite PR.
    rewrite (map_ext _ (fun z => z)) by reflexivity. rewrite map_id. reflexivity. }
  assert (V : exists us u, ts = us ++ [u] /\ tk_kind u = T_EOF).
  { destruct (exists_last (l := ts)) as (us & u & E); [intros ->; discriminate K|]. exists us, u. split; [exact E|]. rewrite E, map_app in K.
    change (PyElipsis :: terms k ++ [T_Newline; T_EOF]) with ((PyElipsis :: terms k) ++ [T_Newline] ++ [T_EOF]) in K. rewrite app_assoc in K.
    apply app_inj_tail in K. apply K. }
  destruct V as (us & u & -> & KU). destruct (nesting_computed U _ us u SC KU) as (A & B & _). rewrite K in A, B.
  destruct (terms_flat k PyElipsis _ eq_refl eq_refl) as (FA & FB).
  change (tallest start_place (PyElipsis :: terms k ++ [T_Newline; T_EOF])) with
    (Nat.max 0 (tallest {| blocks := 0; words := 0; pending := 0; around := []; last := PyElipsis |} (terms k ++ [T_Newline; T_EOF]))) in A.
  rewrite FA in A. split; [exact A|]. split; [exact (B FB)|]. split; [exists N; exact P|]. apply path_less, (P_down _ y).
  - left. reflexivity.
  - rewrite <- (sum_spine k). apply path_spine. exact T.
Qed.
