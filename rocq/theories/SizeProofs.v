(** The number of the nodes of a tree, set against the number of its tokens. *)
From Coq Require Import List Arith ZArith Bool Lia Permutation.
From Verif Require Import Chars Token Tokenizer LexSpec Node NodeView ParserState Parser ParseSpec SchemaSpec SchemaProofs
  GrammarSpec SoundBasics Soundness TreeSpec OrderProofs PrintProofs MeterProofs LayoutSpec.
Import ListNotations.
Local Open Scope Z_scope.

(** Nodes that may hold no token of their own and one node only, and lists of these. *)
Definition slack (x : node) : Z :=
  match x with
  | Subscript _ _ _ _ _ _ _ | Argument _ _ _ _ _ | WithItem _ _ _ _ | DottedAsNameStmt _ _ _ _ | TestListComp _ _ _ _ | SetContainer _ _ _ _
  | DictionaryContainer _ _ _ _ | VarArgsList _ _ _ _ _ _ _ _ _ | ImportAsNamesStmt _ _ _ _ | SingleInput _ _ _ _ | Decorators _ _ _
  | ImportNameStmt _ _ _ _ => 1
  | SubscriptList _ _ _ _ | ArgList _ _ _ _ | DottedAsNamesStmt _ _ _ _ | TypeList _ _ _ _ _ _ _ _ | TypedArgsList _ _ _ _ _ _ _ => 2
  | _ => 0
  end.
Definition due (i : item) : Z := match i with Leaf _ => -2 | Sub y => slack y - 1 end.
Definition dues (l : list item) : Z := fold_right (fun i a => due i + a) 0 l.

Lemma dues_app : forall l m, dues (l ++ m) = dues l + dues m.
Proof. induction l as [|i l IH]; intros m; cbn [app dues fold_right]; [reflexivity|]. fold (dues (l ++ m)). fold (dues l). rewrite IH. lia. Qed.
Lemma dues_leaves : forall ts, dues (map Leaf ts) = -2 * Z.of_nat (length ts).
Proof. induction ts as [|t ts IH]; [reflexivity|]. cbn [map dues fold_right length]. fold (dues (map Leaf ts)). rewrite IH. cbn [due]. lia. Qed.
Lemma dues_subs : forall xs, Forall (fun y => slack y <= 0) xs -> dues (map Sub xs) <= - Z.of_nat (length xs).
Proof.
  induction 1 as [|x xs H _ IH]; [reflexivity|]. cbn [map dues fold_right length]. fold (dues (map Sub xs)). cbn [due]. lia.
Qed.
Lemma dues_subs1 : forall xs, Forall (fun y => slack y <= 1) xs -> dues (map Sub xs) <= 0.
Proof.
  induction 1 as [|x xs H _ IH]; [reflexivity|]. cbn [map dues fold_right length]. fold (dues (map Sub xs)). cbn [due]. lia.
Qed.
Lemma dues_pairs : forall xs, Forall (fun p => slack (snd p) <= 0) xs -> dues (pairs xs) <= -3 * Z.of_nat (length xs).
Proof.
  induction 1 as [|x xs H _ IH]; [reflexivity|]. unfold pairs in *. cbn [flat_map app dues fold_right length].
  fold (dues (flat_map (fun p => [Leaf (fst p); Sub (snd p)]) xs)). cbn [due]. lia.
Qed.

Lemma slack_expression : forall k x, expression k x -> slack x = 0.
Proof. intros k x H. destruct x; try reflexivity; contradiction H. Qed.
Lemma slack_star : forall x, is_star x -> slack x = 0.
Proof. intros x H. destruct x; try reflexivity; contradiction H. Qed.
Lemma slack_element : forall x, element x -> slack x = 0.
Proof. intros x [H|H]; [apply slack_star|eapply slack_expression]; eassumption. Qed.
Lemma slack_star_or_test : forall x, star_or_test x -> slack x = 0.
Proof. intros x [H|H]; [apply slack_star|eapply slack_expression]; eassumption. Qed.
Lemma slack_targets : forall x, targets x -> slack x = 0.
Proof. intros x H. destruct x; try reflexivity; apply slack_element; exact H. Qed.
Lemma slack_values : forall x, values x -> slack x = 0.
Proof. intros x H. destruct x; try reflexivity; apply (slack_expression 1); exact H. Qed.
Lemma slack_star_values : forall x, star_values x -> slack x = 0.
Proof. intros x H. destruct x; try reflexivity; apply slack_star_or_test; exact H. Qed.
Lemma slack_yield : forall x, is_yield x -> slack x = 0.
Proof. intros x H. destruct x; try reflexivity; contradiction H. Qed.
Lemma slack_assigned : forall x, assigned x -> slack x = 0.
Proof. intros x [H|H]; [apply slack_yield|apply slack_values]; exact H. Qed.
Lemma slack_small : forall x, is_small x -> slack x = 0.
Proof.
  intros x H. destruct x; try reflexivity; exfalso; cbn in H; destruct H as [H|[H|H]];
    try contradiction H; try (destruct H as [H|H]; contradiction H); try discriminate.
Qed.
Lemma slack_stmt : forall x, is_stmt x -> slack x = 0.
Proof.
  intros x H. destruct x; try reflexivity; exfalso; unfold is_stmt, is_compound in H; cbn in H;
    repeat (destruct H as [H|H]; [contradiction H|]); contradiction H.
Qed.
Lemma slack_in_parentheses : forall x, in_parentheses x -> slack x = 0.
Proof. intros x H. destruct x; try reflexivity; contradiction H. Qed.
Lemma slack_unconditional : forall x, unconditional x -> slack x = 0.
Proof. intros x H. destruct x; try reflexivity; contradiction H. Qed.
Lemma slack_le : forall x, slack x <= 2.
Proof. intros x. destruct x; cbn; lia. Qed.

(** Kinds that name their constructors. *)
Ltac kind_slack := let x := fresh in let H := fresh in intros x H; destruct x; try (cbn; lia); contradiction H.
Lemma slack_trailer : forall x, is_trailer x -> slack x <= 0. Proof. kind_slack. Qed.
Lemma slack_pair : forall x, is_pair x -> slack x <= 0. Proof. kind_slack. Qed.
Lemma slack_spread : forall x, is_spread x -> slack x <= 0. Proof. kind_slack. Qed.
Lemma slack_comprehension : forall x, is_comprehension x -> slack x <= 0. Proof. kind_slack. Qed.
Lemma slack_subscript : forall x, is_subscript x -> slack x <= 1. Proof. kind_slack. Qed.
Lemma slack_argument : forall x, is_argument x -> slack x <= 1. Proof. kind_slack. Qed.
Lemma slack_with_item : forall x, is_with_item x -> slack x <= 1. Proof. kind_slack. Qed.
Lemma slack_dotted_as_name : forall x, is_dotted_as_name x -> slack x <= 1. Proof. kind_slack. Qed.
Lemma slack_import_name : forall x, is_import_name x -> slack x <= 0. Proof. kind_slack. Qed.
Lemma slack_decorator : forall x, is_decorator x -> slack x <= 0. Proof. kind_slack. Qed.
Lemma slack_parameter : forall x, is_parameter x -> slack x <= 0. Proof. kind_slack. Qed.
Lemma slack_elif : forall x, is_elif x -> slack x <= 0. Proof. kind_slack. Qed.
Lemma slack_except : forall x, is_except x -> slack x <= 0. Proof. kind_slack. Qed.

Lemma opt_any : forall {A} (P : A -> Prop) (Q : option A -> Prop), Q None -> (forall a, P a -> Q (Some a)) -> forall o, if_any P o -> Q o.
Proof. intros A P Q N S o H. destruct o; [apply S; exact H|exact N]. Qed.
Lemma dues_cons : forall i l, dues (i :: l) = due i + dues l.
Proof. reflexivity. Qed.
Lemma dues_opt_tokens : forall o, dues (opt_tokens o) = match o with Some _ => -2 | None => 0 end.
Proof. intros [t|]; reflexivity. Qed.
Lemma dues_opt_tokens2 : forall o, dues (opt_tokens2 o) <= 0.
Proof. intros [[t u]|]; cbn; lia. Qed.
Lemma dues_opt_nodes : forall (P : node -> Prop) k o, (forall y, P y -> slack y <= k) -> 1 <= k -> if_any P o -> dues (opt_nodes o) <= k - 1.
Proof. intros P k [y|] H K I; cbn [opt_nodes]; [|cbn; lia]. rewrite dues_cons. specialize (H y I). cbn [due]. change (dues []) with 0. lia. Qed.
Lemma dues_opt_nodes2 : forall o, dues (opt_nodes o) <= 1.
Proof. intros [y|]; cbn [opt_nodes]; [|cbn; lia]. rewrite dues_cons. pose proof (slack_le y). cbn [due]. change (dues []) with 0. lia. Qed.
Lemma dues_opt_pair : forall o, dues (opt_pair o) <= 0.
Proof. intros [[t y]|]; cbn [opt_pair]; [|cbn; lia]. rewrite !dues_cons. pose proof (slack_le y). cbn [due]. change (dues []) with 0. lia. Qed.
Lemma dues_all : forall (P : node -> Prop) xs, (forall y, P y -> slack y <= 0) -> Forall P xs -> dues (map Sub xs) <= - Z.of_nat (length xs).
Proof. intros P xs H F. apply dues_subs. eapply Forall_impl; [exact H|exact F]. Qed.
Lemma dues_all1 : forall (P : node -> Prop) xs, (forall y, P y -> slack y <= 1) -> Forall P xs -> dues (map Sub xs) <= 0.
Proof. intros P xs H F. apply dues_subs1. eapply Forall_impl; [exact H|exact F]. Qed.

(** What the kind of a node tells about its slack. *)
Ltac absurd_kind :=
  exfalso; cbn in *; unfold is_stmt, is_compound, element, star_or_test, assigned, is_flow in *; cbn in *;
  unfold star_or_test, element in *; cbn in *; tauto.
Ltac kinds := let y := fresh "y" in let H := fresh in intros y H; destruct y; first [cbn; lia | absurd_kind].
Ltac bound_kind y :=
  lazymatch goal with
  | _ : slack y <= _ |- _ => fail
  | _ => first [ match goal with H : ?P |- _ => match P with context [y] => idtac end;
                   assert (slack y <= 0) by (clear - H; destruct y; first [cbn; lia | absurd_kind]) end
               | match goal with H : ?P |- _ => match P with context [y] => idtac end;
                   assert (slack y <= 1) by (clear - H; destruct y; first [cbn; lia | absurd_kind]) end
               | pose proof (slack_le y) ]
  end.
Ltac bound_list xs :=
  lazymatch goal with
  | _ : dues (map Sub xs) <= _ |- _ => fail
  | H : Forall ?P xs |- _ =>
      first [ assert (dues (map Sub xs) <= - Z.of_nat (length xs)) by (apply (dues_all P); [kinds|exact H])
            | assert (dues (map Sub xs) <= 0) by (apply (dues_all1 P); [kinds|exact H]) ]
  end.
Ltac open_schema :=
  repeat match goal with
  | H : _ /\ _ |- _ => destruct H
  | H : left _ _ _ _ _ |- _ => unfold left in H
  | H : augments _ _ _ _ |- _ => unfold augments in H
  end.
Ltac count := rewrite ?dues_cons, ?dues_app, ?dues_leaves, ?dues_cons, ?dues_app, ?dues_leaves, ?dues_cons; change (dues []) with 0; cbn [due].
Lemma not_nil : forall {A} (l : list A), l <> [] -> (1 <= length l)%nat.
Proof. intros A [|a l] H; [contradiction H; reflexivity|cbn; lia]. Qed.
Ltac settle :=
  open_schema;
  repeat match goal with
  | o : option _ |- _ => destruct o; cbn [if_any opt_tokens opt_tokens2 opt_pair opt_node_pair opt_node_tokens2 opt_nodes opt_list_nodes] in *
  | p : (_ * _)%type |- _ => destruct p; cbn [fst snd] in *
  end;
  open_schema;
  count;
  repeat match goal with |- context [slack ?y] => is_var y; bound_kind y end;
  repeat match goal with |- context [dues (map Sub ?xs)] => bound_list xs end;
  repeat match goal with H : _ <> [] |- _ => apply not_nil in H end;
  unfold between_all, spaced in *; cbn [slack]; try lia.

Lemma node_due : forall x, schema x -> 2 + dues (items x) <= slack x.
Proof.
  intros x S. destruct x; cbn [schema] in S; try contradiction S; cbn [items app]; settle.
  - specialize (H2 eq_refl). apply not_nil in H2. lia.
  - destruct H0 as [[B F]|(y & z & -> & -> & C & E)].
    + pose proof (dues_all _ l (fun y E => Z.eq_le_incl _ _ (slack_element y E)) F). unfold between_all in B. lia.
    + cbn [map]. rewrite !dues_cons. apply slack_comprehension in C. apply slack_element in E. change (dues []) with 0. cbn [due length]. lia.
  - exfalso. destruct (H3 eq_refl) as (N & _). apply N. reflexivity.
  - assert (D : dues (pairs l) <= -3 * Z.of_nat (length l)).
    { apply dues_pairs. eapply Forall_impl; [|eassumption]. intros p (_ & A). apply slack_assigned in A. lia. }
    lia.
  - assert (D : dues (pairs l) <= -3 * Z.of_nat (length l)).
    { apply dues_pairs. eapply Forall_impl; [|eassumption]. intros p (_ & A). apply slack_assigned in A. lia. }
    lia.
  - discriminate.
  - discriminate.
  - discriminate.
  - subst. cbn. lia.
  - specialize (H8 eq_refl eq_refl eq_refl). lia.
  - exfalso. apply (H1 eq_refl). reflexivity.
Qed.

(** ** The whole tree *)
Lemma tree_due : forall x, (forall y, In y (subnodes x) -> schema y) -> Z.of_nat (length (subnodes x)) + 1 <= 2 * Z.of_nat (length (tokens x)) + slack x.
Proof.
  intros x. pattern x. apply node_items_ind. clear x. intros x IH S.
  pose proof (node_due x (S x ltac:(rewrite subnodes_items; left; reflexivity))) as D.
  assert (L : Z.of_nat (length (flat_map item_subnodes (items x))) <= 2 * Z.of_nat (length (flat_map item_tokens (items x))) + dues (items x) + 2 * Z.of_nat 0).
  { assert (S' : forall y, In (Sub y) (items x) -> forall z, In z (subnodes y) -> schema z).
    { intros y I z J. apply S. rewrite subnodes_items. right. apply in_flat_map. exists (Sub y). split; assumption. }
    clear D S. revert IH S'. induction (items x) as [|i l IL]; intros IH S'; [cbn; lia|].
    cbn [flat_map]. rewrite !app_length, dues_cons.
    specialize (IL (fun y I => IH y (or_intror I)) (fun y I => S' y (or_intror I))).
    destruct i as [t|y]; cbn [item_subnodes item_tokens due length].
    - lia.
    - pose proof (IH y (or_introl eq_refl) (S' y (or_introl eq_refl))). lia. }
  rewrite subnodes_items, tokens_items. cbn [length]. lia.
Qed.
Local Close Scope Z_scope.
Local Open Scope nat_scope.

Theorem nodes_linear : forall U n f s x s', usual f = true -> run U n f s = Ok x s' -> length (subnodes x) <= 2 * length (tokens x) + 1.
Proof.
  intros U n f s x s' F H. pose proof (tree_due x (run_schema U n f s x s' F H)). pose proof (slack_le x). lia.
Qed.
Theorem nodes_of_text : forall U text n f x s', f = F_file_input \/ f = F_eval_input \/ f = F_func_type_input ->
  run U n f (fresh text) = Ok x s' -> length (subnodes x) < 2 * length (scanned U text).
Proof.
  intros U text n f x s' F H. destruct (tree_scanned U text n f x s' F H) as (ts & W & E).
  apply written_tokens, Permutation_length in W.
  assert (UF : usual f = true) by (destruct F as [->|[->| ->]]; reflexivity).
  pose proof (tree_due x (run_schema U n f _ x s' UF H)) as D.
  assert (K : slack x = 0%Z).
  { apply run_sound in H. unfold sound in H.
    destruct F as [->|[->| ->]]; cbn [sort_of] in H; destruct H as (s1 & l & _ & _ & I); inversion I; subst; reflexivity. }
  rewrite E, map_length. lia.
Qed.
Theorem nodes_by_length : forall U text n f x s', f = F_file_input \/ f = F_eval_input \/ f = F_func_type_input ->
  run U n f (fresh text) = Ok x s' -> length (subnodes x) <= 6 * length text + 7.
Proof.
  intros U text n f x s' F H. pose proof (nodes_of_text U text n f x s' F H). pose proof (scanned_length U text). lia.
Qed.
