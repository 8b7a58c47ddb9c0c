(** Inclusion of one EBNF grammar in another, rule by rule: a checker, and its proof.  [sub n xs ys] compares two sequences;
    it unfolds rules on the right, and on the left before a token. *)
From Coq Require Import List Arith Bool Lia.
From Verif Require Import Chars Token LexBasics PythonGrammar.
Import ListNotations.
Local Open Scope nat_scope.

Definition rule_eq : forall r r' : rule, {r = r'} + {r <> r'}.
Proof. decide equality. Defined.

Section Include.
Variable G G' : rule -> ebnf.

Definition or_else (a : bool) (b : unit -> bool) : bool := if a then true else b tt.
Definition and_then (a : bool) (b : unit -> bool) : bool := if a then b tt else false.
Definition some {A} (p : A -> bool) := fix go (l : list A) : bool := match l with [] => false | a :: l => if p a then true else go l end.
Definition every {A} (p : A -> bool) := fix go (l : list A) : bool := match l with [] => true | a :: l => if p a then go l else false end.

(** What may be empty. *)
Fixpoint idle (e : ebnf) : bool :=
  match e with Opt _ | Star _ => true | Seq es => every idle es | Alt es => some idle es | _ => false end.
Fixpoint sub (n : nat) (xs ys : list ebnf) : bool :=
  match n with
  | O => false
  | S n =>
      match xs with
      | [] => every idle ys
      | Seq es :: xs => sub n (es ++ xs) ys
      | Alt es :: xs => every (fun e => sub n (e :: xs) ys) es
      | Opt e :: xs => and_then (sub n (e :: xs) ys) (fun _ => sub n xs ys)
      | x :: xs' =>
          match ys with
          | [] => false
          | Seq fs :: ys => sub n xs (fs ++ ys)
          | Alt fs :: ys' =>
              or_else (some (fun f => sub n xs (f :: ys')) fs)
                (fun _ => match x with
                          | Star (Seq [a; b]) => and_then (sub n xs' ys) (fun _ => sub n (a :: Star (Seq [b; a]) :: b :: xs') ys)
                          | _ => false
                          end)
          | Opt f :: ys => or_else (sub n xs (f :: ys)) (fun _ => sub n xs ys)
          | Star f :: ys' =>
              match x with
              | Star e => or_else (and_then (sub n [e] [f]) (fun _ => sub n xs' ys)) (fun _ => sub n xs ys')
              | _ => or_else (sub n xs (f :: ys)) (fun _ => sub n xs ys')
              end
          | Plus f :: ys' =>
              match x with
              | Star e => and_then (sub n [e] [f]) (fun _ => sub n xs' ys)
              | Plus e => and_then (sub n [e] [f]) (fun _ => sub n xs' (Star f :: ys'))
              | _ => sub n xs (f :: Star f :: ys')
              end
          | R r :: ys' =>
              match x with
              | R r' => if rule_eq r' r then sub n xs' ys' else sub n xs (G' r :: ys')
              | But _ e => sub n (e :: xs') ys
              (* (a b)* is nothing, or a (b a)* b *)
              | Star (Seq [a; b]) => and_then (sub n xs' ys) (fun _ => sub n (a :: Star (Seq [b; a]) :: b :: xs') ys)
              | _ => sub n xs (G' r :: ys')
              end
          | But k f :: ys' =>
              match x with
              | But k' e => and_then (kind_eqb k' k) (fun _ => and_then (sub n [e] [f]) (fun _ => sub n xs' ys'))
              | _ => false
              end
          | T k :: ys' =>
              match x with
              | T k' => and_then (kind_eqb k' k) (fun _ => sub n xs' ys')
              | R r => sub n (G r :: xs') ys
              | But _ e => sub n (e :: xs') ys
              | _ => false
              end
          end
      end
  end.

(** Derivations of bounded depth. *)
Inductive deep : nat -> ebnf -> list kind -> Prop :=
| deep_token h k : deep h (T k) [k]
| deep_rule h r ks : deep h (G r) ks -> deep (S h) (R r) ks
| deep_nil h : deep h (Seq []) []
| deep_cons h e es ks1 ks2 : deep h e ks1 -> deep h (Seq es) ks2 -> deep h (Seq (e :: es)) (ks1 ++ ks2)
| deep_alt h e es ks : In e es -> deep h e ks -> deep h (Alt es) ks
| deep_none h e : deep h (Opt e) []
| deep_some h e ks : deep h e ks -> deep h (Opt e) ks
| deep_end h e : deep h (Star e) []
| deep_more h e ks1 ks2 : deep h e ks1 -> deep h (Star e) ks2 -> deep h (Star e) (ks1 ++ ks2)
| deep_plus h e ks1 ks2 : deep h e ks1 -> deep h (Star e) ks2 -> deep h (Plus e) (ks1 ++ ks2)
| deep_but h k e k' ks : deep h e (k' :: ks) -> k' <> k -> deep h (But k e) (k' :: ks).
Lemma deep_mono h e ks : deep h e ks -> forall h', h <= h' -> deep h' e ks.
Proof.
  induction 1; intros h' L; try (econstructor; eauto; fail).
  destruct h'; [lia|]. apply deep_rule. apply IHdeep. lia.
Qed.
Lemma fits_deep e ks : fits G e ks -> exists h, deep h e ks.
Proof.
  induction 1; try (exists 0; constructor; fail);
    repeat match goal with H : exists h, _ |- _ => destruct H as [? H] end.
  - eexists. apply deep_rule. eassumption.
  - exists (x + x0). apply deep_cons; (eapply deep_mono; [eassumption|lia]).
  - eexists. eapply deep_alt; eauto.
  - eexists. eapply deep_some; eauto.
  - exists (x + x0). apply deep_more; (eapply deep_mono; [eassumption|lia]).
  - exists (x + x0). apply deep_plus; (eapply deep_mono; [eassumption|lia]).
  - eexists. eapply deep_but; eauto.
Qed.

Lemma every_in {A} p (l : list A) : every p l = true -> forall a, In a l -> p a = true.
Proof. induction l as [|b l IH]; cbn; intros H a J; [contradiction|]. destruct (p b) eqn:P; [|discriminate]. destruct J as [<-|J]; auto. Qed.
Lemma some_in {A} p (l : list A) : some p l = true -> exists a, In a l /\ p a = true.
Proof. induction l as [|b l IH]; cbn; intros H; [discriminate|]. destruct (p b) eqn:P; [exists b; auto|]. destruct (IH H) as (a & J & Z). exists a. auto. Qed.
Lemma or_elim a b : or_else a b = true -> a = true \/ b tt = true.
Proof. unfold or_else. destruct a; auto. Qed.
Lemma and_elim a b : and_then a b = true -> a = true /\ b tt = true.
Proof. unfold and_then. destruct a; [auto|discriminate]. Qed.

Lemma deep_seq h x xs ks : deep h (Seq (x :: xs)) ks -> exists a b, ks = a ++ b /\ deep h x a /\ deep h (Seq xs) b.
Proof. intros H. inversion H; subst. eauto. Qed.
Lemma deep_app h es xs ks1 ks2 : deep h (Seq es) ks1 -> deep h (Seq xs) ks2 -> deep h (Seq (es ++ xs)) (ks1 ++ ks2).
Proof.
  revert ks1. induction es as [|e es IH]; intros ks1 H H2; [inversion H; subst; exact H2|].
  inversion H; subst. rewrite <- app_assoc. cbn [app]. apply deep_cons; auto.
Qed.
Lemma fits_seq_app fs ys ks : fits G' (Seq (fs ++ ys)) ks -> fits G' (Seq (Seq fs :: ys)) ks.
Proof.
  revert ks. induction fs as [|f fs IH]; intros ks H; [apply (fits_cons G' (Seq []) ys [] ks (fits_nil G') H)|].
  cbn [app] in H. inversion H as [| | |? ? ks1 ks2 F1 F2| | | | | | |]; subst. apply IH in F2.
  inversion F2 as [| | |? ? ks3 ks4 F3 F4| | | | | | |]; subst. rewrite app_assoc. apply fits_cons; [|exact F4]. apply fits_cons; assumption.
Qed.
Lemma fits_head f g ys ks : (forall ks, fits G' f ks -> fits G' g ks) -> fits G' (Seq (f :: ys)) ks -> fits G' (Seq (g :: ys)) ks.
Proof. intros H F. inversion F; subst. apply fits_cons; auto. Qed.
Lemma fits_one f ks : fits G' (Seq [f]) ks -> fits G' f ks.
Proof. intros F. inversion F as [| | |? ? ks1 ks2 F1 F2| | | | | | |]; subst. inversion F2; subst. rewrite app_nil_r. exact F1. Qed.
Fixpoint idle_fits (e : ebnf) : idle e = true -> fits G' e [].
Proof.
  destruct e; cbn [idle]; intros H; try discriminate H; try (constructor; fail).
  - induction es as [|y ys IH]; cbn [every] in H; [apply fits_nil|]. destruct (idle y) eqn:D; [|discriminate].
    apply (fits_cons G' y ys [] []); [apply idle_fits; exact D|exact (IH H)].
  - assert (X : exists e, In e es /\ fits G' e []).
    { induction es as [|y ys IH]; cbn [some] in H; [discriminate|]. destruct (idle y) eqn:D; [exists y; split; [left; reflexivity|apply idle_fits; exact D]|].
      destruct (IH H) as (e & J & F). exists e. split; [right; exact J|exact F]. }
    destruct X as (e & J & F). eapply fits_alt; eauto.
Qed.
Lemma fits_idle ys : every idle ys = true -> fits G' (Seq ys) [].
Proof. intros H. apply idle_fits. exact H. Qed.
Lemma turned h a b ks : deep h (Star (Seq [a; b])) ks ->
  ks = [] \/ exists x y z, ks = x ++ y ++ z /\ deep h a x /\ deep h (Star (Seq [b; a])) y /\ deep h b z.
Proof.
  intros D. remember (Star (Seq [a; b])) as e eqn:E. revert E. induction D; intros E; try discriminate E; [left; reflexivity|].
  injection E as ->. right. clear IHD1.
  destruct (deep_seq _ _ _ _ D1) as (a1 & b1 & -> & A1 & B1). destruct (deep_seq _ _ _ _ B1) as (b2 & n2 & -> & B2 & N2).
  inversion N2; subst. rewrite app_nil_r. destruct (IHD2 eq_refl) as [->|(x & y & z & -> & X & Y & Z)].
  - exists a1, [], b2. rewrite app_nil_r. split; [reflexivity|]. split; [exact A1|]. split; [apply deep_end|exact B2].
  - exists a1, ((b2 ++ x) ++ y), z. split; [rewrite <- !app_assoc; reflexivity|]. split; [exact A1|]. split; [|exact Z].
    apply deep_more; [|exact Y]. apply deep_cons; [exact B2|]. rewrite <- (app_nil_r x). apply deep_cons; [exact X|apply deep_nil].
Qed.
Lemma rotate h a b xs ks ks' : deep h (Star (Seq [a; b])) ks -> deep h (Seq xs) ks' ->
  deep h (Seq xs) (ks ++ ks') \/ deep h (Seq (a :: Star (Seq [b; a]) :: b :: xs)) (ks ++ ks').
Proof.
  intros D DX. destruct (turned _ _ _ _ D) as [->|(x & y & z & -> & X & Y & Z)]; [left; exact DX|right].
  rewrite <- !app_assoc. apply deep_cons; [exact X|]. apply deep_cons; [exact Y|]. apply deep_cons; [exact Z|exact DX].
Qed.
Lemma star_app f a b : fits G' (Star f) a -> fits G' (Star f) b -> fits G' (Star f) (a ++ b).
Proof.
  intros H. remember (Star f) as e eqn:E. revert E b. induction H; intros E b HB; try discriminate E.
  - exact HB.
  - injection E as ->. rewrite <- app_assoc. apply fits_more; auto.
Qed.
Lemma star_plus f a b : fits G' (Star f) a -> fits G' (Plus f) b -> fits G' (Plus f) (a ++ b).
Proof.
  intros H. inversion H; subst; intros HB; [exact HB|]. rewrite <- app_assoc. inversion HB; subst.
  apply fits_plus; [assumption|]. apply star_app; [assumption|]. apply fits_more; assumption.
Qed.
Lemma star_all h e f a : (forall ks, deep h e ks -> fits G' f ks) -> deep h (Star e) a -> fits G' (Star f) a.
Proof.
  intros H D. remember (Star e) as x eqn:E. revert E H. induction D; intros E Z; try discriminate E; [apply fits_end|].
  injection E as ->. apply fits_more; auto.
Qed.
Lemma plus_seq f ys ks : fits G' (Seq (f :: Star f :: ys)) ks -> fits G' (Seq (Plus f :: ys)) ks.
Proof.
  intros F. inversion F as [| | |? ? ks1 ks2 F1 F2| | | | | | |]; subst. inversion F2 as [| | |? ? ks3 ks4 F3 F4| | | | | | |]; subst.
  rewrite app_assoc. apply fits_cons; [|exact F4]. apply fits_plus; assumption.
Qed.
Lemma star_seq f ys ks : fits G' (Seq (f :: Star f :: ys)) ks -> fits G' (Seq (Star f :: ys)) ks.
Proof.
  intros F. inversion F as [| | |? ? ks1 ks2 F1 F2| | | | | | |]; subst. inversion F2 as [| | |? ? ks3 ks4 F3 F4| | | | | | |]; subst.
  rewrite app_assoc. apply fits_cons; [|exact F4]. apply fits_more; assumption.
Qed.
Lemma fits_skip f ys ks : idle f = true -> fits G' (Seq ys) ks -> fits G' (Seq (f :: ys)) ks.
Proof. intros D F. apply (fits_cons G' f ys [] ks); [|exact F]. apply idle_fits. exact D. Qed.

Lemma sub_sound h : (forall r ks, deep h (R r) ks -> fits G' (R r) ks) ->
  forall n xs ys ks, sub n xs ys = true -> deep h (Seq xs) ks -> fits G' (Seq ys) ks.
Proof.
  intros HR n. induction n as [|n IH]; intros xs ys ks S D; [discriminate|].
  assert (ONE : forall e f ks, sub n [e] [f] = true -> deep h e ks -> fits G' f ks).
  { intros e f ks0 S0 D0. apply fits_one. apply (IH [e] [f]); [exact S0|]. rewrite <- (app_nil_r ks0). apply deep_cons; [exact D0|apply deep_nil]. }
  cbn [sub] in S. destruct xs as [|x xs]; [inversion D; subst; apply fits_idle; exact S|].
  destruct (deep_seq _ _ _ _ D) as (a & b & -> & DX & DS).
  assert (UP : match x with Seq _ | Alt _ | Opt _ => False | _ => True end ->
    match ys with
    | [] => False
    | Seq fs :: ys' => sub n (x :: xs) (fs ++ ys') = true
    | Alt fs :: ys' => some (fun f => sub n (x :: xs) (f :: ys')) fs = true \/
        exists c d, x = Star (Seq [c; d]) /\ sub n xs ys = true /\ sub n (c :: Star (Seq [d; c]) :: d :: xs) ys = true
    | Opt f :: ys' => or_else (sub n (x :: xs) (f :: ys')) (fun _ => sub n (x :: xs) ys') = true
    | Star f :: ys' => match x with
              | Star e => or_else (and_then (sub n [e] [f]) (fun _ => sub n xs ys)) (fun _ => sub n (x :: xs) ys') = true
              | _ => or_else (sub n (x :: xs) (f :: ys)) (fun _ => sub n (x :: xs) ys') = true
              end
    | Plus f :: ys' =>
              match x with
              | Star e => and_then (sub n [e] [f]) (fun _ => sub n xs ys) = true
              | Plus e => and_then (sub n [e] [f]) (fun _ => sub n xs (Star f :: ys')) = true
              | _ => sub n (x :: xs) (f :: Star f :: ys') = true
              end
    | R r :: ys' =>
              match x with
              | R r' => (if rule_eq r' r then sub n xs ys' else sub n (x :: xs) (G' r :: ys')) = true
              | But _ e => sub n (e :: xs) ys = true
              | Star (Seq [a; b]) => and_then (sub n xs ys) (fun _ => sub n (a :: Star (Seq [b; a]) :: b :: xs) ys) = true
              | _ => sub n (x :: xs) (G' r :: ys') = true
              end
    | But k f :: ys' =>
              match x with
              | But k' e => and_then (kind_eqb k' k) (fun _ => and_then (sub n [e] [f]) (fun _ => sub n xs ys')) = true
              | _ => False
              end
    | T k :: ys' =>
              match x with
              | T k' => and_then (kind_eqb k' k) (fun _ => sub n xs ys') = true
              | R r => sub n (G r :: xs) ys = true
              | But _ e => sub n (e :: xs) ys = true
              | _ => False
              end
    end).
  { intros N. destruct x; try contradiction N; (destruct ys as [|y ys]; [discriminate S|]); 
      destruct y; try discriminate S; try exact S; try (destruct x as [| |[|? [|? [|]]]| | | | |]; exact S);
      apply or_elim in S; (destruct S as [S|S]; [left; exact S|]); try discriminate S.
    destruct x as [| |[|c [|d [|]]]| | | | |]; try discriminate S. right. apply and_elim in S. destruct S. eauto 9. }
  assert (CUT : match x with Seq _ | Alt _ | Opt _ => False | _ => True end -> fits G' (Seq ys) (a ++ b)).
  { intros N. specialize (UP N). clear S. destruct ys as [|y ys]; [contradiction UP|]. destruct y as [k|r|fs|fs|f|f|f|k f].
    - destruct x; try contradiction UP; try contradiction N.
      + apply and_elim in UP. destruct UP as [K UP]. apply kind_eqb_eq in K. subst. inversion DX; subst. apply fits_cons; [constructor|]. eapply IH; eauto.
      + inversion DX; subst. eapply IH; [exact UP|]. apply deep_cons; [|exact DS]. eapply deep_mono; [eassumption|lia].
      + inversion DX; subst. eapply IH; [exact UP|]. apply deep_cons; [assumption|exact DS].
    - assert (X : sub n (x :: xs) (G' r :: ys) = true \/ (exists r', x = R r' /\ r' = r /\ sub n xs ys = true) \/
                  (exists k e, x = But k e /\ sub n (e :: xs) (R r :: ys) = true) \/
                  (exists c d, x = Star (Seq [c; d]) /\ sub n xs (R r :: ys) = true /\ sub n (c :: Star (Seq [d; c]) :: d :: xs) (R r :: ys) = true)).
      { destruct x; try contradiction N; auto; [destruct (rule_eq r0 r); eauto 6| |eauto 8].
        destruct x as [| |[|c [|d [|]]]| | | | |]; auto. apply and_elim in UP. destruct UP. eauto 9. }
      destruct X as [X|[(r' & -> & -> & X)|[(k & e & -> & X)|(c & d & -> & X & Y)]]].
      + apply (fits_head (G' r) (R r)); [intros; apply fits_rule; assumption|]. eapply IH; [exact X|exact D].
      + apply fits_cons; [apply HR; exact DX|]. eapply IH; eauto.
      + inversion DX; subst. eapply IH; [exact X|]. apply deep_cons; assumption.
      + destruct (rotate _ _ _ _ _ _ DX DS) as [Z|Z]; [exact (IH _ _ _ X Z)|exact (IH _ _ _ Y Z)].
    - apply fits_seq_app. eapply IH; [exact UP|exact D].
    - destruct UP as [UP|(c & d & -> & X & Y)]; [|destruct (rotate _ _ _ _ _ _ DX DS) as [Z|Z]; [exact (IH _ _ _ X Z)|exact (IH _ _ _ Y Z)]].
      apply some_in in UP. destruct UP as (f & J & X). apply (fits_head f (Alt fs)); [intros; eapply fits_alt; eauto|]. eapply IH; [exact X|exact D].
    - apply or_elim in UP. destruct UP as [X|X].
      + apply (fits_head f (Opt f)); [intros; apply fits_some; assumption|]. eapply IH; [exact X|exact D].
      + apply fits_skip; [reflexivity|]. eapply IH; [exact X|exact D].
    - assert (X : (exists e, x = Star e /\ sub n [e] [f] = true /\ sub n xs (Star f :: ys) = true) \/ sub n (x :: xs) (f :: Star f :: ys) = true \/ sub n (x :: xs) ys = true).
      { destruct x; try contradiction N; apply or_elim in UP; try tauto. destruct UP as [UP|UP]; [|auto]. apply and_elim in UP. eauto. }
      destruct X as [(e & -> & X & Y)|[X|X]].
      + assert (Z : fits G' (Seq (Star f :: ys)) b) by (eapply IH; eauto). inversion Z as [| | |? ? b1 b2 F1 F2| | | | | | |]; subst. rewrite app_assoc.
        apply fits_cons; [|exact F2]. apply star_app; [|exact F1]. eapply star_all; [|exact DX]. intros. eapply ONE; eauto.
      + apply star_seq. eapply IH; [exact X|exact D].
      + apply fits_skip; [reflexivity|]. eapply IH; [exact X|exact D].
    - assert (X : (exists e, x = Star e /\ sub n [e] [f] = true /\ sub n xs (Plus f :: ys) = true) \/
                  (exists e, x = Plus e /\ sub n [e] [f] = true /\ sub n xs (Star f :: ys) = true) \/ sub n (x :: xs) (f :: Star f :: ys) = true).
      { destruct x; try contradiction N; auto; apply and_elim in UP; destruct UP; eauto 6. }
      destruct X as [(e & -> & X & Y)|[(e & -> & X & Y)|X]].
      + assert (Z : fits G' (Seq (Plus f :: ys)) b) by (eapply IH; eauto). inversion Z as [| | |? ? b1 b2 F1 F2| | | | | | |]; subst. rewrite app_assoc.
        apply fits_cons; [|exact F2]. apply star_plus; [|exact F1]. eapply star_all; [|exact DX]. intros. eapply ONE; eauto.
      + assert (Z : fits G' (Seq (Star f :: ys)) b) by (eapply IH; eauto). inversion Z as [| | |? ? b1 b2 F1 F2| | | | | | |]; subst. rewrite app_assoc.
        apply fits_cons; [|exact F2]. inversion DX; subst. rewrite <- app_assoc. apply fits_plus; [eapply ONE; eauto|].
        apply star_app; [|exact F1]. eapply star_all; [|eassumption]. intros. eapply ONE; eauto.
      + apply plus_seq. eapply IH; [exact X|exact D].
    - destruct x; try contradiction UP; try contradiction N. apply and_elim in UP. destruct UP as [K UP]. apply and_elim in UP. destruct UP as [X Y].
      apply kind_eqb_eq in K. subst. apply fits_cons; [|eapply IH; eauto]. inversion DX; subst. apply fits_but; [|assumption]. eapply ONE; eauto. }
  destruct x as [k|r|es|es|e|e|e|k e]; try (apply CUT; exact I).
  - eapply IH; [exact S|]. apply deep_app; [exact DX|exact DS].
  - inversion DX; subst. eapply IH; [|apply deep_cons; [eassumption|exact DS]]. apply (every_in _ _ S). assumption.
  - apply and_elim in S. destruct S as [X Y]. inversion DX; subst.
    + eapply IH; [exact Y|exact DS].
    + eapply IH; [exact X|]. apply deep_cons; assumption.
Qed.

Theorem include : forall n, (forall r, sub n [G r] [G' r] = true) -> forall r ks, fits G (R r) ks -> fits G' (R r) ks.
Proof.
  intros n C r ks F. apply fits_deep in F. destruct F as (h & D). revert r ks D. induction h as [|h IH]; intros r ks D; inversion D; subst.
  apply fits_rule. apply fits_one. apply (sub_sound h IH n [G r] [G' r]); [apply C|].
  rewrite <- (app_nil_r ks). apply deep_cons; [assumption|apply deep_nil].
Qed.
End Include.
