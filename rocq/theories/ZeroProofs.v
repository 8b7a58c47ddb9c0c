(** Numbers starting with 0: C13. *)
From Coq Require Import ZArith Arith Lia.
From Verif Require Import Chars SourceBuffer Token Tokenizer LexBasics ScanLemmas LineLemmas
  TokenLemmas NumberLemmas WellFormed CallLemmas CallTheorem LexSpec HistoryProofs NumberProofs.

Lemma num_push_any : forall b p s, num_push (b, mk_cursor p s) = @pair str cursor (b ++ [hd NUL s]) (mk_cursor (p + 1) (tl s)).
Proof. intros b p [|c s]; unfold num_push, cu_char, cu_advance; cbn; f_equal; f_equal; lia. Qed.

Lemma zero_number_spec : forall p s ip f ex im r, tl s = ip ++ f ++ ex ++ im ++ r -> zero_parts ip f ex im r ->
  let w := hd NUL s :: ip ++ f ++ ex ++ im in
  let good := frac_ok f /\ exp_as_coded ex /\ (existsb is_nonzero_digit ip = true -> f ++ ex ++ im <> []) in
  (good /\ zero_number ([#"0"], mk_cursor p s) = NumOk (reads [#"0"] p w r)) \/
  (~ good /\ exists m x, zero_number ([#"0"], mk_cursor p s) = NumErr m x).
Proof.
  intros p s ip f ex im r T (H0 & H1 & H2 & H3 & H4) w good.
  remember (zero_number ([#"0"], mk_cursor p s)) as z eqn:EZ. revert EZ. unfold zero_number. cbv zeta.
  rewrite num_push_any. cbn [fst snd cu_rest]. rewrite T.
  assert (RW : run_while is_digit (ip ++ f ++ ex ++ im ++ r) = (ip, f ++ ex ++ im ++ r)).
  { apply run_while_app; [|auto]. apply forallb_forall. rewrite Forall_forall in H0. auto. }
  rewrite RW. unfold cu_after. cbn [cu_pos]. unfold num_char, cu_char. cbn [snd cu_rest].
  set (b1 := ([#"0"] ++ [hd NUL s]) ++ ip). set (p1 := (p + 1 + length ip)%nat).
  destruct (num_fraction_spec b1 p1 f (ex ++ im ++ r) H2) as [(A2 & E2)|(A2 & m & x & E2)];
    [|crw E2; cbn [num_bind]; intros ->; right; split; [unfold good; tauto|]; eauto].
  crw E2. cbn [num_bind]. unfold reads at 1. 
  destruct (num_exponent_spec (b1 ++ f) (p1 + length f) ex (im ++ r) H3) as [(A3 & E3)|(A3 & m & x & E3)];
    [|crw E3; cbn [num_bind]; intros ->; right; split; [unfold good; tauto|]; eauto].
  crw E3. cbn [num_bind]. unfold reads. cbn [snd cu_rest]. rewrite num_imaginary_spec by auto.
  set (nz3 := if (hd NUL (im ++ r) =? 106) || (hd NUL (im ++ r) =? 74) then false
              else if (hd NUL (ex ++ im ++ r) =? 101) || (hd NUL (ex ++ im ++ r) =? 69) then false
              else if hd NUL (f ++ ex ++ im ++ r) =? 46 then false else existsb is_nonzero_digit ip).
  assert (NZ : nz3 = true <-> existsb is_nonzero_digit ip = true /\ f ++ ex ++ im = []).
  { unfold nz3.
    destruct H4 as [(-> & J1 & J2)|[->| ->]]; cbn [app hd].
    2,3: split; [discriminate|]; intros (_ & X); apply app_eq_nil in X; destruct X as (_ & X); apply app_eq_nil in X; destruct X; discriminate.
    rewrite (proj2 (N.eqb_neq _ _) J1), (proj2 (N.eqb_neq _ _) J2). cbn [orb].
    destruct H3 as [(-> & J3 & J4)|(c & sg & wx & -> & Hc & _)]; cbn [app hd] in *.
    2:{ split; [destruct Hc; subst c; discriminate|]. intros (_ & X); apply app_eq_nil in X; destruct X as (_ & X); discriminate. }
    rewrite (proj2 (N.eqb_neq _ _) J3), (proj2 (N.eqb_neq _ _) J4). cbn [orb].
    destruct H2 as [(-> & J5)|(wf & -> & _)]; cbn [app hd] in *.
    2:{ split; [discriminate|]. intros (_ & X). discriminate. }
    rewrite (proj2 (N.eqb_neq _ _) J5). tauto. }
  fold nz3. intros ->. destruct nz3.
  - right. destruct NZ as (NZ & _). destruct (NZ eq_refl) as (X & Y). split; [unfold good; tauto|]. eauto.
  - left. split.
    + unfold good. repeat split; auto. intros X Y. destruct NZ as (_ & NZ). specialize (NZ (conj X Y)). discriminate.
    + f_equal. unfold reads, w, b1, p1. cbn [length]. rewrite !app_length, <- !app_assoc.
      apply (f_equal2 pair); [reflexivity|]. f_equal. lia.
Qed.

Lemma zero_call : forall U l s ip f ex im r, mid_line l -> lx_rest l = #"0" :: s -> ~ radix_letter (hd NUL s) ->
  tl s = ip ++ f ++ ex ++ im ++ r -> zero_parts ip f ex im r ->
  let w := #"0" :: hd NUL s :: ip ++ f ++ ex ++ im in
  let good := frac_ok f /\ exp_as_coded ex /\ (existsb is_nonzero_digit ip = true -> f ++ ex ++ im <> []) in
  (good -> get_symbol U l = LOk (Tok T_AtomNumber (Range (lx_pos l) (lx_pos l + length w)) None (Text w)) (after l (length w))) /\
  (~ good -> exists m l', get_symbol U l = LErr (EAt m (lx_pos l)) l').
Proof.
  intros U l s ip f ex im r (B & P) R NR T ZP w good.
  assert (GS : get_symbol U l = lex_number (set_start l (lx_pos l)) [] (number_from_zero (lx_cur l))).
  { rewrite (get_symbol_mid U l #"0" s); auto.
    2:{ repeat split; discriminate. }
    unfold lex_token, cu_peek, peek3.
    change (cu_rest (lx_cur (set_start (set_start l (lx_pos l)) (lx_pos (set_start l (lx_pos l)))))) with (lx_rest l).
    rewrite R. cbn [app hd tl].
    match goal with |- context [operator_at (?a, ?b, ?d)] => destruct (digit_token a b d eq_refl) as (T1 & T2 & T3 & T4 & T5 & T6 & T7) end.
    rewrite T1, T2, T3, T5. reflexivity. }
  rewrite GS. assert (LC : lx_cur l = mk_cursor (lx_pos l) (lx_rest l)) by (destruct l as [[? ?] ? ? ? ? ?]; reflexivity).
  rewrite LC, R.
  assert (EZ : number_from_zero (mk_cursor (lx_pos l) (48 :: s)) = zero_number ([48], mk_cursor (lx_pos l + 1) s)).
  { unfold number_from_zero. cbv zeta. rewrite num_push_cons. cbn [app]. unfold num_char, cu_char. cbn [snd cu_rest].
    assert (X : forall c, In c [#"x"; #"X"; #"o"; #"O"; #"b"; #"B"] -> (hd NUL s =? c) = false).
    { intros c I. apply N.eqb_neq. intros <-. apply NR. exact I. }
    rewrite !X by (cbn; tauto). reflexivity. }
  crw EZ.
  destruct (zero_number_spec (lx_pos l + 1) s ip f ex im r T ZP) as [(A & E)|(A & m & x & E)]; rewrite E.
  - split; [|intros N; contradiction]. intros _. unfold lex_number, reads. 
    assert (W : @skipn char (length w) (48 :: s) = r).
    { unfold w. cbn [length skipn]. destruct s as [|c s]; cbn [tl] in T.
      - symmetry in T. apply app_eq_nil in T. destruct T as (-> & T). apply app_eq_nil in T. destruct T as (-> & T).
        apply app_eq_nil in T. destruct T as (-> & T). apply app_eq_nil in T. destruct T as (-> & ->). reflexivity.
      - cbn [skipn]. rewrite T. rewrite !app_assoc, <- !app_assoc.
        replace (ip ++ f ++ ex ++ im ++ r) with ((ip ++ f ++ ex ++ im) ++ r) by now rewrite <- !app_assoc.
        apply skipn_app_len. }
    assert (AF : after l (length w) = set_cur (set_start l (lx_pos l)) (mk_cursor (lx_pos l + length w) r)).
    { unfold after. rewrite R, W. destruct l as [[? ?] ? ? ? ? ?]; reflexivity. }
    rewrite AF. cbn [length app].
    match goal with |- context [(lx_pos l + 1 + ?n)%nat] =>
      replace (lx_pos l + 1 + n)%nat with (lx_pos l + length w)%nat by (rewrite <- Nat.add_assoc; reflexivity) end.
    reflexivity.
  - split; [intros N; contradiction|]. intros _. destruct x as [tx cu]. cbn. eauto.
Qed.

(** Every text after the zero has such parts. *)
Lemma zero_split : forall s : str, exists ip f ex im r, s = ip ++ f ++ ex ++ im ++ r /\ zero_parts ip f ex im r.
Proof.
  intros s. destruct (run_while is_digit s) as [ip s1] eqn:E.
  pose proof (run_while_hd is_digit s ip s1 eq_refl E) as H. apply run_while_spec in E. destruct E as (-> & F & _).
  destruct (frac_split s1) as (f & s2 & -> & Hf).
  destruct (exp_split s2) as (ex & s3 & -> & He).
  destruct (imag_split s3) as (im & r & -> & Hi).
  exists ip, f, ex, im, r. split; auto. split; [|auto]. apply Forall_forall. rewrite forallb_forall in F. exact F.
Qed.
