(** Property C92: the results of a run hold only numbers; error variances are positive. *)

From Coq Require Import ZArith QArith Bool Lia List String Reals Lra.
From Verif Require Import Base Num Samplers Adapt Settings Simulator RunSpec CompleteSpec BalanceSpec NumberSpec.
From Verif Require Import SamplerFacts RVec RMat BalanceFacts VarFacts NumberFacts NumberRun NumberSession DemoRealRun CompleteFacts CompleteRun CompleteResume Prop_Complete.
Import ListNotations.
Close Scope Q_scope.
Open Scope list_scope.
Open Scope R_scope.

(** ** C92 *)

(** If the user's functions are [decent] and the settings [usable], then after a fresh run and any number of
    continuations the chain holds only numbers (no NaN, no infinity), the chain of sums of squares only non-negative
    numbers, the chain of error variances and the final error variances only positive numbers, and so do the entries
    of the results dictionary; factor, proposal covariance, chain covariance and chain mean are numbers. *)
Theorem C92_only_numbers :
  forall (E : env XR) ps d ms o os pos l m', decent E -> usable_start E ps ->
  usable_model E d ms (o_updatesigma o = true \/ ms_N0 ms <> None) -> usable_options o -> o_restart o = None ->
  (os <> [] -> NoDup (map (@a_name XR) (sampled_params ps))) -> Forall usable_options os ->
  acts E (Run false :: continued os) (new_mcmc ps d ms o pos l) = Ok m' -> only_numbers m'.
Proof. intros. eapply lk_numbers, numbers_session; eassumption. Qed.
Print Assumptions C92_only_numbers.

(** The prior given by the package is not -inf, whatever its arguments. *)
Lemma square_not_ninf (x : XR) : nmul x x <> NInf.
Proof. destruct x; discriminate. Qed.
Theorem C92_default_prior : forall theta mu sigma : list XR, default_priorfun theta mu sigma <> NInf.
Proof.
  intros theta mu sigma. unfold default_priorfun. cbv zeta. set (r := map2 ndiv (vsub mu theta) sigma). clearbody r.
  unfold vdot, vsum. enough (G : forall l (a : XR), a <> NInf -> (forall x, In x l -> x <> NInf) -> fold_left nadd l a <> NInf).
  { apply G; [discriminate|]. intros x Hx. unfold vmul in Hx. revert Hx. induction r as [|y r IH]; cbn [map2 In]; [tauto|].
    intros [<-|H]; [apply square_not_ninf|auto]. }
  induction l as [|x l IH]; intros a Ha Hl; cbn [fold_left]; auto. apply IH; [|intros; apply Hl; now right].
  specialize (Hl x (or_introl eq_refl)). destruct a, x; discriminate || congruence.
Qed.
Print Assumptions C92_default_prior.

(** The condition that prior weights or sums of squares are positive is needed: with the default weights of unknown
    variances ([N0 = 0]) a perfect fit makes the drawn variance 0. *)
Lemma infinite_inverse : @ninv XR _ (Fin 0) = PInf.
Proof.
  unfold ninv. rewrite XR_n1. cbn [ndiv Num_X xdiv aeq Arith_R aQ]. unfold Reqb, a0. cbn [aQ Arith_R]. rewrite q0. destruct (Req_EM_T 0 0); [|congruence].
  unfold xsgninf, a0. cbn [alt aQ Arith_R]. rewrite q0. unfold Rltb. destruct (Rlt_dec 0 1); [reflexivity|lra].
Qed.
Lemma inverse_of_infinity : @ninv XR _ PInf = Fin 0.
Proof. unfold ninv. rewrite XR_n1. cbn [ndiv Num_X xdiv]. unfold a0. cbn [aQ Arith_R]. now rewrite q0. Qed.
Lemma infinite_product r : 0 < r -> @nmul XR _ PInf (Fin r) = PInf /\ @nmul XR _ (Fin r) PInf = PInf.
Proof.
  intros H. cbn [nmul Num_X xmul]. unfold xsgninf, a0. cbn [alt aQ Arith_R]. rewrite q0. unfold Rltb. destruct (Rlt_dec 0 r); [auto|contradiction].
Qed.
Theorem C92_perfect_fit :
  forall (E : env XR) s20 n s v s1, (forall k, number (s_normal (e_str E) k)) -> (forall k, positive (s_unif (e_str E) k)) -> 2 <= n ->
  draw_sigma2 E (Fin 0) (Fin s20) (Fin n) (Fin 0) s = Ok (v, s1) -> v = Fin 0.
Proof.
  intros E s20 n s v s1 HN HU Hn H.
  set (nrm := fun k => value_of (s_normal (e_str E) k)). set (unif := fun k => value_of (s_unif (e_str E) k)).
  assert (Hnrm : forall k, s_normal (e_str E) k = Fin (nrm k)). { intros k. unfold nrm. destruct (HN k) as (x & ->). reflexivity. }
  assert (Hunif : forall k, s_unif (e_str E) k = Fin (unif k)). { intros k. unfold unif. destruct (HU k) as (x & -> & _). reflexivity. }
  assert (Hu0 : forall k, 0 <= unif k). { intros k. unfold unif. destruct (HU k) as (x & -> & Hx). cbn [value_of]. lra. }
  unfold draw_sigma2 in H. rewrite XR_mul, !XR_add, XR_nQ, XR_mul in H.
  replace (0 * s20 + 0) with 0 in H by ring. rewrite infinite_inverse, XR_nQ in H.
  rewrite (proj2 (infinite_product (Q2R 2) ltac:(unfold Q2R; cbn; lra))) in H.
  replace (Q2R (1 # 2) * (0 + n)) with (n / 2) in H by (unfold Q2R; cbn; lra).
  unfold gammar in H. rewrite XR_n0, XR_le in H. unfold Rleb in H. destruct (Rle_dec (n / 2) 0); [lra|].
  unfold gammar_mt1 in H. rewrite XR_n1, XR_lt in H. unfold Rltb in H. destruct (Rlt_dec (n / 2) 1); [lra|].
  unfold gammar_ge1 in H. rewrite (XR_nQ (1 # 3)), XR_sub, Q2R_third, c_fin in H by lra.
  destruct (gamma_mt_loop _ _ _ _ _) as [[w t]|] eqn:G; [|discriminate]. cbn [bind] in H.
  apply (mt_ok E nrm unif Hnrm Hunif Hu0) in G. destruct G as (x & -> & Hx & _). apply accepted_pos in Hx as [Hx _].
  rewrite (proj1 (infinite_product (n / 2 - 1 / 3) ltac:(lra))), (proj1 (infinite_product x Hx)) in H.
  rewrite inverse_of_infinity in H. congruence.
Qed.
Print Assumptions C92_perfect_fit.

(** Two sampled parameters and a fixed one, delayed rejection with adaptation at every second step (the problem of
    C88), the sum of squares [(a - 1)^2 + (b - 2)^2] with one component, rejected where it is NaN. *)
Definition bowl (v : list XR) : list XR :=
  match v with [Fin a; _; Fin b] => [Fin ((a - 1) * (a - 1) + (b - 2) * (b - 2))] | _ => [NaN] end.
Definition steps : stream XR := mkstream (fun k => Fin (INR k - 3)) (fun k => Fin (/ INR (S (S k)))).
Example C92_case :
  decent (pair_env bowl steps) /\ usable_start (pair_env bowl steps) pair_params /\
  usable_model (pair_env bowl steps) pair_data pair_model True /\
  (forall nsimu us bin, usable_options (pair_opts nsimu us bin)) /\
  (forall nsimu bin pos, (2 <= nsimu)%nat -> exists m',
     run_simulation (pair_env bowl steps) false (new_mcmc pair_params pair_data pair_model (pair_opts nsimu false bin) pos []) = Ok m' /\ only_numbers m').
Proof.
  assert (D : decent (pair_env bowl steps)).
  { constructor.
    - intros k. eexists. reflexivity.
    - intros k. eexists. split; [reflexivity|]. apply Rinv_0_lt_compat, lt_0_INR. lia.
    - intros v. cbn [pair_env e_sos]. assert (B : bad (NaN : XR)) by (left; reflexivity). unfold bowl.
      repeat match goal with |- context [match ?x with _ => _ end] => destruct x end;
        (split; [discriminate|]); intros y [<-|[]]; try (left; exact B).
      right. eexists. split; [reflexivity|].
      match goal with |- 0 <= ?x * ?x + ?y * ?y => pose proof (Rle_0_sqr x); pose proof (Rle_0_sqr y); unfold Rsqr in *; lra end.
    - intros. apply C92_default_prior.
    - intros A L HA HL. cbn [pair_env e_chol] in HL. unfold real_chol in HL.
      repeat match type of HL with context [match ?x with _ => _ end] => destruct x; try discriminate HL end;
        injection HL as <-; repeat constructor; eexists; reflexivity. }
  assert (S0 : usable_start (pair_env bowl steps) pair_params).
  { constructor.
    - discriminate.
    - repeat constructor; eexists; reflexivity.
    - cbn [pair_params map a_theta0 pair_env e_sos bowl]. repeat constructor. eexists; reflexivity.
    - eexists. reflexivity. }
  assert (M : usable_model (pair_env bowl steps) pair_data pair_model True).
  { constructor.
    - intros s Hs. injection Hs as <-. repeat constructor. exists 1. split; [reflexivity|lra].
    - right. left. reflexivity.
    - intros s Hs. discriminate Hs.
    - intros _. split; [|left; exact I]. repeat constructor. }
  assert (O : forall nsimu us bin, usable_options (pair_opts nsimu us bin)).
  { intros nsimu us bin. constructor.
    - intros q Hq. injection Hq as <-. split; [|split].
      + repeat constructor; eexists; reflexivity.
      + intros i row x H1 H2. destruct i as [|[|[|i]]]; [| | |destruct i; discriminate H1]; injection H1 as <-; injection H2 as <-; eexists; (split; [reflexivity|lra]).
      + intros H. discriminate H.
    - intros a H. discriminate H.
    - intros a H. discriminate H.
    - repeat constructor; eexists; (split; [reflexivity|lra]).
    - eexists. split; [reflexivity|lra].
    - eexists. reflexivity.
    - reflexivity.
    - intros r H. discriminate H. }
  split; [exact D|]. split; [exact S0|]. split; [exact M|]. split; [exact O|].
  intros nsimu bin pos Hn.
  assert (HL : forall v, List.length (bowl v) = 1%nat).
  { intros v. unfold bowl. repeat match goal with |- context [match ?x with _ => _ end] => destruct x end; reflexivity. }
  destruct (C88_case bowl steps HL) as (W & _ & _).
  destruct (C88_without_variances XR _ (pair_env bowl steps) (new_mcmc pair_params pair_data pair_model (pair_opts nsimu false bin) pos []) 1%nat (W nsimu false bin Hn) eq_refl eq_refl) as [m' Hm].
  exists m'. split; [exact Hm|].
  eapply (C92_only_numbers (pair_env bowl steps) pair_params pair_data pair_model (pair_opts nsimu false bin) [] pos []); auto.
  - destruct M as [M1 M2 M3 M4]. constructor; auto.
  - congruence.
  - cbn [continued flat_map acts act]. rewrite Hm. reflexivity.
Qed.
