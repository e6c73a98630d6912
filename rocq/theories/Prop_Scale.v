(** C85: the units of the response, and a constant in the prior.

    Read over the extended reals [XR] (exact arithmetic).  The sum of squares, the error variance sigma2 and the prior variance
    S20 of the error are multiplied by one positive number (other units), and a constant is added to what the prior function
    returns.  The user gives an error variance: the default one is 1 in any units ([C85_default_variance_has_no_units]). *)

From Coq Require Import ZArith QArith Bool Lia List String Reals Lra.
From Verif Require Import Base Num Samplers Adapt Settings Simulator RunSpec ScaleNum ScaleSpec ScaleFacts ScaleRun RVec StatsFacts BalanceFacts DemoRealRun.
Import ListNotations.
Close Scope Q_scope.
Open Scope list_scope.
Open Scope R_scope.

Theorem C85_units : forall (E : env XR) k b, 0 < k -> (forall v, e_sos E v <> []) ->
  forall ps d ms o pos l actions, variance_given ms -> variances_given actions ->
  outcomes (rescaled k) (acts E actions (new_mcmc ps d ms o pos l))
    (acts (rescaled_env k b E) (map (rescaled_action k) actions) (new_mcmc ps d (rescaled_model k ms) o pos l)).
Proof.
  intros E k b Hk Hs ps d ms o pos l a Hm Ha.
  apply out_weaken with (R := orel2 k); [intros ? ? [H _]; exact H|]. apply acts_same; auto. now apply new_same.
Qed.
Print Assumptions C85_units.

(** Without an error variance given by the user the statement is false.  The default is 1 whatever the units,
    and then a candidate can be accepted in one unit and rejected in another. *)
Definition unit_env : env XR :=
  mkenv (fun _ => [Fin 2]) (fun _ _ _ => Fin 0) (mkstream (fun _ => Fin 1) (fun _ => Fin (1 / 4))) (fun _ => None) (fun _ => None) 0.
Definition unit_view : pview XR := mkpview 1 [0%nat] [NInf] [PInf] [Fin 0] [PInf].

Lemma quarter_accepts : ln (1 / 4) < -1.
Proof.
  replace (-1) with (ln (exp (- (1)))) by (rewrite ln_exp; lra). apply ln_increasing; [lra|]. rewrite exp_Ropp. pose proof exp_le_3. pose proof (exp_pos 1).
  replace (1 / 4) with (/ 4) by lra. apply Rinv_lt_contravar; [nra|lra].
Qed.
Lemma quarter_rejects : -2 <= ln (1 / 4).
Proof.
  replace (-2) with (ln (exp (- (2)))) by (rewrite ln_exp; lra). left. apply ln_increasing; [apply exp_pos|]. rewrite exp_Ropp.
  replace (1 / 4) with (/ 4) by lra. apply Rinv_lt_contravar; [pose proof (exp_pos 2); lra|].
  replace 2 with (1 + 1) by lra. rewrite exp_plus. assert (1 + 1 < exp 1) by (apply exp_ineq1; lra). nra.
Qed.
Lemma unit_loglik a : loglik [Fin a] [@n1 XR _] = Ok (Fin (-1 / 2 * a)).
Proof.
  unfold loglik. assert (X : bcast2 ndiv [Fin a] [@n1 XR _] = Ok [Fin a]).
  { cbv [bcast2 List.length Nat.eqb map2]. change (@n1 XR _) with (@Fin R (Q2R 1)). rewrite q1. do 2 f_equal.
    cbn [ndiv Num_X xdiv adiv aeq Arith_R]. rewrite a0_0, Reqb_false by lra. f_equal. field. }
  rewrite X. cbn [bind]. f_equal. unfold vsum. cbn [fold_left]. change (@n0 XR _) with (@Fin R (Q2R 0)). rewrite q0.
  cbn [nadd Num_X xadd aadd Arith_R]. unfold mhalf. cbn [nmul nQ Num_X xmul amul aQ Arith_R]. rewrite mhalf_val. f_equal. ring.
Qed.

Definition first_set (a : R) : pset XR := mkpset [Fin 0] [Fin a] (Fin 0) [n1] None.
Lemma unit_step k : 0 < k -> exists new z s, run_metropolis_step (rescaled_env k 0 unit_env) unit_view [[Fin 1]] (first_set 0) (mkio 0 [Fin 0] [])
  = Ok (Rltb (ln (1 / 4)) (- k), new, false, z, s).
Proof.
  intros Hk. unfold run_metropolis_step. set (c := sample_candidate _ _ _ _ _).
  assert (C : c = Ok ([Fin 1], [Fin 1], mkio 1 [Fin 0] [])).
  { unfold c, sample_candidate. cbv [is_square unit_view v_npar first_set p_theta List.length Nat.eqb andb forallb randn rescaled_env unit_env e_str s_normal io_pos io_value io_calls map seq Nat.add].
    do 2 f_equal. f_equal. cbv [vadd map2 vecmat transpose ncols range seq map col vdot vsum fold_left nth]. cbn -[Rplus Rmult Q2R]. rewrite ?q0. repeat f_equal; lra. }
  rewrite C. cbn [bind]. assert (O : is_sample_outside_bounds [Fin 1] (v_lower unit_view) (v_upper unit_view) = false) by reflexivity. rewrite O.
  unfold evaluate_sos_function, evaluate_prior. cbn [rescaled_env unit_env e_sos e_prior map sc sh p_sigma2 p_ss p_prior first_set].
  rewrite !unit_loglik. cbn [bind]. unfold log_posterior_ratio_acceptance_test, rand. cbn [rescaled_env unit_env e_str s_unif].
  do 3 eexists. repeat f_equal.
  unfold calculate_log_posterior_ratio. rewrite XR_mhalf, !XR_nmul, !XR_nadd, XR_nsub. change (@nlog XR _ (Fin (1 / 4))) with (if Rltb a0 (1 / 4) then Fin (ln (1 / 4)) else if Rltb (1 / 4) a0 then NaN else NInf).
  rewrite a0_0, Rltb_true, XR_nlt by lra. f_equal. lra.
Qed.

Theorem C85_default_variance_has_no_units :
  (forall (ms ms' : modset XR) d, ms_sigma2 ms = None -> ms_N0 ms = None -> check_dependent_model_settings ms d = Ok ms' -> ms_sigma2 ms' = Some [n1]) /\
  exists (E : env XR) V P old s new z s1 new' z' s1', p_sigma2 old = [n1] /\ (forall v, e_sos E v <> []) /\
    run_metropolis_step (rescaled_env 1 0 E) V P old s = Ok (true, new, false, z, s1) /\
    run_metropolis_step (rescaled_env 2 0 E) V P old s = Ok (false, new', false, z', s1') /\ map (sc 2) (p_ss old) = map (sc 1) (p_ss old).
Proof.
  split.
  - intros ms ms' d H1 H2 H. unfold check_dependent_model_settings in H. rewrite H1, H2 in H.
    destruct (match ms_N ms with Some _ => _ | None => _ end) in H; [|discriminate]. cbn [bind] in H.
    destruct (existsb _ _) in H; inversion H; reflexivity.
  - destruct (unit_step 1 ltac:(lra)) as (n1' & z1 & s1 & H1). destruct (unit_step 2 ltac:(lra)) as (n2 & z2 & s2 & H2).
    rewrite Rltb_true in H1 by (pose proof quarter_accepts; lra). rewrite Rltb_false in H2 by (pose proof quarter_rejects; lra).
    exists unit_env. do 3 eexists. exists (mkio 0 [Fin 0] []). do 6 eexists. split; [|split; [|split; [exact H1|split; [exact H2|]]]].
    + reflexivity.
    + discriminate.
    + cbn. do 2 f_equal. lra.
Qed.
Print Assumptions C85_default_variance_has_no_units.

(** The run of DemoRealRun.v, in which the variance is given, in units in which the sum of squares is three times as large and
    with 5 added to the prior: the same chain. *)
Example C85_case : 0 < 3 /\ (forall v, e_sos flat_env v <> []) /\ variance_given flat_model /\ variances_given [Run false] /\
  exists m m', acts flat_env [Run false] (flat AM) = Ok m /\
    acts (rescaled_env 3 5 flat_env) [Run false] (new_mcmc flat_params flat_data (rescaled_model 3 flat_model) (define_simulation_options (flat_raw AM) "") 0 []) = Ok m' /\
    m_chain m' = [[Fin 0]; [Fin 1]; [Fin 2]; [Fin (2 + 2 * sqrt (1 / 2))]].
Proof.
  assert (V : variance_given flat_model) by (exists [Fin 1]; split; [reflexivity|discriminate]).
  assert (A : variances_given [Run false : action XR]) by (constructor; [exact I|constructor]).
  split; [lra|]. split; [discriminate|]. split; [exact V|]. split; [exact A|].
  destruct flat_run as (m & H1 & H2 & _).
  pose proof (C85_units flat_env 3 5 ltac:(lra) ltac:(discriminate) flat_params flat_data flat_model (define_simulation_options (flat_raw AM) "") 0 [] [Run false] V A) as X.
  assert (H : acts flat_env [Run false] (flat AM) = Ok m) by (cbn [acts act]; rewrite H1; reflexivity).
  change (new_mcmc flat_params flat_data flat_model (define_simulation_options (flat_raw AM) "") 0 []) with (flat AM) in X. rewrite H in X.
  cbn [map rescaled_action] in X. destruct (acts (rescaled_env 3 5 flat_env) _ _) as [m'|] eqn:H'; [|contradiction]. cbn [outcomes] in X.
  exists m, m'. split; [exact H|]. split; [reflexivity|]. now rewrite (re_chain _ _ _ X), H2.
Qed.
