(** C89: the units of the parameters.

    Read over the extended reals [XR] (exact arithmetic).  Every parameter is measured in a unit of its own: its starting
    value, its limits and its prior are multiplied by a positive constant, a covariance or factors given by the user
    accordingly, and the functions of the user are given the values in the old units.  Two numbers that the user cannot give
    a unit must not be used: what is added to the diagonal of a singular covariance (unless all sampled parameters are
    multiplied by the same constant; [C89_adjustment_has_units]), and the variance 1 of the first proposals for a parameter
    that has no prior and starts from zero ([C89_default_variance_has_units]).  Options that name a restart file are not
    covered: the file holds a point in the old units. *)

From Coq Require Import ZArith QArith Bool Lia List String Reals Lra.
From Coq Require FunctionalExtensionality.
From Verif Require Import Base Num Samplers Adapt Settings Simulator RunSpec ScaleNum ScaleSpec ScaleFacts UnitSpec UnitNum UnitSession UnitExact RVec StatsFacts BalanceFacts DemoRealRun.
Import ListNotations.
Close Scope Q_scope.
Open Scope list_scope.
Open Scope R_scope.

(** Any sequence of runs, continuations and changed settings. *)
Theorem C89_units : forall (E : env XR) k c ps, 0 < k -> Forall (fun r => 0 < r) c -> List.length c = List.length ps -> NoDup (map (@a_name XR) ps) ->
  let cs := sampled_units c ps in unit_free cs E ->
  forall dt ms o pos l actions, convertible k cs o -> covariance_known ps o ->
  all_options (fun o => convertible k cs o /\ covariance_known ps o) actions ->
  outcomes (in_units k c cs) (acts E actions (new_mcmc ps dt ms o pos l))
    (acts (unit_env c cs E) (map (unit_action k c cs) actions) (new_mcmc (unit_params c ps) dt ms (unit_opts k c cs o) pos l)).
Proof.
  intros E k c ps Hk Hc Hl Hn cs HE dt ms o pos l a Ho Hq Ha.
  apply out_weaken with (R := orel2 k c ps); [intros ? ? [H _]; exact H|].
  apply (acts_same k c ps Hk Hc Hl Hn E HE a Ha); [|exact Hq]. now apply (new_same k c ps).
Qed.
Print Assumptions C89_units.

(** In a first run the covariance of the proposals may also come from starting values other than zero. *)
Theorem C89_first_run : forall (E : env XR) k c ps, 0 < k -> Forall (fun r => 0 < r) c -> List.length c = List.length ps -> NoDup (map (@a_name XR) ps) ->
  let cs := sampled_units c ps in unit_free cs E ->
  forall dt ms o pos l, convertible k cs o -> start_known ps o ->
  outcomes (in_units k c cs) (run_simulation E false (new_mcmc ps dt ms o pos l))
    (run_simulation (unit_env c cs E) false (new_mcmc (unit_params c ps) dt ms (unit_opts k c cs o) pos l)).
Proof.
  intros E k c ps Hk Hc Hl Hn cs HE dt ms o pos l Ho Hq.
  eapply out_weaken; [|apply (run_same k c ps Hk Hc Hl Hn E HE false); [now apply (new_same k c ps)|right; split; [reflexivity|exact Hq]]].
  intros ? ? [[H _] _]. exact H.
Qed.
Print Assumptions C89_first_run.

(** The condition on factorisation and inverse holds whenever they are exact. *)
Theorem C89_exact_linear_algebra : forall c (E : env XR) bound, Forall (fun r => 0 < r) c ->
  exact factor_of bound (e_chol E) -> exact inverse_of bound (e_inv E) -> unit_free c E.
Proof. exact exact_unit_free. Qed.
Print Assumptions C89_exact_linear_algebra.

(** The default prior function is the same in all units, so only the sum of squares has to be converted. *)
Lemma ratios_us c : posl c -> forall v w, map2 ndiv (us c v) (us c w) = map2 ndiv v w.
Proof. induction 1 as [|r c Hr _ IH]; intros [|x v] [|y w]; try reflexivity. cbn [us map2]. rewrite sc_div by exact Hr. f_equal. apply IH. Qed.
Lemma sampled_pos c : posl c -> forall ps, posl (sampled_units c ps).
Proof. induction 1 as [|r c Hr _ IH]; intros [|p ps]; cbn [sampled_units]; try apply Forall_nil. destruct (a_sample p); [apply Forall_cons; [exact Hr|]|]; apply IH. Qed.
Theorem C89_default_prior : forall (E : env XR) c ps, Forall (fun r => 0 < r) c -> e_prior E = default_priorfun ->
  unit_env c (sampled_units c ps) E = mkenv (fun v => e_sos E (us (map Rinv c) v)) default_priorfun (e_str E) (e_chol E) (e_inv E) (e_fuel E).
Proof.
  intros E c ps Hc Hp. unfold unit_env. f_equal. rewrite Hp. apply FunctionalExtensionality.functional_extensionality. intros t.
  apply FunctionalExtensionality.functional_extensionality. intros mu. apply FunctionalExtensionality.functional_extensionality. intros sg.
  unfold default_priorfun. rewrite us_vsub, ratios_us; [reflexivity|]. apply pos_inv. now apply sampled_pos.
Qed.
Print Assumptions C89_default_prior.

(** A chain that did not move has covariance zero, and the factor the code then proposes with is not that of the new units. *)
Theorem C89_adjustment_has_units :
  check_for_singular_cov_matrix flat_env [[Fin 0]] [[Fin 1]] 1 (Fin 1) (Fin 1) = [[Fin 1]] /\
  check_for_singular_cov_matrix flat_env (both [2] [[Fin 0]]) (map (us [2]) [[Fin 1]]) 1 (Fin 1) (Fin 1) = [[Fin 1]] /\
  map (us [2]) [[Fin 1]] = [[Fin 2]].
Proof.
  assert (A : forall R, check_for_singular_cov_matrix flat_env [[Fin 0]] R 1 (Fin 1) (Fin 1) = [[Fin 1]]).
  { intros R. unfold check_for_singular_cov_matrix, adjust_cov_matrix, is_semi_pos_def_chol. change (e_chol flat_env) with real_chol.
    assert (N : real_chol [[Fin 0]] = None) by (unfold real_chol; now rewrite Rltb_false by lra).
    replace (real_chol [[Fin 0]]) with (@None (list (list XR))) by (symmetry; exact N).
    assert (X : madd [[Fin 0]] (mscale (Fin 1) (eye 1)) = [[Fin 1 : XR]]).
    { cbn [eye range map seq Nat.eqb mscale vscale madd map2 vadd]. unfold n1. cbn [nadd nmul nQ Num_X xadd xmul aadd amul aQ Arith_R]. rewrite q1. do 3 f_equal. lra. }
    replace (madd [[Fin 0]] (mscale (Fin 1) (eye 1))) with [[Fin 1 : XR]] by (symmetry; exact X).
    assert (Y : real_chol [[Fin 1]] = Some [[Fin 1]]) by (unfold real_chol; rewrite Rltb_true by lra; now rewrite sqrt_1).
    replace (real_chol [[Fin 1]]) with (Some [[Fin 1 : XR]]) by (symmetry; exact Y). cbn [mscale map vscale]. cbn [nmul Num_X xmul amul Arith_R]. change (transpose [[Fin 1 : XR]]) with [[Fin 1 : XR]]. cbn [mscale map vscale nmul Num_X xmul amul Arith_R]. do 3 f_equal. lra. }
  split; [apply A|]. split.
  - assert (B : both [2] [[Fin 0]] = [[Fin 0]]) by (cbn; do 3 f_equal; lra). rewrite B. apply A.
  - cbn. do 3 f_equal. lra.
Qed.
Print Assumptions C89_adjustment_has_units.

(** A parameter without a prior that starts from zero is proposed with variance 1 in all units. *)
Theorem C89_default_variance_has_units : forall (E : env XR),
  exists c c', initialize_covariance E MH 1 [] None None None None [PInf] [Fin 0] [0%nat] [false] RUnset [Fin 0] = Ok c /\
    initialize_covariance E MH 1 [] None None None None (us [2] [PInf]) (us [2] [Fin 0]) [0%nat] [false] RUnset (us [2] [Fin 0]) = Ok c' /\
    c_qcov c = [[Fin 1]] /\ c_qcov c' = [[Fin 1]] /\ both [2] (c_qcov c) = [[Fin 4]].
Proof.
  intros E.
  assert (V : default_variance PInf (Fin 0) = (Fin 1 : XR)).
  { unfold default_variance. set (q := nsqr (nmul (nabs (Fin 0 : XR)) (nQ (5 # 100)))).
    assert (Q : q = Fin 0).
    { unfold q. assert (A : nabs (Fin 0 : XR) = Fin 0) by (cbn [nabs Num_X xabs aabs Arith_R]; rewrite Rabs_R0; reflexivity). rewrite A.
      unfold nsqr. cbn [nmul nQ Num_X xmul amul aQ Arith_R]. f_equal. lra. }
    assert (I : nisinf (nsqr (PInf : XR)) = true) by reflexivity. rewrite I. cbn [orb]. rewrite Q.
    assert (Z : neq (Fin 0 : XR) n0 = true).
    { unfold n0. cbn [neq nQ Num_X xeq aeq aQ Arith_R]. rewrite q0. now apply Reqb_true. }
    rewrite Z. unfold n1. cbn [nQ Num_X aQ Arith_R]. now rewrite q1. }
  assert (S1 : us [2] [Fin 0] = [Fin 0]) by (cbn; do 2 f_equal; lra). rewrite S1. change (us [2] [PInf]) with [PInf : XR].
  unfold initialize_covariance, setup_covariance_matrix. cbn [map2]. rewrite !V.
  do 2 eexists. split; [reflexivity|]. split; [reflexivity|]. cbn [c_qcov]. split; [reflexivity|]. split; [reflexivity|]. cbn. do 3 f_equal. lra.
Qed.
Print Assumptions C89_default_variance_has_units.

(** The run of DemoRealRun.v, with the parameter multiplied by 3. *)
Example C89_case : Forall (fun r => 0 < r) [3] /\ List.length [3] = List.length flat_params /\ NoDup (map (@a_name XR) flat_params) /\
  exact factor_of 2 (e_chol flat_env) /\ exact inverse_of 2 (e_inv flat_env) /\ unit_free [3] flat_env /\
  convertible 3 [3] (define_simulation_options (flat_raw AM) "") /\ covariance_known flat_params (define_simulation_options (flat_raw AM) "") /\
  exists m m', acts flat_env [Run false] (flat AM) = Ok m /\
    acts (unit_env [3] [3] flat_env) [Run false] (new_mcmc (unit_params [3] flat_params) flat_data flat_model (unit_opts 3 [3] [3] (define_simulation_options (flat_raw AM) "")) 0 []) = Ok m' /\
    m_chain m' = [[Fin 0]; [Fin 3]; [Fin 6]; [Fin (3 * (2 + 2 * sqrt (1 / 2)))]].
Proof.
  assert (P : Forall (fun r => 0 < r) [3]) by (constructor; [lra|constructor]).
  assert (N : NoDup (map (@a_name XR) flat_params)) by (constructor; [intros []|constructor]).
  assert (U : unit_free [3] flat_env) by (apply (C89_exact_linear_algebra [3] flat_env 2 P real_chol_exact real_inv_exact)).
  assert (V : convertible 3 [3] (define_simulation_options (flat_raw AM) "")) by (split; [reflexivity|right; now constructor]).
  assert (W : covariance_known flat_params (define_simulation_options (flat_raw AM) "")) by (left; discriminate).
  assert (A : all_options (fun o => convertible 3 [3] o /\ covariance_known flat_params o) [Run false : action XR]) by (constructor; [exact I|constructor]).
  split; [exact P|]. split; [reflexivity|]. split; [exact N|]. split; [exact real_chol_exact|]. split; [exact real_inv_exact|]. split; [exact U|]. split; [exact V|]. split; [exact W|].
  destruct flat_run as (m & H1 & H2 & _).
  pose proof (C89_units flat_env 3 [3] flat_params ltac:(lra) P eq_refl N U flat_data flat_model (define_simulation_options (flat_raw AM) "") 0%nat [] [Run false] V W A) as X.
  assert (H : acts flat_env [Run false] (flat AM) = Ok m) by (cbn [acts act]; rewrite H1; reflexivity).
  change (new_mcmc flat_params flat_data flat_model (define_simulation_options (flat_raw AM) "") 0 []) with (flat AM) in X. rewrite H in X.
  change (sampled_units [3] flat_params) with [3] in X. change (map (unit_action 3 [3] [3]) [Run false]) with [Run false : action XR] in X.
  destruct (acts (unit_env [3] [3] flat_env) _ _) as [m'|] eqn:H'; [|contradiction]. cbn [outcomes] in X.
  exists m, m'. split; [exact H|]. split; [reflexivity|]. rewrite (un_chain _ _ _ _ _ X), H2. cbn [finm fin map us sc]. repeat match goal with |- _ :: _ = _ :: _ => f_equal end; f_equal; lra.
Qed.
