(** C87: the origin of the parameters.

    Read over the extended reals [XR] (exact arithmetic).  Every parameter is measured from an origin of its own: its starting
    value, its limits and its prior mean are moved by a constant, and the functions of the user are moved along with them.
    The covariance of the proposals must not come from the starting values: the user gives it, or every parameter has a
    prior.  The default for a parameter without a prior is five percent of the starting value, which does depend on the
    origin ([C87_default_covariance_has_an_origin]).  Options that name a restart file are not covered: the file holds a point
    measured from the old origin. *)

From Coq Require Import ZArith QArith Bool Lia List String Reals Lra.
From Coq Require FunctionalExtensionality.
From Verif Require Import Base Num Samplers Adapt Settings Simulator RunSpec ScaleNum ScaleSpec ScaleFacts OriginSpec OriginFacts OriginRun OriginSession RVec StatsFacts BalanceFacts DemoRealRun.
Import ListNotations.
Close Scope Q_scope.
Open Scope list_scope.
Open Scope R_scope.

Theorem C87_origin : forall (E : env XR) d ps, List.length d = List.length ps -> NoDup (map (@a_name XR) ps) ->
  forall dt ms o pos l actions, covariance_given ps o -> covariances_given ps actions ->
  outcomes (moved d (sampled_shifts d ps)) (acts E actions (new_mcmc ps dt ms o pos l))
    (acts (moved_env d (sampled_shifts d ps) E) actions (new_mcmc (moved_params d ps) dt ms o pos l)).
Proof.
  intros E d ps Hd Hn dt ms o pos l a Ho Ha.
  apply out_weaken with (R := orel2 d ps); [intros ? ? [H _]; exact H|]. apply (acts_same d ps Hd Hn E a Ha). now apply new_same.
Qed.
Print Assumptions C87_origin.

(** The default prior function is the same from any origin, so only the sum of squares has to be moved. *)
Theorem C87_default_prior : forall (E : env XR) d ps, List.length d = List.length ps -> NoDup (map (@a_name XR) ps) -> e_prior E = default_priorfun ->
  forall dt ms o pos l actions, covariance_given ps o -> covariances_given ps actions ->
  outcomes (moved d (sampled_shifts d ps)) (acts E actions (new_mcmc ps dt ms o pos l))
    (acts (mkenv (fun v => e_sos E (mv (map Ropp d) v)) default_priorfun (e_str E) (e_chol E) (e_inv E) (e_fuel E)) actions
       (new_mcmc (moved_params d ps) dt ms o pos l)).
Proof.
  intros E d ps Hd Hn Hp dt ms o pos l a Ho Ha.
  assert (X : mkenv (fun v => e_sos E (mv (map Ropp d) v)) default_priorfun (e_str E) (e_chol E) (e_inv E) (e_fuel E) = moved_env d (sampled_shifts d ps) E).
  { unfold moved_env. f_equal. rewrite Hp. apply FunctionalExtensionality.functional_extensionality. intros t. apply FunctionalExtensionality.functional_extensionality. intros mu. apply FunctionalExtensionality.functional_extensionality. intros sg.
    unfold default_priorfun. now rewrite vsub_mv. }
  rewrite X. now apply C87_origin.
Qed.
Print Assumptions C87_default_prior.

(** Without a given covariance and without a prior the statement is false: the first proposals have another width. *)
Theorem C87_default_covariance_has_an_origin : forall (E : env XR),
  exists c c', initialize_covariance E MH 1 [] None None None None [PInf] [Fin 1] [0%nat] [false] RUnset [Fin 1] = Ok c /\
    initialize_covariance E MH 1 [] None None None None [PInf] (mv [1] [Fin 1]) [0%nat] [false] RUnset (mv [1] [Fin 1]) = Ok c' /\
    c_qcov c = [[Fin (1 / 400)]] /\ c_qcov c' = [[Fin (1 / 100)]].
Proof.
  intros E.
  assert (V : forall x, 0 < x -> default_variance PInf (Fin x) = (Fin (x / 20 * (x / 20)) : XR)).
  { intros x Hx. unfold default_variance. set (q := nsqr (nmul (nabs (Fin x : XR)) (nQ (5 # 100)))).
    assert (Q : q = Fin (x / 20 * (x / 20))).
    { unfold q. assert (A : nabs (Fin x : XR) = Fin x) by (cbn [nabs Num_X xabs aabs Arith_R]; rewrite Rabs_right by lra; reflexivity). rewrite A.
      unfold nsqr. cbn [nmul nQ Num_X xmul amul aQ Arith_R]. f_equal. unfold Q2R. cbn. field. }
    assert (I : nisinf (nsqr (PInf : XR)) = true) by reflexivity. rewrite I. cbn [orb]. rewrite Q.
    assert (Z : neq (Fin (x / 20 * (x / 20)) : XR) n0 = false).
    { unfold n0. cbn [neq nQ Num_X xeq aeq aQ Arith_R]. rewrite q0. apply Reqb_false. nra. }
    now rewrite Z. }
  assert (S1 : mv [1] [Fin 1] = [Fin 2]) by (cbn; do 2 f_equal; lra). rewrite S1.
  unfold initialize_covariance, setup_covariance_matrix. cbn [map2]. rewrite !V by lra.
  do 2 eexists. split; [reflexivity|]. split; [reflexivity|]. cbn [c_qcov]. split; cbn; do 3 f_equal; lra.
Qed.
Print Assumptions C87_default_covariance_has_an_origin.

(** The run of DemoRealRun.v, with the parameter measured from -7. *)
Example C87_case : List.length [7] = List.length flat_params /\ NoDup (map (@a_name XR) flat_params) /\
  covariance_given flat_params (define_simulation_options (flat_raw AM) "") /\ covariances_given flat_params [Run false] /\
  exists m m', acts flat_env [Run false] (flat AM) = Ok m /\
    acts (moved_env [7] [7] flat_env) [Run false] (new_mcmc (moved_params [7] flat_params) flat_data flat_model (define_simulation_options (flat_raw AM) "") 0 []) = Ok m' /\
    m_chain m' = [[Fin 7]; [Fin 8]; [Fin 9]; [Fin (2 + 2 * sqrt (1 / 2) + 7)]].
Proof.
  assert (V : covariance_given flat_params (define_simulation_options (flat_raw AM) "")) by (split; [reflexivity|left; discriminate]).
  assert (A : covariances_given flat_params [Run false : action XR]) by (constructor; [exact I|constructor]).
  assert (N : NoDup (map (@a_name XR) flat_params)) by (constructor; [intros []|constructor]).
  split; [reflexivity|]. split; [exact N|]. split; [exact V|]. split; [exact A|].
  destruct flat_run as (m & H1 & H2 & _).
  pose proof (C87_origin flat_env [7] flat_params eq_refl N flat_data flat_model (define_simulation_options (flat_raw AM) "") 0%nat [] [Run false] V A) as X.
  assert (H : acts flat_env [Run false] (flat AM) = Ok m) by (cbn [acts act]; rewrite H1; reflexivity).
  change (new_mcmc flat_params flat_data flat_model (define_simulation_options (flat_raw AM) "") 0 []) with (flat AM) in X. rewrite H in X.
  change (sampled_shifts [7] flat_params) with [7] in X. destruct (acts (moved_env [7] [7] flat_env) _ _) as [m'|] eqn:H'; [|contradiction]. cbn [outcomes] in X.
  exists m, m'. split; [exact H|]. split; [reflexivity|]. rewrite (mo_chain _ _ _ _ X), H2. cbn [finm fin map mv sh]. repeat match goal with |- _ :: _ = _ :: _ => f_equal end; f_equal; lra.
Qed.
