(** C98: only the posterior matters. *)

From Coq Require Import ZArith QArith Bool Lia List String Reals Lra.
From Verif Require Import Base Num Samplers Adapt Settings Simulator SamplerFacts SettingsFacts RunSpec RunFacts RVec FixedSpec ScaleNum ScaleSpec PostSpec PostFacts PostRun
  StatsFacts CompleteSpec CompleteRun Prop_Complete.
Import ListNotations.
Close Scope Q_scope.
Open Scope list_scope.
Open Scope R_scope.

(** With a given error variance that is not estimated, a run depends on the user's two functions only through the posterior density,
    up to a constant factor: the two runs fail in the same way, or agree in everything but the sums of squares. *)
Theorem C98_only_posterior :
  forall (E E' : env XR) (m : mcmc XR) (s2 c : R),
  same_posterior (m_params m) s2 c E E' -> ms_sigma2 (m_model m) = Some [Fin s2] -> ms_N0 (m_model m) = None ->
  o_updatesigma (m_opts m) = false -> o_restart (m_opts m) = None ->
  outcomes same_course (run_simulation E false m) (run_simulation E' false m).
Proof. intros E E' m s2 c HP H1 H2 H3 H4. apply (run_same (m_params m) s2 c E E' HP m); auto. Qed.
Print Assumptions C98_only_posterior.

(** ** Sums of squares with something added *)
Lemma div_add (x p : XR) (s : R) : 0 < s -> ndiv (nadd x (nmul (Fin s) p)) (Fin s) = nadd (ndiv x (Fin s)) p.
Proof.
  intros Hs. assert (P1 : Rltb 0 s = true) by now apply Rltb_true. assert (P2 : Rltb s 0 = false) by (apply DemoRealRun.Rltb_false; lra).
  assert (P3 : Reqb s 0 = false) by (apply DemoRealRun.Reqb_false; lra).
  destruct x as [x| | |], p as [p| | |]; cbn; unfold xsgninf, xneg, a0; cbn [alt aQ asub Arith_R]; rewrite ?DemoRealRun.q0, ?P1, ?P2, ?P3; cbn; unfold a0; cbn [alt aeq aQ asub Arith_R]; rewrite ?DemoRealRun.q0, ?P2, ?P3; try reflexivity.
  f_equal. field. lra.
Qed.
Lemma first_add l (p : XR) (s : R) : 0 < s -> l <> [] ->
  fold_right nadd (Fin 0) (map (fun y => ndiv y (Fin s)) (raise_first (nmul (Fin s) p) l)) =
  nadd (fold_right nadd (Fin 0) (map (fun y => ndiv y (Fin s)) l)) p.
Proof.
  intros Hs Hl. destruct l as [|y l]; [congruence|]. cbn [raise_first map fold_right]. rewrite div_add by exact Hs.
  now rewrite !XR_assoc, (XR_comm p).
Qed.
Lemma first_length x l : List.length (raise_first x l) = List.length l.
Proof. destruct l; reflexivity. Qed.

(** The number added to a sum of squares does not matter. *)
Theorem C98_constant_in_squares :
  forall (E : env XR) (m : mcmc XR) (s2 k : R), 0 < s2 -> (forall v, e_sos E v <> []) ->
  ms_sigma2 (m_model m) = Some [Fin s2] -> ms_N0 (m_model m) = None -> o_updatesigma (m_opts m) = false -> o_restart (m_opts m) = None ->
  outcomes same_course (run_simulation E false m) (run_simulation (raised_env k E) false m).
Proof.
  intros E m s2 k Hs Hne H1 H2 H3 H4. apply (C98_only_posterior E _ m s2 (k / s2)); auto. constructor; try reflexivity.
  - intros v _. apply first_length.
  - intros v _. unfold neglog. cbn [raised_env e_sos e_prior]. replace (Fin k) with (nmul (Fin s2) (Fin (k / s2)) : XR) by (cbn; f_equal; field; lra).
    rewrite first_add by auto. rewrite !XR_assoc. f_equal. apply XR_comm.
Qed.
Print Assumptions C98_constant_in_squares.

(** A prior is as good as a term of the sum of squares: a run without prior function whose sum of squares contains the error variance
    times the prior value is the same run. *)
Theorem C98_prior_as_squares :
  forall (E : env XR) (m : mcmc XR) (s2 : R), 0 < s2 -> (forall v, e_sos E v <> []) ->
  ms_sigma2 (m_model m) = Some [Fin s2] -> ms_N0 (m_model m) = None -> o_updatesigma (m_opts m) = false -> o_restart (m_opts m) = None ->
  outcomes same_course (run_simulation E false m) (run_simulation (absorbed_env (m_params m) s2 E) false m).
Proof.
  intros E m s2 Hs Hne H1 H2 H3 H4. apply (C98_only_posterior E _ m s2 0); auto. constructor; try reflexivity.
  - intros v _. apply first_length.
  - intros v _. unfold neglog. cbn [absorbed_env e_sos e_prior]. now rewrite first_add by auto.
Qed.
Print Assumptions C98_prior_as_squares.

(** Two sampled parameters with normal priors around 0 and 1 and a fixed one, delayed rejection and adaptation, text files; any sum of squares, any
    random numbers, any number of iterations. *)
Definition normal_params : list (param XR) :=
  [mkparam "a" (Fin 0) NInf PInf (Fin 0) (Fin 2) true true; mkparam "c" (Fin 5) (Fin 9) (Fin 1) (Fin 0) PInf false true;
   mkparam "b" (Fin 1) NInf PInf (Fin 1) (Fin 3) true true].
Definition normal_run (nsimu : nat) : mcmc XR := new_mcmc normal_params pair_data pair_model (pair_opts nsimu false false) 0 [].

Example C98_case : forall f str nsimu, (2 <= nsimu)%nat ->
  let E := pair_env (fun v => [f v]) str in let E' := absorbed_env normal_params 1 E in
  (exists m m', run_simulation E false (normal_run nsimu) = Ok m /\ run_simulation E' false (normal_run nsimu) = Ok m' /\ same_course m m') /\
  (exists m', run_simulation (raised_env 7 E) false (normal_run nsimu) = Ok m') /\
  (forall v, e_sos (raised_env 7 E) v = [nadd (f v) (Fin 7)]) /\
  e_sos E' [Fin 4; Fin 5; Fin 7] = [nadd (f [Fin 4; Fin 5; Fin 7]) (Fin 8)].
Proof.
  intros f str nsimu Hn E E'.
  assert (W : well_formed E normal_params pair_data pair_model (pair_opts nsimu false false) [] 1).
  { split; [|split; [apply pair_options; auto|reflexivity]]. constructor.
    + eexists. split; [left; reflexivity|reflexivity].
    + intros p [<-|[<-|[<-|[]]]] H; try discriminate H; (split; [reflexivity|split; reflexivity]).
    + lia.
    + intros v _. reflexivity.
    + intros s H. injection H as <-. left. reflexivity.
    + intros s H. discriminate H.
    + left. reflexivity.
    + intros H. discriminate H.
    + intros N H. discriminate H.
    + left. reflexivity. }
  destruct (C88_without_variances _ _ E (normal_run nsimu) 1 W eq_refl eq_refl) as [m Hm].
  assert (Ne : forall v, e_sos E v <> []) by discriminate.
  pose proof (C98_prior_as_squares E (normal_run nsimu) 1 Rlt_0_1 Ne eq_refl eq_refl eq_refl eq_refl) as X.
  pose proof (C98_constant_in_squares E (normal_run nsimu) 1 7 Rlt_0_1 Ne eq_refl eq_refl eq_refl eq_refl) as Y.
  rewrite Hm in X, Y. split; [|split; [|split]].
  - change (m_params (normal_run nsimu)) with normal_params in X. fold E' in X. destruct (run_simulation E' false (normal_run nsimu)) as [m'|]; [|contradiction]. eauto.
  - destruct (run_simulation (raised_env 7 E) false (normal_run nsimu)) as [m'|]; [|contradiction]. eauto.
  - reflexivity.
  - unfold E'. cbn [absorbed_env e_sos pair_env raise_first E]. f_equal. f_equal.
    cbn [kept normal_params a_sample sampled_params filter map prior_mean prior_width a_mu a_sigma a_theta0].
    destruct (Rle_dec 2 0); [lra|]. destruct (Rle_dec 3 0); [lra|]. unfold E, pair_env. cbn [e_prior]. unfold default_priorfun.
    unfold vdot, vmul, vsub. cbn [map2]. rewrite !StatsFacts.XR_nsub, !XR_ndiv by lra. rewrite !StatsFacts.XR_nmul, vsum_right.
    cbn [fold_right]. rewrite !StatsFacts.XR_nadd, StatsFacts.XR_nmul. f_equal. field.
Qed.
