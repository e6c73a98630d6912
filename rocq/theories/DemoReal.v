(** A one-parameter problem over the extended reals, for the examples of the theorems about exact
    arithmetic: sum of squares x^2, flat prior, all normal draws 1, all uniform draws 1/4. *)

From Coq Require Import ZArith QArith Bool Lia List Reals Lra.
From Verif Require Import Base Num Samplers SamplerFacts RVec BalanceSpec BalanceFacts DRFacts.
Import ListNotations.
Close Scope Q_scope.
Open Scope list_scope.
Open Scope R_scope.

Definition real_sos (v : list XR) : list XR :=
  match v with Fin x :: _ => [Fin (x * x)] | _ => [Fin 7] end.
Definition real_env : env XR :=
  mkenv real_sos (fun _ _ _ => Fin 0) (mkstream (fun _ => Fin 1) (fun _ => Fin (1 / 4)))
        (fun m => Some m) (fun m => Some m) 10.
Definition real_view : pview XR := mkpview 1 [0%nat] [Fin (-5)] [Fin 5] [Fin 0] [PInf].
Definition real_set (x : R) : pset XR := mkpset [Fin x] [Fin (x * x)] (Fin 0) [Fin 1] None.
Definition real_point (x : R) : point := mkpoint [x] (Some [x * x]) 0.
Definition real_io : io XR := mkio 0 [Fin 0] [].

Lemma real_represents x : represents [1] (real_set x) (real_point x).
Proof. repeat split. Qed.

Lemma real_finite : finite_env real_env [1].
Proof.
  split; simpl.
  - intros [|[x| | |] v]; simpl; try (now exists [7]). now exists [x * x].
  - eauto.
  - eauto.
  - intros. eexists. split; [reflexivity|lra].
Qed.

Definition real_set_s (sg x : R) : pset XR := mkpset [Fin x] [Fin (x * x)] (Fin 0) [Fin sg] None.

(** A step of length 1 from x = 0, with any error variance. *)
Lemma real_run sg : 0 < sg -> exists acc new s1,
  run_metropolis_step real_env real_view (finm [[1]]) (real_set_s sg 0) real_io = Ok (acc, new, false, [Fin 1], s1) /\
  p_theta new = [Fin 1] /\ p_ss new = [Fin (1 * 1)] /\ p_prior new = Fin 0 /\ p_sigma2 new = [Fin sg] /\
  p_alpha new = Some (Fin (- (1 / 2) / sg)).
Proof.
  intros Hsg.
  assert (HC : candidate real_env 1 (p_theta (real_set_s sg 0)) (finm [[1]]) 0 = [Fin 1]).
  { unfold candidate. cbn [real_env e_str s_normal seq map real_set_s p_theta].
    change [Fin 1] with (fin [1]) at 1. rewrite vecmat_fin. change [Fin 0] with (fin [0]). rewrite vadd_fin.
    unfold fin, Rvadd, Rvm, Rdot. simpl. repeat f_equal. lra. }
  assert (HO : is_sample_outside_bounds [Fin 1] (v_lower real_view) (v_upper real_view) = false).
  { unfold is_sample_outside_bounds. cbn. unfold Rltb.
    destruct (Rlt_dec 1 (-5)); [lra|]. destruct (Rlt_dec 5 1); [lra|]. reflexivity. }
  unfold run_metropolis_step, sample_candidate. cbn [real_view v_npar finm map fin is_square length forallb Nat.eqb andb
      real_set_s p_theta randn real_io io_pos].
  cbn [bind]. change (vadd [Fin 0] _) with (candidate real_env 1 (p_theta (real_set_s sg 0)) (finm [[1]]) 0).
  rewrite HC. cbn [seq map]. change (mkpview 1 [0%nat] [Fin (-5)] [Fin 5] [Fin 0] [PInf]) with real_view.
  replace (is_sample_outside_bounds [Fin 1] [Fin (-5)] [Fin 5]) with false by (symmetry; exact HO).
  unfold evaluate_sos_function. cbn [io_value io_pos io_calls v_parind real_view real_env e_sos].
  assert (HS : real_sos (scatter [Fin 0] [0%nat] [Fin 1]) = fin [1 * 1]) by reflexivity.
  change (scatter (io_value real_io) [0%nat] [Fin 1]) with (scatter [@Fin R 0] [0%nat] [Fin 1]). rewrite HS.
  change (p_sigma2 (real_set_s sg 0)) with (fin [sg]). change (p_ss (real_set_s sg 0)) with (fin [0 * 0]).
  assert (HF : Forall (fun s => 0 < s) [sg]) by (constructor; [lra|constructor]).
  rewrite (loglik_fin [1 * 1] [sg] HF eq_refl), (loglik_fin [0 * 0] [sg] HF eq_refl). cbn [bind].
  match goal with |- context [log_posterior_ratio_acceptance_test ?e ?a ?s] =>
    destruct (log_posterior_ratio_acceptance_test e a s) as [acc s3] end.
  do 3 eexists. split; [reflexivity|]. repeat split. cbn [p_alpha]. f_equal.
  unfold calculate_log_posterior_ratio, evaluate_prior. cbn [real_env e_prior p_prior real_set_s map2 Rsum fold_right].
  rewrite !XR_mhalf.
  transitivity (@Fin R ((- (1 / 2) * (1 * 1 / sg + 0) + - (1 / 2) * 0) - (- (1 / 2) * (0 * 0 / sg + 0) + - (1 / 2) * 0))); [reflexivity|].
  f_equal. field. lra.
Qed.

Lemma real_step : exists acc new s1,
  run_metropolis_step real_env real_view (finm [[1]]) (real_set 0) real_io = Ok (acc, new, false, [Fin 1], s1) /\
  p_theta new = [Fin 1] /\ represents [1] new (real_point 1) /\ acc = true.
Proof.
  destruct (real_run 1 ltac:(lra)) as (acc & new & s1 & H1 & H2 & H3 & H4 & H5 & _). exists acc, new, s1.
  assert (Hrep : represents [1] new (real_point 1)) by (repeat split; auto).
  split; [exact H1|]. split; [auto|]. split; [auto|].
  apply (met_step [1] _ _ _ _ _ _ _ _ _ _ (real_point 0) (real_point 1) (1 / 4)
           ltac:(constructor; [lra|constructor]) ltac:(discriminate) H1 (real_represents 0) Hrep ltac:(discriminate) eq_refl
           ltac:(lra)).
  unfold met_acc, post, log_post. cbn [real_point pt_ss pt_prior map2 Rsum fold_right].
  rewrite <- exp_ratio. apply Rmin_glb_lt; [lra|].
  replace (- (1 / 2) * (1 * 1 / 1 + 0 + 0) - - (1 / 2) * (0 * 0 / 1 + 0 + 0)) with (- (1 / 2)) by lra.
  pose proof (exp_ineq1_le (- (1 / 2))). lra.
Qed.
