(** A run over the extended reals stopped after one move and resumed, executed symbolically: one parameter, adaptive
    Metropolis, 2 simulations, then 4 more with an adaptation at the second. *)

From Coq Require Import ZArith QArith Bool Lia List String Reals Lra.
From Verif Require Import Base Num Samplers Adapt Settings Simulator SamplerFacts RunSpec RVec RMat StatSpec CovFacts AdaptFacts
  InitFacts DemoRealRun.
Import ListNotations.
Close Scope Q_scope.
Open Scope list_scope.
Open Scope R_scope.

Definition short_raw : rawopts XR :=
  mkraw 2 AM (Some 2%Z) None None (Some (Fin 2)) None 0%Z 0%Z (Some [[Fin 1]]) None false (Fin (1 / 1000)) (Fin 10)
        (Fin (234 / 1000)) (Fin (7 / 10)) [Fin 5; Fin 4; Fin 3] None 0%Z
        "chainfile" "sschainfile" "s2chainfile" "covchainfile" (Some "log"%string) false false false false None None.
Definition short : mcmc XR :=
  new_mcmc flat_params flat_data flat_model (define_simulation_options short_raw "") 0 [].


Lemma long_stats : update_covariance_mean_sum (finm [[0]; [1]; [2]]) [n1] None
  = Some ([[Fin 1]], [Fin 1], @Fin R 3).
Proof.
  change [@n1 XR _] with (fin [Q2R 1]). rewrite q1.
  transitivity (@known 1 ([] ++ seg_sample ([[0]; [1]; [2]], [1]))).
  - apply (update_spec 1 ([[0]; [1]; [2]], [1]) []); [lia| |constructor].
    split; [|split; [left; reflexivity|constructor; [lra|constructor]]]. intros r [<- | [<- | [<- | []]]]; reflexivity.
  - cbn [app]. rewrite unit_seg. cbn [known unit_weights map]. unfold stats_of, table, vtab, finm, fin. cbn [map seq].
    assert (H1 : mean [([0], 1); ([1], 1); ([2], 1)] 0 = 1) by (unfold mean, total; cbn; field).
    assert (H2 : covariance [([0], 1); ([1], 1); ([2], 1)] 0 0 = 1)
      by (unfold covariance, scatter_sum; rewrite H1; unfold total; cbn; field).
    assert (H3 : total [([0], 1); ([1], 1); ([2], 1)] = 3) by (unfold total; cbn; ring).
    now rewrite H1, H2, H3.
Qed.
Definition long_cov : covst XR :=
  mkcov [[Fin 2]] [[Fin 1]] (Fin 2) [false] (Some [[Fin 1]]) (Some [Fin 1]) (Some (Fin 3)) 2 RNone None.
Lemma long_adapt E o i ii rj ch u al : e_chol E = real_chol -> ao_burnintime o = 0%Z -> ao_doram o = false -> ao_ntry o = 1%nat ->
  firstn 3 ch = finm [[0]; [1]; [2]] -> i = 2%nat ->
  run_adaptation E flat_cov o i ii rj ch 3 u 1 al = Ok long_cov.
Proof.
  intros HE Hb Hd Hn Hc ->. unfold run_adaptation. rewrite Hb, Hd, Hn.
  replace (slice (c_last flat_cov) 3 ch) with (finm [[0]; [1]; [2]]) by (destruct ch as [|? [|? [|? ?]]]; symmetry; exact Hc).
  replace (update_covariance_mean_sum (finm [[0]; [1]; [2]]) [n1] (cov_stats flat_cov)) with
    (Some ([[@Fin R 1]], [@Fin R 1], @Fin R 3)) by (symmetry; exact long_stats).
  cbn -[check_for_singular_cov_matrix]. unfold check_for_singular_cov_matrix, is_semi_pos_def_chol. rewrite HE.
  unfold real_chol. rewrite Rltb_true by lra. cbn. rewrite sqrt_1, Rmult_1_l. reflexivity.
Qed.
Ltac long_adapts :=
  match goal with
  | |- context [@run_adaptation ?F ?N ?E ?c ?o ?i ?ii ?rj ?ch ?ci ?u ?n ?al] =>
    replace (@run_adaptation F N E c o i ii rj ch ci u n al) with (@Ok (covst XR) long_cov)
      by (symmetry; apply (long_adapt E o i ii rj ch u al); try reflexivity; cbn; unfold finm, fin; cbn; repeat f_equal; lra)
  | _ => idtac
  end.
Ltac long_step :=
  match goal with
  | |- context [@step ?F ?N ?E ?K ?i ?st] =>
     let H := fresh in
     eassert (H : @step F N E K i st = Ok _);
       [ unfold step; red_step; known; red_step; accept; red_step; long_adapts;
         rewrite ?q0, ?q1, ?qh, ?sqrt_1, ?Rmult_1_l, ?Rmult_1_r, ?Rplus_0_l, ?Rplus_0_r; reflexivity
       | rewrite H; clear H; red_step ]
  end.

Lemma resumed_run : exists m1 m2, run_simulation flat_env false short = Ok m1 /\
  let m := with_model (with_opts m1 (define_simulation_options (flat_raw AM) "")) flat_model in
  run_simulation flat_env true m = Ok m2 /\ m_index m = 1%nat /\ sampled_params (m_params m) = flat_params /\
  m_chain m2 = finm [[0]; [1]; [2]; [3]; [5]] /\
  map (@ev_cov XR) (rev (m_trace m2)) = [flat_cov; flat_cov; flat_cov; long_cov].
Proof.
  eexists. eexists. split; [|split; [|split; [|split; [|split]]]].
  - let HI := fresh in
    eassert (HI : initialize_simulation flat_env flat_params flat_data flat_model
     (define_simulation_options short_raw "") RUnset 0 [] = Ok _);
    [red_real; cbv [real_inv]; tidy; tidy; reflexivity|].
    cbv [run_simulation]; change (o_restart (m_opts short)) with (@None (restart XR)); cbv iota beta delta [bind];
    change (initialize_simulation _ _ _ _ _ _ _ _) with (initialize_simulation flat_env flat_params flat_data flat_model
     (define_simulation_options short_raw "") RUnset 0 []); rewrite H; clear H; red_step.
    one_step. rewrite ?q0, ?q1; reflexivity.
  - cbn [with_opts with_model m_params m_data m_model m_opts m_RDR m_status m_chain m_sschain m_s2chain m_index m_chains m_pos m_calls m_fs m_results m_trace].
    cbv -[Rplus Rminus Rmult Rdiv Rinv Ropp Rabs R_sqrt.sqrt exp ln Rpower Q2R Rltb Rleb Reqb IZR
      loglik log_posterior_ratio_acceptance_test run_adaptation check_adascale step real_chol real_inv delayed_rejection_call
      initialize_simulation].
    match goal with |- context [@initialize_simulation ?F ?N ?E ?a ?b ?c ?d ?e ?f ?g] =>
      let H := fresh in
      eassert (H : @initialize_simulation F N E a b c d e f g = Ok _);
      [red_real; cbv [real_inv]; tidy; tidy; reflexivity|rewrite H; clear H] end.
    red_step. long_step. long_step. long_step. reflexivity.
  - reflexivity.
  - reflexivity.
  - cbn [m_chain]. unfold finm, fin. cbn [map]. repeat f_equal; lra.
  - reflexivity.
Qed.
