(** A run over the extended reals with error variance updates, executed symbolically. *)

From Coq Require Import ZArith QArith Bool Lia List String Reals Lra.
From Verif Require Import Base Num Samplers Adapt Settings Simulator SamplerFacts RVec RMat StatSpec CovFacts AdaptFacts InitFacts
  DemoRealRun GammaSpec VarFacts.
Import ListNotations.
Close Scope Q_scope.
Open Scope list_scope.
Open Scope R_scope.

Definition var_raw : rawopts XR :=
  mkraw 2 MH (Some 2%Z) None None (Some (Fin 2)) None 0%Z 0%Z (Some [[Fin 1]]) None true (Fin (1 / 1000)) (Fin 10)
        (Fin (234 / 1000)) (Fin (7 / 10)) [Fin 5; Fin 4; Fin 3] None 0%Z
        "chainfile" "sschainfile" "s2chainfile" "covchainfile" (Some "log"%string) false false false false None None.
Definition var_start : mcmc XR :=
  new_mcmc flat_params flat_data flat_model (define_simulation_options var_raw "") 0 [].

(** Shape 5/2, scale 1, all normal numbers 1 and all uniform numbers 1/4: the first pair is accepted. *)
Definition var_c : R := / sqrt (9 * (5 / 2 - 1 / 3)).
Definition var_value : XR := let y := 1 * (5 / 2 - 1 / 3) * cubed (fun _ => 1) var_c 0 in
  @ninv XR _ (Fin y).

Lemma var_c_pos : 0 < var_c.
Proof. apply Rinv_0_lt_compat, sqrt_lt_R0. lra. Qed.
Lemma var_usable q : usable (fun _ => 1) var_c q.
Proof. unfold usable. pose proof var_c_pos. lra. Qed.
Lemma var_gamma E s : e_str E = e_str flat_env -> e_fuel E = 10%nat -> gammar E (Fin (5 / 2)) (Fin 1) s =
  Ok (Fin (1 * (5 / 2 - 1 / 3) * cubed (fun _ => 1) var_c 0), mkio (S (S (io_pos s))) (io_value s) (io_calls s)).
Proof.
  intros ES EF. unfold gammar, gammar_mt1. rewrite XR_n0, XR_n1, XR_le, XR_lt. rewrite DemoRealRun.Rleb_false, DemoRealRun.Rltb_false by lra.
  rewrite ge1_unfold by lra. fold var_c. rewrite EF.
  rewrite (loop_step E (fun _ => 1) (fun _ => 1 / 4)) with (q := io_pos s); try (intros; rewrite ES); try reflexivity.
  - assert (T : test (fun _ => 1) (fun _ => 1 / 4) var_c (5 / 2 - 1 / 3) (io_pos s) = true).
    { apply test_spec; [intros; lra|apply var_usable|]. left. cbv beta. lra. }
    rewrite T. reflexivity.
  - apply (draw_v_complete E (fun _ => 1)) with (k := 0%nat); auto; try lia; try (intros; rewrite ES; reflexivity).
    split; [lia|]. split; [apply var_usable|intros; lia].
Qed.

Lemma var_draw_at E s : e_str E = e_str flat_env -> e_fuel E = 10%nat -> draw_sigma2 E (Fin 1) (Fin 1) (Fin 4) (Fin 1) s = Ok (var_value, mkio (S (S (io_pos s))) (io_value s) (io_calls s)).
Proof.
  intros ES EF. unfold draw_sigma2. rewrite !XR_nQ, !XR_add, !XR_mul, !XR_add, Q2R_half, Q2R_2, XR_ninv, XR_mul by lra.
  replace (1 / 2 * (1 + 4)) with (5 / 2) by lra. replace (2 * / (1 * 1 + 1)) with 1 by lra.
  rewrite var_gamma by auto. reflexivity.
Qed.
Lemma var_draw s : draw_sigma2 flat_env (Fin 1) (Fin 1) (Fin 4) (Fin 1) s = Ok (var_value, mkio (S (S (io_pos s))) (io_value s) (io_calls s)).
Proof. now apply var_draw_at. Qed.

Lemma nnat4 : @nnat XR _ 4 = Fin 4.
Proof. rewrite XR_nnat. f_equal. cbn. lra. Qed.

Ltac red_var := cbv -[Rplus Rminus Rmult Rdiv Rinv Ropp Rabs R_sqrt.sqrt exp ln Rpower Q2R Rltb Rleb Reqb IZR nnat
   loglik log_posterior_ratio_acceptance_test run_adaptation check_adascale step real_chol real_inv delayed_rejection_call draw_sigma2 var_value].
Lemma var_run : exists m', run_simulation flat_env false var_start = Ok m' /\ m_s2chain m' = Some [[Fin 1]; [var_value]] /\
  m_model m' = mkms (Some [var_value]) (Some [Fin 4]) (Some [Fin 1]) [Fin 1] (Some 1%nat) false /\
  o_updatesigma (m_opts m') = true.
Proof.
  eexists. split.
  - let HI := fresh in
    eassert (HI : initialize_simulation flat_env flat_params flat_data flat_model
     (define_simulation_options var_raw "") RUnset 0 [] = Ok _).
    { cbv -[Rplus Rminus Rmult Rdiv Rinv Ropp Rabs R_sqrt.sqrt exp ln Rpower Q2R Rltb Rleb Reqb IZR nnat
   loglik log_posterior_ratio_acceptance_test run_adaptation check_adascale].
      match goal with |- context [@nnat ?a ?b ?c] => replace (@nnat a b c) with (@Fin R 4) by (symmetry; exact nnat4) end. tidy. tidy. reflexivity. }
    cbv [run_simulation]; change (o_restart (m_opts var_start)) with (@None (restart XR)); cbv iota beta delta [bind];
    change (initialize_simulation _ _ _ _ _ _ _ _) with (initialize_simulation flat_env flat_params flat_data flat_model
   (define_simulation_options var_raw "") RUnset 0 []). rewrite H; clear H. red_var.
    match goal with
    | |- context [@step ?F ?N ?E ?K ?i ?st] =>
       let H := fresh in
       eassert (H : @step F N E K i st = Ok _);
         [ unfold step; red_var; known; red_var; accept; red_var;
           match goal with |- context [@draw_sigma2 ?F ?N ?E ?a ?b ?c ?d ?s] =>
             replace (@draw_sigma2 F N E a b c d s) with (@Ok (XR * io XR) (var_value, mkio (S (S (io_pos s))) (io_value s) (io_calls s)))
               by (symmetry; exact (var_draw s)) end; red_var;
           rewrite ?q0, ?q1, ?qh, ?sqrt_1, ?Rmult_1_l, ?Rmult_1_r, ?Rplus_0_l, ?Rplus_0_r; reflexivity
         | rewrite H; clear H; red_var ]
    end.
    rewrite ?q0, ?q1; reflexivity.
  - split; [|split]; reflexivity.
Qed.

(** The same with two SS components and S20 not given: S20 and sigma2 are one array. *)
Definition flat2_env : env XR :=
  mkenv (fun _ => [Fin 1; Fin 1]) (fun _ _ _ => Fin 0) (mkstream (fun _ => Fin 1) (fun _ => Fin (1 / 4))) real_chol real_inv 10.
Definition flat2_model : modset XR := define_model_settings (Some [Fin 1; Fin 1]) None None None None.
Definition var2_start : mcmc XR :=
  new_mcmc flat_params flat_data flat2_model (define_simulation_options var_raw "") 0 [].
Lemma flat2_loglik : loglik [@Fin R 1; Fin 1] [Fin 1; Fin 1] = Ok (Fin (- 1)).
Proof. red_real. cbv [loglik]. red_real. rewrite ?q0, ?qh. decs. do 2 f_equal. lra. Qed.
Lemma var2_draw s : draw_sigma2 flat2_env (Fin 1) (Fin 1) (Fin 4) (Fin 1) s = Ok (var_value, mkio (S (S (io_pos s))) (io_value s) (io_calls s)).
Proof. now apply var_draw_at. Qed.
Ltac known2 :=
  repeat match goal with
  | |- context [@check_adascale ?F ?N ?a ?n] => replace (@check_adascale F N a n) with (@Fin R 2) by (symmetry; exact flat_scale)
  | |- context [@loglik ?F ?N ?a ?n] => replace (@loglik F N a n) with (@Ok XR (@Fin R (- 1))) by (symmetry; exact flat2_loglik)
  end.
Lemma var2_run : exists m', run_simulation flat2_env false var2_start = Ok m' /\
  m_s2chain m' = Some [[Fin 1; Fin 1]; [var_value; var_value]] /\ m_sschain m' = [[Fin 1; Fin 1]; [Fin 1; Fin 1]] /\
  m_model m' = mkms (Some [var_value; var_value]) (Some [Fin 4; Fin 4]) (Some [Fin 1; Fin 1]) [var_value; var_value] (Some 1%nat) true /\
  o_updatesigma (m_opts m') = true.
Proof.
  eexists. split.
  - let HI := fresh in
    eassert (HI : initialize_simulation flat2_env flat_params flat_data flat2_model
     (define_simulation_options var_raw "") RUnset 0 [] = Ok _).
    { cbv -[Rplus Rminus Rmult Rdiv Rinv Ropp Rabs R_sqrt.sqrt exp ln Rpower Q2R Rltb Rleb Reqb IZR nnat
   loglik log_posterior_ratio_acceptance_test run_adaptation check_adascale].
      match goal with |- context [@nnat ?a ?b ?c] => replace (@nnat a b c) with (@Fin R 4) by (symmetry; exact nnat4) end. known2. tidy. tidy. reflexivity. }
    cbv [run_simulation]; change (o_restart (m_opts var2_start)) with (@None (restart XR)); cbv iota beta delta [bind];
    change (initialize_simulation _ _ _ _ _ _ _ _) with (initialize_simulation flat2_env flat_params flat_data flat2_model
   (define_simulation_options var_raw "") RUnset 0 []). rewrite H; clear H. red_var.
    match goal with
    | |- context [@step ?F ?N ?E ?K ?i ?st] =>
       let H := fresh in
       eassert (H : @step F N E K i st = Ok _);
         [ unfold step; red_var; known2; red_var; accept; red_var;
           do 2 (match goal with |- context [@draw_sigma2 ?F ?N ?E ?a ?b ?c ?d ?s] =>
             replace (@draw_sigma2 F N E a b c d s) with (@Ok (XR * io XR) (var_value, mkio (S (S (io_pos s))) (io_value s) (io_calls s)))
               by (symmetry; exact (var2_draw s)) end; red_var);
           rewrite ?q0, ?q1, ?qh, ?sqrt_1, ?Rmult_1_l, ?Rmult_1_r, ?Rplus_0_l, ?Rplus_0_r; reflexivity
         | rewrite H; clear H; red_var ]
    end.
    rewrite ?q0, ?q1; reflexivity.
  - split; [|split; [|split]]; reflexivity.
Qed.
