(** Executed cases for the settings properties: shared arrays, defaults, second runs. *)

From Coq Require Import ZArith QArith Bool Lia List String.
From Verif Require Import Base Num Samplers Adapt Settings Simulator Demo RunSpec DemoRuns SettingsFacts SettingsThms.
Import ListNotations.
Close Scope Q_scope.
Open Scope list_scope.
Open Scope nat_scope.

(** Two SS components. *)
Definition sos2 (v : list XQ) : list XQ := demo_sos v ++ [Fin 3%Q].
Definition env2 : env XQ := mkenv sos2 default_priorfun demo_str demo_chol demo_inv 60.
Definition model2 : modset XQ := define_model_settings (Some [Fin 1%Q; Fin 2%Q]) None None None None.
Definition start2 : mcmc XQ := new_mcmc demo_params demo_data model2 (demo_opts_s2 3 MH) 0 [].
Definition run2 : mcmc XQ := Eval vm_compute in run_of (run_simulation env2 false start2) start2.
Lemma run2_ok : run_simulation env2 false start2 = Ok run2.
Proof. vm_compute. reflexivity. Qed.

(** S20 was not given: it starts as sigma2 = [1; 2] and ends as the last row of the variance chain. *)
Lemma scale_drifts :
  exists (E : env XQ) m m' s2, run_simulation E false m = Ok m' /\ ms_alias (m_model m) = false /\
    (forall v, List.length (e_sos E v) = 2) /\ m_s2chain m' = Some s2 /\ List.length s2 = 3 /\
    prior_scale (m_model m) (m_data m) = [Fin 1%Q; Fin 2%Q] /\
    nth_error s2 0 = Some [Fin 1%Q; Fin 2%Q] /\ nth_error s2 2 = Some (ms_S20 (m_model m')) /\
    ms_S20 (m_model m') <> [Fin 1%Q; Fin 2%Q].
Proof.
  exists env2, start2, run2. eexists. split; [exact run2_ok|]. split; [reflexivity|]. split; [reflexivity|]. split; [reflexivity|].
  split; [reflexivity|]. split; [reflexivity|]. split; [reflexivity|]. split; [reflexivity|]. discriminate.
Qed.

(** Only S20 = [4] given. *)
Definition model_s20 : modset XQ := define_model_settings None None None (Some [Fin 4%Q]) None.
Definition start_s20 : mcmc XQ := new_mcmc demo_params demo_data model_s20 (demo_opts_s2 3 MH) 0 [].
Definition run_s20 : mcmc XQ := Eval vm_compute in run_of (run_simulation demo_env false start_s20) start_s20.
Lemma run_s20_ok : run_simulation demo_env false start_s20 = Ok run_s20.
Proof. vm_compute. reflexivity. Qed.
Lemma first_variance_is_one :
  exists (E : env XQ) m m' s2, run_simulation E false m = Ok m' /\ ms_sigma2 (m_model m) = None /\
    ms_S20 (m_model m) = [Fin 4%Q] /\ m_s2chain m' = Some s2 /\ nth_error s2 0 = Some [Fin 1%Q].
Proof.
  exists demo_env, start_s20, run_s20. eexists. split; [exact run_s20_ok|]. repeat split; reflexivity.
Qed.

(** Two data sets with one SS component: the first run replaces N by the total, which the second run rejects. *)
Definition data2 : data XQ := add_data_set demo_data [] (YArray [6; 1]) [] None n1.
Definition start_twice : mcmc XQ := new_mcmc demo_params data2 demo_model (demo_opts 3 MH) 0 [].
Definition run_twice : mcmc XQ := Eval vm_compute in run_of (run_simulation demo_env false start_twice) start_twice.
Lemma run_twice_ok : run_simulation demo_env false start_twice = Ok run_twice.
Proof. vm_compute. reflexivity. Qed.
Lemma second_run_exits :
  exists (E : env XQ) m m', run_simulation E false m = Ok m' /\
    run_simulation E false m' = Err SysExit /\ run_simulation E true m' = Err SysExit.
Proof.
  exists demo_env, start_twice, run_twice. split; [exact run_twice_ok|]. split; vm_compute; reflexivity.
Qed.

(** updatesigma off: the first run fills in N0, which turns updatesigma on. *)
Definition start_off : mcmc XQ :=
  new_mcmc demo_params demo_data demo_model (define_simulation_options (demo_raw false false false 3 MH) "20260101_000000") 0 [].
Definition run_off : mcmc XQ := Eval vm_compute in run_of (run_simulation demo_env false start_off) start_off.
Lemma run_off_ok : run_simulation demo_env false start_off = Ok run_off.
Proof. vm_compute. reflexivity. Qed.
Definition run_off2 : mcmc XQ := Eval vm_compute in run_of (run_simulation demo_env false run_off) run_off.
Lemma run_off2_ok : run_simulation demo_env false run_off = Ok run_off2.
Proof. vm_compute. reflexivity. Qed.
Lemma updatesigma_turns_on :
  exists (E : env XQ) m m' m'', run_simulation E false m = Ok m' /\ o_updatesigma (m_opts m') = false /\
    run_simulation E false m' = Ok m'' /\ o_updatesigma (m_opts m'') = true /\
    run_simulation E true m' = Err ValueError.
Proof.
  exists demo_env, start_off, run_off, run_off2. split; [exact run_off_ok|]. split; [reflexivity|].
  split; [exact run_off2_ok|]. split; [reflexivity|]. vm_compute. reflexivity.
Qed.

