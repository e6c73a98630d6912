(** C101: with a given error variance, the data and the settings for its estimation have no influence. *)

From Coq Require Import ZArith QArith Bool Lia List String.
From Verif Require Import Base Num Samplers Adapt Settings Simulator RunSpec KnownSpec KnownFacts Demo.
Import ListNotations.
Close Scope Q_scope.
Open Scope list_scope.
Open Scope nat_scope.

(** Two runs with the same given error variance, not estimated, with other data, numbers of observations, prior scales and numbers of batches. *)
Theorem C101_given :
  forall (F : Type) (NF : Num F) (E : env F) ps d d' ms ms' o pos l, given_alike ms ms' -> o_updatesigma o = false ->
  unless_refused same_sampling (run_simulation E false (new_mcmc ps d ms o pos l)) (run_simulation E false (new_mcmc ps d' ms' o pos l)).
Proof. intros F NF E ps d d' ms ms' o pos l H HU. apply run_given; auto. Qed.
Print Assumptions C101_given.

(** Both end normally: the same samples. *)
Theorem C101_same_samples :
  forall (F : Type) (NF : Num F) (E : env F) ps d d' ms ms' o pos l m m', given_alike ms ms' -> o_updatesigma o = false ->
  run_simulation E false (new_mcmc ps d ms o pos l) = Ok m -> run_simulation E false (new_mcmc ps d' ms' o pos l) = Ok m' ->
  m_chain m' = m_chain m /\ m_sschain m' = m_sschain m /\ m_calls m' = m_calls m /\ m_pos m' = m_pos m /\ m_fs m' = m_fs m /\ m_trace m' = m_trace m.
Proof.
  intros F NF E ps d d' ms ms' o pos l m m' H HU H1 H2. pose proof (C101_given F NF E ps d d' ms ms' o pos l H HU) as X. rewrite H1, H2 in X. destruct X. auto 10.
Qed.
Print Assumptions C101_same_samples.

(** The demonstration, once with four observations and no prior scale, once with two sets of nine and five observations, as many given, and a prior scale. *)
Definition data101 : data XQ := add_data_set (add_data_set empty_data [] (YArray [9; 1]) [] None n1) [] (YArray [5; 1]) [] None n1.
Definition model101 : modset XQ := define_model_settings (Some [Fin 1%Q]) (Some [Fin 9%Q; Fin 5%Q]) None (Some [Fin 7%Q]) (Some 3).
Definition one101 : mcmc XQ := new_mcmc demo_params demo_data demo_model (demo_opts 6 DRAM) 0 [].
Definition other101 : mcmc XQ := new_mcmc demo_params data101 model101 (demo_opts 6 DRAM) 0 [].
Definition ran (m : mcmc XQ) : mcmc XQ := match run_simulation demo_env false m with Ok r => r | Err _ => m end.
Definition ran_one : mcmc XQ := Eval vm_compute in ran one101.
Definition ran_other : mcmc XQ := Eval vm_compute in ran other101.

Example C101_case :
  given_alike demo_model model101 /\ o_updatesigma (demo_opts 6 DRAM) = false /\
  run_simulation demo_env false one101 = Ok ran_one /\ run_simulation demo_env false other101 = Ok ran_other /\
  ms_S20 (m_model ran_one) <> ms_S20 (m_model ran_other) /\ ms_N (m_model ran_one) <> ms_N (m_model ran_other) /\
  hd [] (m_chain ran_one) <> last (m_chain ran_one) [].
Proof.
  split; [repeat split|]. split; [reflexivity|]. split; [vm_compute; reflexivity|]. split; [vm_compute; reflexivity|].
  repeat split; vm_compute; discriminate.
Qed.
