(** C95: parameters that are not sampled are constants of the model.

    In any arithmetic: declaring a parameter with sample=False is the same as not declaring it and writing its value into the user's
    sum of squares.  Sessions that start from a restart file are left out: they read the stored covariance at the wrong positions (C33). *)

From Coq Require Import ZArith QArith Bool Lia List String.
From Coq Require FunctionalExtensionality.
From Verif Require Import Base Num Samplers Adapt Settings Simulator RunSpec ScaleSpec FixedSpec FixedFacts FixedRun FixedSession Demo.
Import ListNotations.
Close Scope Q_scope.
Open Scope list_scope.
Open Scope nat_scope.

(** Whatever the user does, the session goes, and fails, as the session with the sampled parameters only. *)
Theorem C95_fixed_are_constants : forall {F} `{NF : Num F} (E : env F) ps d ms o o' pos l actions actions',
  (exists p, In p ps /\ a_sample p = true) -> options_kept ps o o' -> Forall2 (action_kept ps) actions actions' ->
  outcomes (without_fixed ps) (acts E actions (new_mcmc ps d ms o pos l)) (acts (closed_env ps E) actions' (new_mcmc (sampled_params ps) d ms o' pos l)).
Proof.
  intros F NF E ps d ms o o' pos l a a' (p & Hp & Hs) HO HA.
  assert (Hk : 0 < List.length (sampled_params ps)).
  { assert (I : In p (sampled_params ps)) by (apply filter_In; auto). destruct (sampled_params ps); [destruct I|cbn; lia]. }
  pose proof (acts_same ps E Hk a a' HA _ _ (new_same ps d ms o o' pos l HO)) as X.
  destruct (acts E a _) as [m|], (acts _ a' _) as [m'|]; cbn [outcomes] in X |- *; try contradiction; [|exact X]. apply X.
Qed.
Print Assumptions C95_fixed_are_constants.

(** So two declarations of the same sampled parameters, among any others, give the same chains, the same use of random numbers and the
    same files, if the sum of squares is the same function of the sampled parameters. *)
Theorem C95_only_through_the_model : forall {F} `{NF : Num F} (E E2 : env F) ps ps2 d ms o o2 o' pos l actions actions2 actions',
  (exists p, In p ps /\ a_sample p = true) -> sampled_params ps2 = sampled_params ps ->
  (forall theta, e_sos E2 (fill ps2 theta) = e_sos E (fill ps theta)) ->
  (e_prior E2, e_str E2, e_chol E2, e_inv E2, e_fuel E2) = (e_prior E, e_str E, e_chol E, e_inv E, e_fuel E) ->
  options_kept ps o o' -> options_kept ps2 o2 o' -> Forall2 (action_kept ps) actions actions' -> Forall2 (action_kept ps2) actions2 actions' ->
  outcomes (fun m m2 => m_chain m2 = m_chain m /\ m_sschain m2 = m_sschain m /\ m_s2chain m2 = m_s2chain m /\ m_pos m2 = m_pos m /\ m_fs m2 = m_fs m /\
                        m_trace m2 = m_trace m /\ m_model m2 = m_model m /\ map (kept ps2) (m_calls m2) = map (kept ps) (m_calls m))
    (acts E actions (new_mcmc ps d ms o pos l)) (acts E2 actions2 (new_mcmc ps2 d ms o2 pos l)).
Proof.
  intros F NF E E2 ps ps2 d ms o o2 o' pos l a a2 a' Hp HS HE HR HO HO2 HA HA2.
  assert (CE : closed_env ps2 E2 = closed_env ps E).
  { unfold closed_env. injection HR as -> -> -> -> ->. f_equal. apply FunctionalExtensionality.functional_extensionality. exact HE. }
  assert (Hp2 : exists p, In p ps2 /\ a_sample p = true).
  { destruct Hp as (p & H1 & H2). exists p. assert (I : In p (sampled_params ps)) by (apply filter_In; auto). rewrite <- HS in I. now apply filter_In in I. }
  pose proof (C95_fixed_are_constants E ps d ms o o' pos l a a' Hp HO HA) as X.
  pose proof (C95_fixed_are_constants E2 ps2 d ms o2 o' pos l a2 a' Hp2 HO2 HA2) as Y. rewrite CE, HS in Y.
  destruct (acts E a _) as [m|], (acts E2 a2 _) as [m2|], (acts _ a' _) as [m'|]; cbn [outcomes] in X, Y |- *; try contradiction; [|congruence].
  destruct (wf_chains _ _ _ X) as (X1 & X2 & X3 & _), (wf_chains _ _ _ Y) as (Y1 & Y2 & Y3 & _), (wf_state _ _ _ X) as (_ & _ & _ & X4), (wf_state _ _ _ Y) as (_ & _ & _ & Y4).
  pose proof (wf_files _ _ _ X). pose proof (wf_files _ _ _ Y). pose proof (wf_trace _ _ _ X). pose proof (wf_trace _ _ _ Y).
  destruct (wf_settings _ _ _ X) as [_ X5], (wf_settings _ _ _ Y) as [_ Y5], (wf_calls _ _ _ X) as [X6 X7], (wf_calls _ _ _ Y) as [Y6 Y7].
  do 7 (split; [congruence|]). rewrite X7, Y7, !map_map. transitivity (m_calls m').
  - rewrite <- (map_id (m_calls m')) at 2. apply map_ext_in. intros t Ht. rewrite Forall_forall in Y6. apply kept_fill. now apply Y6.
  - rewrite <- (map_id (m_calls m')) at 1. apply map_ext_in. intros t Ht. rewrite Forall_forall in X6. symmetry. apply kept_fill. now apply X6.
Qed.
Print Assumptions C95_only_through_the_model.

(** The demonstration problem has a parameter that is not sampled, between the two sampled ones.  A run, new options with a covariance
    for all three parameters, and a continued run. *)
Definition case_cov : list (list XQ) := [[Fin (1 # 50)%Q; Fin 7%Q; Fin (1 # 100)%Q]; [Fin 7%Q; Fin 9%Q; Fin 8%Q]; [Fin (1 # 100)%Q; Fin 8%Q; Fin (1 # 40)%Q]].
Definition case_cov' : list (list XQ) := [[Fin (1 # 50)%Q; Fin (1 # 100)%Q]; [Fin (1 # 100)%Q; Fin (1 # 40)%Q]].
Definition case_actions (q : list (list XQ)) : list (action XQ) :=
  [Run false; SetOptions (with_covariance (demo_opts_s2 3 DRAM) (Some q)); Run true].
Definition case_end : mcmc XQ := Eval vm_compute in match acts demo_env (case_actions case_cov) (demo_s2 4 AM) with Ok m => m | Err _ => demo_s2 4 AM end.
Lemma case_end_ok : acts demo_env (case_actions case_cov) (demo_s2 4 AM) = Ok case_end.
Proof. vm_compute. reflexivity. Qed.
Definition case_end' : mcmc XQ := Eval vm_compute in
  match acts (closed_env demo_params demo_env) (case_actions case_cov') (new_mcmc (sampled_params demo_params) demo_data demo_model (demo_opts_s2 4 AM) 0 []) with Ok m => m | Err _ => demo_s2 4 AM end.
Lemma case_end_ok' : acts (closed_env demo_params demo_env) (case_actions case_cov') (new_mcmc (sampled_params demo_params) demo_data demo_model (demo_opts_s2 4 AM) 0 []) = Ok case_end'.
Proof. vm_compute. reflexivity. Qed.
Example C95_case : (exists p, In p demo_params /\ a_sample p = true) /\ options_kept demo_params (demo_opts_s2 4 AM) (demo_opts_s2 4 AM) /\
  Forall2 (action_kept demo_params) (case_actions case_cov) (case_actions case_cov') /\
  without_fixed demo_params case_end case_end' /\ map (@List.length XQ) (m_calls case_end) <> map (@List.length XQ) (m_calls case_end') /\
  option_map (@rr_theta XQ) (m_results case_end) <> option_map (@rr_theta XQ) (m_results case_end') /\ List.length (m_chain case_end') = 6.
Proof.
  assert (A1 : exists p, In p demo_params /\ a_sample p = true) by (exists (par "a" (1 # 2) (1 # 4) (3 # 4) true); split; [left; reflexivity|reflexivity]).
  assert (A2 : options_kept demo_params (demo_opts_s2 4 AM) (demo_opts_s2 4 AM)) by (split; [reflexivity|split; [constructor|reflexivity]]).
  assert (A3 : Forall2 (action_kept demo_params) (case_actions case_cov) (case_actions case_cov')).
  { constructor; [reflexivity|]. constructor; [|constructor; [reflexivity|constructor]]. split; [reflexivity|]. split; [|reflexivity].
    apply (KMatrix demo_params case_cov); [reflexivity|repeat constructor]. }
  split; [exact A1|]. split; [exact A2|]. split; [exact A3|]. split.
  - pose proof (C95_fixed_are_constants demo_env demo_params demo_data demo_model _ _ 0 [] _ _ A1 A2 A3) as X.
    change (new_mcmc demo_params demo_data demo_model (demo_opts_s2 4 AM) 0 []) with (demo_s2 4 AM) in X. rewrite case_end_ok, case_end_ok' in X. exact X.
  - split; [discriminate|]. split; [discriminate|reflexivity].
Qed.
