(** Executed runs showing adaptation, and those that contradict the documentation. *)

From Coq Require Import ZArith QArith Bool Lia List String.
From Verif Require Import Base Num Samplers Adapt Settings Simulator Demo RunSpec DemoRuns.
Import ListNotations.
Open Scope list_scope.
Open Scope nat_scope.
Open Scope res_scope.

Definition adapt_raw (us : bool) (nsimu : nat) (m : method) (adaptint : Z) (ntry : option nat) (lastadapt burnin : Z)
  : rawopts XQ :=
  mkraw nsimu m (Some adaptint) ntry None None None lastadapt burnin None None us (Fin (1 # 1000)%Q) (Fin 10%Q)
        (Fin (234 # 1000)%Q) (Fin (7 # 10)%Q) [Fin 5%Q; Fin 4%Q; Fin 3%Q] None 0%Z
        "chainfile" "sschainfile" "s2chainfile" "covchainfile" (Some "log"%string) false false false false None None.
Definition adapt_start us nsimu m adaptint ntry lastadapt burnin : mcmc XQ :=
  new_mcmc demo_params demo_data demo_model
    (define_simulation_options (adapt_raw us nsimu m adaptint ntry lastadapt burnin) "") 0 [].

(** The statistics in force at each iteration: (last adaptation, weight). *)
Definition weights (m : mcmc XQ) : list (nat * option XQ) :=
  map (fun e => (c_last (ev_cov e), c_wsum (ev_cov e))) (rev (m_trace m)).

(** [lastadapt] = 4 with adaptation every 4 iterations; the adaptation at iteration 8 takes place all the same. *)
Definition late_start : mcmc XQ := adapt_start false 10 AM 4 None 4 0.
Definition late : mcmc XQ := Eval vm_compute in run_of (run_simulation demo_env false late_start) late_start.
Lemma late_ok : run_simulation demo_env false late_start = Ok late.
Proof. vm_compute. reflexivity. Qed.
Lemma late_weights : weights late =
  [(0, None); (0, None); (0, None); (0, None);
   (4, Some (Fin 4%Q)); (4, Some (Fin 4%Q)); (4, Some (Fin 4%Q)); (4, Some (Fin 4%Q)); (8, Some (Fin 8%Q))].
Proof. vm_compute. reflexivity. Qed.
Lemma late_changed : exists e e', nth_error (rev (m_trace late)) 7 = Some e /\ nth_error (rev (m_trace late)) 8 = Some e' /\
  c_R (ev_cov e) <> c_R (ev_cov e').
Proof. do 2 eexists. split; [vm_compute; reflexivity|]. split; [vm_compute; reflexivity|]. vm_compute. discriminate. Qed.

(** A run of 6 simulations, resumed for 10. *)
Definition half_start : mcmc XQ := adapt_start true 6 AM 4 None 0 0.
Definition half : mcmc XQ := Eval vm_compute in run_of (run_simulation demo_env false half_start) half_start.
Lemma half_ok : run_simulation demo_env false half_start = Ok half.
Proof. vm_compute. reflexivity. Qed.
Definition half_more : mcmc XQ := with_opts half (define_simulation_options (adapt_raw true 10 AM 4 None 0 0) "").
Definition both : mcmc XQ := Eval vm_compute in run_of (run_simulation demo_env true half_more) half_more.
Lemma both_ok : run_simulation demo_env true half_more = Ok both.
Proof. vm_compute. reflexivity. Qed.
(** 15 rows, but a weight of 18. *)
Lemma both_weights : List.length (m_chain both) = 15 /\
  exists e, In e (m_trace both) /\ c_wsum (ev_cov e) = Some (Fin 18%Q).
Proof.
  split; [vm_compute; reflexivity|]. exists (hd (mkev (mkcov [] [] n0 [] None None None 0 RUnset None) 0 0 false 0) (m_trace both)).
  split; [left; reflexivity|vm_compute; reflexivity].
Qed.

(** Burn-in with delayed rejection: the run fails. *)
Lemma burnin_dram : run_simulation demo_env false (adapt_start false 12 DRAM 4 None 0 5) = Err TypeError.
Proof. vm_compute. reflexivity. Qed.
(** Without burn-in it does not. *)
Lemma no_burnin_dram : exists m, run_simulation demo_env false (adapt_start false 12 DRAM 4 None 0 0) = Ok m.
Proof. eexists. vm_compute. reflexivity. Qed.
(** ntry = 2 with adaptive Metropolis: the run fails. *)
Lemma ntry_am : run_simulation demo_env false (adapt_start false 3 AM 4 (Some 2) 0 0) = Err AttributeError.
Proof. vm_compute. reflexivity. Qed.
(** The robust adaptation together with delayed rejection: when all tries are rejected the old set, whose alpha
    is None, is passed on, and the run fails. *)
Definition ram_dr_start : mcmc XQ :=
  new_mcmc demo_params demo_data demo_model
    (define_simulation_options
       (mkraw 2 DRAM (Some 1%Z) None (Some true) None None 0%Z 0%Z None None false (Fin (1 # 1000)%Q) (Fin 10%Q)
        (Fin (234 # 1000)%Q) (Fin (7 # 10)%Q) [Fin 5%Q; Fin 4%Q; Fin 3%Q] None 0%Z
        "chainfile" "sschainfile" "s2chainfile" "covchainfile" (Some "log"%string) false false false false None None) "") 3 [].
Lemma ram_dr : run_simulation demo_env false ram_dr_start = Err TypeError.
Proof. vm_compute. reflexivity. Qed.

(** Burn-in with adaptive Metropolis. *)
Definition warm_start : mcmc XQ := adapt_start false 7 AM 2 None 0 5.
Definition warm : mcmc XQ := Eval vm_compute in run_of (run_simulation demo_env false warm_start) warm_start.
Lemma warm_ok : run_simulation demo_env false warm_start = Ok warm.
Proof. vm_compute. reflexivity. Qed.
(** No candidate is rejected between iterations 2 and 4, so the factor is multiplied by ten there. *)
Lemma warm_factors : map (fun e => (c_R (ev_cov e), ev_stage e)) (rev (m_trace warm)) =
  let small := [[Fin (1 # 40)%Q; Fin 0%Q]; [Fin 0%Q; Fin (1 # 40)%Q]] in
  let big := [[Fin (1 # 4)%Q; Fin 0%Q]; [Fin 0%Q; Fin (1 # 4)%Q]] in
  [(small, 1%nat); (small, 0%nat); (small, 1%nat); (small, 1%nat); (big, 0%nat); (big, 0%nat)].
Proof. vm_compute. reflexivity. Qed.
