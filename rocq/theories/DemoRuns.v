(** Executed sessions, used as witnesses that the hypotheses of theorems about runs can be met. *)

From Coq Require Import ZArith QArith Bool Lia List String.
From Verif Require Import Base Num Samplers Adapt Settings Simulator Demo RunSpec.
Import ListNotations.
Open Scope list_scope.
Open Scope nat_scope.

Definition run_of (r : res (mcmc XQ)) (dflt : mcmc XQ) : mcmc XQ :=
  match r with Ok m => m | Err _ => dflt end.

Definition stages (m : mcmc XQ) : list (nat * bool) :=
  map (fun e => (ev_stage e, ev_outb e)) (rev (m_trace m)).

(** A fresh run of 12 simulations with delayed rejection and adaptation every 4 iterations. *)
Definition dram12 : mcmc XQ := Eval vm_compute in run_of (run_simulation demo_env false (demo 12 DRAM)) (demo 12 DRAM).
Lemma dram12_ok : run_simulation demo_env false (demo 12 DRAM) = Ok dram12.
Proof. vm_compute. reflexivity. Qed.
(** Its iterations: first-stage acceptances, second-stage acceptances and rejections all occur. *)
Lemma dram12_stages : map fst (stages dram12) = [1; 0; 1; 1; 1; 0; 1; 1; 2; 2; 2].
Proof. vm_compute. reflexivity. Qed.

(** Adaptive Metropolis; some rejections are due to the limits. *)
Definition am12 : mcmc XQ := Eval vm_compute in run_of (run_simulation demo_env false (demo 12 AM)) (demo 12 AM).
Lemma am12_ok : run_simulation demo_env false (demo 12 AM) = Ok am12.
Proof. vm_compute. reflexivity. Qed.
Lemma am12_stages : stages am12 =
  [(1, false); (0, true); (1, false); (1, false); (1, false); (1, false); (0, false); (0, false);
   (1, false); (0, true); (1, false)].
Proof. vm_compute. reflexivity. Qed.

(** A run with estimation of the error variance, then a resumed run. *)
Definition first6 : mcmc XQ := Eval vm_compute in run_of (run_simulation demo_env false (demo_s2 6 DRAM)) (demo_s2 6 DRAM).
Lemma first6_ok : run_simulation demo_env false (demo_s2 6 DRAM) = Ok first6.
Proof. vm_compute. reflexivity. Qed.
Definition resumed6 : mcmc XQ := Eval vm_compute in run_of (run_simulation demo_env true first6) first6.
Lemma resumed6_ok : run_simulation demo_env true first6 = Ok resumed6.
Proof. vm_compute. reflexivity. Qed.

Lemma session_dram12 : session demo_env demo_params dram12.
Proof.
  exists demo_data, demo_model, (demo_opts 12 DRAM), 0, [], [Run false].
  cbn [acts act]. change (new_mcmc demo_params demo_data demo_model (demo_opts 12 DRAM) 0 []) with (demo 12 DRAM).
  rewrite dram12_ok. reflexivity.
Qed.
Lemma session_am12 : session demo_env demo_params am12.
Proof.
  exists demo_data, demo_model, (demo_opts 12 AM), 0, [], [Run false].
  cbn [acts act]. change (new_mcmc demo_params demo_data demo_model (demo_opts 12 AM) 0 []) with (demo 12 AM).
  rewrite am12_ok. reflexivity.
Qed.
Lemma session_first6 : session demo_env demo_params first6.
Proof.
  exists demo_data, demo_model, (demo_opts_s2 6 DRAM), 0, [], [Run false].
  cbn [acts act].
  change (new_mcmc demo_params demo_data demo_model (demo_opts_s2 6 DRAM) 0 []) with (demo_s2 6 DRAM).
  rewrite first6_ok. reflexivity.
Qed.
Lemma session_resumed6 : session demo_env demo_params resumed6.
Proof.
  exists demo_data, demo_model, (demo_opts_s2 6 DRAM), 0, [], [Run false; Run true].
  cbn [acts act].
  change (new_mcmc demo_params demo_data demo_model (demo_opts_s2 6 DRAM) 0 []) with (demo_s2 6 DRAM).
  rewrite first6_ok. cbn [bind]. rewrite resumed6_ok. reflexivity.
Qed.
