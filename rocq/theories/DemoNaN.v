(** A run whose sum-of-squares function is undefined in part of the parameter space: example for C13. *)

From Coq Require Import ZArith QArith Bool Lia List String.
From Verif Require Import Base Num Samplers Adapt Settings Simulator Demo.
Import ListNotations.
Open Scope list_scope.
Open Scope nat_scope.

(** undefined to the right of 3/5 *)
Definition nan_sos (v : list XQ) : list XQ :=
  match v with
  | Fin x :: _ => if Qle_bool x (3 # 5) then [Fin (x * x)%Q] else [NaN]
  | _ => [NaN]
  end.
Definition nan_env : env XQ := mkenv nan_sos default_priorfun demo_str demo_chol demo_inv 60.
Definition nan_params : list (param XQ) := [par "a" (1 # 2) (-5) 5 true].
Definition nan_raw (m : method) : rawopts XQ :=
  mkraw 3 m None None None None None 0%Z 0%Z (Some [[Fin 4%Q]]) None false (Fin (1 # 1000)%Q) (Fin 10%Q)
        (Fin (234 # 1000)%Q) (Fin (7 # 10)%Q) [Fin 5%Q] None 0%Z
        "chainfile" "sschainfile" "s2chainfile" "covchainfile" (Some "log"%string) false false false false None None.
Definition nan_start (pos : nat) (m : method) : mcmc XQ :=
  new_mcmc nan_params demo_data demo_model (define_simulation_options (nan_raw m) "") pos [].

(** From position 7 of the stream: the second try of the first iteration lands in the undefined part. *)
Definition nan7 : mcmc XQ :=
  Eval vm_compute in match run_simulation nan_env false (nan_start 7 DR) with Ok m => m | Err _ => nan_start 7 DR end.
Lemma nan7_ok : run_simulation nan_env false (nan_start 7 DR) = Ok nan7.
Proof. vm_compute. reflexivity. Qed.
Lemma nan7_calls : map nan_sos (m_calls nan7) =
  [[Fin (3721 # 22500)%Q]; [NaN]; [Fin (8281 # 2500)%Q]; [Fin (1 # 4)%Q]] /\
  m_sschain nan7 = [[Fin (1 # 4)%Q]; [Fin (1 # 4)%Q]; [Fin (3721 # 22500)%Q]].
Proof. vm_compute. split; reflexivity. Qed.

Lemma lcg_nonneg k : (0 <= lcg k)%Z.
Proof. unfold lcg. apply Z.mod_pos_bound. lia. Qed.
Lemma demo_unif_nonneg k : nlt (demo_unif k) (@n0 XQ _) = false.
Proof.
  unfold demo_unif. cbn [nlt Num_X xlt alt Arith_Q n0 nQ aQ]. unfold Qltb. apply negb_false_iff.
  apply Qle_bool_iff. rewrite Qred_correct. pose proof (lcg_nonneg (3 * k + 1)) as H. unfold Qle. cbn [Qnum Qden]. change (Qnum 0) with 0%Z. rewrite Z.mul_1_r. exact H.
Qed.
