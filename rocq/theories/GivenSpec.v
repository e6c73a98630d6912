(** What a covariance given by the user says about the sampled parameters. *)

From Coq Require Import List Reals.
From Verif Require Import Base Num Settings RVec StatSpec FixedSpec.
From Verif Require Simulator.
Import ListNotations.
Open Scope list_scope.
Open Scope R_scope.

(** [says ps Q C]: the array [Q], with rows and columns for all parameters declared or as a row or a column of
    variances, says that the covariance of the a-th and the b-th of the sampled parameters is [C a b]. *)
Inductive says (ps : list (param XR)) : list (list XR) -> (nat -> nat -> R) -> Prop :=
| SMatrix : forall M, (1 < length ps)%nat -> shape (length ps) (length ps) M ->
    says ps (finm M) (fun a b => nth b (kept ps (nth a (kept ps M) [])) 0)
| SRow : forall v, length v = length ps ->
    says ps (finm [v]) (fun a b => if Nat.eqb a b then nth a (kept ps v) 0 else 0)
| SColumn : forall v, length v = length ps ->
    says ps (finm (map (fun x => [x]) v)) (fun a b => if Nat.eqb a b then nth a (kept ps v) 0 else 0).

(** The covariance that a run starts with: that of the options, or, in a run that is not continued, that of the restart file. *)
Inductive starts_with (use_prev : bool) (m : Simulator.mcmc XR) : list (list XR) -> Prop :=
| FromOptions : forall Q, use_prev = true \/ o_restart (Simulator.m_opts m) = None -> o_qcov (Simulator.m_opts m) = Some Q -> starts_with use_prev m Q
| FromFile : forall r, use_prev = false -> o_restart (Simulator.m_opts m) = Some r -> starts_with use_prev m (rs_qcov r).
