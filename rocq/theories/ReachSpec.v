(** Proposals that can reach every point: what they are, and what a user has to provide for it.  Stated on matrices, the
    declarations and the settings. *)

From Coq Require Import ZArith QArith Bool Lia List String Reals Lra.
From Verif Require Import Base Num Samplers Adapt Settings Simulator RunSpec CompleteSpec RVec RMat NumberSpec.
Import ListNotations.
Close Scope Q_scope.
Open Scope list_scope.
Open Scope R_scope.

(** From every point of n-dimensional space to every other leads exactly one vector of n normal draws. *)
Definition reaches (n : nat) (P : list (list XR)) : Prop :=
  forall x y : list R, List.length x = n -> List.length y = n ->
  exists z, (List.length z = n /\ vadd (fin x) (vecmat (fin z) P) = fin y) /\
            forall z', List.length z' = n -> vadd (fin x) (vecmat (fin z') P) = fin y -> z' = z.

(** A factor given by the user for a stage of delayed rejection. *)
Definition regular (n : nat) (P : list (list XR)) : Prop := square n P /\ every number P /\ reaches n P.

(** The libraries: normals are numbers, and the factorisation of a matrix of numbers, if there is one, is lower triangular
    with a positive diagonal. *)
Record sound_library (E : env XR) : Prop := mksl {
  sl_normal : forall k, number (s_normal (e_str E) k);
  sl_chol : forall A L, every number A -> e_chol E A = Some L ->
    exists n f, square n A /\ L = finm (table n n f) /\ (forall i j, (i < j)%nat -> (j < n)%nat -> f i j = 0) /\ forall i, (i < n)%nat -> 0 < f i i
}.

(** A covariance that is not factorised by the library, because it was given as variances only or because a single parameter
    is sampled, has positive variances for the sampled parameters. *)
Record positive_variances (ix : list nat) (q : list (list XR)) : Prop := mkpv {
  pv_vector : as_vector q -> forall i, In i ix -> (i < List.length (List.concat q))%nat -> positive (nth i (List.concat q) n0);
  pv_single : ~ as_vector q -> forall i, ix = [i] -> positive (nth i (nth i q []) n0)
}.

(** Options of numbers, without the robust adaptive Metropolis rule; a covariance given by the user or read from results of
    an earlier run has positive variances. *)
Record reaching_options (ps : list (param XR)) (o : simopts XR) : Prop := mkro {
  ro_usable : usable_options o;
  ro_qcov : forall q, o_qcov o = Some q -> positive_variances (positions ps) q;
  ro_RDR : forall l, o_RDR o = Some l -> Forall (regular (List.length (positions ps))) l;
  ro_restart : forall r, o_restart o = Some r ->
    Forall number (rs_theta r) /\ usable_cov (rs_qcov r) /\ positive_variances (positions ps) (rs_qcov r)
}.

(** All options set in a course of actions. *)
Definition options_set (P : simopts XR -> Prop) (a : action XR) : Prop :=
  match a with SetOptions o => P o | _ => True end.
