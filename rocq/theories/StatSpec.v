(** Vocabulary for the adaptation: sample statistics of weighted rows, covariance matrices and their factors.
    Plain mathematics over the reals. *)

From Coq Require Import ZArith QArith Bool Lia List Reals Lra.
From Verif Require Import Base Num RVec RMat.
Import ListNotations.
Close Scope Q_scope.
Open Scope list_scope.
Open Scope R_scope.

(** A sample: rows with weights. *)
Definition sample : Type := list (list R * R).
Definition total (l : sample) : R := Rsum (map snd l).
Definition mean (l : sample) (j : nat) : R := Rsum (map (fun p => snd p * nth j (fst p) 0) l) / total l.
(** Sum of the weighted products of the deviations from the mean. *)
Definition scatter_sum (l : sample) (i j : nat) : R :=
  Rsum (map (fun p => snd p * ((nth i (fst p) 0 - mean l i) * (nth j (fst p) 0 - mean l j))) l).
(** Normalised by the total weight minus 1; 0 for a single row of weight 1 (where both are 0). *)
Definition covariance (l : sample) (i j : nat) : R := scatter_sum l i j / (total l - 1).

(** All weights are at least 1. *)
Definition heavy (l : sample) : Prop := Forall (fun p => 1 <= snd p) l.

(** The triple (covariance, mean, total weight) of an n-column sample, as the model holds it. *)
Definition stats_of (n : nat) (l : sample) : list (list XR) * list XR * XR :=
  (finm (table n n (covariance l)), fin (vtab n (mean l)), Fin (total l)).

(** A segment as passed to the update: rows, and either one weight per row or a single weight for all. *)
Definition weights_for (n : nat) (w : list R) : list R := match w with [a] => repeat a n | _ => w end.
Definition seg_sample (s : list (list R) * list R) : sample :=
  combine (fst s) (weights_for (length (fst s)) (snd s)).
Definition good_seg (n : nat) (s : list (list R) * list R) : Prop :=
  (forall r, In r (fst s) -> length r = n) /\ (length (snd s) = 1%nat \/ length (snd s) = length (fst s)) /\
  Forall (fun w => 1 <= w) (snd s).

(** Rows that all have weight 1. *)
Definition unit_weights (rows : list (list R)) : sample := map (fun r => (r, 1)) rows.

(** Unweighted textbook formulas. *)
Definition row_mean (rows : list (list R)) (j : nat) : R :=
  Rsum (map (fun r => nth j r 0) rows) / INR (length rows).
Definition row_cov (rows : list (list R)) (i j : nat) : R :=
  Rsum (map (fun r => (nth i r 0 - row_mean rows i) * (nth j r 0 - row_mean rows j)) rows) / (INR (length rows) - 1).

(** Symmetric, and positive semidefinite resp. definite, n x n matrix of entries. *)
Definition symmetric (n : nat) (C : nat -> nat -> R) : Prop :=
  forall i j, (i < n)%nat -> (j < n)%nat -> C i j = C j i.
Definition quad (n : nat) (C : nat -> nat -> R) (v : nat -> R) : R :=
  Sum n (fun i => Sum n (fun j => v i * C i j * v j)).
Definition psd (n : nat) (C : nat -> nat -> R) : Prop := forall v, 0 <= quad n C v.
Definition posdef (n : nat) (C : nat -> nat -> R) : Prop :=
  forall v, (exists k, (k < n)%nat /\ v k <> 0) -> 0 < quad n C v.

(** Entries of P' P for an n x n matrix P. *)
Definition gram (n : nat) (P : nat -> nat -> R) (i j : nat) : R := Sum n (fun k => P k i * P k j).
Definition upper_triangular (n : nat) (P : nat -> nat -> R) : Prop :=
  forall i j, (i < n)%nat -> (j < i)%nat -> P i j = 0.

(** What numpy promises: [np.linalg.cholesky] reads the lower triangle of M and, if it returns, returns a lower
    triangular L such that L L' agrees with M there (so L L' = M for symmetric M); [np.linalg.solve(M, eye)], if it returns, returns the inverse (M iM = I). *)
Definition factorises (chol : list (list XR) -> option (list (list XR))) : Prop :=
  forall n M c, (0 < n)%nat -> shape n n M -> chol (finm M) = Some c ->
  exists L, c = finm L /\ shape n n L /\ (forall i j, (i < j)%nat -> (j < n)%nat -> ent L i j = 0) /\
    forall i j, (i < n)%nat -> (j <= i)%nat -> Sum n (fun k => ent L i k * ent L j k) = ent M i j.
Definition mat_inverse (n : nat) (P iP : nat -> nat -> R) : Prop :=
  forall i j, (i < n)%nat -> (j < n)%nat -> Sum n (fun k => P i k * iP k j) = if (i =? j)%nat then 1 else 0.
Definition inverts (inv : list (list XR) -> option (list (list XR))) : Prop :=
  forall n M c, (0 < n)%nat -> shape n n M -> inv (finm M) = Some c ->
  exists iM, c = finm iM /\ shape n n iM /\ mat_inverse n (ent M) (ent iM).

(** [fac] is an upper triangular factor of the covariance [C] scaled by [s]^2. *)
Definition scaled_factor (n : nat) (fac : list (list XR)) (s : R) (C : nat -> nat -> R) : Prop :=
  exists P, fac = finm (table n n P) /\ upper_triangular n P /\
    forall i j, (i < n)%nat -> (j < n)%nat -> gram n P i j = s * s * C i j.

(** Divisor of the i-th delayed rejection stage: product of the first i entries of drscale, the last entry being
    repeated as often as necessary. *)
Definition stage_divisor (drscale : list R) (i : nat) : R :=
  Prod i (fun k => nth (Nat.min k (length drscale - 1)) drscale 0).

(** Factors [Ps] of ntry stages, with inverses [iPs]: stage i uses the first factor divided by the divisor of the stage. *)
Definition stage_factors (n ntry : nat) (drscale : list R) (P : nat -> nat -> R) (Ps iPs : list (list (list XR))) : Prop :=
  length Ps = ntry /\ length iPs = ntry /\
  forall i, (i < ntry)%nat -> exists Pi iPi,
    nth_error Ps i = Some (finm (table n n Pi)) /\ nth_error iPs i = Some (finm (table n n iPi)) /\
    (forall a b, (a < n)%nat -> (b < n)%nat -> Pi a b = P a b / stage_divisor drscale i) /\
    mat_inverse n Pi iPi.
