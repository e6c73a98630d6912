(** Model of the part of samplers/Adaptation.py that updates a Cholesky factor beside the covariance. *)

From Coq Require Import ZArith QArith Bool List.
From Verif Require Import Base Num Samplers Adapt.
Import ListNotations.
Open Scope nat_scope.

Section CholLoop.
Context {F : Type} `{NF : Num F}.

(** samplers/Adaptation.py 288-305 *)
Definition setup_cholupdate (R : mat) (oldwsum wsum : F) (oldmean xi : list F) : mat * list F :=
  let den := ninv (nsub (nadd wsum oldwsum) n1) in
  (mscale (nsqrt (nmul (nsub oldwsum n1) den)) R,
   vscale (nsqrt (nmul (nmul (nmul wsum oldwsum) den) (ninv (nadd wsum oldwsum)))) (vsub xi oldmean)).

(** samplers/Adaptation.py 210-224, one pass of the loop with [oldR] given *)
Definition cov_row_R (st : mat * list F * F * mat) (xi_w : list F * F) : mat * list F * F * mat :=
  let '(oldcov, oldmean, oldwsum, R) := st in
  let '(Rin, xin) := setup_cholupdate R oldwsum (snd xi_w) oldmean (fst xi_w) in
  (cov_row (oldcov, oldmean, oldwsum) xi_w, cholupdate Rin xin).

(** samplers/Adaptation.py 186-225 with [oldR] and an old covariance given.  The code keeps the factor in a local
    variable and does not return it; here it is returned, so that something can be said about it. *)
Definition update_covariance_mean_sum_R (x : mat) (w : list F) (old : mat * list F * F) (oldR : mat)
  : mat * list F * F * mat :=
  let n := length x in
  if (n =? 0) || (ncols x =? 0) then (old, oldR)
  else fold_left cov_row_R (combine x (setup_w w n)) (old, oldR).
End CholLoop.
