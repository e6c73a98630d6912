(** Model of the deprecated functions of samplers/utilities.py, samplers/Metropolis.py and samplers/DelayedRejection.py. *)

From Coq Require Import ZArith QArith Bool List.
From Verif Require Import Base Num Samplers.
Import ListNotations.
Open Scope nat_scope.
Open Scope res_scope.

Section Deprecated.
Context {F : Type} `{NF : Num F}.
Variable E : env F.

(** procedures/PriorFunction.py 34-52: the value of a prior function, a number or (as with the default function) a
    1 x 1 array. *)
Inductive prior_value : Type :=
| PNumber (x : F)
| PArray (x : F).

(** procedures/PriorFunction.py 51: the number in it *)
Definition pv (p : prior_value) : F := match p with PNumber x | PArray x => x end.

(** samplers/Metropolis.py 166, samplers/DelayedRejection.py 211: Python's [sum] of a result [f] computed with two prior
    values.  With an array among them the result is a 1 x 1 array, whose sum is its only row (0 is added first); otherwise
    it is a number, which cannot be iterated over. *)
Definition sum_result (p q : prior_value) (f : F) : res F :=
  match p, q with
  | PNumber _, PNumber _ => Err TypeError
  | _, _ => Ok (nadd n0 f)
  end.

(** samplers/utilities.py 56-81 (the message left out): the uniform is drawn only if the first test fails. *)
Definition acceptance_test (alpha : F) (s : io F) : bool * io F :=
  if nle n1 alpha then (true, s)
  else let (u, s') := rand E s in (nlt u alpha, s').

(** samplers/Metropolis.py 113-166 *)
Definition calculate_posterior_ratio (ss1 ss2 sigma2 : list F) (newprior oldprior : prior_value) : res F :=
  let* d := bcast2 nsub ss1 ss2 in
  let* q := bcast2 nmul d (map ninv sigma2) in
  let alpha := nexp (nmul mhalf (nsub (nadd (vsum q) (pv newprior)) (pv oldprior))) in
  sum_result newprior oldprior alpha.

(** samplers/DelayedRejection.py 198-211 (the message left out).  [x1] and [x2] are given with their prior values. *)
Definition log_posterior_ratio (x1 x2 : pset F) (p1 p2 : prior_value) : res F :=
  let* q2 := bcast2 nmul (p_ss x2) (map ninv (p_sigma2 x2)) in
  let* q1 := bcast2 nmul (p_ss x1) (map ninv (p_sigma2 x1)) in
  let* d := bcast2 nsub q2 q1 in
  let zq := nmul mhalf (nsub (nadd (vsum d) (pv p2)) (pv p1)) in
  sum_result p1 p2 zq.
End Deprecated.
