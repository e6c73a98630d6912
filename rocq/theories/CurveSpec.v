(** Reference notions for grids, ellipses and bandwidths of plots.  No definition here refers to the model. *)

From Coq Require Import List Reals.
From Verif Require Import RVec StatsSpec.
Import ListNotations.
Open Scope R_scope.

(** [g] consists of [n] points from [a] in equal steps, the last of which (if there are two or more) is [b] *)
Definition evenly (a b : R) (n : nat) (g : list R) : Prop :=
  length g = n /\ forall i, (i < n)%nat -> nth i g 0 = a + INR i * ((b - a) / INR (n - 1)).

Definition sd (l : list R) : R := sqrt (Rvar l).
Definition least (l : list R) (v : R) : Prop := In v l /\ forall x, In x l -> v <= x.
Definition greatest (l : list R) (v : R) : Prop := In v l /\ forall x, In x l -> x <= v.

(** the two off-diagonal entries differ by no more than 1e-8 plus 1e-5 of either of them *)
Definition nearly_equal (b c : R) : Prop :=
  Rabs (b - c) <= / 10 ^ 8 + / 10 ^ 5 * Rabs b /\ Rabs (b - c) <= / 10 ^ 8 + / 10 ^ 5 * Rabs c.

(** density of the normal distribution *)
Definition normal_density (x mu v : R) : R := / sqrt (2 * PI * v) * exp (- (x - mu)² / (2 * v)).
