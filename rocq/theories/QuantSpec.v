(** Reference notions for quantiles: linear interpolation in a list of real numbers, sorted samples.
    No definition here refers to the model. *)

From Coq Require Import List Reals Sorted Permutation.
Import ListNotations.
Open Scope R_scope.

(** [s] lists the values of [l] in increasing order *)
Definition ordered (l s : list R) : Prop := Permutation l s /\ StronglySorted Rle s.

(** linear interpolation through the points (0, y_0), (1, y_1), ... *)
Fixpoint interp (y : list R) (v : R) : R :=
  match y with
  | [] => 0
  | [a] => a
  | a :: ((b :: _) as t) => if Rle_dec v 1 then a + v * (b - a) else interp t (v - 1)
  end.
