(** Model of plotting/utilities.py: subplot grids, interquartile range, quantiles, subsampling, local parameters.

    Names (lines 33-54, 79-122) are in ChainStats.v.  make_x_grid, gaussian_density_function and
    scale_bandwidth are in PlotCurves.v, plots in Panels.v. *)

From Coq Require Import ZArith QArith Qround Bool Lia List Arith.
From Verif Require Import Base Num ChainFiles.
Import ListNotations.
Close Scope Q_scope.
Open Scope list_scope.
Open Scope nat_scope.

(** ** Subplot grid: lines 15-30 *)

(** plotting/utilities.py 28: [math.ceil(math.sqrt(n))], with the square root taken exactly *)
Definition ceil_sqrt (n : nat) : nat := let k := Nat.sqrt n in if k * k =? n then k else k + 1.
(** plotting/utilities.py 29: [round(math.sqrt(n))]; a square root of a natural number is never half-way between
    two integers, so it is rounded down iff [n <= k*k + k] *)
Definition round_sqrt (n : nat) : nat := let k := Nat.sqrt n in if n <=? k * k + k then k else k + 1.
(** plotting/utilities.py 15-30 *)
Definition generate_subplot_grid (nparam : nat) : nat * nat := (ceil_sqrt nparam, round_sqrt nparam).

(** ** Subsampling: lines 399-422 *)

(** plotting/utilities.py 422.  [np.arange(0, n, step)]; a step of 0 raises ZeroDivisionError *)
Definition arange (n step : nat) : res (list nat) :=
  if step =? 0 then Err ZeroDivision
  else Ok (map (fun i => i * step) (range ((n + step - 1) / step))).

(** plotting/utilities.py 399-422, for [skip], [maxpoints] >= 0; line 421 divides by [maxpoints] *)
Definition setup_subsample (skip maxpoints nsimu : nat) : res (list nat) :=
  if maxpoints <? nsimu then
    if maxpoints =? 0 then Err ZeroDivision else arange nsimu (nsimu / maxpoints)
  else arange nsimu skip.

(** ** Local parameters: lines 320-340 *)
(** plotting/utilities.py 320-340 *)
Definition set_local_parameters (ii : nat) (local : list nat) : list bool :=
  map (fun l => (l =? 0) || (l =? ii)) local.

Section PlotUtil.
Context {F : Type} `{NF : Num F}.

(** ** [np.sort] of a vector: increasing, NaN last *)
(** plotting/utilities.py 355-361 *)
Definition sorted_before (x y : F) : bool := nle x y || nisnan y.
(** plotting/utilities.py 355-361 *)
Fixpoint insert (x : F) (l : list F) : list F :=
  match l with
  | [] => [x]
  | y :: t => if sorted_before x y then x :: l else y :: insert x t
  end.
(** plotting/utilities.py 355-361 *)
Definition sort (l : list F) : list F := fold_right insert [] l.

(** ** Quantiles: lines 344-362; propagation.py 521-539 is the same code *)

(** plotting/utilities.py 344-362.  [interp1d(range(n), y)(v)] of scipy for sorted data [y] of length n, linear: the
    interval used is
    [hi-1, hi] with [hi] the first grid point not below [v], clipped to [1, n-1]; index -1 (n = 1) is the last. *)
Definition interp_at (y : list F) (v : Q) : F :=
  let n := List.length y in
  let hi := Nat.min (Nat.max 1 (Z.to_nat (Qceiling v))) (n - 1) in
  let lo := if hi =? 0 then n - 1 else hi - 1 in
  let slope := ndiv (nsub (nth hi y n0) (nth lo y n0)) (nsub (nnat hi) (nnat lo)) in
  nadd (nmul slope (nsub (nQ v) (nnat lo))) (nth lo y n0).

(** plotting/utilities.py 361: [(n-1)*p], formed exactly *)
Definition itpoint (n : nat) (p : Q) : Q := inject_Z (Z.of_nat (n - 1)) * p.
(** plotting/utilities.py 344-362.  [interp1d] refuses an empty grid and evaluation points outside of it *)
Definition in_grid (n : nat) (v : Q) : bool := Qle_bool 0 v && Qle_bool v (inject_Z (Z.of_nat (n - 1))).

(** plotting/utilities.py 344-362, propagation.py 521-539.  [x] has [ncol] columns; the result has one row per entry of [p]. *)
Definition empirical_quantiles (ncol : nat) (x : list (list F)) (p : list Q) : res (list (list F)) :=
  let n := List.length x in
  if n =? 0 then Err ValueError
  else if forallb (fun p => in_grid n (itpoint n p)) p then
    Ok (map (fun p => map (fun j => interp_at (sort (col j x)) (itpoint n p)) (range ncol)) p)
  else Err ValueError.

(** ** Interquartile range: lines 155-178 *)

(** plotting/utilities.py 172-177 for one of the quartiles, [num] being 1 or 3: position [num*(nr+1)/4], its integer part
    and the rest *)
Definition quartile (nc nr : nat) (x : list (list F)) (num : nat) : res (list F) :=
  let i := num * (nr + 1) / 4 in
  let f := ((inject_Z (Z.of_nat (num * (nr + 1))) / 4) - inject_Z (Z.of_nat i))%Q in
  let* a := of_option IndexError (nth_error x i) in
  let* b := of_option IndexError (nth_error x (i + 1)) in
  Ok (map (fun j => nadd (nmul (nsub n1 (nQ f)) (nth j a n0)) (nmul (nQ f) (nth j b n0))) (range nc)).

(** plotting/utilities.py 155-178; [x] has [nc] columns.  [x.sort()] sorts in place along the last axis, that is
    within each row; the array given by the caller is changed, and is returned beside the value. *)
Definition iqrange (nc : nat) (x : list (list F)) : list (list F) * res (list F) :=
  let nr := List.length x in
  let '(x, nr, nc) :=
    match x with
    | [r] => (map (fun v => [v]) r, nc, 1)
    | _ => (x, nr, nc)
    end in
  let x := map sort x in
  (x,
   let* q1 := quartile nc nr x 1 in
   let* q3 := quartile nc nr x 3 in
   Ok (map2 nsub q3 q1)).

End PlotUtil.
