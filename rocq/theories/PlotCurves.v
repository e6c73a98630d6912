(** Model of plotting/utilities.py: grids, densities, bandwidths and ellipses (126-150, 181-276).

    [cos], [sin], [pi] and the Cholesky routine of the matrix library are parameters. *)

From Coq Require Import ZArith QArith Bool List Arith.
From Verif Require Import Base Num ChainStats PlotUtil.
Import ListNotations.
Close Scope Q_scope.
Open Scope list_scope.
Open Scope nat_scope.

Section Curves.
Context {F : Type} `{NF : Num F}.

(** plotting/utilities.py 146, 148, 236: [np.linspace(a, b, n)]: [a + i*step], the last point being set to [b] *)
Definition linspace (a b : F) (n : nat) : list F :=
  match n with
  | 0 => []
  | 1 => [a]
  | S k => let step := ndiv (nsub b a) (nnat k) in
           map (fun i => nadd (nmul (nnat i) step) a) (range k) ++ [b]
  end.

(** plotting/utilities.py 142-143: [min(x)], [max(x)] of Python over a vector; an empty one raises ValueError *)
Definition pymin_of (x : list F) : res F :=
  match x with [] => Err ValueError | a :: t => Ok (fold_left pymin t a) end.
(** plotting/utilities.py 143 *)
Definition pymax_of (x : list F) : res F :=
  match x with [] => Err ValueError | a :: t => Ok (fold_left pymax t a) end.

(** plotting/utilities.py 148, 208, 210: [np.std(x, ddof=1)] *)
Definition std1 (x : list F) : F := nsqrt (var1 x).

(** plotting/utilities.py 126-150; the result is a column, given here as a list *)
Definition make_x_grid (x : list F) (npts : nat) : res (list F) :=
  let* xmin := pymin_of x in
  let* xmax := pymax_of x in
  let xxrange := nsub xmax xmin in
  if 200 <? List.length x then
    Ok (linspace (nsub xmin (nmul (nQ (8#100)) xxrange)) (nadd xmax (nmul (nQ (8#100)) xxrange)) npts)
  else
    Ok (linspace (nsub (mean x) (nmul (nQ 4) (std1 x))) (nadd (mean x) (nmul (nQ 4) (std1 x))) npts).

(** plotting/utilities.py 181-194.  [math.sqrt] refuses negative numbers; Python's division refuses 0 *)
Definition gaussian_density_function (pi x mu sigma2 : F) : res F :=
  let v := nmul (nmul (nQ 2) pi) sigma2 in
  if nlt v n0 then Err ValueError
  else
    let s := nsqrt v in
    if neq s n0 then Err ZeroDivision
    else if neq sigma2 n0 then Err ZeroDivision
    else Ok (nmul (ndiv n1 s) (nexp (ndiv (nmul (nQ (-1#2)) (nsqr (nsub x mu))) sigma2))).

(** plotting/utilities.py 197-212, for one column of values; [iqrange] leaves a single column as it is (each of its
    rows has one entry), so both calls see the same array *)
Definition scale_bandwidth (x : list F) : res F :=
  let n := List.length x in
  let root := npow (nnat n) (nQ (-1#5)) in
  let* iqr := snd (iqrange 1 (map (fun v => [v]) x)) in
  let q := nth 0 iqr n0 in
  if nle q n0 then Ok (nmul (nQ (106#100)) (nmul (std1 x) root))
  else Ok (nmul (nQ (106#100)) (nmul (pymin (std1 x) (ndiv q (nQ (134#100)))) root)).

(** plotting/utilities.py 245-256: one comparison of [np.allclose], relative tolerance 1e-5 *)
Definition isclose (atol a b : F) : bool :=
  let finite x := negb (nisnan x) && negb (nisinf x) in
  if finite a && finite b then nle (nabs (nsub a b)) (nadd atol (nmul (nQ (1#100000)) (nabs b)))
  else neq a b.

(** plotting/utilities.py 245-256, for a square matrix *)
Definition check_symmetric (a : list (list F)) (tol : F) : bool :=
  let n := List.length a in
  forallb (fun i => forallb (fun j => isclose tol (nth j (nth i a []) n0) (nth i (nth j a []) n0)) (range n)) (range n).

(** plotting/utilities.py 259-276; [chol] is [np.linalg.cholesky], [None] where it raises LinAlgError *)
Definition is_semi_pos_def_chol (chol : list (list F) -> option (list (list F))) (x : list (list F)) : option (list (list F)) :=
  match chol x with Some c => Some (transpose c) | None => None end.

(** plotting/utilities.py 231: [cmat.shape != (2, 2)] *)
Definition two_by_two (m : list (list F)) : bool :=
  (List.length m =? 2) && forallb (fun r => List.length r =? 2) m.

(** plotting/utilities.py 216-242 *)
Definition generate_ellipse (cos sin : F -> F) (pi : F) (chol : list (list F) -> option (list (list F)))
    (mu : list F) (cmat : list (list F)) (ndp : nat) : res (list F * list F) :=
  if negb (two_by_two cmat) then Err SysExit
  else if negb (check_symmetric cmat (nQ (1#100000000))) then Err SysExit
  else
    let t := linspace n0 (nmul (nQ 2) pi) ndp in
    match is_semi_pos_def_chol chol cmat with
    | None => Err SysExit
    | Some R =>
        let r i j := nth j (nth i R []) n0 in
        let* mu0 := of_option IndexError (nth_error mu 0) in
        let x := map (fun t => nadd mu0 (nmul (r 0 0) (cos t))) t in
        let* mu1 := of_option IndexError (nth_error mu 1) in
        let y := map (fun t => nadd (nadd mu1 (nmul (r 0 1) (cos t))) (nmul (r 1 1) (sin t))) t in
        Ok (x, y)
    end.

End Curves.
