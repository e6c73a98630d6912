(** Model of the default sum-of-squares function (procedures/SumOfSquares.py). *)

From Coq Require Import ZArith QArith Bool Lia List.
From Verif Require Import Base Num Samplers Adapt Settings.
Import ListNotations.
Open Scope list_scope.
Open Scope nat_scope.
Open Scope res_scope.

Section Proc.
Context {F : Type} `{NF : Num F}.

(** procedures/SumOfSquares.py 96-105.  A numpy array of at most two dimensions, written as rows x columns with its entries
    in row order.  For
    arithmetic a scalar is 1 x 1 and a one-dimensional array of length k is 1 x k (numpy's broadcasting). *)
Record arr : Type := mkarr { ar_rows : nat; ar_cols : nat; ar_ent : list F }.

(** procedures/SumOfSquares.py 104.  Common size of one axis. *)
Definition bdim (a b : nat) : option nat :=
  if a =? b then Some a else if a =? 1 then Some b else if b =? 1 then Some a else None.

(** procedures/SumOfSquares.py 104.  Entry of a broadcast array. *)
Definition bent (x : arr) (i j : nat) : F :=
  nth ((if ar_rows x =? 1 then 0 else i) * ar_cols x + (if ar_cols x =? 1 then 0 else j)) (ar_ent x) n0.

(** procedures/SumOfSquares.py 104.  [sum(weight*(ydata-ymodel)**2)]: Python's [sum] adds the rows (starting from 0) and
    gives one value per column; the result is stored into the scalar [ss[ibatch]], which works only for a single value. *)
Definition column_sum (weight : F) (y f : arr) (rows j : nat) : F :=
  fold_left nadd (map (fun i => nmul weight (nsqr (nsub (bent y i j) (bent f i j)))) (seq 0 rows)) n0.
(** procedures/SumOfSquares.py 104 *)
Definition batch_ss (weight : F) (y f : arr) : res F :=
  match bdim (ar_rows y) (ar_rows f), bdim (ar_cols y) (ar_cols f) with
  | Some rows, Some cols =>
      if rows =? 0 then Ok n0
      else if cols =? 1 then Ok (column_sum weight y f rows 0) else Err ValueError
  | _, _ => Err ValueError
  end.

(** procedures/SumOfSquares.py 96-105: [nbatch] data sets in order; [model] is the user's model function. *)
Fixpoint sos_loop (model : list F -> list F -> arr) (theta : list F) (d : data F) (ib n : nat) : res (list F) :=
  match n with
  | O => Ok []
  | S m =>
      let* ds := of_option IndexError (nth_error (dt_sets d) ib) in
      let* sh := of_option IndexError (nth_error (dt_shape d) ib) in
      let* v := batch_ss (d_weight ds) (mkarr (nth 0 sh 0) (nth 1 sh 0) (d_ys ds)) (model (d_xs ds) theta) in
      let* rest := sos_loop model theta d (S ib) m in
      Ok (nadd n0 v :: rest)
  end.
(** procedures/SumOfSquares.py 71-105 *)
Definition mcmc_sos_function (model : list F -> list F -> arr) (theta : list F) (d : data F) (nbatch : nat) : res (list F) :=
  sos_loop model theta d 0 nbatch.

End Proc.

Arguments arr F : clear implicits.
