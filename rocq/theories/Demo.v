(** Concrete runs of the model on rationals, used as examples and counterexamples. *)

From Coq Require Import ZArith QArith Bool Lia List String.
From Verif Require Import Base Num Samplers Adapt Settings Simulator.
Import ListNotations.
Open Scope list_scope.
Open Scope nat_scope.

Definition qx (q : Q) : XQ := Fin q.

(** A plain Cholesky factorisation (lower factor, [None] if a pivot is not positive), standing for
    [np.linalg.cholesky]. *)
Definition chol_row (done : list (list XQ)) (row : list XQ) : list XQ :=
  (* entries l_ij for j < i, left to right *)
  fold_left (fun acc j =>
               let lj := nth j done [] in
               let s := fold_left nadd (map2 nmul acc lj) n0 in
               acc ++ [ndiv (nsub (nth j row n0) s) (nth j lj n0)])
            (seq 0 (List.length done)) [].
Fixpoint chol_go (n : nat) (done rows : list (list XQ)) : option (list (list XQ)) :=
  match rows with
  | [] => Some done
  | row :: t =>
      let i := List.length done in
      let l := chol_row done row in
      let d := nsub (nth i row n0) (vdot l l) in
      if nlt n0 d then
        chol_go n (done ++ [l ++ [nsqrt d] ++ repeat n0 (n - i - 1)]) t
      else None
  end.
Definition demo_chol (m : list (list XQ)) : option (list (list XQ)) := chol_go (List.length m) [] m.

(** Inverse of an upper triangular matrix by back substitution ([None] on a zero pivot), standing for
    [np.linalg.solve(R, I)]. *)
Definition inv_col (m : list (list XQ)) (n j : nat) : list XQ :=
  fold_left (fun acc i' =>
               let i := n - 1 - i' in
               let row := nth i m [] in
               let s := vdot (skipn (S i) row) acc in
               let b := if i =? j then n1 else n0 in
               ndiv (nsub b s) (nth i row n0) :: acc)
            (seq 0 n) [].
Definition demo_inv (m : list (list XQ)) : option (list (list XQ)) :=
  let n := List.length m in
  if existsb (fun i => neq (nth i (nth i m []) n0) n0) (seq 0 n) then None
  else Some (transpose (map (inv_col m n) (seq 0 n))).

(** A deterministic stream that looks random enough. *)
Definition lcg (k : nat) : Z := ((Z.of_nat k * 7919 + 13) * (Z.of_nat k + 31) mod 1009)%Z.
Definition demo_normal (k : nat) : XQ := Fin (Qred (Qmake (lcg k - 504) 300)).
Definition demo_unif (k : nat) : XQ := Fin (Qred (Qmake (lcg (3 * k + 1)) 1009)).
Definition demo_str : stream XQ := mkstream demo_normal demo_unif.

(** SS of a one- or two-parameter Gaussian-like problem. *)
Definition demo_sos (v : list XQ) : list XQ := [vsum (map (fun x => nmul (Fin 60%Q) (nsqr (nsub x (Fin (3 # 10)%Q)))) v)].

Definition demo_env : env XQ :=
  mkenv demo_sos default_priorfun demo_str demo_chol demo_inv 60.

Definition par (name : string) (t lo hi : Q) (sample : bool) : param XQ :=
  mkparam name (Fin t) (Fin lo) (Fin hi) (Fin 0%Q) PInf sample true.

Definition demo_params : list (param XQ) :=
  [par "a" (1 # 2) (1 # 4) (3 # 4) true; par "c" 5 0 1 false; par "b" (-1 # 2) (-51 # 100) 1 true].

Definition demo_data : data XQ :=
  add_data_set empty_data [] (YArray [4; 1]) [] None n1.

Definition demo_raw (us bin txt : bool) (nsimu : nat) (m : method) : rawopts XQ :=
  mkraw nsimu m (Some 4%Z) None None None None 0%Z 0%Z None None us (Fin (1 # 1000)%Q) (Fin 10%Q)
        (Fin (234 # 1000)%Q) (Fin (7 # 10)%Q) [Fin 5%Q; Fin 4%Q; Fin 3%Q] None 3%Z
        "chainfile" "sschainfile" "s2chainfile" "covchainfile" (Some "log"%string) bin txt false false None None.

Definition demo_opts (nsimu : nat) (m : method) : simopts XQ :=
  define_simulation_options (demo_raw false true true nsimu m) "20260101_000000".
Definition demo_opts_s2 (nsimu : nat) (m : method) : simopts XQ :=
  define_simulation_options (demo_raw true false true nsimu m) "20260101_000000".

Definition demo_model : modset XQ := define_model_settings (Some [Fin 1%Q]) None None None None.

Definition demo (nsimu : nat) (m : method) : mcmc XQ :=
  new_mcmc demo_params demo_data demo_model (demo_opts nsimu m) 0 [].

(** with estimation of the error variance, text logs only *)
Definition demo_s2 (nsimu : nat) (m : method) : mcmc XQ :=
  new_mcmc demo_params demo_data demo_model (demo_opts_s2 nsimu m) 0 [].
