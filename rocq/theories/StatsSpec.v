(** Reference notions for the chain statistics: plain statistics on lists of real numbers.
    No definition here refers to the model. *)

From Coq Require Import List Reals.
From Verif Require Import RVec.
Import ListNotations.
Open Scope R_scope.

(** sample mean and (unbiased) sample variance *)
Definition Rmean (l : list R) : R := Rsum l / INR (length l).
Definition Rvar (l : list R) : R := Rsum (map (fun x => (x - Rmean l)²) l) / INR (length l - 1).

(** chains of one parameter, all of length [n] *)
Definition equal_length (n : nat) (chains : list (list R)) : Prop := Forall (fun c => length c = n) chains.

(** within-chain variance, and variance of the chain means *)
Definition within (chains : list (list R)) : R := Rmean (map Rvar chains).
Definition between (chains : list (list R)) : R := Rvar (map Rmean chains).

(** the chains in other units: [x |-> c*x + d] *)
Definition affine (c d : R) (l : list R) : list R := map (fun x => c * x + d) l.

(** the batch-means estimate from the batch means [y], the overall mean and the batch size *)
Definition batch_error (y : list R) (mu : R) (b : nat) : R :=
  sqrt (Rsum (map (fun v => (v - mu)²) y) / INR (length y - 1) * INR b).

(** a chain cut into consecutive batches of [b] rows and a shorter rest *)
Definition cut {A} (b : nat) (chain : list A) (batches : list (list A)) (rest : list A) : Prop :=
  chain = concat batches ++ rest /\ Forall (fun p => length p = b) batches /\ (length rest < b)%nat.
