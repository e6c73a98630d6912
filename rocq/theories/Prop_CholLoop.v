(** Property theorem C70: the Cholesky factor updated beside the covariance. *)

From Coq Require Import ZArith QArith Bool Lia List Reals Lra.
From Verif Require Import Base Num Samplers Adapt CholLoop RVec RMat StatSpec CovFacts CholLoopFacts.
Import ListNotations.
Close Scope Q_scope.
Open Scope list_scope.
Open Scope R_scope.

(** [l] are the weighted rows seen so far, [s] is the next segment of the chain with its weights. *)
Theorem C70_factor_follows_covariance :
  forall n s (l : sample) R, (0 < n)%nat -> good_seg n s -> heavy l -> l <> [] -> 1 < total l -> factor_of n l R ->
  exists R', update_covariance_mean_sum_R (finm (fst s)) (fin (snd s)) (stats_of n l) R = (stats_of n (l ++ seg_sample s), R') /\
    factor_of n (l ++ seg_sample s) R'.
Proof. exact update_R. Qed.
Print Assumptions C70_factor_follows_covariance.

(** Covariance and mean are those computed without a factor. *)
Theorem C70_covariance_unaffected :
  forall (F : Type) (NF : Num F) x w old (R : list (list F)),
  Some (fst (update_covariance_mean_sum_R x w old R)) = update_covariance_mean_sum x w (Some old).
Proof.
  intros F NF x w old R. unfold update_covariance_mean_sum_R, update_covariance_mean_sum.
  destruct ((length x =? 0)%nat || (ncols x =? 0)%nat); [reflexivity|]. f_equal.
  generalize (combine x (setup_w w (length x))) as l. intros l. revert old R.
  induction l as [|[a b] l IH]; intros [[c m] s] R; [reflexivity|]. cbn [fold_left]. unfold cov_row_R at 2.
  destruct (setup_cholupdate R s (snd (a, b)) m (fst (a, b))) as [Rin xin]. apply IH.
Qed.
Print Assumptions C70_covariance_unaffected.

Example C70_case : let l : sample := [([0], 1); ([2], 1)] in
  heavy l /\ 1 < total l /\ factor_of 1 l [[Fin (sqrt 2)]] /\ good_seg 1 ([[4]; [1]], [3]).
Proof.
  cbv zeta. split; [repeat constructor; cbn; lra|]. split; [unfold total; cbn; lra|]. split.
  - exists (fun _ _ => sqrt 2). split; [reflexivity|]. split; [intros i j Hi Hj; lia|].
    split; [intros; pose proof (sqrt_lt_R0 2); lra|]. intros i j Hi Hj. assert (i = O) as -> by lia. assert (j = O) as -> by lia.
    unfold gram. cbn [Sum]. rewrite Rplus_0_l, sqrt_sqrt by lra.
    unfold covariance, scatter_sum, mean, total. cbn. field.
  - split; [intros r [<-|[<-|[]]]; reflexivity|]. split; [now left|]. repeat constructor. cbn. lra.
Qed.
