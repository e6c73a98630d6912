(** Model of samplers/Adaptation.py, procedures/CovarianceProcedures.py and
    procedures/ErrorVarianceEstimator.py. *)

From Coq Require Import ZArith QArith Bool Lia List.
From Verif Require Import Base Num Samplers.
Import ListNotations.
Open Scope nat_scope.
Open Scope res_scope.

Section Cov.
Context {F : Type} `{NF : Num F}.

(** ** Recursive mean / covariance (samplers/Adaptation.py) *)

(** samplers/Adaptation.py 229-253 with [w] of length 1: [np.ones(n)*w]. *)
Definition setup_w (w : list F) (n : nat) : list F :=
  match w with [a] => repeat (nmul n1 a) n | _ => w end.

(** samplers/Adaptation.py 270-275: [sum(x[:, ii]*w)*(wsum**(-1))] for each column. *)
Definition wmean (x : mat) (w : list F) (wsum : F) (npar : nat) : list F :=
  map (fun ii => nmul (vsum (vmul (col ii x) w)) (ninv wsum)) (range npar).

(** samplers/Adaptation.py 279-281: one entry of the initial covariance. *)
Definition cov_entry (x : mat) (w xmean : list F) (wsum : F) (ii jj : nat) : F :=
  let term1 := map (fun a => nsub a (nth ii xmean n0)) (col ii x) in
  let term2 := map (fun a => nsub a (nth jj xmean n0)) (col jj x) in
  vdot term1 (vscale (ninv (nsub wsum n1)) (vmul term2 w)).

(** samplers/Adaptation.py 257-284: zero matrix unless wsum > 1; lower triangle computed and mirrored. *)
Definition initialize_covariance_mean_sum (x : mat) (w : list F) : mat * list F * F :=
  let npar := ncols x in
  let wsum := vsum w in
  let xmean := wmean x w wsum npar in
  let xcov :=
    if nlt n1 wsum then
      map (fun ii => map (fun jj => cov_entry x w xmean wsum (Nat.max ii jj) (Nat.min ii jj))
                         (range npar)) (range npar)
    else map (fun _ => map (fun _ => n0) (range npar)) (range npar) in
  (xcov, xmean, wsum).

(** samplers/Adaptation.py 211-224, one pass of the loop (oldR is None). *)
Definition cov_row (st : mat * list F * F) (xi_w : list F * F) : mat * list F * F :=
  let '(oldcov, oldmean, oldwsum) := st in
  let '(xi, w) := xi_w in
  let d := vsub xi oldmean in
  let xmean := vadd oldmean (vscale (nmul w (ninv (nadd w oldwsum))) d) in
  let den := ninv (nsub (nadd w oldwsum) n1) in
  let xcov := madd (mscale (nmul (nsub oldwsum n1) den) oldcov)
                   (mscale (nmul (nmul (nmul w oldwsum) den) (ninv (nadd w oldwsum))) (outer d d)) in
  (xcov, xmean, nadd w oldwsum).

(** samplers/Adaptation.py 186-225.  The triple (cov, mean, wsum) is [None] before the first update unless
    initqcovn was given. *)
Definition update_covariance_mean_sum (x : mat) (w : list F) (old : option (mat * list F * F))
  : option (mat * list F * F) :=
  let n := length x in
  if (n =? 0) || (ncols x =? 0) then old
  else
    let w := setup_w w n in
    match old with
    | None => Some (initialize_covariance_mean_sum x w)
    | Some st => Some (fold_left cov_row (combine x w) st)
    end.

(** ** Rank-one Cholesky update, lines 310-333 *)

(** samplers/Adaptation.py 324-331.  One pass of the loop on row [ii]. *)
Definition cholupdate_row (n : nat) (st : mat * list F) (ii : nat) : mat * list F :=
  let '(R1, x1) := st in
  let row := nth ii R1 [] in
  let rii := nth ii row n0 in
  let xii := nth ii x1 n0 in
  let r := nsqrt (nadd (nsqr rii) (nsqr xii)) in
  let c := nmul r (ninv rii) in
  let s := nmul xii (ninv rii) in
  let row' := map (fun j => if j <? ii then nth j row n0
                            else if j =? ii then r
                            else nmul (nadd (nth j row n0) (nmul s (nth j x1 n0))) (ninv c)) (range n) in
  let x' := map (fun j => if j <=? ii then nth j x1 n0
                          else nsub (nmul c (nth j x1 n0)) (nmul s (nth j row' n0))) (range n) in
  (set_nth ii row' R1, x').

(** samplers/Adaptation.py 310-333 *)
Definition cholupdate (R : mat) (x : list F) : mat :=
  fst (fold_left (cholupdate_row (length x)) (range (length x)) (R, x)).

(** ** Covariance used for the next proposal *)

(** samplers/Adaptation.py 337-357.  [isimu**etaparam]; [alpha] is what MCMC.py line 356 passes. *)
Definition update_cov_via_ram (u : list F) (isimu : nat) (etaparam : F) (npar : nat)
    (alphatarget alpha : F) (R : mat) : mat :=
  let uu := vscale (ninv (nsqrt (vdot u u))) u in
  let eta := ninv (npow (nnat isimu) etaparam) in
  let ram := madd (eye npar)
                  (mscale (nmul eta (nsub (pymin n1 alpha) alphatarget)) (outer uu uu)) in
  matmul (matmul (transpose R) ram) R.

(** samplers/Adaptation.py 361-376: rows and columns of non-adapted parameters from [qcov]. *)
Definition update_cov_from_covchain (covchain qcov : mat) (no_adapt : list bool) : mat :=
  map (fun i =>
    map (fun j => if nth i no_adapt false || nth j no_adapt false
                  then nth j (nth i qcov []) n0
                  else nth j (nth i covchain []) n0)
        (range (ncols covchain)))
    (range (length covchain)).

Variable E : env F.

(** samplers/Adaptation.py 407-423: upper factor or [None]. *)
Definition is_semi_pos_def_chol (x : mat) : option mat :=
  match e_chol E x with Some c => Some (transpose c) | None => None end.

(** samplers/Adaptation.py 442-470. *)
Definition adjust_cov_matrix (upcov R : mat) (npar : nat) (qcov_adjust qcov_scale : F) : mat :=
  let tmp := madd upcov (mscale qcov_adjust (eye npar)) in
  match is_semi_pos_def_chol tmp with
  | Some pRa => mscale qcov_scale pRa
  | None => R
  end.

(** samplers/Adaptation.py 380-403. *)
Definition check_for_singular_cov_matrix (upcov R : mat) (npar : nat) (qcov_adjust qcov_scale : F)
  : mat :=
  match is_semi_pos_def_chol upcov with
  | Some pRa => mscale qcov_scale pRa
  | None => adjust_cov_matrix upcov R npar qcov_adjust qcov_scale
  end.

(** samplers/Adaptation.py 497-498, procedures/CovarianceProcedures.py 177.  [drscale[min(ii, len(drscale)) - 1]]; an empty
    drscale indexes -1 of an empty list. *)
Definition drscale_at (drscale : list F) (ii : nat) : res F :=
  of_option IndexError (nth_error drscale (Nat.min ii (length drscale) - 1)).

(** samplers/Adaptation.py 496-498: the stage factors; [prev] are the previous stage's matrices. *)
Fixpoint dr_factors (drscale : list F) (n ii : nat) (P iP : mat) : res (list mat * list mat) :=
  match n with
  | O => Ok ([], [])
  | S m =>
      let* d := drscale_at drscale ii in
      let P' := mscale (ninv d) P in
      let iP' := mscale d iP in
      let* (t1, t2) := dr_factors drscale m (S ii) P' iP' in
      Ok (P' :: t1, iP' :: t2)
  end.

(** samplers/Adaptation.py 474-499: [None, None] unless ntry > 1. *)
Definition update_delayed_rejection (R : mat) (ntry : nat) (drscale : list F)
  : res (option (list mat * list mat)) :=
  if 1 <? ntry then
    let* iR := of_option LinAlgError (e_inv E R) in
    let* (t1, t2) := dr_factors drscale (ntry - 1) 1 R iR in
    Ok (Some (R :: t1, iR :: t2))
  else Ok None.

(** ** The covariance object (procedures/CovarianceProcedures.py)

    [c_RDR]: the attribute [_RDR] does not exist until it is first assigned ([RUnset]). *)
(** procedures/CovarianceProcedures.py 93, 183 *)
Inductive rdrval : Type := RUnset | RNone | RSome (l : list (list (list F))).

(** procedures/CovarianceProcedures.py 36-47, 78-83, 93-94 *)
Record covst : Type := mkcov {
  c_R : list (list F);
  c_qcov : list (list F);
  c_qcov_scale : F;
  c_no_adapt : list bool;
  c_covchain : option (list (list F));
  c_meanchain : option (list F);
  c_wsum : option F;
  c_last : nat;
  c_RDR : rdrval;
  c_invR : option (list (list (list F)))
}.

(** procedures/CovarianceProcedures.py 127-134: default covariance.  (thetasig^2, else (5% of |value|)^2 where that is
    infinite or NaN, else 1 where that is 0), on the diagonal. *)
Definition default_variance (thetasig value : F) : F :=
  let q := nsqr thetasig in
  let q := if nisinf q || nisnan q then nsqr (nmul (nabs value) (nQ (5 # 100))) else q in
  if neq q n0 then n1 else q.

(** procedures/CovarianceProcedures.py 107-137 *)
Definition setup_covariance_matrix (qcov : option mat) (thetasig value : list F) : mat :=
  match qcov with
  | None => diagflat (map2 default_variance thetasig value)
  | Some q => q
  end.

(** procedures/CovarianceProcedures.py 139-145. *)
Definition check_adascale (adascale : option F) (npar : nat) : F :=
  let dflt := nmul (nQ (24 # 10)) (ninv (nsqrt (nnat npar))) in
  match adascale with
  | None => dflt
  | Some a => if nle a n0 then dflt else a
  end.

(** procedures/CovarianceProcedures.py 147-168: (R, qcov restricted to the sampled parameters). *)
Definition setup_R_matrix (qcov : mat) (parind : list nat) : res (mat * mat) :=
  if Nat.min (length qcov) (ncols qcov) =? 1 then
    let q := diagflat (concat qcov) in
    let* sub := submat q parind in
    Ok (map (map nsqrt) sub, sub)
  else
    let* sub := submat qcov parind in
    if length (concat sub) =? 1 then Ok (transpose (map (map nsqrt) sub), sub)
    else let* c := of_option LinAlgError (e_chol E sub) in
         Ok (transpose c, sub).

(** procedures/CovarianceProcedures.py 176-178: each stage's inverse is solved anew. *)
Fixpoint setup_RDR_loop (drscale : list F) (n ii : nat) (P : mat) : res (list mat * list mat) :=
  match n with
  | O => Ok ([], [])
  | S m =>
      let* d := drscale_at drscale ii in
      let P' := mscale (ninv d) P in
      let* iP' := of_option LinAlgError (e_inv E P') in
      let* (t1, t2) := setup_RDR_loop drscale m (S ii) P' in
      Ok (P' :: t1, iP' :: t2)
  end.

(** procedures/CovarianceProcedures.py 180-181 *)
Fixpoint invert_all (n : nat) (l : list mat) : res (list mat) :=
  match n with
  | O => Ok []
  | S m => match l with
           | [] => Err IndexError
           | P :: t => let* iP := of_option LinAlgError (e_inv E P) in
                       let* r := invert_all m t in Ok (iP :: r)
           end
  end.

(** procedures/CovarianceProcedures.py 170-183: returns (R, RDR, invR). *)
Definition setup_RDR_matrix (R : mat) (ntry : nat) (drscale : list F) (RDR : option (list mat))
  : res (mat * list mat * list mat) :=
  match RDR with
  | None =>
      let* iR := of_option LinAlgError (e_inv E R) in
      let* (t1, t2) := setup_RDR_loop drscale (ntry - 1) 1 R in
      Ok (R, R :: t1, iR :: t2)
  | Some l =>
      let* inv := invert_all ntry l in
      let* R0 := of_option IndexError (nth_error l 0) in
      Ok (R0, l, inv)
  end.

(** settings/SimulationOptions.py 96-102 *)
Inductive method : Type := MH | AM | DR | DRAM | RAM.

(** procedures/CovarianceProcedures.py 59 *)
Definition uses_dr_setup (m : method) : bool :=
  match m with DRAM | DR => true | _ => false end.

(** procedures/CovarianceProcedures.py 28-63 followed by lines 96-105 (called later with the initial theta, MCMC.py line 215).
    [old_RDR] is what [_RDR] was before (the object survives between runs). *)
Definition initialize_covariance (meth : method) (ntry : nat) (drscale : list F)
    (user_RDR : option (list mat)) (qcov : option mat) (adascale : option F) (initqcovn : option F)
    (thetasig value : list F) (parind : list nat) (no_adapt : list bool) (old_RDR : rdrval)
    (theta0 : list F)
  : res covst :=
  let npar := length parind in
  let q := setup_covariance_matrix qcov thetasig value in
  let scale := check_adascale adascale npar in
  let* (R, sub) := setup_R_matrix q parind in
  let* (R, rdr, inv) :=
    (if uses_dr_setup meth
     then let* (R', l, i) := setup_RDR_matrix R ntry drscale user_RDR in Ok (R', RSome l, Some i)
     else Ok (R, old_RDR, None)) in
  Ok (mkcov R sub scale no_adapt
        (match initqcovn with Some _ => Some sub | None => None end)
        (match initqcovn with Some _ => Some theta0 | None => None end)
        initqcovn 0 rdr inv).

(** ** One adaptation *)

(** samplers/Adaptation.py 99-126.  Adaptation options. *)
Record adopts : Type := mkado {
  ao_burnintime : Z;
  ao_burnin_scale : F;
  ao_ntry : nat;
  ao_drscale : list F;
  ao_alphatarget : F;
  ao_etaparam : F;
  ao_qcov_adjust : F;
  ao_doram : bool
}.

(** samplers/Adaptation.py 160-182: [rejected['in_adaptation_interval']*(iiadapt**(-1))] against 0.95 and 0.05. *)
Definition below_burnin_threshold (rej_in : nat) (iiadapt : nat) (R : mat) (burnin_scale : F) : mat :=
  let ratio := nmul (nnat rej_in) (ninv (nnat iiadapt)) in
  if nlt (nQ (95 # 100)) ratio then mscale (ninv burnin_scale) R
  else if nlt ratio (nQ (5 # 100)) then mscale burnin_scale R
  else R.

(** procedures/CovarianceProcedures.py 42-45, samplers/Adaptation.py 130-156: the statistics (covchain, meanchain, wsum)
    held by the covariance object, if complete *)
Definition cov_stats (c : covst) : option (mat * list F * F) :=
  match c_covchain c, c_meanchain c, c_wsum c with
  | Some a, Some b, Some w => Some (a, b, w)
  | _, _, _ => None
  end.

(** samplers/Adaptation.py 35-95. *)
Definition run_adaptation (c : covst) (o : adopts) (isimu iiadapt rej_in : nat) (chain : mat)
    (chainind : nat) (u : list F) (npar : nat) (alpha : option F) : res covst :=
  if (Z.of_nat isimu <? ao_burnintime o)%Z then
    Ok (mkcov (below_burnin_threshold rej_in iiadapt (c_R c) (ao_burnin_scale o))
              (c_qcov c) (c_qcov_scale c) (c_no_adapt c)
              (c_covchain c) (c_meanchain c) (c_wsum c) (c_last c) RNone None)
  else
    let stats := update_covariance_mean_sum (slice (c_last c) chainind chain) [n1] (cov_stats c) in
    let* upcov :=
      (if ao_doram o then
         (* min(1.0, None) raises TypeError *)
         let* a := of_option TypeError alpha in
         Ok (update_cov_via_ram u isimu (ao_etaparam o) npar (ao_alphatarget o) a (c_R c))
       else
         match stats with
         | Some (cv, _, _) => Ok (update_cov_from_covchain cv (c_qcov c) (c_no_adapt c))
         | None => Err AttributeError   (* None.copy() *)
         end) in
    let R := check_for_singular_cov_matrix upcov (c_R c) npar (ao_qcov_adjust o) (c_qcov_scale c) in
    let* dr := update_delayed_rejection R (ao_ntry o) (ao_drscale o) in
    Ok (mkcov R (c_qcov c) (c_qcov_scale c) (c_no_adapt c)
              (option_map (fun t => fst (fst t)) stats)
              (option_map (fun t => snd (fst t)) stats)
              (option_map snd stats) isimu
              (match dr with Some (l, _) => RSome l | None => RNone end)
              (option_map snd dr)).

(** ** Error variance (procedures/ErrorVarianceEstimator.py) *)

(** procedures/ErrorVarianceEstimator.py 122-126: draw x until v = 1 + c x > 0. *)
Fixpoint draw_v (fuel : nat) (c : F) (s : io F) : res (F * F * io F) :=
  match fuel with
  | O => Err OutOfFuel
  | S f =>
      let (z, s1) := randn E 1 s in
      let x := nth 0 z n0 in
      let v := nadd n1 (nmul c x) in
      if nlt n0 v then Ok (x, v, s1) else draw_v f c s1
  end.

(** procedures/ErrorVarianceEstimator.py 127 *)
Definition cube (v : F) : F := nmul (nmul v v) v.

(** procedures/ErrorVarianceEstimator.py 121-132: returns the accepted (cubed) v. *)
Fixpoint gamma_mt_loop (fuel : nat) (c d : F) (s : io F) : res (F * io F) :=
  match fuel with
  | O => Err OutOfFuel
  | S f =>
      let* (x, v, s1) := draw_v fuel c s in
      let v := cube v in
      let (u, s2) := rand E s1 in
      let x2 := nmul x x in
      if nlt u (nsub n1 (nmul (nQ (331 # 10000)) (nmul x2 x2))) then Ok (v, s2)
      else if nlt (nlog u)
                  (nadd (nmul (nQ (1 # 2)) x2) (nmul d (nadd (nsub n1 v) (nlog v)))) then Ok (v, s2)
      else gamma_mt_loop f c d s2
  end.

(** procedures/ErrorVarianceEstimator.py 118-134, shape a >= 1. *)
Definition gammar_ge1 (a b : F) (s : io F) : res (F * io F) :=
  let d := nsub a (nQ (1 # 3)) in
  let c := ninv (nsqrt (nmul (nQ 9) d)) in
  let* (v, s1) := gamma_mt_loop (e_fuel E) c d s in
  Ok (nmul (nmul b d) v, s1).

(** procedures/ErrorVarianceEstimator.py 106-134.  For a < 1 the recursive call has shape 1+a, which is [>= 1] unless a < 0
    (excluded
    by gammar) or NaN; the model makes that one recursive call directly. *)
Definition gammar_mt1 (a b : F) (s : io F) : res (F * io F) :=
  if nlt a n1 then
    let* (y, s1) := gammar_ge1 (nadd n1 a) b s in
    let (u, s2) := rand E s1 in
    Ok (nmul y (npow u (ninv a)), s2)
  else gammar_ge1 a b s.

(** procedures/ErrorVarianceEstimator.py 65-104 with m = n = 1. *)
Definition gammar (a b : F) (s : io F) : res (F * io F) :=
  if nle a n0 then Ok (n0, s) else gammar_mt1 a b s.

(** procedures/ErrorVarianceEstimator.py 60-63, one component. *)
Definition draw_sigma2 (N0 S20 N sos : F) (s : io F) : res (F * io F) :=
  let* (y, s1) := gammar (nmul (nQ (1 # 2)) (nadd N0 N))
                         (nmul (nQ 2) (ninv (nadd (nmul N0 S20) sos))) s in
  Ok (ninv y, s1).

End Cov.

Arguments covst F : clear implicits.
Arguments adopts F : clear implicits.
Arguments rdrval F : clear implicits.
