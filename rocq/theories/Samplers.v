(** Model of the samplers:
    pymcmcstat/structures/ParameterSet.py, procedures/SumOfSquares.py (lines 43-68),
    procedures/PriorFunction.py, samplers/utilities.py, samplers/Metropolis.py,
    samplers/DelayedRejection.py. *)

From Coq Require Import ZArith QArith Bool Lia List.
From Verif Require Import Base Num.
Import ListNotations.
Open Scope nat_scope.
Open Scope res_scope.

Section Samplers.
Context {F : Type} `{NF : Num F}.

(** structures/ParameterSet.py 10-28.  [ss] of an out-of-bounds set is the
    scalar [np.inf]; it is kept as the one-element array [inf], which broadcasts the same way. *)
Record pset : Type := mkpset {
  p_theta : list F;
  p_ss : list F;
  p_prior : F;
  p_sigma2 : list F;
  p_alpha : option F
}.

(** samplers/utilities.py 29, 114, 130; procedures/ErrorVarianceEstimator.py 116-128: numpy's global random state: position
    [k] of a stream of standard normals
    ([np.random.randn]) and of uniforms ([np.random.rand]). *)
Record stream : Type := mkstream {
  s_normal : nat -> F;
  s_unif : nat -> F
}.

(** procedures/SumOfSquares.py 43-68; procedures/PriorFunction.py 54-61; procedures/CovarianceProcedures.py 167-181;
    samplers/Adaptation.py 407-423, 496.  What the sampler calls but does not implement: the user's sum-of-squares and prior
    functions
    (assumed to be functions of their arguments, without custom-sampler input, that
    return an array / a number), the random stream, [np.linalg.cholesky] and
    [np.linalg.solve(M, I)] ([None] = LinAlgError), and the fuel
    given to rejection loops. *)
Record env : Type := mkenv {
  e_sos : list F -> list F;
  e_prior : list F -> list F -> list F -> F;
  e_str : stream;
  e_chol : list (list F) -> option (list (list F));
  e_inv : list (list F) -> option (list (list F));
  e_fuel : nat
}.

(** procedures/SumOfSquares.py 43-68.  Mutable things touched while sampling: position in the random stream, the full parameter
    vector that is passed to the SS function ([SumOfSquares.value], which is
    [parameters._initial_value] itself), and a log of all SS calls (newest first). *)
Record io : Type := mkio {
  io_pos : nat;
  io_value : list F;
  io_calls : list (list F)
}.

(** settings/ModelParameters.py 85-140.  Static view of the opened parameters that samplers use:
    [parameters.npar], [_parind], [_lower_limits[_parind]], [_upper_limits[_parind]],
    [_thetamu[_parind]], [_thetasigma[_parind]]. *)
Record pview : Type := mkpview {
  v_npar : nat;
  v_parind : list nat;
  v_lower : list F;
  v_upper : list F;
  v_mu : list F;
  v_sigma : list F
}.

Variable E : env.

(** procedures/SumOfSquares.py 43-68 (sos_style 1, or 4 with [e_sos] the default
    function): write theta into the sampled entries of [value], call the function on [value]. *)
Definition evaluate_sos_function (V : pview) (theta : list F) (s : io) : list F * io :=
  let v := scatter (io_value s) (v_parind V) theta in
  (e_sos E v, mkio (io_pos s) v (v :: io_calls s)).

(** procedures/PriorFunction.py 54-61. *)
Definition evaluate_prior (V : pview) (theta : list F) : F :=
  e_prior E theta (v_mu V) (v_sigma V).

(** procedures/PriorFunction.py 34-52: [res . res] with [res = (mu - theta)/sigma]. *)
Definition default_priorfun (theta mu sigma : list F) : F :=
  let r := map2 ndiv (vsub mu theta) sigma in vdot r r.

(** samplers/utilities.py 29.  [np.random.randn(1, n)]: n successive normal draws. *)
Definition randn (n : nat) (s : io) : list F * io :=
  (map (s_normal (e_str E)) (seq (io_pos s) n), mkio (io_pos s + n) (io_value s) (io_calls s)).
(** samplers/utilities.py 114, 130.  [np.random.rand(1, 1)] *)
Definition rand (s : io) : F * io :=
  (s_unif (e_str E) (io_pos s), mkio (S (io_pos s)) (io_value s) (io_calls s)).

(** samplers/utilities.py 15-32.  numpy would raise on a factor of the wrong shape;
    the model asks for an npar x npar factor (and an npar vector) and raises ValueError otherwise. *)
Definition sample_candidate (npar : nat) (oldpar : list F) (R : mat) (s : io)
  : res (list F * list F * io) :=
  if is_square npar R && (length oldpar =? npar) then
    let (z, s') := randn npar s in
    Ok (vadd oldpar (vecmat z R), z, s')
  else Err ValueError.

(** samplers/utilities.py 36-52: any entry below its lower or above its upper limit. *)
Definition is_sample_outside_bounds (theta lower upper : list F) : bool :=
  existsb (fun b => b) (map2 nlt theta lower)
  || existsb (fun b => b) (map2 nlt upper theta).

(** samplers/utilities.py 85-101. *)
Definition set_outside_bounds (p : pset) : pset :=
  mkpset (p_theta p) [ninf] n0 (p_sigma2 p) (Some n0).

(** samplers/utilities.py 105-117: [alpha >= 1.0 or alpha > rand]; the uniform is
    drawn only if the first test fails. *)
Definition posterior_ratio_acceptance_test (alpha : F) (s : io) : bool * io :=
  if nle n1 alpha then (true, s)
  else let (u, s') := rand s in (nlt u alpha, s').

(** samplers/utilities.py 121-133: [alpha > log(rand)]. *)
Definition log_posterior_ratio_acceptance_test (alpha : F) (s : io) : bool * io :=
  let (u, s') := rand s in (nlt (nlog u) alpha, s').

(** samplers/utilities.py 137-170. *)
Definition calculate_log_posterior_ratio (loglikestar loglike logpriorstar logprior : F) : F :=
  nsub (nadd loglikestar logpriorstar) (nadd loglike logprior).

(** samplers/Metropolis.py 80-83, the factor -0.5 *)
Definition mhalf : F := nQ (-1 # 2).

(** samplers/Metropolis.py 80-81, samplers/DelayedRejection.py 144-145.  [-0.5*(ss/sigma2).sum()]. *)
Definition loglik (ss sigma2 : list F) : res F :=
  let* q := bcast2 ndiv ss sigma2 in Ok (nmul mhalf (vsum q)).

(** samplers/Metropolis.py 88.  Result of a Metropolis step: (accept, newset, outbound, normal draws, io). *)
Definition mstep : Type := bool * pset * bool * list F * io.

(** samplers/Metropolis.py 40-88. *)
Definition run_metropolis_step (V : pview) (R : mat) (old : pset) (s : io) : res mstep :=
  let* (newpar, z, s1) := sample_candidate (v_npar V) (p_theta old) R s in
  if is_sample_outside_bounds newpar (v_lower V) (v_upper V) then
    Ok (false, set_outside_bounds (mkpset newpar [] n0 (p_sigma2 old) None), true, z, s1)
  else
    let newprior := evaluate_prior V newpar in
    let (ss1, s2) := evaluate_sos_function V newpar s1 in
    let* l1 := loglik ss1 (p_sigma2 old) in
    let* l2 := loglik (p_ss old) (p_sigma2 old) in
    let alpha := calculate_log_posterior_ratio l1 l2
                   (nmul mhalf newprior) (nmul mhalf (p_prior old)) in
    let (accept, s3) := log_posterior_ratio_acceptance_test alpha s2 in
    Ok (accept, mkpset newpar ss1 newprior (p_sigma2 old) (Some alpha), false, z, s3).

(** ** Delayed rejection *)

(** samplers/DelayedRejection.py 176.  [np.linalg.norm(np.dot(d, iR))**2]. *)
Definition norm2 (d : list F) (iR : mat) : F :=
  let w := vecmat d iR in nsqr (nsqrt (vdot w w)).

(** samplers/DelayedRejection.py 181-194; indices are within the path whenever
    [iq < stage]. *)
Definition extract_state_elements (iq stage : nat) (path : list pset)
  : res (list F * list F * list F * list F) :=
  let get i := let* p := of_option IndexError (nth_error path i) in Ok (p_theta p) in
  let* y1 := get 0 in
  let* y2 := get (iq + 1) in
  let* y3 := get (stage + 1) in
  let* y4 := get (stage - iq) in
  Ok (y1, y2, y3, y4).

(** samplers/DelayedRejection.py 156-177. *)
Definition nth_stage_log_proposal_ratio (iq : nat) (path : list pset) (invR : list mat) : res F :=
  let stage := length path - 1 - 1 in
  if stage =? iq then Ok n0
  else
    let* iR := of_option IndexError (nth_error invR iq) in
    let* (y1, y2, y3, y4) := extract_state_elements iq stage path in
    Ok (nmul mhalf (nsub (norm2 (vsub y4 y3) iR) (norm2 (vsub y2 y1) iR))).

(** samplers/DelayedRejection.py 140-149 of alphafun: log posterior ratio of the end points of the path plus the
    log proposal ratios of all stages. *)
Definition alpha_exponent (path : list pset) (invR : list mat) : res F :=
  let* x1 := of_option IndexError (nth_error path 0) in
  let* x2 := of_option IndexError (nth_error path (length path - 1)) in
  let* l2 := loglik (p_ss x2) (p_sigma2 x2) in
  let* l1 := loglik (p_ss x1) (p_sigma2 x1) in
  let y := calculate_log_posterior_ratio l2 l1 (nmul mhalf (p_prior x2)) (nmul mhalf (p_prior x1)) in
  fold_left (fun acc kk =>
               let* a := acc in
               let* r := nth_stage_log_proposal_ratio kk path invR in
               Ok (nadd a r))
            (range (length path - 1)) (Ok y).

(** samplers/DelayedRejection.py 130-139: the loop over shorter paths; [None] means alphafun returned zero
    because [a2 == 0].  [rec] is the recursive call. *)
Fixpoint alpha_loop (rec : list pset -> res F) (path : list pset) (kks : list nat) (a1 a2 : F)
  : res (option (F * F)) :=
  match kks with
  | [] => Ok (Some (a1, a2))
  | kk :: t =>
      let* tmp1 := rec (firstn (kk + 2) path) in
      let a1 := nmul a1 (nsub n1 tmp1) in
      (* trypath[stage:stage-kk-2:-1] *)
      let* tmp2 := rec (firstn (kk + 2) (rev path)) in
      let a2 := nmul a2 (nsub n1 tmp2) in
      if neq a2 n0 then Ok None else alpha_loop rec path t a1 a2
  end.

(** samplers/DelayedRejection.py 116-152.  [fuel] bounds the recursion depth; the length
    of the path suffices.  The call counter [dr_step_counter] is not modelled. *)
Fixpoint alphafun (fuel : nat) (invR : list mat) (path : list pset) : res F :=
  match fuel with
  | O => Err OutOfFuel
  | S f =>
      let stage := length path - 1 in
      let* o := alpha_loop (alphafun f invR) path (range (stage - 1)) n1 n1 in
      match o with
      | None => Ok n0
      | Some (a1, a2) =>
          let* y := alpha_exponent path invR in
          Ok (pymin n1 (nmul (nmul (nexp y) a2) (ninv a1)))
      end
  end.

(** samplers/DelayedRejection.py 215-241. *)
Definition update_set_based_on_acceptance (accept : bool) (old_set next_set : pset) : pset :=
  if accept then next_set else old_set.

(** samplers/DelayedRejection.py 79.  Outcome of run_delayed_rejection: (accept, out_set, outbound, iacce, trypath, io);
    [trypath] is the local variable of that name when the loop ends. *)
Definition drstep : Type := bool * pset * bool * list nat * list pset * io.

(** samplers/DelayedRejection.py 51-79.  The while loop; [n] is [ntry - itry], the number of
    tries left.  [cur] carries (accept, out_set, outbound) of the previous pass. *)
Fixpoint dr_loop (V : pview) (RDR invR : list mat) (old new : pset)
    (n itry : nat) (path : list pset) (iacce : list nat) (cur : bool * pset * bool) (s : io)
  : res drstep :=
  match n with
  | O => let '(acc, out, outb) := cur in Ok (acc, out, outb, iacce, path, s)
  | S n' =>
      let itry := S itry in
      let* P := of_option IndexError (nth_error RDR (itry - 1)) in
      let* (theta, z, s1) := sample_candidate (v_npar V) (p_theta old) P s in
      let next := mkpset theta [] n0 (p_sigma2 new) None in
      if is_sample_outside_bounds theta (v_lower V) (v_upper V) then
        dr_loop V RDR invR old new n' itry (path ++ [set_outside_bounds next]) iacce
                (false, old, true) s1
      else
        let (ss, s2) := evaluate_sos_function V theta s1 in
        let pr := evaluate_prior V theta in
        let next := mkpset theta ss pr (p_sigma2 new) None in
        let path' := path ++ [next] in
        let* alpha := alphafun (length path') invR path' in
        let next := mkpset theta ss pr (p_sigma2 new) (Some alpha) in
        let path' := path ++ [next] in
        let (accept, s3) := posterior_ratio_acceptance_test alpha s2 in
        let out := update_set_based_on_acceptance accept old next in
        let* cnt := of_option IndexError (nth_error iacce (itry - 1)) in
        let iacce := set_nth (itry - 1) (cnt + if accept then 1 else 0) iacce in
        if accept then Ok (true, out, false, iacce, path', s3)
        else dr_loop V RDR invR old new n' itry path' iacce (false, out, false) s3
  end.

(** samplers/DelayedRejection.py 28-79.  Called only with [ntry > 1]
    (MCMC.py line 319), so the loop runs at least once and the initial
    [cur] is never returned. *)
Definition run_delayed_rejection (V : pview) (RDR invR : list mat) (ntry : nat)
    (old new : pset) (iacce : list nat) (s : io) : res drstep :=
  dr_loop V RDR invR old new (ntry - 1) 1 [old; new] iacce (false, old, false) s.

End Samplers.

Arguments pset F : clear implicits.
Arguments env F : clear implicits.
Arguments io F : clear implicits.
Arguments pview F : clear implicits.
Arguments stream F : clear implicits.
