(** Properties C09-C13: which candidates are accepted.

    C09-C12 are read over the extended reals [XR] (exact arithmetic with inf and NaN); the bounds part of
    C12 and all of C13 hold for any arithmetic.  The vocabulary is in BalanceSpec.v. *)

From Coq Require Import ZArith QArith Bool Lia List String Reals Lra.
From Verif Require Import Base Num Samplers Adapt Settings Simulator RVec BalanceSpec BalanceFacts DRFacts
  InfFacts NaNFacts NaNRun AcceptThms Demo DemoNaN DemoReal.
Import ListNotations.
Close Scope Q_scope.
Open Scope list_scope.
Open Scope R_scope.

(** ** C09 *)

(** A candidate is accepted exactly when it is within the limits and the uniform draw is below the smaller
    of 1 and the ratio of the posterior densities. *)
Theorem C09_metropolis_acceptance :
  forall (E : env XR) V P old s acc new outb z s1 u sg ss0 pr0 ss1 pr1,
  run_metropolis_step E V P old s = Ok (acc, new, outb, z, s1) ->
  let y := candidate E (v_npar V) (p_theta old) P (io_pos s) in
  s_unif (e_str E) (io_pos s + v_npar V) = Fin u -> 0 <= u < 1 ->
  Forall (fun x => 0 < x) sg -> p_sigma2 old = fin sg ->
  p_ss old = fin ss0 -> List.length ss0 = List.length sg -> p_prior old = Fin pr0 ->
  e_sos E (scatter (io_value s) (v_parind V) y) = fin ss1 -> List.length ss1 = List.length sg ->
  e_prior E y (v_mu V) (v_sigma V) = Fin pr1 ->
  (acc = true <-> ~ outside_limits (v_lower V) (v_upper V) y /\
                  u < Rmin 1 (exp (log_post sg ss1 pr1 - log_post sg ss0 pr0))).
Proof. exact metropolis_rule. Qed.
Print Assumptions C09_metropolis_acceptance.

(** A candidate within the limits with no smaller posterior density is always accepted. *)
Theorem C09_improvement_always_accepted :
  forall (E : env XR) V P old s acc new outb z s1 u sg ss0 pr0 ss1 pr1,
  run_metropolis_step E V P old s = Ok (acc, new, outb, z, s1) ->
  let y := candidate E (v_npar V) (p_theta old) P (io_pos s) in
  s_unif (e_str E) (io_pos s + v_npar V) = Fin u -> 0 <= u < 1 ->
  Forall (fun x => 0 < x) sg -> p_sigma2 old = fin sg ->
  p_ss old = fin ss0 -> List.length ss0 = List.length sg -> p_prior old = Fin pr0 ->
  e_sos E (scatter (io_value s) (v_parind V) y) = fin ss1 -> List.length ss1 = List.length sg ->
  e_prior E y (v_mu V) (v_sigma V) = Fin pr1 ->
  ~ outside_limits (v_lower V) (v_upper V) y -> log_post sg ss0 pr0 <= log_post sg ss1 pr1 ->
  acc = true.
Proof. exact metropolis_improvement. Qed.
Print Assumptions C09_improvement_always_accepted.

(** A candidate with an undefined or infinite sum of squares or prior term is never accepted. *)
Theorem C09_undefined_never_accepted :
  forall (E : env XR) V P old s acc new outb z s1,
  run_metropolis_step E V P old s = Ok (acc, new, outb, z, s1) ->
  (forall x, In x (p_sigma2 old) -> exists v, x = Fin v /\ 0 < v) -> p_sigma2 old <> [] ->
  let y := candidate E (v_npar V) (p_theta old) P (io_pos s) in
  (exists x, In x (e_sos E (scatter (io_value s) (v_parind V) y)) /\ bad x) \/
  bad (e_prior E y (v_mu V) (v_sigma V)) ->
  acc = false.
Proof. exact metropolis_bad. Qed.
Print Assumptions C09_undefined_never_accepted.

(** From x = 0 to x = 1 with sum of squares x^2, u = 1/4: accepted. *)
Example C09_case : exists acc new s1,
  run_metropolis_step real_env real_view (finm [[1]]) (real_set 0) real_io = Ok (acc, new, false, [Fin 1], s1) /\
  p_theta new = [Fin 1] /\ represents [1] new (real_point 1) /\ acc = true.
Proof. exact real_step. Qed.

(** ** C10 *)

(** With the proposal density [gauss], the acceptance probability of the Metropolis step satisfies detailed
    balance with respect to the posterior; [a] is the probability the step compares the uniform draw with. *)
Theorem C10_metropolis_detailed_balance :
  forall sg, Forall (fun x => 0 < x) sg -> sg <> [] ->
  exists a : point -> point -> R,
    (forall p q, 0 <= a p q <= 1) /\
    (forall (E : env XR) V P old s acc new outb z s1 p q u,
       run_metropolis_step E V P old s = Ok (acc, new, outb, z, s1) ->
       represents sg old p -> represents sg new q -> pt_ss p <> None ->
       s_unif (e_str E) (io_pos s + v_npar V) = Fin u -> 0 <= u < 1 ->
       (acc = true <-> u < a p q)) /\
    (forall c iP p q,
       post sg p * gauss c iP (pt_x p) (pt_x q) * a p q = post sg q * gauss c iP (pt_x q) (pt_x p) * a q p).
Proof. exact metropolis_detailed_balance. Qed.
Print Assumptions C10_metropolis_detailed_balance.

(** [gauss] is the density of the generator: at the candidate x + z P it is the standard normal density of
    the draws z, up to the constant. *)
Theorem C10_proposal_density :
  forall n P iP c x z, inverse_of n P iP -> List.length z = n -> List.length x = n ->
  gauss c iP x (Rvadd x (Rvm z P)) = c * exp (- (1 / 2) * Rsq z).
Proof. exact gauss_generator. Qed.
Print Assumptions C10_proposal_density.

Example C10_case : Forall (fun x => 0 < x) [1] /\ represents [1] (real_set 0) (real_point 0) /\
  pt_ss (real_point 0) <> None /\ inverse_of 1 [[2]] [[1 / 2]].
Proof. exact real_case. Qed.

(** ** C11 *)

(** The delayed rejection acceptance probability, for paths of any length, balances the flow along every path with
    the flow along the reversed path. *)
Theorem C11_delayed_rejection_balance :
  forall sg iP, Forall (fun x => 0 < x) sg -> sg <> [] ->
  exists a : list point -> R,
    (forall path pts, Forall2 (represents sg) path pts -> (2 <= List.length path)%nat ->
       (List.length path - 1 <= List.length iP)%nat ->
       alphafun (List.length path) (map finm iP) path = Ok (Fin (a pts))) /\
    balancing sg iP a.
Proof. exact alpha_balances. Qed.
Print Assumptions C11_delayed_rejection_balance.

Example C11_case :
  Forall2 (represents [1]) [real_set 0; real_set 3; real_set 1] [real_point 0; real_point 3; real_point 1] /\
  (List.length [real_set 0; real_set 3; real_set 1] - 1 <= List.length [[[1]]; [[2]]])%nat.
Proof. split; [repeat constructor|simpl; lia]. Qed.

(** ** C12 *)

(** Whatever the arithmetic: a delayed rejection step makes at most ntry - 1 further tries, stops at the first
    accepted one, which is within the limits, and returns the old point after exactly ntry - 1 rejections. *)
Theorem C12_delayed_rejection_tries :
  forall (F : Type) (NF : Num F) (E : env F) V RDR invR ntry old new iacce s acc out outb iacce' path' s1,
  run_delayed_rejection E V RDR invR ntry old new iacce s = Ok (acc, out, outb, iacce', path', s1) ->
  (acc = false -> out = old) /\
  (acc = true -> ~ outside_limits (v_lower V) (v_upper V) (p_theta out) /\ outb = false /\
      nth_error path' (List.length path' - 1) = Some out) /\
  exists more, path' = old :: new :: more /\ (List.length more <= ntry - 1)%nat /\
    (acc = false -> List.length more = (ntry - 1)%nat).
Proof. exact (fun F NF => @dr_bounds F NF). Qed.
Print Assumptions C12_delayed_rejection_tries.

(** Over the reals the step returns, every try within the limits is judged by the balancing acceptance
    probability of C11, only the last one can be accepted, and tries outside the limits never are. *)
Theorem C12_delayed_rejection_course :
  forall (E : env XR) V sg Ps iP old new xold,
  finite_env E sg -> Forall (fun x => 0 < x) sg -> sg <> [] ->
  (forall P, In P Ps -> shape (v_npar V) (v_npar V) P) ->
  p_theta old = fin xold /\ List.length xold = v_npar V -> p_sigma2 new = fin sg ->
  exists a, balancing sg iP a /\
  forall ntry pold pnew iacce s,
  represents sg old pold -> represents sg new pnew -> (1 < ntry)%nat ->
  (ntry <= List.length Ps)%nat -> (ntry <= List.length iP)%nat -> (ntry <= List.length iacce)%nat ->
  exists ac out outb iacce' path' s1 mpts,
    run_delayed_rejection E V (map finm Ps) (map finm iP) ntry old new iacce s = Ok (ac, out, outb, iacce', path', s1) /\
    Forall2 (represents sg) path' (pold :: pnew :: mpts) /\
    (forall k, (2 <= k < List.length path')%nat -> pt_ss (pt (pold :: pnew :: mpts) k) <> None ->
       judged_by E a (pold :: pnew :: mpts) (io_pos s) (io_pos s1) k (ac && (k =? List.length path' - 1)%nat)) /\
    (ac = true -> pt_ss (pt (pold :: pnew :: mpts) (List.length path' - 1)) <> None).
Proof. exact dr_judged. Qed.
Print Assumptions C12_delayed_rejection_course.

Example C12_case : finite_env real_env [1] /\ represents [1] (real_set 0) (real_point 0) /\
  represents [1] (real_set 3) (real_point 3) /\ shape 1 1 [[1]] /\
  p_theta (real_set 0) = fin [0] /\ p_sigma2 (real_set 3) = fin [1].
Proof. exact real_course_case. Qed.

(** ** C13 *)

(** A Metropolis step never accepts a candidate with a NaN sum of squares. *)
Theorem C13_metropolis_rejects_undefined :
  forall (A : Type) (AA : Arith A) (E : env (X A)) V P old s new outb z s1,
  run_metropolis_step E V P old s = Ok (true, new, outb, z, s1) ->
  p_sigma2 old <> [] -> ~ In NaN (p_ss new).
Proof. exact metropolis_no_nan. Qed.
Print Assumptions C13_metropolis_rejects_undefined.

(** Neither does a delayed rejection step; the arithmetic has to satisfy 1*(1-1) = 0 and not 1 <= 0, the
    uniform draws must not be negative. *)
Theorem C13_delayed_rejection_rejects_undefined :
  forall (A : Type) (AA : Arith A), neq (nmul n1 (nsub n1 n1)) (@n0 (X A) _) = true -> nle n1 (@n0 (X A) _) = false ->
  forall E : env (X A), (forall k, nlt (s_unif (e_str E) k) n0 = false) ->
  forall V RDR invR ntry old new iacce s out outb iacce' path' s1,
  run_delayed_rejection E V RDR invR ntry old new iacce s = Ok (true, out, outb, iacce', path', s1) ->
  p_sigma2 new <> [] -> ~ In NaN (p_ss out).
Proof. exact dr_no_nan. Qed.
Print Assumptions C13_delayed_rejection_rejects_undefined.

(** Over the reals, with positive error variances: no accepted point has a NaN or +inf sum of squares or prior. *)
Theorem C13_accepted_points_finite :
  forall (E : env XR), (forall k, nlt (s_unif (e_str E) k) n0 = false) ->
  forall V RDR invR ntry old new iacce s out outb iacce' path' s1,
  run_delayed_rejection E V RDR invR ntry old new iacce s = Ok (true, out, outb, iacce', path', s1) ->
  (forall x, In x (p_sigma2 new) -> exists v, x = Fin v /\ 0 < v) -> p_sigma2 new <> [] ->
  (forall x, In x (p_ss out) -> ~ bad x) /\ ~ bad (p_prior out).
Proof. exact dr_finite. Qed.
Print Assumptions C13_accepted_points_finite.

(** Hence a fresh run that starts at a point with a defined sum of squares stores no NaN. *)
Theorem C13_run_stores_no_undefined :
  forall (A : Type) (AA : Arith A), neq (nmul n1 (nsub n1 n1)) (@n0 (X A) _) = true -> nle n1 (@n0 (X A) _) = false ->
  forall E : env (X A), (forall k, nlt (s_unif (e_str E) k) n0 = false) ->
  forall m m', run_simulation E false m = Ok m' ->
  (forall row, nth_error (m_sschain m') 0 = Some row -> ~ In NaN row) ->
  forall row, In row (m_sschain m') -> ~ In NaN row.
Proof. exact (fun A AA => @fresh_run_defined A AA). Qed.
Print Assumptions C13_run_stores_no_undefined.

(** A try with a NaN sum of squares also makes the acceptance probability of the try after it zero. *)
Theorem C13_undefined_try_blocks_next :
  forall (A : Type) (AA : Arith A), neq (nmul n1 (nsub n1 n1)) (@n0 (X A) _) = true ->
  forall f invR path x y (a : X A), p_sigma2 x <> [] -> In NaN (p_ss x) -> path <> [] ->
  alphafun (S (S f)) invR (path ++ [x; y]) = Ok a -> a = n0.
Proof. exact nan_blocks. Qed.
Print Assumptions C13_undefined_try_blocks_next.

(** The run evaluates one point with a NaN sum of squares and stores only defined ones. *)
Example C13_case : run_simulation nan_env false (nan_start 7 DR) = Ok nan7 /\
  (forall k, nlt (s_unif (e_str nan_env) k) n0 = false) /\
  neq (nmul n1 (nsub n1 n1)) (@n0 XQ _) = true /\ nle n1 (@n0 XQ _) = false /\
  map nan_sos (m_calls nan7) = [[Fin (3721 # 22500)%Q]; [NaN]; [Fin (8281 # 2500)%Q]; [Fin (1 # 4)%Q]] /\
  m_sschain nan7 = [[Fin (1 # 4)%Q]; [Fin (1 # 4)%Q]; [Fin (3721 # 22500)%Q]].
Proof. exact nan_case. Qed.
