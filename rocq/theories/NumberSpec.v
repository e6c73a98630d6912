(** Numbers among the values of floating point arithmetic, and what a user has to provide for a run to work with
    numbers only.  Stated on the declarations, the settings and the user's functions. *)

From Coq Require Import ZArith QArith Bool Lia List String Reals Lra.
From Verif Require Import Base Num Samplers Adapt Settings Simulator RunSpec CompleteSpec BalanceSpec.
Import ListNotations.
Close Scope Q_scope.
Open Scope list_scope.
Open Scope R_scope.

Definition number (x : XR) : Prop := exists v, x = Fin v.
Definition not_negative (x : XR) : Prop := exists v, x = Fin v /\ 0 <= v.
Definition positive (x : XR) : Prop := exists v, x = Fin v /\ 0 < v.
Definition nonzero (x : XR) : Prop := exists v, x = Fin v /\ v <> 0.
Definition every (P : XR -> Prop) (M : list (list XR)) : Prop := Forall (Forall P) M.

(** The functions given by the user and the libraries: standard normals are numbers, uniforms are positive numbers, the
    sum of squares has at least one component and every component is a non-negative number, +inf or NaN, the prior is not
    -inf, and the factor of a matrix of numbers is a matrix of numbers. *)
Record decent (E : env XR) : Prop := mkdecent {
  de_normal : forall k, number (s_normal (e_str E) k);
  de_uniform : forall k, positive (s_unif (e_str E) k);
  de_sos : forall v, e_sos E v <> [] /\ forall x, In x (e_sos E v) -> bad x \/ not_negative x;
  de_prior : forall theta mu sigma, e_prior E theta mu sigma <> NInf;
  de_chol : forall A L, every number A -> e_chol E A = Some L -> every number L
}.

(** A covariance given by the user: numbers, no negative variance. *)
Definition usable_cov (q : list (list XR)) : Prop :=
  every number q /\ (forall i row x, nth_error q i = Some row -> nth_error row i = Some x -> not_negative x) /\
  (as_vector q -> every not_negative q).

(** Options that are numbers, without the robust adaptive Metropolis rule. *)
Record usable_options (o : simopts XR) : Prop := mkuo {
  uo_qcov : forall q, o_qcov o = Some q -> usable_cov q;
  uo_adascale : forall a, o_adascale o = Some a -> number a;
  uo_initqcovn : forall w, o_initqcovn o = Some w -> positive w;
  uo_drscale : Forall nonzero (o_drscale o);
  uo_burnin : nonzero (o_burnin_scale o);
  uo_adjust : number (o_qcov_adjust o);
  uo_ram : o_doram o = false;
  uo_RDR : forall l, o_RDR o = Some l -> Forall (every number) l
}.

(** Whether the prior weights N0 are all positive; by default they are 1 if sigma2 is given and 0 if it is not. *)
Definition weights_positive (ms : modset XR) : Prop :=
  match ms_N0 ms, ms_sigma2 ms with Some s, _ => Forall positive s | None, Some _ => True | None, None => False end.

(** Error variances: positive, prior weights not negative; where they are estimated ([est]), there are observations
    in every data set and the prior weights or all sums of squares are positive. *)
Record usable_model (E : env XR) (d : data XR) (ms : modset XR) (est : Prop) : Prop := mkum {
  um_sigma2 : forall s, ms_sigma2 ms = Some s -> Forall positive s;
  um_S20 : Forall positive (ms_S20 ms) \/ In NaN (ms_S20 ms);
  um_N0 : forall s, ms_N0 ms = Some s -> Forall not_negative s;
  um_est : est -> Forall (fun k => 0 < k)%nat (dt_n d) /\
    (weights_positive ms \/ forall v x, In x (e_sos E v) -> bad x \/ positive x)
}.

(** The parameters: some are sampled; starting values are numbers at which the sum of squares and the prior are numbers. *)
Definition mean_of_prior (p : param XR) : XR := if nisnan (a_mu p) then a_theta0 p else a_mu p.
Definition width_of_prior (p : param XR) : XR := if neq (a_sigma p) n0 || nle (a_sigma p) n0 then ninf else a_sigma p.
Record usable_start (E : env XR) (ps : list (param XR)) : Prop := mkus {
  us_sampled : sampled_params ps <> [];
  us_values : Forall (fun p => number (a_theta0 p)) ps;
  us_sos : Forall number (e_sos E (map (@a_theta0 XR) ps));
  us_prior : number (e_prior E (map (@a_theta0 XR) (sampled_params ps)) (map mean_of_prior (sampled_params ps)) (map width_of_prior (sampled_params ps)))
}.

(** What the results of a run hold. *)
Definition optionally {A} (P : A -> Prop) (x : option A) : Prop := forall a, x = Some a -> P a.
Record only_numbers (m : mcmc XR) : Prop := mkon {
  on_chain : every number (m_chain m);
  on_sschain : every not_negative (m_sschain m);
  on_s2chain : optionally (every positive) (m_s2chain m);
  on_sigma2 : optionally (Forall positive) (ms_sigma2 (m_model m));
  on_results : exists r, m_results m = Some r /\ Forall number (rr_theta r) /\ every number (rr_R r) /\ every number (rr_qcov r) /\
    optionally (every number) (rr_cov r) /\ optionally (Forall number) (rr_mean r) /\
    rr_chain r = m_chain m /\ rr_sschain r = m_sschain m /\ rr_s2chain r = m_s2chain m
}.
