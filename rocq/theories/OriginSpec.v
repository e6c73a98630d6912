(** Comparing a session with the session in which every parameter is measured from another origin: the starting value, the limits
    and the prior mean of each parameter are moved by a constant of its own, and the functions of the user are moved along. *)

From Coq Require Import ZArith QArith Bool Lia List String Reals.
From Verif Require Import Base Num Samplers Adapt Settings Simulator RunSpec ScaleNum.
Import ListNotations.
Close Scope Q_scope.
Close Scope R_scope.
Open Scope list_scope.
Open Scope nat_scope.

(** Entry [i] moved by the [i]th constant; [sh] leaves infinities and NaN as they are. *)
Fixpoint mv (d : list R) (v : list XR) : list XR :=
  match d, v with
  | r :: d, x :: v => sh r x :: mv d v
  | _, _ => v
  end.

Definition moved_param (r : R) (p : param XR) : param XR :=
  mkparam (a_name p) (sh r (a_theta0 p)) (sh r (a_min p)) (sh r (a_max p)) (sh r (a_mu p)) (a_sigma p) (a_sample p) (a_adapt p).
Fixpoint moved_params (d : list R) (ps : list (param XR)) : list (param XR) :=
  match d, ps with
  | r :: d, p :: ps => moved_param r p :: moved_params d ps
  | _, _ => ps
  end.
(** The constants of the sampled parameters. *)
Fixpoint sampled_shifts (d : list R) (ps : list (param XR)) : list R :=
  match d, ps with
  | r :: d, p :: ps => if a_sample p then r :: sampled_shifts d ps else sampled_shifts d ps
  | _, _ => []
  end.

(** The functions of the user, for parameters measured from the other origin: the sum of squares is given all parameters, the
    prior function the sampled ones. *)
Definition moved_env (d : list R) (ds : list R) (E : env XR) : env XR :=
  mkenv (fun v => e_sos E (mv (map Ropp d) v)) (fun t mu sg => e_prior E (mv (map Ropp ds) t) (mv (map Ropp ds) mu) sg)
        (e_str E) (e_chol E) (e_inv E) (e_fuel E).

(** A table of numbers that is the same, or a table of points that are moved. *)
Definition moved_rows (ds : list R) (a b : list (list XR)) : Prop := b = a \/ b = map (mv ds) a.

Definition moved_op (ds : list R) (x y : fop XR) : Prop :=
  match x, y with
  | FLog p a b, FLog q c d => p = q /\ a = c /\ b = d
  | FJson p l, FJson q l' => p = q /\ l = l'
  | FH5 p a b r, FH5 q c d r' => p = q /\ a = c /\ b = d /\ moved_rows ds r r'
  | FTxt p r, FTxt q r' => p = q /\ moved_rows ds r r'
  | _, _ => False
  end.

Definition moved_ref (ds : list R) (x y : string * chref XR) : Prop :=
  fst x = fst y /\
  match snd x, snd y with
  | RefChain, RefChain | RefSS, RefSS | RefS2, RefS2 => True
  | Frozen m, Frozen m' => moved_rows ds m m'
  | _, _ => False
  end.

(** The same proposal; the mean of the chain is moved. *)
Definition moved_cov (ds : list R) (c : covst XR) : covst XR :=
  mkcov (c_R c) (c_qcov c) (c_qcov_scale c) (c_no_adapt c) (c_covchain c) (option_map (mv ds) (c_meanchain c)) (c_wsum c) (c_last c) (c_RDR c) (c_invR c).
Definition moved_event (ds : list R) (e : event XR) : event XR :=
  mkev (moved_cov ds (ev_cov e)) (ev_pos e) (ev_stage e) (ev_outb e) (ev_files e).

Definition moved_results (d ds : list R) (r : results XR) : results XR :=
  mkresults (mv d (rr_theta r)) (rr_parind r) (rr_total_rejected r) (rr_outside r) (rr_R r) (rr_qcov r) (rr_cov r) (option_map (mv ds) (rr_mean r))
    (rr_names r) (rr_allnames r) (mv ds (rr_lower r)) (mv ds (rr_upper r)) (rr_nsimu r) (rr_iacce r) (rr_opts r) (rr_model r)
    (map (mv ds) (rr_chain r)) (rr_sschain r) (rr_s2chain r).

(** The object [m'] is [m] seen from the other origin: points, means and limits are moved; options, settings, factors, sums of
    squares, error variances, accepted stages and the random position are the same. *)
Record moved (d ds : list R) (m m' : mcmc XR) : Prop := {
  mo_params : m_params m' = moved_params d (m_params m);
  mo_data : m_data m' = m_data m;
  mo_model : m_model m' = m_model m;
  mo_opts : m_opts m' = m_opts m;
  mo_RDR : m_RDR m' = m_RDR m;
  mo_status : m_status m' = m_status m;
  mo_chain : m_chain m' = map (mv ds) (m_chain m);
  mo_sschain : m_sschain m' = m_sschain m;
  mo_s2chain : m_s2chain m' = m_s2chain m;
  mo_index : m_index m' = m_index m;
  mo_chains : Forall2 (moved_ref ds) (m_chains m) (m_chains m');
  mo_pos : m_pos m' = m_pos m;
  mo_calls : m_calls m' = map (mv d) (m_calls m);
  mo_fs : Forall2 (moved_op ds) (m_fs m) (m_fs m');
  mo_results : m_results m' = option_map (moved_results d ds) (m_results m);
  mo_trace : m_trace m' = map (moved_event ds) (m_trace m)
}.

(** The covariance of the proposals does not come from the starting values: it is given, or all parameters have a prior. *)
Definition covariance_given (ps : list (param XR)) (o : simopts XR) : Prop :=
  o_restart o = None /\ (o_qcov o <> None \/ Forall (fun p => exists s, a_sigma p = Fin s /\ (0 < s)%R) ps).
Definition covariances_given (ps : list (param XR)) (l : list (action XR)) : Prop :=
  Forall (fun a => match a with SetOptions o => covariance_given ps o | _ => True end) l.
