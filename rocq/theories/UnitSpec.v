(** Comparing a session with the session in which every parameter is measured in another unit: the starting value, the limits
    and the prior of each parameter are multiplied by a positive constant of its own, proposal covariances given by the user
    accordingly, and the functions of the user are given the values in the old units. *)

From Coq Require Import ZArith QArith Bool Lia List String Reals.
From Verif Require Import Base Num Samplers Adapt Settings Simulator RunSpec ScaleNum.
Import ListNotations.
Close Scope Q_scope.
Close Scope R_scope.
Open Scope list_scope.
Open Scope nat_scope.

(** Entry [i] multiplied by the [i]th constant; [sc] leaves infinities and NaN as they are. *)
Fixpoint us (c : list R) (v : list XR) : list XR :=
  match c, v with
  | r :: c, x :: v => sc r x :: us c v
  | _, _ => v
  end.
(** Row [i] of a matrix multiplied by the [i]th constant. *)
Fixpoint rws (c : list R) (M : list (list XR)) : list (list XR) :=
  match c, M with
  | r :: c, row :: M => map (sc r) row :: rws c M
  | _, _ => M
  end.
(** A covariance: rows and columns. *)
Definition both (c : list R) (M : list (list XR)) : list (list XR) := rws c (map (us c) M).

Definition unit_param (r : R) (p : param XR) : param XR :=
  mkparam (a_name p) (sc r (a_theta0 p)) (sc r (a_min p)) (sc r (a_max p)) (sc r (a_mu p)) (sc r (a_sigma p)) (a_sample p) (a_adapt p).
Fixpoint unit_params (c : list R) (ps : list (param XR)) : list (param XR) :=
  match c, ps with
  | r :: c, p :: ps => unit_param r p :: unit_params c ps
  | _, _ => ps
  end.
(** The constants of the sampled parameters. *)
Fixpoint sampled_units (c : list R) (ps : list (param XR)) : list R :=
  match c, ps with
  | r :: c, p :: ps => if a_sample p then r :: sampled_units c ps else sampled_units c ps
  | _, _ => []
  end.

(** A covariance given by the user: a matrix, or a row or column of variances, which is then given as a row. *)
Definition unit_qcov (c : list R) (q : list (list XR)) : list (list XR) :=
  if Nat.min (List.length q) (ncols q) =? 1 then [us (map (fun r => r * r)%R c) (List.concat q)] else both c q.
(** Options: the proposal covariance or the proposal factors, if given, in the new units.  What is added to the diagonal of a
    singular covariance is a single number; it is multiplied by [k] twice. *)
Definition unit_opts (k : R) (c cs : list R) (o : simopts XR) : simopts XR :=
  mkopts (o_nsimu o) (o_method o) (o_adaptint o) (o_ntry o) (o_dodram o) (o_doram o) (o_adascale o) (o_printint o) (o_lastadapt o)
    (o_burnintime o) (option_map (unit_qcov c) (o_qcov o)) (o_initqcovn o) (o_updatesigma o) (sc (k * k) (o_qcov_adjust o)) (o_burnin_scale o)
    (o_alphatarget o) (o_etaparam o) (o_drscale o) (option_map (map (map (us cs))) (o_RDR o)) (o_savesize o) (o_chainfile o) (o_sschainfile o)
    (o_s2chainfile o) (o_covchainfile o) (o_savedir o) (o_save_to_bin o) (o_save_to_txt o) (o_save_to_json o) (o_save_lightly o)
    (o_results_filename o) (o_restart o).
Definition unit_action (k : R) (c cs : list R) (a : action XR) : action XR :=
  match a with SetOptions o => SetOptions (unit_opts k c cs o) | a => a end.

(** The functions of the user, for parameters measured in the new units: the sum of squares is given all parameters, the prior
    function the sampled ones. *)
Definition unit_env (c cs : list R) (E : env XR) : env XR :=
  mkenv (fun v => e_sos E (us (map Rinv c) v)) (fun t mu sg => e_prior E (us (map Rinv cs) t) (us (map Rinv cs) mu) (us (map Rinv cs) sg))
        (e_str E) (e_chol E) (e_inv E) (e_fuel E).
(** Factorisation and inverse follow a change of units, as they do in exact arithmetic. *)
Record unit_free (cs : list R) (E : env XR) : Prop := mkuf {
  uf_chol : forall A, e_chol E (both cs A) = option_map (rws cs) (e_chol E A);
  uf_inv : forall M, e_inv E (map (us cs) M) = option_map (rws (map Rinv cs)) (e_inv E M)
}.

(** A table of points in the new units, or one that is the same. *)
Definition unit_points (cs : list R) (a b : list (list XR)) : Prop := b = a \/ b = map (us cs) a.
(** The same for a table in a file, which may also be a covariance. *)
Definition unit_rows (cs : list R) (a b : list (list XR)) : Prop := unit_points cs a b \/ b = both cs a.
Definition unit_op (cs : list R) (x y : fop XR) : Prop :=
  match x, y with
  | FLog p a b, FLog q c d => p = q /\ a = c /\ b = d
  | FJson p l, FJson q l' => p = q /\ l = l'
  | FH5 p a b r, FH5 q c d r' => p = q /\ a = c /\ b = d /\ unit_rows cs r r'
  | FTxt p r, FTxt q r' => p = q /\ unit_rows cs r r'
  | _, _ => False
  end.
Definition unit_ref (cs : list R) (x y : string * chref XR) : Prop :=
  fst x = fst y /\
  match snd x, snd y with
  | RefChain, RefChain | RefSS, RefSS | RefS2, RefS2 => True
  | Frozen m, Frozen m' => unit_points cs m m'
  | _, _ => False
  end.

(** The proposals in the new units. *)
Definition unit_rdr (cs : list R) (x : rdrval XR) : rdrval XR :=
  match x with RSome l => RSome (map (map (us cs)) l) | y => y end.
Definition unit_cov (cs : list R) (c : covst XR) : covst XR :=
  mkcov (map (us cs) (c_R c)) (both cs (c_qcov c)) (c_qcov_scale c) (c_no_adapt c) (option_map (both cs) (c_covchain c))
        (option_map (us cs) (c_meanchain c)) (c_wsum c) (c_last c) (unit_rdr cs (c_RDR c)) (option_map (map (rws (map Rinv cs))) (c_invR c)).
Definition unit_event (cs : list R) (e : event XR) : event XR :=
  mkev (unit_cov cs (ev_cov e)) (ev_pos e) (ev_stage e) (ev_outb e) (ev_files e).

Definition unit_results (k : R) (c cs : list R) (r : results XR) : results XR :=
  mkresults (us c (rr_theta r)) (rr_parind r) (rr_total_rejected r) (rr_outside r) (map (us cs) (rr_R r)) (both cs (rr_qcov r))
    (option_map (both cs) (rr_cov r)) (option_map (us cs) (rr_mean r))
    (rr_names r) (rr_allnames r) (us cs (rr_lower r)) (us cs (rr_upper r)) (rr_nsimu r) (rr_iacce r) (unit_opts k c cs (rr_opts r)) (rr_model r)
    (map (us cs) (rr_chain r)) (rr_sschain r) (rr_s2chain r).

(** The object [m'] is [m] in the new units: points, means, limits, factors and covariances are converted; settings, sums of
    squares, error variances, accepted stages and the random position are the same. *)
Record in_units (k : R) (c cs : list R) (m m' : mcmc XR) : Prop := {
  un_params : m_params m' = unit_params c (m_params m);
  un_data : m_data m' = m_data m;
  un_model : m_model m' = m_model m;
  un_opts : m_opts m' = unit_opts k c cs (m_opts m);
  un_RDR : m_RDR m' = unit_rdr cs (m_RDR m);
  un_status : m_status m' = m_status m;
  un_chain : m_chain m' = map (us cs) (m_chain m);
  un_sschain : m_sschain m' = m_sschain m;
  un_s2chain : m_s2chain m' = m_s2chain m;
  un_index : m_index m' = m_index m;
  un_chains : Forall2 (unit_ref cs) (m_chains m) (m_chains m');
  un_pos : m_pos m' = m_pos m;
  un_calls : m_calls m' = map (us c) (m_calls m);
  un_fs : Forall2 (unit_op cs) (m_fs m) (m_fs m');
  un_results : m_results m' = option_map (unit_results k c cs) (m_results m);
  un_trace : m_trace m' = map (unit_event cs) (m_trace m)
}.

(** Options that have the same meaning in all units: no restart file is named; nothing is added to the diagonal of a singular
    covariance, unless all sampled parameters are multiplied by [k]. *)
Definition convertible (k : R) (cs : list R) (o : simopts XR) : Prop :=
  o_restart o = None /\ (o_qcov_adjust o = Fin 0%R \/ Forall (fun r => r = k) cs).
(** The covariance the first proposals are made with: the user gives it, or every parameter has a prior. *)
Definition covariance_known (ps : list (param XR)) (o : simopts XR) : Prop :=
  o_qcov o <> None \/ Forall (fun p => exists s, a_sigma p = Fin s /\ (0 < s)%R) ps.
Definition all_options (P : simopts XR -> Prop) (l : list (action XR)) : Prop :=
  Forall (fun a => match a with SetOptions o => P o | _ => True end) l.
(** The first run may also make it from the starting values, unless a parameter without a prior starts from zero. *)
Definition start_known (ps : list (param XR)) (o : simopts XR) : Prop :=
  o_qcov o <> None \/ Forall (fun p => (exists s, a_sigma p = Fin s /\ (0 < s)%R) \/ a_theta0 p <> Fin 0%R) ps.
