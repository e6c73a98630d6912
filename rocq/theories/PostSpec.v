(** Comparing runs with different sums of squares and prior functions but the same posterior. *)

From Coq Require Import String List Reals.
From Verif Require Import Base Num Samplers Adapt Settings Simulator RunSpec FixedSpec.
Import ListNotations.
Open Scope list_scope.
Open Scope R_scope.

(** Mean and width of the prior of a parameter. *)
Definition prior_mean (p : param XR) : XR := match a_mu p with NaN => a_theta0 p | x => x end.
Definition prior_width (p : param XR) : XR :=
  match a_sigma p with Fin w => if Rle_dec w 0 then PInf else Fin w | NInf => PInf | x => x end.

(** -2 times the logarithm of the posterior density at the parameter vector [v] (all parameters), up to a constant; [s2] is the
    error variance. *)
Definition neglog (ps : list (param XR)) (s2 : R) (E : env XR) (v : list XR) : XR :=
  nadd (fold_right nadd (Fin 0) (map (fun x => ndiv x (Fin s2)) (e_sos E v)))
       (e_prior E (kept ps v) (map prior_mean (sampled_params ps)) (map prior_width (sampled_params ps))).

(** The same random numbers and linear algebra, the same number of responses, and the same posterior up to a constant factor. *)
Record same_posterior (ps : list (param XR)) (s2 c : R) (E E' : env XR) : Prop := {
  sp_str : e_str E' = e_str E;
  sp_chol : e_chol E' = e_chol E;
  sp_inv : e_inv E' = e_inv E;
  sp_fuel : e_fuel E' = e_fuel E;
  sp_responses : forall v, length v = length ps -> length (e_sos E' v) = length (e_sos E v);
  sp_neglog : forall v, length v = length ps -> neglog ps s2 E' v = nadd (neglog ps s2 E v) (Fin c)
}.

(** The results, except for the chain of sums of squares. *)
Definition course_of (r : results XR) :=
  ((rr_theta r, rr_parind r, rr_total_rejected r, rr_outside r, rr_R r, rr_qcov r, rr_cov r, rr_mean r),
   (rr_names r, rr_allnames r, rr_lower r, rr_upper r, rr_nsimu r, rr_iacce r, rr_opts r, rr_chain r),
   (rr_model r, rr_s2chain r)).

(** Operations on files: the same, but a table in a file with the name [f] may hold other numbers. *)
Definition same_table (f : string) (p : path) (r r' : list (list XR)) : Prop := r' = r \/ snd (fst p) = f /\ length r' = length r.
Definition same_op (f : string) (x y : fop XR) : Prop :=
  match x, y with
  | FLog p a b, FLog q c d => p = q /\ a = c /\ b = d
  | FJson p l, FJson q l' => p = q /\ l = l'
  | FH5 p a b r, FH5 q c d r' => p = q /\ a = c /\ b = d /\ same_table f p r r'
  | FTxt p r, FTxt q r' => p = q /\ same_table f p r r'
  | _, _ => False
  end.

(** The two objects agree in everything but the sums of squares. *)
Record same_course (m m' : mcmc XR) : Prop := {
  sc_params : m_params m' = m_params m;
  sc_data : m_data m' = m_data m;
  sc_model : m_model m' = m_model m;
  sc_opts : m_opts m' = m_opts m;
  sc_RDR : m_RDR m' = m_RDR m;
  sc_status : m_status m' = m_status m;
  sc_chain : m_chain m' = m_chain m;
  sc_sschain : length (m_sschain m') = length (m_sschain m);
  sc_s2chain : m_s2chain m' = m_s2chain m;
  sc_index : m_index m' = m_index m;
  sc_chains : m_chains m' = m_chains m;
  sc_pos : m_pos m' = m_pos m;
  sc_calls : m_calls m' = m_calls m;
  sc_fs : Forall2 (same_op (o_sschainfile (m_opts m))) (m_fs m) (m_fs m');
  sc_results : option_map course_of (m_results m') = option_map course_of (m_results m);
  sc_trace : m_trace m' = m_trace m
}.

(** A number added to the first of the sums of squares. *)
Definition raise_first (x : XR) (l : list XR) : list XR := match l with [] => [] | y :: l => nadd y x :: l end.
Definition raised_env (k : R) (E : env XR) : env XR :=
  mkenv (fun v => raise_first (Fin k) (e_sos E v)) (e_prior E) (e_str E) (e_chol E) (e_inv E) (e_fuel E).

(** No prior function: its value, times the error variance, is part of the sum of squares. *)
Definition absorbed_env (ps : list (param XR)) (s2 : R) (E : env XR) : env XR :=
  mkenv (fun v => raise_first (nmul (Fin s2) (e_prior E (kept ps v) (map prior_mean (sampled_params ps)) (map prior_width (sampled_params ps)))) (e_sos E v))
        (fun _ _ _ => Fin 0) (e_str E) (e_chol E) (e_inv E) (e_fuel E).
