(** Comparing sessions whose parameters are declared with wider and with narrower limits. *)

From Coq Require Import ZArith QArith Bool Lia List String.
From Verif Require Import Base Num Samplers Adapt Settings Simulator RunSpec.
Import ListNotations.
Close Scope Q_scope.
Open Scope list_scope.
Open Scope nat_scope.

Section LimitsSpec.
Context {F : Type} `{NF : Num F}.

(** The same declaration, with limits that allow at most what the limits of [q] allow.  (The limits of parameters that are not
    sampled may be anything.) *)
Definition narrower (p q : param F) : Prop :=
  (a_name p, a_theta0 p, a_mu p, a_sigma p, a_sample p, a_adapt p) = (a_name q, a_theta0 q, a_mu q, a_sigma q, a_sample q, a_adapt q) /\
  (a_sample q = true -> nle (a_min p) (a_max p) = true /\
     (forall x, nlt x (a_min q) = true -> nlt x (a_min p) = true) /\ (forall x, nlt (a_max q) x = true -> nlt (a_max p) x = true)).

(** A full parameter vector whose sampled entries are within their limits. *)
Definition within_limits (ps : list (param F)) (v : list F) : Prop :=
  Forall2 (fun p x => a_sample p = true -> nlt x (a_min p) = false /\ nlt (a_max p) x = false) ps v.

(** Declarations, results and sessions with other limits and the same in everything else. *)
Definition relimit (ps qs : list (param F)) : list (param F) :=
  map2 (fun p q => mkparam (a_name q) (a_theta0 q) (a_min p) (a_max p) (a_mu q) (a_sigma q) (a_sample q) (a_adapt q)) ps qs.
Definition results_relimit (ps : list (param F)) (r : results F) : results F :=
  mkresults (rr_theta r) (rr_parind r) (rr_total_rejected r) (rr_outside r) (rr_R r) (rr_qcov r) (rr_cov r) (rr_mean r) (rr_names r) (rr_allnames r)
    (map (@a_min F) (sampled_params ps)) (map (@a_max F) (sampled_params ps)) (rr_nsimu r) (rr_iacce r) (rr_opts r) (rr_model r) (rr_chain r) (rr_sschain r) (rr_s2chain r).
Definition session_relimit (ps : list (param F)) (m : mcmc F) : mcmc F :=
  mkmcmc (relimit ps (m_params m)) (m_data m) (m_model m) (m_opts m) (m_RDR m) (m_status m) (m_chain m) (m_sschain m) (m_s2chain m) (m_index m) (m_chains m)
    (m_pos m) (m_calls m) (m_fs m) (option_map (results_relimit ps) (m_results m)) (m_trace m).

End LimitsSpec.
