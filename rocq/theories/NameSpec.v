(** A session whose parameters have other names: the names in the declarations, in restart files and in results are changed by
    a function, and nothing else is. *)

From Coq Require Import ZArith QArith Bool Lia List String.
From Verif Require Import Base Num Samplers Adapt Settings Simulator RunSpec.
Import ListNotations.
Open Scope list_scope.
Open Scope nat_scope.

Section NameSpec.
Context {F : Type} `{NF : Num F}.
Variable f : string -> string.

Definition named_param (p : param F) : param F :=
  mkparam (f (a_name p)) (a_theta0 p) (a_min p) (a_max p) (a_mu p) (a_sigma p) (a_sample p) (a_adapt p).
Definition named_restart (r : restart F) : restart F := mkrestart (map f (rs_names r)) (rs_parind r) (rs_theta r) (rs_qcov r).
Definition named_opts (o : simopts F) : simopts F :=
  mkopts (o_nsimu o) (o_method o) (o_adaptint o) (o_ntry o) (o_dodram o) (o_doram o) (o_adascale o) (o_printint o) (o_lastadapt o)
    (o_burnintime o) (o_qcov o) (o_initqcovn o) (o_updatesigma o) (o_qcov_adjust o) (o_burnin_scale o)
    (o_alphatarget o) (o_etaparam o) (o_drscale o) (o_RDR o) (o_savesize o) (o_chainfile o) (o_sschainfile o)
    (o_s2chainfile o) (o_covchainfile o) (o_savedir o) (o_save_to_bin o) (o_save_to_txt o) (o_save_to_json o) (o_save_lightly o)
    (o_results_filename o) (option_map named_restart (o_restart o)).
Definition named_action (a : action F) : action F := match a with SetOptions o => SetOptions (named_opts o) | a => a end.
Definition named_results (r : results F) : results F :=
  mkresults (rr_theta r) (rr_parind r) (rr_total_rejected r) (rr_outside r) (rr_R r) (rr_qcov r) (rr_cov r) (rr_mean r)
    (map f (rr_names r)) (map f (rr_allnames r)) (rr_lower r) (rr_upper r) (rr_nsimu r) (rr_iacce r) (named_opts (rr_opts r)) (rr_model r)
    (rr_chain r) (rr_sschain r) (rr_s2chain r).
(** The object with the other names.  Chains, covariances, error variances, the random position, the values the user's
    functions were called with, files and the course of the run are the same. *)
Definition named (m : mcmc F) : mcmc F :=
  mkmcmc (map named_param (m_params m)) (m_data m) (m_model m) (named_opts (m_opts m)) (m_RDR m) (m_status m) (m_chain m) (m_sschain m)
    (m_s2chain m) (m_index m) (m_chains m) (m_pos m) (m_calls m) (m_fs m) (option_map named_results (m_results m)) (m_trace m).
End NameSpec.
