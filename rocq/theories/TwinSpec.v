(** Comparing two runs: which options have a say in sampling, and when two objects hold the same samples. *)

From Coq Require Import ZArith QArith Bool Lia List String.
From Verif Require Import Base Num Samplers Adapt Settings Simulator RunSpec.
Import ListNotations.
Open Scope list_scope.
Open Scope nat_scope.

Section TwinSpec.
Context {F : Type} `{NF : Num F}.

(** The options that describe the sampling method.  All the others are the length of the chain, what is printed,
    what is written to files and under which names, and [lastadapt]. *)
Definition sampling_of (o : simopts F) :=
  ((o_method o, o_adaptint o, o_ntry o, o_doram o, o_adascale o, o_burnintime o, o_qcov o, o_initqcovn o),
   (o_updatesigma o, o_qcov_adjust o, o_burnin_scale o, o_alphatarget o, o_etaparam o, o_drscale o, o_RDR o, o_restart o)).

(** An iteration without the number of file operations done so far. *)
Definition what_happened (e : event F) := (ev_cov e, ev_pos e, ev_stage e, ev_outb e).

(** An iteration without that and without the proposal covariances. *)
Definition brief (e : event F) := (ev_pos e, ev_stage e, ev_outb e).

(** The checks at the start of a run leave the model settings of the object as they are. *)
Definition settled (m : mcmc F) (n : nat) : Prop :=
  exists ms, check_dependent_model_settings (m_model m) (m_data m) = Ok ms /\ check_wrt_nsos ms n = Ok (m_model m).

(** The entries of a results dictionary that have numbers in them, without the settings. *)
Definition numbers_of (r : results F) :=
  ((rr_theta r, rr_parind r, rr_total_rejected r, rr_outside r, rr_R r, rr_qcov r, rr_cov r, rr_mean r),
   (rr_names r, rr_allnames r, rr_lower r, rr_upper r, rr_nsimu r, rr_iacce r, rr_model r),
   (rr_chain r, rr_sschain r, rr_s2chain r)).

(** Two objects that differ in nothing but options of the second kind and the files written. *)
Record same_object (m1 m2 : mcmc F) : Prop := {
  so_params : m_params m1 = m_params m2;
  so_data : m_data m1 = m_data m2;
  so_model : m_model m1 = m_model m2;
  so_opts : sampling_of (m_opts m1) = sampling_of (m_opts m2);
  so_RDR : m_RDR m1 = m_RDR m2;
  so_status : m_status m1 = m_status m2;
  so_chain : m_chain m1 = m_chain m2;
  so_sschain : m_sschain m1 = m_sschain m2;
  so_s2chain : m_s2chain m1 = m_s2chain m2;
  so_index : m_index m1 = m_index m2;
  so_pos : m_pos m1 = m_pos m2;
  so_calls : m_calls m1 = m_calls m2;
  so_results : option_map numbers_of (m_results m1) = option_map numbers_of (m_results m2);
  so_trace : map what_happened (m_trace m1) = map what_happened (m_trace m2)
}.

(** The same user actions, up to options of the second kind. *)
Inductive same_actions : list (action F) -> list (action F) -> Prop :=
| sa_nil : same_actions [] []
| sa_options o1 o2 l1 l2 : sampling_of o1 = sampling_of o2 -> o_nsimu o1 = o_nsimu o2 -> same_actions l1 l2 ->
    same_actions (SetOptions o1 :: l1) (SetOptions o2 :: l2)
| sa_model ms l1 l2 : same_actions l1 l2 -> same_actions (SetModel ms :: l1) (SetModel ms :: l2)
| sa_run b l1 l2 : same_actions l1 l2 -> same_actions (Run b :: l1) (Run b :: l2).

End TwinSpec.
