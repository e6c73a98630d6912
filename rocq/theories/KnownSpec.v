(** Comparing two runs with the same given error variance, and different data and settings of its estimation. *)

From Coq Require Import ZArith Bool List String.
From Verif Require Import Base Num Samplers Adapt Settings Simulator RunSpec.
Import ListNotations.
Open Scope list_scope.
Open Scope nat_scope.

Section KnownSpec.
Context {F : Type} `{NF : Num F}.

(** The error variance is the same; the numbers of observations, the prior scale and the number of batches may differ; no accuracy N0 is given. *)
Definition given_alike (ms ms' : modset F) : Prop :=
  ms_sigma2 ms' = ms_sigma2 ms /\ ms_N0 ms = None /\ ms_N0 ms' = None.

(** Results without the record of the model settings. *)
Definition apart_from_model (r : results F) :=
  ((rr_theta r, rr_parind r, rr_total_rejected r, rr_outside r, rr_R r, rr_qcov r, rr_cov r, rr_mean r),
   (rr_names r, rr_allnames r, rr_lower r, rr_upper r, rr_nsimu r, rr_iacce r, rr_opts r, rr_chain r),
   (ms_sigma2 (rr_model r), rr_sschain r, rr_s2chain r)).
Record same_sampling (m m' : mcmc F) : Prop := {
  sg_params : m_params m' = m_params m;
  sg_opts : m_opts m' = m_opts m;
  sg_sigma2 : ms_sigma2 (m_model m') = ms_sigma2 (m_model m);
  sg_RDR : m_RDR m' = m_RDR m;
  sg_status : m_status m' = m_status m;
  sg_chain : m_chain m' = m_chain m;
  sg_sschain : m_sschain m' = m_sschain m;
  sg_s2chain : m_s2chain m' = m_s2chain m;
  sg_index : m_index m' = m_index m;
  sg_chains : m_chains m' = m_chains m;
  sg_pos : m_pos m' = m_pos m;
  sg_calls : m_calls m' = m_calls m;
  sg_fs : m_fs m' = m_fs m;
  sg_results : option_map apart_from_model (m_results m') = option_map apart_from_model (m_results m);
  sg_trace : m_trace m' = m_trace m
}.

(** The same outcome, unless one of them is refused (the program exits because sizes do not fit). *)
Definition unless_refused {A B} (R : A -> B -> Prop) (x : res A) (y : res B) : Prop :=
  match x, y with
  | Ok a, Ok b => R a b
  | Ok _, Err e' => e' = SysExit
  | Err e, Ok _ => e = SysExit
  | Err e, Err e' => e' = e \/ e = SysExit \/ e' = SysExit
  end.
End KnownSpec.
