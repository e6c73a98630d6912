(** Comparing a session with the session in which settings that have no use are others. *)

From Coq Require Import ZArith Bool List String.
From Verif Require Import Base Num Samplers Adapt Settings Simulator RunSpec SwitchSpec.
Import ListNotations.
Open Scope list_scope.
Open Scope nat_scope.

Section IdleSpec.
Context {F : Type} `{NF : Num F}.

(** The options [o] with the name of the method, the settings of the adaptation and the print interval of [t]. *)
Definition tuned (t o : simopts F) : simopts F :=
  mkopts (o_nsimu o) (o_method t) (o_adaptint t) (o_ntry o) (o_dodram o) (o_doram t) (o_adascale o)
    (o_printint t) (o_lastadapt t) (o_burnintime t) (o_qcov o) (o_initqcovn o) (o_updatesigma o)
    (o_qcov_adjust t) (o_burnin_scale t) (o_alphatarget t) (o_etaparam t) (o_drscale o) (o_RDR o)
    (o_savesize o) (o_chainfile o) (o_sschainfile o) (o_s2chainfile o) (o_covchainfile o)
    (o_savedir o) (o_save_to_bin o) (o_save_to_txt o) (o_save_to_json o) (o_save_lightly o)
    (o_results_filename o) (o_restart o).

(** No adaptation is asked for, or the run ends before the first one. *)
Definition never_adapts (o : simopts F) : Prop := (o_adaptint o <= 0 \/ Z.of_nat (o_nsimu o) <= o_adaptint o)%Z.

(** The settings of the adaptation that are in use: the scale of the burn-in only if the first adaptation belongs to the burn-in,
    the target and the exponent only in the robust adaptation. *)
Definition same_adaptation (o o' : simopts F) : Prop :=
  o_adaptint o' = o_adaptint o /\ o_doram o' = o_doram o /\ o_burnintime o' = o_burnintime o /\ o_qcov_adjust o' = o_qcov_adjust o /\
  (o_burnin_scale o' = o_burnin_scale o \/ (o_burnintime o <= o_adaptint o)%Z) /\
  ((o_alphatarget o' = o_alphatarget o /\ o_etaparam o' = o_etaparam o) \/ o_doram o = false).

Definition idle (o o' : simopts F) : Prop :=
  o' = tuned o' o /\ (with_tries (o_method o') <-> with_tries (o_method o)) /\
  ((never_adapts o /\ never_adapts o') \/ same_adaptation o o').
Definition idle_action (a a' : action F) : Prop :=
  match a, a' with
  | SetOptions o, SetOptions o' => idle o o'
  | SetModel ms, SetModel ms' => ms' = ms
  | Run u, Run u' => u' = u
  | _, _ => False
  end.

(** Two objects that agree in everything but these settings. *)
Record same_but_idle (m m' : mcmc F) : Prop := {
  si_params : m_params m' = m_params m;
  si_data : m_data m' = m_data m;
  si_model : m_model m' = m_model m;
  si_opts : idle (m_opts m) (m_opts m');
  si_RDR : m_RDR m' = m_RDR m;
  si_status : m_status m' = m_status m;
  si_chain : m_chain m' = m_chain m;
  si_sschain : m_sschain m' = m_sschain m;
  si_s2chain : m_s2chain m' = m_s2chain m;
  si_index : m_index m' = m_index m;
  si_chains : m_chains m' = m_chains m;
  si_pos : m_pos m' = m_pos m;
  si_calls : m_calls m' = m_calls m;
  si_fs : m_fs m' = m_fs m;
  si_results : option_map outcome_of (m_results m') = option_map outcome_of (m_results m);
  si_trace : m_trace m' = m_trace m
}.
End IdleSpec.
