(** Comparing a session with the session in which another method is named, with one try in each. *)

From Coq Require Import ZArith QArith Bool List String.
From Verif Require Import Base Num Samplers Adapt Settings Simulator RunSpec.
Import ListNotations.
Close Scope Q_scope.
Open Scope list_scope.
Open Scope nat_scope.

Section SwitchSpec.
Context {F : Type} `{NF : Num F}.

(** Methods that prepare proposals for further tries. *)
Definition with_tries (m : method) : Prop := m = DR \/ m = DRAM.

(** The options with another method and other scales for further tries. *)
Definition named (m : method) (drscale : list F) (dodram : bool) (o : simopts F) : simopts F :=
  mkopts (o_nsimu o) m (o_adaptint o) (o_ntry o) dodram (o_doram o) (o_adascale o)
    (o_printint o) (o_lastadapt o) (o_burnintime o) (o_qcov o) (o_initqcovn o) (o_updatesigma o)
    (o_qcov_adjust o) (o_burnin_scale o) (o_alphatarget o) (o_etaparam o) drscale (o_RDR o)
    (o_savesize o) (o_chainfile o) (o_sschainfile o) (o_s2chainfile o) (o_covchainfile o)
    (o_savedir o) (o_save_to_bin o) (o_save_to_txt o) (o_save_to_json o) (o_save_lightly o)
    (o_results_filename o) (o_restart o).

(** Options that differ in name only: one try, no proposals given for further tries; the second method may prepare such proposals
    although the first does not. *)
Definition same_switches (o o' : simopts F) : Prop :=
  o' = named (o_method o') (o_drscale o') (o_dodram o') o /\ o_ntry o <= 1 /\ o_RDR o = None /\
  (with_tries (o_method o) -> with_tries (o_method o')).
Definition same_action (a a' : action F) : Prop :=
  match a, a' with
  | SetOptions o, SetOptions o' => same_switches o o'
  | SetModel ms, SetModel ms' => ms' = ms
  | Run u, Run u' => u' = u
  | _, _ => False
  end.

(** The state of the adaptation, without the proposals for further tries. *)
Definition first_try (c : covst F) :=
  (c_R c, c_qcov c, c_qcov_scale c, c_no_adapt c, (c_covchain c, c_meanchain c, c_wsum c, c_last c)).
Definition iteration (e : event F) := (first_try (ev_cov e), ev_pos e, ev_stage e, ev_outb e, ev_files e).
Definition outcome_of (r : results F) :=
  ((rr_theta r, rr_parind r, rr_total_rejected r, rr_outside r, rr_R r, rr_qcov r, rr_cov r, rr_mean r),
   (rr_names r, rr_allnames r, rr_lower r, rr_upper r, rr_nsimu r, rr_iacce r, rr_chain r),
   (rr_model r, rr_sschain r, rr_s2chain r)).

(** Two objects that agree in everything but the names of the methods and the proposals for further tries. *)
Record same_but_name (m m' : mcmc F) : Prop := {
  sn_params : m_params m' = m_params m;
  sn_data : m_data m' = m_data m;
  sn_model : m_model m' = m_model m;
  sn_opts : same_switches (m_opts m) (m_opts m');
  sn_status : m_status m' = m_status m;
  sn_chain : m_chain m' = m_chain m;
  sn_sschain : m_sschain m' = m_sschain m;
  sn_s2chain : m_s2chain m' = m_s2chain m;
  sn_index : m_index m' = m_index m;
  sn_chains : m_chains m' = m_chains m;
  sn_pos : m_pos m' = m_pos m;
  sn_calls : m_calls m' = m_calls m;
  sn_fs : m_fs m' = m_fs m;
  sn_results : option_map outcome_of (m_results m') = option_map outcome_of (m_results m);
  sn_trace : map iteration (m_trace m') = map iteration (m_trace m)
}.

(** The same outcome, unless the second is stopped by a matrix that has no inverse. *)
Definition no_inverse (E : env F) (e : err) : Prop := e = LinAlgError /\ exists A, e_inv E A = None.
Definition unless_singular {A B} (E : env F) (R : A -> B -> Prop) (x : res A) (y : res B) : Prop :=
  match x, y with
  | Ok a, Ok b => R a b
  | Err e, Err e' => e' = e \/ no_inverse E e'
  | Ok _, Err e' => no_inverse E e'
  | Err _, Ok _ => False
  end.
End SwitchSpec.
