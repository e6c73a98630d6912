(** Comparing a session with the session in which the parameters that are not sampled are not declared at all: the user's sum of
    squares holds them as constants instead. *)

From Coq Require Import ZArith QArith Bool Lia List String.
From Verif Require Import Base Num Samplers Adapt Settings Simulator RunSpec.
Import ListNotations.
Close Scope Q_scope.
Open Scope list_scope.
Open Scope nat_scope.

Section FixedSpec.
Context {F : Type} `{NF : Num F}.

(** The entries that belong to sampled parameters. *)
Fixpoint kept {A} (ps : list (param F)) (l : list A) : list A :=
  match ps, l with
  | p :: ps, x :: l => if a_sample p then x :: kept ps l else kept ps l
  | _, _ => []
  end.

(** The sum of squares as a function of the sampled parameters only: the others are constants ([fill] puts them in). *)
Definition closed_env (ps : list (param F)) (E : env F) : env F :=
  mkenv (fun theta => e_sos E (fill ps theta)) (e_prior E) (e_str E) (e_chol E) (e_inv E) (e_fuel E).

(** A covariance given by the user: a matrix, or the variances as a row or a column, for all parameters and for the sampled ones. *)
Inductive cov_kept (ps : list (param F)) : option (list (list F)) -> option (list (list F)) -> Prop :=
| KNone : cov_kept ps None None
| KMatrix Q : List.length Q = List.length ps -> Forall (fun r => List.length r = List.length ps) Q ->
    cov_kept ps (Some Q) (Some (map (kept ps) (kept ps Q)))
| KRow v : List.length v = List.length ps -> cov_kept ps (Some [v]) (Some [kept ps v])
| KColumn v : List.length v = List.length ps -> cov_kept ps (Some (map (fun x => [x]) v)) (Some (map (fun x => [x]) (kept ps v))).

Definition with_covariance (o : simopts F) (q : option (list (list F))) : simopts F :=
  mkopts (o_nsimu o) (o_method o) (o_adaptint o) (o_ntry o) (o_dodram o) (o_doram o) (o_adascale o)
    (o_printint o) (o_lastadapt o) (o_burnintime o) q (o_initqcovn o) (o_updatesigma o)
    (o_qcov_adjust o) (o_burnin_scale o) (o_alphatarget o) (o_etaparam o) (o_drscale o) (o_RDR o)
    (o_savesize o) (o_chainfile o) (o_sschainfile o) (o_s2chainfile o) (o_covchainfile o)
    (o_savedir o) (o_save_to_bin o) (o_save_to_txt o) (o_save_to_json o) (o_save_lightly o)
    (o_results_filename o) (o_restart o).

(** The same options, for the sampled parameters only; without a restart file. *)
Definition options_kept (ps : list (param F)) (o o' : simopts F) : Prop :=
  o_restart o = None /\ cov_kept ps (o_qcov o) (o_qcov o') /\ o' = with_covariance o (o_qcov o').
Definition action_kept (ps : list (param F)) (a a' : action F) : Prop :=
  match a, a' with
  | SetOptions o, SetOptions o' => options_kept ps o o'
  | SetModel ms, SetModel ms' => ms' = ms
  | Run b, Run b' => b' = b
  | _, _ => False
  end.

(** The same results; only positions, options and the full parameter vector tell whether there were other parameters. *)
Record results_kept (ps : list (param F)) (r r' : results F) : Prop := {
  rk_theta : List.length (rr_theta r') = List.length (sampled_params ps) /\ rr_theta r = fill ps (rr_theta r');
  rk_parind : rr_parind r' = seq 0 (List.length (sampled_params ps));
  rk_names : rr_names r' = rr_names r /\ rr_allnames r' = rr_names r;
  rk_counts : rr_total_rejected r' = rr_total_rejected r /\ rr_outside r' = rr_outside r /\ rr_iacce r' = rr_iacce r /\ rr_nsimu r' = rr_nsimu r;
  rk_cov : rr_R r' = rr_R r /\ rr_qcov r' = rr_qcov r /\ rr_cov r' = rr_cov r /\ rr_mean r' = rr_mean r;
  rk_limits : rr_lower r' = rr_lower r /\ rr_upper r' = rr_upper r;
  rk_settings : options_kept ps (rr_opts r) (rr_opts r') /\ rr_model r' = rr_model r;
  rk_chains : rr_chain r' = rr_chain r /\ rr_sschain r' = rr_sschain r /\ rr_s2chain r' = rr_s2chain r
}.

(** The same session: what is declared, the options and the results are those of the sampled parameters, the vectors that the sum of
    squares has been called with are completed by the constants, and everything else is the same. *)
Record without_fixed (ps : list (param F)) (m m' : mcmc F) : Prop := {
  wf_params : m_params m' = sampled_params (m_params m);
  wf_opts : options_kept ps (m_opts m) (m_opts m');
  wf_settings : m_data m' = m_data m /\ m_model m' = m_model m;
  wf_state : m_RDR m' = m_RDR m /\ m_status m' = m_status m /\ m_index m' = m_index m /\ m_pos m' = m_pos m;
  wf_chains : m_chain m' = m_chain m /\ m_sschain m' = m_sschain m /\ m_s2chain m' = m_s2chain m /\ m_chains m' = m_chains m;
  wf_calls : Forall (fun t => List.length t = List.length (sampled_params ps)) (m_calls m') /\ m_calls m = map (fill ps) (m_calls m');
  wf_files : m_fs m' = m_fs m;
  wf_results : match m_results m, m_results m' with
               | Some r, Some r' => results_kept ps r r'
               | None, None => True
               | _, _ => False
               end;
  wf_trace : m_trace m' = m_trace m
}.

End FixedSpec.
