(** Comparing a run with the run in which the response is measured in other units: the sum of squares, sigma2 and S20 are
    multiplied by [k], and a constant [b] is added to the prior function. *)

From Coq Require Import ZArith QArith Bool Lia List String Reals.
From Verif Require Import Base Num Samplers Adapt Settings Simulator RunSpec ScaleNum.
Import ListNotations.
Close Scope Q_scope.
Close Scope R_scope.
Open Scope list_scope.
Open Scope nat_scope.

Definition rescaled_env (k b : R) (E : env XR) : env XR :=
  mkenv (fun v => map (sc k) (e_sos E v)) (fun t mu sg => sh b (e_prior E t mu sg)) (e_str E) (e_chol E) (e_inv E) (e_fuel E).

Definition rescaled_model (k : R) (ms : modset XR) : modset XR :=
  mkms (option_map (map (sc k)) (ms_sigma2 ms)) (ms_N ms) (ms_N0 ms) (map (sc k) (ms_S20 ms)) (ms_nbatch ms) (ms_alias ms).

(** A table of numbers, in the same or in the other units. *)
Definition rescaled_rows (k : R) (a b : list (list XR)) : Prop := b = a \/ b = map (map (sc k)) a.

Definition rescaled_op (k : R) (x y : fop XR) : Prop :=
  match x, y with
  | FLog p a b, FLog q c d => p = q /\ a = c /\ b = d
  | FJson p l, FJson q l' => p = q /\ l = l'
  | FH5 p a b r, FH5 q c d r' => p = q /\ a = c /\ b = d /\ rescaled_rows k r r'
  | FTxt p r, FTxt q r' => p = q /\ rescaled_rows k r r'
  | _, _ => False
  end.

Definition rescaled_ref (k : R) (x y : string * chref XR) : Prop :=
  fst x = fst y /\
  match snd x, snd y with
  | RefChain, RefChain | RefSS, RefSS | RefS2, RefS2 => True
  | Frozen m, Frozen m' => rescaled_rows k m m'
  | _, _ => False
  end.

(** Everything in the results but the two chains and the settings. *)
Definition plain_results (r : results XR) :=
  ((rr_theta r, rr_parind r, rr_total_rejected r, rr_outside r, rr_R r, rr_qcov r, rr_cov r, rr_mean r),
   (rr_names r, rr_allnames r, rr_lower r, rr_upper r, rr_nsimu r, rr_iacce r, rr_opts r, rr_chain r)).

Definition rescaled_results (k : R) (r r' : results XR) : Prop :=
  plain_results r' = plain_results r /\ rr_model r' = rescaled_model k (rr_model r) /\
  rr_sschain r' = map (map (sc k)) (rr_sschain r) /\ rr_s2chain r' = option_map (map (map (sc k))) (rr_s2chain r).

(** The object [m'] is [m] in the other units: parameters, options, the chain, the course of the iterations and the random
    position are the same; settings, sums of squares and error variances are multiplied by [k]. *)
Record rescaled (k : R) (m m' : mcmc XR) : Prop := {
  re_params : m_params m' = m_params m;
  re_data : m_data m' = m_data m;
  re_model : m_model m' = rescaled_model k (m_model m);
  re_opts : m_opts m' = m_opts m;
  re_RDR : m_RDR m' = m_RDR m;
  re_status : m_status m' = m_status m;
  re_chain : m_chain m' = m_chain m;
  re_sschain : m_sschain m' = map (map (sc k)) (m_sschain m);
  re_s2chain : m_s2chain m' = option_map (map (map (sc k))) (m_s2chain m);
  re_index : m_index m' = m_index m;
  re_chains : Forall2 (rescaled_ref k) (m_chains m) (m_chains m');
  re_pos : m_pos m' = m_pos m;
  re_calls : m_calls m' = m_calls m;
  re_fs : Forall2 (rescaled_op k) (m_fs m) (m_fs m');
  re_results : match m_results m, m_results m' with Some r, Some r' => rescaled_results k r r' | None, None => True | _, _ => False end;
  re_trace : m_trace m' = m_trace m
}.

(** The same user actions, in the other units. *)
Definition rescaled_action (k : R) (a : action XR) : action XR :=
  match a with SetModel ms => SetModel (rescaled_model k ms) | x => x end.

(** An error variance was given. *)
Definition variance_given (ms : modset XR) : Prop := exists s, ms_sigma2 ms = Some s /\ s <> [].
Definition variances_given (l : list (action XR)) : Prop :=
  Forall (fun a => match a with SetModel ms => variance_given ms | _ => True end) l.

(** Two outcomes: both fail, in the same way, or the results are related. *)
Definition outcomes {A B} (R : A -> B -> Prop) (x : res A) (y : res B) : Prop :=
  match x, y with Ok a, Ok b => R a b | Err e, Err e' => e = e' | _, _ => False end.
