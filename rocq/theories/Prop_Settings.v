(** Properties C24-C28 and C51-C55: error variances, dependent settings, data sets, default sum of squares and
    prior, options, parameter index sets.

    The vocabulary of the variance draws is in GammaSpec.v; [spread n x] repeats a one-element list n times and leaves
    other lists alone, [initial_variances], [prior_scale] and [prior_weight] (SettingsThms.v) are what the user's model
    settings determine before the first iteration. *)

From Coq Require Import ZArith QArith Bool Lia List String Reals Lra Sorting.Sorted.
From Verif Require Import Base Num Samplers Adapt Settings Simulator RunSpec RunFacts RunLift RVec GammaSpec SettingsFacts VarFacts
  SettingsThms Procedures ProcFacts ParamFacts SettingsProps Demo DemoRuns DemoSettings DemoRealRun DemoVar.
Import ListNotations.
Close Scope Q_scope.
Open Scope list_scope.
Open Scope R_scope.

(** ** C24 *)

(** An update of the variances draws, per SS component and in order, one over a gamma number of shape (N0+N)/2 and scale
    2/(N0*S20+SS) by the method of Marsaglia and Tsang. *)
Theorem C24_update_draws :
  forall (E : env XR) nrm unif,
  (forall k, s_normal (e_str E) k = Fin (nrm k)) -> (forall k, s_unif (e_str E) k = Fin (unif k)) -> (forall k, 0 <= unif k) ->
  forall al N0 S20 N sos sigma2 s sigma2' S20' s',
  update_error_variance E al (fin N0) (fin N) (fin sos) 0 (List.length sos) sigma2 (fin S20) s = Ok (sigma2', S20', s') ->
  (List.length sos <= List.length sigma2)%nat -> Forall proper (components N0 S20 N sos (List.length sos)) ->
  exists vs, sigma2' = vs ++ skipn (List.length sos) sigma2 /\ List.length vs = List.length sos /\
    variance_draws nrm unif (components N0 S20 N sos (List.length sos)) (io_pos s) vs (io_pos s').
Proof. exact update_ok. Qed.
Print Assumptions C24_update_draws.

(** All drawn variances are finite and positive when no uniform number is 0. *)
Theorem C24_positive :
  forall nrm unif, (forall k, 0 <= unif k) ->
  forall q p vs p', variance_draws nrm unif q p vs p' -> Forall proper q -> (forall k, unif k <> 0) ->
  Forall (fun v => exists x, v = Fin x /\ 0 < x) vs.
Proof. exact variances_positive. Qed.
Print Assumptions C24_positive.

(** The gamma sampler returns whenever the stream contains an acceptable pair (for every large enough bound on the
    number of tries), and what it returns is the draw described by [gamma_draw]. *)
Theorem C24_sampler_returns :
  forall (E : env XR) nrm unif,
  (forall k, s_normal (e_str E) k = Fin (nrm k)) -> (forall k, s_unif (e_str E) k = Fin (unif k)) -> (forall k, 0 <= unif k) ->
  forall a b p y p', 0 < a -> gamma_draw nrm unif a b p y p' ->
  exists k, forall s, (k <= e_fuel E)%nat -> io_pos s = p ->
    gammar E (Fin a) (Fin b) s = Ok (Fin y, mkio p' (io_value s) (io_calls s)).
Proof. exact gammar_complete. Qed.
Print Assumptions C24_sampler_returns.

(** Each component uses only its own entries and a stretch of the stream of its own. *)
Theorem C24_components_separate :
  forall nrm unif q1 q2 p vs p', variance_draws nrm unif (q1 ++ q2) p vs p' <->
  exists v1 pm v2, vs = v1 ++ v2 /\ variance_draws nrm unif q1 p v1 pm /\ variance_draws nrm unif q2 pm v2 p'.
Proof. exact draws_app. Qed.
Print Assumptions C24_components_separate.

(** In a run every new row of the variance chain is drawn from the row of the SS chain with the same index, inside the
    stretch of the stream that belongs to the iteration. *)
Theorem C24_along_run :
  forall (E : env XR) nrm unif,
  (forall k, s_normal (e_str E) k = Fin (nrm k)) -> (forall k, s_unif (e_str E) k = Fin (unif k)) -> (forall k, 0 <= unif k) ->
  forall sos n b m m' N0 S20 N,
  (forall v, e_sos E v = fin (sos v)) -> (forall v, List.length (sos v) = n) ->
  run_simulation E b m = Ok m' -> o_updatesigma (m_opts m') = true -> ms_alias (m_model m') = false ->
  ms_N0 (m_model m') = Some (fin N0) -> ms_S20 (m_model m') = fin S20 -> ms_N (m_model m') = Some (fin N) ->
  (forall v, Forall proper (components N0 S20 N (sos v) n)) ->
  exists evs s2, m_trace m' = rev evs ++ m_trace m /\ List.length evs = (o_nsimu (m_opts m) - 1)%nat /\ m_s2chain m' = Some s2 /\
  forall k e, nth_error evs k = Some e ->
    exists v row p, let i := ((if b then m_index m else 0) + S k)%nat in
      nth_error (m_sschain m') i = Some (fin (sos v)) /\ nth_error s2 i = Some row /\ (ev_pos e <= p)%nat /\
      variance_draws nrm unif (components N0 S20 N (sos v) n) p row (nth (S k) (map (@ev_pos XR) evs) (m_pos m')).
Proof. intros E nrm unif H1 H2 H3 sos n b m m'. exact (run_variances E nrm unif H1 H2 H3 sos n b m m'). Qed.
Print Assumptions C24_along_run.

(** A run meeting the hypotheses of all of these; its second variance is drawn. *)
Example C24_case : exists m', run_simulation flat_env false var_start = Ok m' /\ o_updatesigma (m_opts m') = true /\
  ms_alias (m_model m') = false /\ ms_N0 (m_model m') = Some (fin [1]) /\ ms_S20 (m_model m') = fin [1] /\
  ms_N (m_model m') = Some (fin [4]) /\ Forall proper (components [1] [1] [4] [1] 1) /\
  m_s2chain m' = Some [[Fin 1]; [var_value]] /\
  gamma_draw (fun _ => 1) (fun _ => 1 / 4) (5 / 2) 1 7 (1 * (5 / 2 - 1 / 3) * cubed (fun _ => 1) var_c 7) 9.
Proof.
  destruct var_run as (m' & H & H1 & H2 & H3). exists m'. rewrite H2. repeat (split; [assumption || reflexivity|]).
  split; [constructor; [cbn; lra|constructor]|]. split; [exact H1|].
  unfold gamma_draw. destruct (Rlt_dec (5 / 2) 1); [lra|]. exists (cubed (fun _ => 1) var_c 7). split; [|reflexivity].
  apply take.
  - split; [lia|]. split; [apply var_usable|intros; lia].
  - left. cbv beta. lra.
Qed.

(** ** C25 *)

(** The scale in force at the end is the one determined before the first iteration, and every draw of the run used it, if
    the user gave S20 or sigma2 has one entry.  Missing from the full statement: S20 not given and sigma2 with one entry per
    SS component (at least two), for which it is false. *)
Theorem C25_scale_fixed_partial :
  forall (E : env XR) nrm unif sos n b m m' N0 S20 N,
  (forall k, s_normal (e_str E) k = Fin (nrm k)) -> (forall k, s_unif (e_str E) k = Fin (unif k)) -> (forall k, 0 <= unif k) ->
  (forall v, e_sos E v = fin (sos v)) -> (forall v, List.length (sos v) = n) ->
  run_simulation E b m = Ok m' -> o_updatesigma (m_opts m') = true -> ms_alias (m_model m) = false ->
  (existsb nisnan (ms_S20 (m_model m)) = false \/ List.length (initial_variances (m_model m) (m_data m)) = 1%nat) ->
  prior_scale (m_model m) (m_data m) = fin S20 ->
  ms_N0 (m_model m') = Some (fin N0) -> ms_N (m_model m') = Some (fin N) ->
  (forall v, Forall proper (components N0 (spread n S20) N (sos v) n)) ->
  ms_S20 (m_model m') = fin (spread n S20) /\
  exists evs s2, m_trace m' = rev evs ++ m_trace m /\ List.length evs = (o_nsimu (m_opts m) - 1)%nat /\ m_s2chain m' = Some s2 /\
  forall k e, nth_error evs k = Some e ->
    exists v row p, let i := ((if b then m_index m else 0) + S k)%nat in
      nth_error (m_sschain m') i = Some (fin (sos v)) /\ nth_error s2 i = Some row /\ (ev_pos e <= p)%nat /\
      variance_draws nrm unif (components N0 (spread n S20) N (sos v) n) p row (nth (S k) (map (@ev_pos XR) evs) (m_pos m')).
Proof. exact scale_fixed. Qed.
Print Assumptions C25_scale_fixed_partial.

(** What happens in the remaining case: S20 and sigma2 are one array, and the scale of a draw is the variance drawn at the
    iteration before. *)
Theorem C25_shared_array_scale :
  forall (E : env XR) nrm unif sos n m m' N0 N,
  (forall k, s_normal (e_str E) k = Fin (nrm k)) -> (forall k, s_unif (e_str E) k = Fin (unif k)) -> (forall k, 0 <= unif k) ->
  (forall v, e_sos E v = fin (sos v)) -> (forall v, List.length (sos v) = n) -> ms_alias (m_model m) = false ->
  run_simulation E false m = Ok m' -> o_updatesigma (m_opts m') = true -> ms_alias (m_model m') = true ->
  ms_N0 (m_model m') = Some (fin N0) -> ms_N (m_model m') = Some (fin N) ->
  exists evs s2, m_trace m' = rev evs ++ m_trace m /\ List.length evs = (o_nsimu (m_opts m) - 1)%nat /\ m_s2chain m' = Some s2 /\
  forall k e before ss, nth_error evs k = Some e -> nth_error s2 k = Some (fin before) -> nth_error (m_sschain m') (S k) = Some (fin ss) ->
    Forall proper (components N0 before N ss n) ->
    exists row p p', nth_error s2 (S k) = Some row /\ variance_draws nrm unif (components N0 before N ss n) p row p'.
Proof. exact shared_scale. Qed.
Print Assumptions C25_shared_array_scale.

Theorem C25_refuted_shared_array :
  exists (E : env XQ) m m' s2, run_simulation E false m = Ok m' /\ ms_alias (m_model m) = false /\
    (forall v, List.length (e_sos E v) = 2%nat) /\ m_s2chain m' = Some s2 /\ List.length s2 = 3%nat /\
    prior_scale (m_model m) (m_data m) = [Fin 1%Q; Fin 2%Q] /\
    nth_error s2 0 = Some [Fin 1%Q; Fin 2%Q] /\ nth_error s2 2 = Some (ms_S20 (m_model m')) /\
    ms_S20 (m_model m') <> [Fin 1%Q; Fin 2%Q].
Proof. exact scale_drifts. Qed.
Print Assumptions C25_refuted_shared_array.

Example C25_case :
  (exists m', run_simulation flat_env false var_start = Ok m' /\ o_updatesigma (m_opts m') = true) /\
  ms_alias (m_model var_start) = false /\
  List.length (initial_variances (m_model var_start) (m_data var_start)) = 1%nat /\
  prior_scale (m_model var_start) (m_data var_start) = fin [1] /\
  (exists m', run_simulation flat2_env false var2_start = Ok m' /\ o_updatesigma (m_opts m') = true /\ ms_alias (m_model m') = true /\
     ms_N0 (m_model m') = Some (fin [1; 1]) /\ ms_N (m_model m') = Some (fin [4; 4])).
Proof.
  split; [destruct var_run as (m' & H & _ & _ & H3); eauto|]. repeat (split; [reflexivity|]).
  destruct var2_run as (m' & H & _ & _ & H2 & H3). exists m'. rewrite H2. auto.
Qed.

(** ** C26 *)

(** What the first row of the variance chain is: sigma2 if given, otherwise ones, whatever S20 is.  Missing from the full
    statement: the default S20 for sigma2, which is never used. *)
Theorem C26_first_variances_partial :
  forall F (NF : Num F) (E : env F), (forall a : F, nmul n1 a = a) ->
  forall m m' n, run_simulation E false m = Ok m' -> (forall v, List.length (e_sos E v) = n) -> o_updatesigma (m_opts m') = true ->
  exists s2, m_s2chain m' = Some s2 /\
    nth_error s2 0 = Some (match ms_sigma2 (m_model m) with Some s => spread n s | None => repeat n1 n end).
Proof. intros F NF E L m m' n. exact (first_row E L m m' n). Qed.
Print Assumptions C26_first_variances_partial.

(** Only S20 = 4 is given, and the first variance is 1. *)
Theorem C26_refuted_default :
  exists (E : env XQ) m m' s2, run_simulation E false m = Ok m' /\ ms_sigma2 (m_model m) = None /\
    ms_S20 (m_model m) = [Fin 4%Q] /\ m_s2chain m' = Some s2 /\ nth_error s2 0 = Some [Fin 1%Q].
Proof. exact first_variance_is_one. Qed.
Print Assumptions C26_refuted_default.

Example C26_case : (forall a : XR, nmul n1 a = a) /\ (forall v, List.length (e_sos flat_env v) = 1%nat) /\
  exists m', run_simulation flat_env false var_start = Ok m' /\ o_updatesigma (m_opts m') = true.
Proof. split; [exact law_one_R|]. split; [reflexivity|]. destruct var_run as (m' & H & _ & _ & H3); eauto. Qed.

(** ** C27 *)

(** Checking the options again changes nothing, except that updatesigma is turned on when N0 is known by then. *)
Theorem C27_options_stable_partial :
  forall F (NF : Num F) (o : simopts F) g g',
  check_dependent_simulation_options (check_dependent_simulation_options o g) g' =
  with_updatesigma (check_dependent_simulation_options o g) (g' || (g || o_updatesigma o)).
Proof. intros F NF. exact options_twice. Qed.
Print Assumptions C27_options_stable_partial.

(** The model settings after a run pass both checks again unchanged, if S20 is not NaN and, with a single SS component,
    there is at most one data set.  Missing from the full statement: several data sets with one SS component, and
    updatesigma; both false. *)
Theorem C27_model_settings_stable_partial :
  forall (E : env XR) b m m' n, run_simulation E b m = Ok m' -> (forall v, List.length (e_sos E v) = n) -> (1 <= n)%nat ->
  existsb nisnan (ms_S20 (m_model m')) = false ->
  (n = 1%nat -> (List.length (dt_n (m_data m)) <= 1)%nat /\ forall N, ms_N (m_model m) = Some N -> (List.length N <= 1)%nat) ->
  exists ms1, check_dependent_model_settings (m_model m') (m_data m') = Ok ms1 /\ check_wrt_nsos ms1 n = Ok (m_model m').
Proof. exact model_twice. Qed.
Print Assumptions C27_model_settings_stable_partial.

(** Two data sets and one SS component: a second run exits, fresh or resumed. *)
Theorem C27_refuted_observations :
  exists (E : env XQ) m m', run_simulation E false m = Ok m' /\
    run_simulation E false m' = Err SysExit /\ run_simulation E true m' = Err SysExit.
Proof. exact second_run_exits. Qed.
Print Assumptions C27_refuted_observations.

(** updatesigma off: it is on in the second run, and resuming raises an error. *)
Theorem C27_refuted_updatesigma :
  exists (E : env XQ) m m' m'', run_simulation E false m = Ok m' /\ o_updatesigma (m_opts m') = false /\
    run_simulation E false m' = Ok m'' /\ o_updatesigma (m_opts m'') = true /\
    run_simulation E true m' = Err ValueError.
Proof. exact updatesigma_turns_on. Qed.
Print Assumptions C27_refuted_updatesigma.

Example C27_case : (forall v, List.length (e_sos flat_env v) = 1%nat) /\ List.length (dt_n (m_data var_start)) = 1%nat /\
  ms_N (m_model var_start) = None /\
  exists m', run_simulation flat_env false var_start = Ok m' /\ existsb nisnan (ms_S20 (m_model m')) = false.
Proof.
  repeat (split; [reflexivity|]). destruct var_run as (m' & H & _ & H2 & _). exists m'. rewrite H2. auto.
Qed.

(** ** C28 *)

Theorem C28_setting_sizes :
  forall F (NF : Num F) (E : env F), (forall a : F, nmul n1 a = a) ->
  forall b m m', run_simulation E b m = Ok m' ->
  let n := List.length (e_sos E (map (@a_theta0 F) (m_params m'))) in
  let one_or_n (x : list F) := List.length x = 1%nat \/ List.length x = n in
  (forall v, List.length (e_sos E v) = n) ->
  exists sg N, m_model m' = mkms (Some sg) (Some N) (Some (spread n (prior_weight (m_model m)))) (ms_S20 (m_model m'))
       (ms_nbatch (m_model m')) (ms_alias (m_model m')) /\
    List.length sg = n /\ List.length (ms_S20 (m_model m')) = n /\ List.length (spread n (prior_weight (m_model m))) = n /\
    one_or_n (prior_weight (m_model m)) /\ one_or_n (prior_scale (m_model m) (m_data m)) /\
    one_or_n (initial_variances (m_model m) (m_data m)) /\
    (n = 1%nat -> (2 <= List.length (dt_n (m_data m)))%nat -> ms_N (m_model m) = None -> N = [vsum (map nnat (dt_n (m_data m)))]) /\
    (forall k, dt_n (m_data m) = [k] -> ms_N (m_model m) = None -> N = repeat (nnat k) n) /\
    (List.length (dt_n (m_data m)) = n -> ms_N (m_model m) = None -> N = map nnat (dt_n (m_data m))).
Proof. intros F NF E L b m m'. exact (sizes_of_run E L b m m'). Qed.
Print Assumptions C28_setting_sizes.

(** One data set of 4 observations and two SS components. *)
Example C28_case : (forall a : XR, nmul n1 a = a) /\ (forall v, List.length (e_sos flat2_env v) = 2%nat) /\
  dt_n (m_data var2_start) = [4%nat] /\
  exists m', run_simulation flat2_env false var2_start = Ok m' /\ ms_N (m_model m') = Some [Fin 4; Fin 4].
Proof.
  split; [exact law_one_R|]. repeat (split; [reflexivity|]). destruct var2_run as (m' & H & _ & _ & H2 & _). exists m'. rewrite H2. auto.
Qed.

(** ** C51 *)

(** After any calls without [n] all lists are aligned; [stored_rows], [stored_cols] is the shape given to the data.
    Missing from the full statement: calls with [n], and flat lists, for which it is false. *)
Theorem C51_data_sets_aligned_partial :
  forall F (NF : Num F) (cs : list (call F)),
  dt_sets (add_all cs) = map (fun c => mkds (c_x c) (c_ys c) (c_w c)) cs /\
  dt_shape (add_all cs) = map (fun c => [stored_rows (c_y c); stored_cols (c_y c)]) cs /\
  get_number_of_batches (add_all cs) = List.length cs /\
  get_number_of_data_sets (add_all cs) = natlist_sum (map (fun c => stored_cols (c_y c)) cs) /\
  ((forall c, In c cs -> c_n c = None) -> dt_n (add_all cs) = map (fun c => stored_rows (c_y c)) cs /\
     get_number_of_observations (add_all cs) = natlist_sum (map (fun c => stored_rows (c_y c)) cs)).
Proof. intros F NF cs. exact (data_aligned cs). Qed.
Print Assumptions C51_data_sets_aligned_partial.

(** Each call with [n] leaves the list of counts one entry short. *)
Theorem C51_refuted_with_n :
  forall F (NF : Num F) (cs : list (call F)),
  List.length (dt_n (add_all cs)) =
  (List.length cs - List.length (filter (fun c => match c_n c with Some _ => true | None => false end) cs))%nat.
Proof. intros F NF cs. exact (counts_short cs). Qed.
Print Assumptions C51_refuted_with_n.

(** A flat list of any length counts as a single observation. *)
Theorem C51_refuted_flat_list :
  forall F (NF : Num F) x (ys : list F) w k,
  dt_n (add_data_set empty_data x (YList k) ys None w) = [1%nat].
Proof. intros F NF x ys w k. exact (flat_list_counts x ys w k). Qed.
Print Assumptions C51_refuted_flat_list.

Example C51_case : let cs := [mkcall [] (YArray [5; 2]%nat) [] None n1; mkcall [] (YArray [10%nat]) [] None n1; mkcall [] YScalar [] None (@n1 XQ _)] in
  (forall c, In c cs -> c_n c = None) /\ dt_n (add_all cs) = [5; 10; 1]%nat /\ get_number_of_data_sets (add_all cs) = 4%nat.
Proof. cbv zeta. split; [intros c [<-|[<-|[<-|[]]]]; reflexivity|]. split; reflexivity. Qed.

(** ** C52 *)

(** Observations and model outputs as columns. *)
Theorem C52_default_sum_of_squares :
  forall (model : list XR -> list XR -> arr XR) theta d nbatch (f : list XR -> list R) xs ws ys,
  (forall i, (i < nbatch)%nat ->
     (nth_error (dt_sets d) i = Some (mkds (xs i) (fin (ys i)) (Fin (ws i))) /\ nth_error (dt_shape d) i = Some [List.length (ys i); 1%nat]) /\
     model (xs i) theta = mkarr (List.length (f (xs i))) 1 (fin (f (xs i))) /\ List.length (f (xs i)) = List.length (ys i)) ->
  mcmc_sos_function model theta d nbatch = Ok (map (fun i => Fin (weighted_ss (ws i) (ys i) (f (xs i)))) (seq 0 nbatch)).
Proof. exact default_sos. Qed.
Print Assumptions C52_default_sum_of_squares.

Theorem C52_nonnegative_and_zero :
  forall w y f, 0 <= w -> 0 <= weighted_ss w y f /\
  (weighted_ss w y f = 0 <-> forall j, (j < List.length y)%nat -> w * (nth j y 0 - nth j f 0) = 0).
Proof. exact weighted_ss_facts. Qed.
Print Assumptions C52_nonnegative_and_zero.

(** A model that returns a one-dimensional array raises an error as soon as there are two observations. *)
Theorem C52_flat_output_raises :
  forall (model : list XR -> list XR -> arr XR) theta d nbatch x w ys out, (1 <= nbatch)%nat ->
  nth_error (dt_sets d) 0 = Some (mkds x (fin ys) w) -> nth_error (dt_shape d) 0 = Some [List.length ys; 1%nat] ->
  model x theta = mkarr 1 (List.length out) out -> (2 <= List.length ys)%nat -> (2 <= List.length out)%nat ->
  mcmc_sos_function model theta d nbatch = Err ValueError.
Proof. exact flat_output. Qed.
Print Assumptions C52_flat_output_raises.

(** Two sets, with a straight line through the origin as the model. *)
Example C52_case :
  let d := add_all [mkcall [Fin 1; Fin 2] (YArray [2%nat]) (fin [2; 5]) None (Fin 1); mkcall [Fin 3] (YArray [1; 1]%nat) (fin [6]) None (@Fin R 4)] in
  let line := fun xs => map (fun x => match x with Fin v => 2 * v | _ => 0 end) xs in
  let model := fun xs (_ : list XR) => mkarr (List.length (line xs)) 1 (fin (line xs)) in
  (forall i, (i < 2)%nat ->
     let x := nth i [[Fin 1; Fin 2]; [Fin 3]] [] in let y := nth i [[2; 5]; [6]] [] in let w := nth i [1; 4] 0 in
     (nth_error (dt_sets d) i = Some (mkds x (fin y) (Fin w)) /\ nth_error (dt_shape d) i = Some [List.length y; 1%nat]) /\
     model x [] = mkarr (List.length (line x)) 1 (fin (line x)) /\ List.length (line x) = List.length y) /\
  weighted_ss 1 [2; 5] (line [Fin 1; Fin 2]) = 1.
Proof.
  cbv zeta. split.
  - intros i Hi. destruct i as [|[|]]; [| |lia]; repeat split.
  - unfold weighted_ss. cbn. lra.
Qed.

(** ** C53 *)

Theorem C53_default_prior :
  forall theta mu sigma, List.length mu = List.length theta -> List.length sigma = List.length theta ->
  Forall (fun s => s = PInf \/ exists x, s = Fin x /\ 0 < x) sigma ->
  default_priorfun (fin theta) (fin mu) sigma = Fin (gaussian_prior theta mu sigma) /\
  0 <= gaussian_prior theta mu sigma /\ gaussian_prior theta theta sigma = 0 /\
  (forall theta', List.length theta' = List.length theta ->
     (forall i, nth i sigma PInf <> PInf -> nth i theta 0 = nth i theta' 0) ->
     gaussian_prior theta mu sigma = gaussian_prior theta' mu sigma).
Proof. exact prior_facts. Qed.
Print Assumptions C53_default_prior.

(** The widths and means handed to the samplers: a width that is zero, negative or -inf becomes +inf, a NaN mean becomes
    the initial value. *)
Theorem C53_prior_settings :
  forall (ps : list (param XR)) i p, nth_error ps i = Some p ->
  let op := check_prior_sigma (openparameterstructure ps) in
  nth_error (op_sigma op) i = Some (match a_sigma p with Fin x => if Rlt_dec 0 x then Fin x else PInf | NInf => PInf | s => s end) /\
  nth_error (op_mu op) i = Some (match a_mu p with NaN => a_theta0 p | m => m end).
Proof. exact prior_settings. Qed.
Print Assumptions C53_prior_settings.

(** Restarting keeps the prior means. *)
Theorem C53_restart_keeps_means :
  forall F (NF : Num F) r (ps ps' : list (param F)),
  (forall p, In p ps -> nisnan (a_theta0 p) = false) -> (forall v, In v (rs_theta r) -> nisnan v = false) ->
  results_to_params r ps = Ok ps' ->
  map (fun p => if nisnan (a_mu p) then a_theta0 p else a_mu p) ps' = map (fun p => if nisnan (a_mu p) then a_theta0 p else a_mu p) ps.
Proof. intros F NF. exact restart_means. Qed.
Print Assumptions C53_restart_keeps_means.

Example C53_case : let sigma := [Fin 2; PInf] in
  Forall (fun s => s = PInf \/ exists x, s = Fin x /\ 0 < x) sigma /\ gaussian_prior [1; 5] [3; 0] sigma = 1 /\
  nth_error [mkparam "a" (Fin 1) NInf PInf NaN (Fin (-1)) true true] 0 = Some (mkparam "a" (@Fin R 1) NInf PInf NaN (Fin (-1)) true true) /\
  let ps := [mkparam "a" (@Fin R 1) NInf PInf NaN PInf true true] in
  results_to_params (mkrestart ["a"%string] [0%nat] [Fin 7] []) ps = Ok [mkparam "a" (@Fin R 7) NInf PInf (Fin 1) PInf true true].
Proof.
  cbv zeta. split; [|split; [|split; reflexivity]].
  - constructor; [right; exists 2; split; [reflexivity|lra]|]. constructor; [now left|constructor].
  - cbn. lra.
Qed.

(** ** C54 *)

(** [g] tells whether N0 was given; that 'mh' and 'dr' never adapt in a run is C16_never_for_mh_and_dr. *)
Theorem C54_options_resolve :
  forall F (NF : Num F) (w : rawopts F) date g,
  let o := check_dependent_simulation_options (define_simulation_options w date) g in
  let given {A} (x : option A) (d : A) := match x with Some v => v | None => d end in
  o_nsimu o = w_nsimu w /\ o_method o = w_method w /\
  o_adaptint o = (match w_method w with MH | DR => 0%Z | RAM => given (w_adaptint w) 1%Z | AM | DRAM => given (w_adaptint w) 100%Z end) /\
  o_ntry o = given (w_ntry w) (match w_method w with DR | DRAM => 2%nat | MH | AM | RAM => 1%nat end) /\
  o_doram o = given (w_doram w) (match w_method w with RAM => true | _ => false end) /\
  o_adascale o = (match w_adascale w, w_method w with Some a, _ => Some a | None, RAM => Some n1 | None, _ => None end) /\
  o_dodram o = (1 <? o_ntry o)%nat /\
  (o_savesize o = if (0 <? w_savesize w)%Z && (w_savesize w <=? Z.of_nat (w_nsimu w))%Z then w_savesize w else Z.of_nat (w_nsimu w)) /\
  ((1 <= w_nsimu w)%nat -> (1 <= o_savesize o <= Z.of_nat (w_nsimu w))%Z) /\
  o_lastadapt o = (if (1 <=? w_lastadapt w)%Z then w_lastadapt w else Z.of_nat (w_nsimu w)) /\
  o_printint o = Some (given (w_printint w) (Z.max 100 (Z.min 1000 (o_adaptint o)))) /\
  o_updatesigma o = g || w_updatesigma w /\
  (w_save_to_json w = true -> (o_save_lightly o = true <-> w_save_to_bin w = true \/ w_save_to_txt w = true)) /\
  o_savedir o = given (w_savedir w) (date ++ "_chain_log")%string.
Proof. intros F NF. exact options_resolved. Qed.
Print Assumptions C54_options_resolve.

Example C54_case : let o := check_dependent_simulation_options (define_simulation_options (demo_raw false true true 12 DR) "") true in
  o_adaptint o = 0%Z /\ o_ntry o = 2%nat /\ o_savesize o = 3%Z /\ o_updatesigma o = true /\ o_printint o = Some 100%Z.
Proof. repeat split. Qed.

(** ** C55 *)

Theorem C55_index_sets :
  forall F (NF : Num F) (ps : list (param F)), let op := openparameterstructure ps in
  StronglySorted lt (op_parind op) /\
  (forall i, In i (op_parind op) <-> exists p, nth_error ps i = Some p /\ a_sample p = true) /\
  StronglySorted lt (op_adapt op) /\
  (forall i, In i (op_adapt op) <-> exists p, nth_error ps i = Some p /\ a_sample p = true /\ a_adapt p = true) /\
  op_no_adapt op = map (fun p => negb (a_adapt p)) (filter (@a_sample F) ps).
Proof. intros F NF ps. exact (index_sets ps). Qed.
Print Assumptions C55_index_sets.

Theorem C55_bad_limits_exit :
  forall F (NF : Num F) (E : env F) m p,
  o_restart (m_opts m) = None -> In p (m_params m) -> a_sample p = true ->
  (nle (a_min p) (a_max p) = false \/ nlt (a_theta0 p) (a_min p) = true \/ nlt (a_max p) (a_theta0 p) = true) ->
  run_simulation E false m = Err SysExit.
Proof. intros F NF. exact bad_limits_exit. Qed.
Print Assumptions C55_bad_limits_exit.

Example C55_case : let ps := [par "a" 0 0 1 true; par "b" 5 0 1 false; mkparam "c" (qx 2) (qx 0) (qx 1) (qx 0) PInf true false] in
  op_parind (openparameterstructure ps) = [0; 2]%nat /\ op_adapt (openparameterstructure ps) = [0%nat] /\
  op_no_adapt (openparameterstructure ps) = [false; true] /\
  exists p, In p ps /\ a_sample p = true /\ nlt (a_max p) (a_theta0 p) = true.
Proof.
  cbv zeta. repeat (split; [reflexivity|]). eexists. split; [right; right; left; reflexivity|]. split; reflexivity.
Qed.
