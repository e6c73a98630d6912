(** Properties C14-C23: adaptation of the proposal.

    Matrix statements are over the extended reals [XR] (exact arithmetic); [finm (table n n P)] is the finite
    n x n matrix with entries [P i j].  The vocabulary (sample statistics, factors, stages) is in StatSpec.v.
    [ev_cov e] is the covariance object in force before the step [e] of a run: the covariance objects of a run are
    [map ev_cov evs ++ [last]], the k-th being the one left by the first k iterations. *)

From Coq Require Import ZArith QArith Bool Lia List String Reals Lra.
From Verif Require Import Base Num Samplers Adapt Settings Simulator RunSpec RunFacts RunLift RVec RMat StatSpec CovFacts CholFacts
  AdaptFacts RamFacts RamExact ResumedStats DemoResumed InitFacts AdaptRun AdaptThms InitThms CleanFacts AdaptProps Demo DemoRuns DemoReal DemoRealRun DemoAdapt.
Import ListNotations.
Close Scope Q_scope.
Open Scope list_scope.
Open Scope R_scope.

(** ** C14 *)

(** Feeding the rows in any segments with unit weights gives the textbook mean, covariance and count. *)
Theorem C14_recursive_equals_batch :
  forall n (segs : list (list (list R))), (0 < n)%nat ->
  (forall seg row, In seg segs -> In row seg -> List.length row = n) ->
  let rows := List.concat segs in
  rows <> [] ->
  fold_left (fun old seg => update_covariance_mean_sum (finm seg) [Fin 1] old) segs None =
    Some (finm (table n n (row_cov rows)), fin (vtab n (row_mean rows)), Fin (INR (List.length rows))) /\
  symmetric n (row_cov rows) /\ psd n (row_cov rows).
Proof. exact unit_feed. Qed.
Print Assumptions C14_recursive_equals_batch.

(** The same with weights that are at least 1, normalised by the total weight minus 1. *)
Theorem C14_weighted :
  forall n segs, (0 < n)%nat -> Forall (good_seg n) segs ->
  let all := List.concat (map seg_sample segs) in
  all <> [] ->
  fold_left (fun old s => update_covariance_mean_sum (finm (fst s)) (fin (snd s)) old) segs None =
    Some (finm (table n n (covariance all)), fin (vtab n (mean all)), Fin (total all)) /\
  symmetric n (covariance all) /\ psd n (covariance all).
Proof. exact weighted_feed. Qed.
Print Assumptions C14_weighted.

(** Rows (0,0), (2,0) and then (0,2): covariances 4/3 and -2/3. *)
Example C14_case : let segs := [[[0; 0]; [2; 0]]; [[0; 2]]] in
  (forall seg row, In seg segs -> In row seg -> List.length row = 2%nat) /\ List.concat segs <> [] /\
  row_cov (List.concat segs) 0 0 = 4 / 3 /\ row_cov (List.concat segs) 0 1 = - (2 / 3) /\
  Forall (good_seg 2) [([[0; 0]; [2; 0]], [1; 2]); ([[0; 2]], [3])].
Proof.
  cbv zeta. split; [|split; [discriminate|split; [|split]]].
  - intros seg row [<-|[<-|[]]]; cbn; intuition (subst; reflexivity).
  - unfold row_cov, row_mean. cbn. field.
  - unfold row_cov, row_mean. cbn. field.
  - repeat (apply Forall_cons || apply Forall_nil); (split; [cbn; intuition (subst; reflexivity)|split; [cbn; lia|]]);
      cbn [snd]; repeat (apply Forall_cons || apply Forall_nil); lra.
Qed.

(** ** C15 *)

(** In a fresh run (with [initqcovn] unset) the statistics held after k iterations are those of the rows before the
    last adaptation due after burn-in, each counted once (the row written at that very iteration enters at the next
    adaptation).  Missing from the full statement: resumed runs, where it is false. *)
Theorem C15_statistics_of_past_rows_partial :
  forall (E : env XR) m m' rows,
  run_simulation E false m = Ok m' -> o_initqcovn (m_opts m) = None -> m_chain m' = finm rows ->
  let n := List.length (sampled_params (m_params m)) in
  (0 < n)%nat ->
  exists evs last r, m_trace m' = rev evs ++ m_trace m /\ m_results m' = Some r /\
    rr_cov r = c_covchain last /\ rr_mean r = c_meanchain last /\
    List.length evs = (o_nsimu (m_opts m) - 1)%nat /\
    forall k c, nth_error (map (@ev_cov XR) evs ++ [last]) k = Some c ->
      latest (o_adaptint (m_opts m)) (o_burnintime (m_opts m)) k (c_last c) /\
      statistics_are n c (firstn (c_last c) rows).
Proof. exact fresh_run_statistics. Qed.
Print Assumptions C15_statistics_of_past_rows_partial.

(** A resumed run counts rows twice: its statistics claim more rows than the chain has. *)
Theorem C15_refuted_for_resumed_runs :
  exists (E : env XQ) m m' e k,
  run_simulation E true m = Ok m' /\ m_status m = true /\
  In e (m_trace m') /\ c_wsum (ev_cov e) = Some (Fin (inject_Z (Z.of_nat k))) /\
  (List.length (m_chain m') < k)%nat.
Proof. exact resumed_double_count. Qed.
Print Assumptions C15_refuted_for_resumed_runs.

(** What a run, fresh or resumed, holds instead: the statistics of the blocks of rows [t' .. base + t), t running through
    the iterations with an adaptation (counted from the start of this run), t' the one before, base the row number this
    run started from.  In a fresh run the blocks make up the rows before the last adaptation, each once; in a resumed
    run every two consecutive blocks share base rows, and the first base + t rows, t the first adaptation of this run,
    are all in the first block. *)
Theorem C15_statistics_of_any_run :
  forall (E : env XR) b m m' rows,
  run_simulation E b m = Ok m' -> o_initqcovn (m_opts m) = None -> m_chain m' = finm rows ->
  let n := List.length (sampled_params (m_params m)) in
  (0 < n)%nat -> (forall row, In row rows -> List.length row = n) ->
  exists evs last r, m_trace m' = rev evs ++ m_trace m /\ m_results m' = Some r /\
    rr_cov r = c_covchain last /\ rr_mean r = c_meanchain last /\
    List.length evs = (o_nsimu (m_opts m) - 1)%nat /\
    forall k c, nth_error (map (@ev_cov XR) evs ++ [last]) k = Some c ->
      statistics_are n c (List.concat (blocks rows (if b then m_index m else 0%nat) 0%nat
        (adaptation_times (o_adaptint (m_opts m)) (o_burnintime (m_opts m)) k))).
Proof. exact run_statistics. Qed.
Print Assumptions C15_statistics_of_any_run.
Theorem C15_blocks_of_a_fresh_run : forall (A : Type) (rows : list A) a burnin k,
  List.concat (blocks rows 0 0 (adaptation_times a burnin k)) =
  firstn (List.last (adaptation_times a burnin k) 0%nat) rows.
Proof. intros. apply blocks_fresh. Qed.
Print Assumptions C15_blocks_of_a_fresh_run.

(** A run stopped after 2 rows and resumed for 3 moves with an adaptation at its second: the statistics are those of the
    rows 0, 1 and 2. *)
Example C15_resumed_case : exists m1 m2, run_simulation flat_env false short = Ok m1 /\
  let m := with_model (with_opts m1 (define_simulation_options (flat_raw AM) "")) flat_model in
  run_simulation flat_env true m = Ok m2 /\ m_index m = 1%nat /\ sampled_params (m_params m) = flat_params /\
  m_chain m2 = finm [[0]; [1]; [2]; [3]; [5]] /\
  map (fun e => c_wsum (ev_cov e)) (rev (m_trace m2)) = [None; None; None; Some (Fin 3)] /\
  blocks [[0]; [1]; [2]; [3]; [5]] 1 0 (adaptation_times 2 0 2) = [[[0]; [1]; [2]]].
Proof.
  destruct resumed_run as (m1 & m2 & H1 & H2 & H3 & H4 & H5 & H6). exists m1, m2. split; [exact H1|]. cbv zeta.
  split; [exact H2|]. split; [exact H3|]. split; [exact H4|]. split; [exact H5|]. split; [|reflexivity].
  rewrite <- (map_map (@ev_cov XR) (@c_wsum XR)), H6. reflexivity.
Qed.

Example C15_case : exists m', run_simulation flat_env false (flat AM) = Ok m' /\
  o_initqcovn (m_opts (flat AM)) = None /\ m_chain m' = finm [[0]; [1]; [2]; [2 + 2 * sqrt (1 / 2)]] /\
  map (fun e => c_wsum (ev_cov e)) (rev (m_trace m')) = [None; None; Some (Fin 2)].
Proof.
  destruct flat_run as (m' & H1 & H2 & H3). exists m'. split; [exact H1|]. split; [reflexivity|]. split; [exact H2|].
  rewrite <- (map_map (@ev_cov XR) (@c_wsum XR)), H3. reflexivity.
Qed.

(** ** C16 *)

(** The covariance object (the proposal factor in particular) is the same before and after an iteration that is not a
    multiple of adaptint.  Missing from the full statement: the documented end of the adaptation at lastadapt. *)
Theorem C16_changes_only_when_due_partial :
  forall (F : Type) (NF : Num F) (E : env F) b m m', run_simulation E b m = Ok m' ->
  exists evs last r, m_trace m' = rev evs ++ m_trace m /\ m_results m' = Some r /\ rr_R r = c_R last /\
    List.length evs = (o_nsimu (m_opts m) - 1)%nat /\
    forall k c c', nth_error (map (@ev_cov F) evs ++ [last]) k = Some c ->
      nth_error (map (@ev_cov F) evs ++ [last]) (S k) = Some c' ->
      ~ due (o_adaptint (m_opts m)) (S k) -> c' = c.
Proof. intros F NF E b m m' H. exact (unchanged_unless_due E b m m' H). Qed.
Print Assumptions C16_changes_only_when_due_partial.

(** With the methods mh and dr it never changes. *)
Theorem C16_never_for_mh_and_dr :
  forall (F : Type) (NF : Num F) (E : env F) b m m' w date, run_simulation E b m = Ok m' ->
  m_opts m = define_simulation_options w date -> w_method w = MH \/ w_method w = DR ->
  exists evs r c0, m_trace m' = rev evs ++ m_trace m /\ m_results m' = Some r /\
    (forall e, In e evs -> ev_cov e = c0) /\ rr_R r = c_R c0.
Proof. intros F NF E b m m' w date H. exact (never_for_mh_dr E b m m' w date H). Qed.
Print Assumptions C16_never_for_mh_and_dr.

(** Adaptation goes on after iteration lastadapt. *)
Theorem C16_refuted_lastadapt :
  exists (E : env XQ) m m' e e' k,
  run_simulation E false m = Ok m' /\ (0 < o_lastadapt (m_opts m) < Z.of_nat k)%Z /\
  nth_error (rev (m_trace m')) (k - 1) = Some e /\ nth_error (rev (m_trace m')) k = Some e' /\
  c_R (ev_cov e) <> c_R (ev_cov e').
Proof. exact lastadapt_ignored. Qed.
Print Assumptions C16_refuted_lastadapt.

Example C16_case : run_simulation demo_env false late_start = Ok late /\ o_adaptint (m_opts late_start) = 4%Z /\
  map fst (weights late) = [0; 0; 0; 0; 4; 4; 4; 4; 8]%nat /\
  exists m', run_simulation flat_env false (flat DR) = Ok m'.
Proof.
  split; [exact late_ok|]. split; [reflexivity|]. split; [rewrite late_weights; reflexivity|].
  destruct flat_dr as (m' & H & _). eauto.
Qed.

(** ** C17 *)

(** One adaptation: the new factor is that of s^2 times the intended covariance, with the stated fallbacks. *)
Theorem C17_adapted_factor :
  forall (E : env XR), factorises (e_chol E) ->
  forall c o isimu iiadapt rej_in chain chainind u n alpha c' C Q s a,
  run_adaptation E c o isimu iiadapt rej_in chain chainind u n alpha = Ok c' ->
  (0 < n)%nat -> (ao_burnintime o <= Z.of_nat isimu)%Z -> ao_doram o = false ->
  c_covchain c' = Some (finm (table n n C)) -> c_qcov c = finm (table n n Q) ->
  symmetric n C -> symmetric n Q ->
  c_qcov_scale c = Fin s -> ao_qcov_adjust o = Fin a ->
  let T := mixed (c_no_adapt c) Q C in
  (e_chol E (finm (table n n T)) <> None /\ scaled_factor n (c_R c') s T) \/
  (e_chol E (finm (table n n T)) = None /\ e_chol E (finm (table n n (plus_eye a T))) <> None /\
     scaled_factor n (c_R c') s (plus_eye a T)) \/
  (e_chol E (finm (table n n T)) = None /\ e_chol E (finm (table n n (plus_eye a T))) = None /\ c_R c' = c_R c).
Proof. exact adapt_factor. Qed.
Print Assumptions C17_adapted_factor.

(** Along a run: after every adaptation the factor is that of the covariance of the rows so far, with the initial
    covariance in the rows and columns of non-adapted parameters. *)
Theorem C17_adapted_factor_along_run :
  forall (E : env XR) m m' rows c0 Q s a,
  factorises (e_chol E) ->
  run_simulation E false m = Ok m' -> o_initqcovn (m_opts m) = None -> o_doram (m_opts m) = false ->
  m_chain m' = finm rows ->
  let n := List.length (sampled_params (m_params m)) in
  (0 < n)%nat ->
  exists evs last r, m_trace m' = rev evs ++ m_trace m /\ m_results m' = Some r /\ rr_R r = c_R last /\
    let covs := map (@ev_cov XR) evs ++ [last] in
    List.length evs = (o_nsimu (m_opts m) - 1)%nat /\
    (nth_error covs 0%nat = Some c0 -> c_qcov c0 = finm (table n n Q) -> symmetric n Q -> c_qcov_scale c0 = Fin s ->
     o_qcov_adjust (m_opts m) = Fin a ->
     forall k c c', nth_error covs k = Some c -> nth_error covs (S k) = Some c' ->
     due (o_adaptint (m_opts m)) (S k) -> (o_burnintime (m_opts m) <= Z.of_nat (S k))%Z ->
     adapted_from E n c c' s a (mixed (c_no_adapt c0) Q (row_cov (firstn (S k) rows)))).
Proof. exact adapted_along_run. Qed.
Print Assumptions C17_adapted_factor_along_run.

(** Rows 0 and 1 have covariance 1/2; the scale is 2; the factor becomes 2 sqrt(1/2). *)
Example C17_case : factorises (e_chol flat_env) /\ exists m', run_simulation flat_env false (flat AM) = Ok m' /\
  o_initqcovn (m_opts (flat AM)) = None /\ o_doram (m_opts (flat AM)) = false /\
  m_chain m' = finm [[0]; [1]; [2]; [2 + 2 * sqrt (1 / 2)]] /\
  map (fun e => c_R (ev_cov e)) (rev (m_trace m')) = [[[Fin 1]]; [[Fin 1]]; [[Fin (sqrt (1 / 2) * 2)]]] /\
  row_cov [[0]; [1]] 0 0 = 1 / 2.
Proof.
  split; [exact real_chol_ok|]. destruct flat_run as (m' & H1 & H2 & H3). exists m'.
  split; [exact H1|]. split; [reflexivity|]. split; [reflexivity|]. split; [exact H2|]. split; [rewrite <- (map_map (@ev_cov XR) (@c_R XR)), H3; reflexivity|].
  unfold row_cov, row_mean. cbn. field.
Qed.

(** ** C18 *)

Theorem C18_cholupdate :
  forall n R0 x0, upper_triangular n R0 -> (forall i, (i < n)%nat -> R0 i i <> 0) ->
  exists R1, cholupdate (finm (table n n R0)) (fin (vtab n x0)) = finm (table n n R1) /\
    upper_triangular n R1 /\ (forall i, (i < n)%nat -> 0 < R1 i i) /\
    (forall i j, (i < n)%nat -> (j < n)%nat -> gram n R1 i j = gram n R0 i j + x0 i * x0 j).
Proof. exact cholupdate_spec. Qed.
Print Assumptions C18_cholupdate.

(** A factor with a negative diagonal entry is fine. *)
Example C18_case : let R0 := fun i j : nat => if (j <? i)%nat then 0 else if (i =? j)%nat then (if (i =? 0)%nat then -2 else 3) else 5 in
  upper_triangular 3 R0 /\ (forall i, (i < 3)%nat -> R0 i i <> 0).
Proof.
  cbv zeta. split.
  - intros i j _ H. apply Nat.ltb_lt in H. now rewrite H.
  - intros i _. rewrite Nat.ltb_irrefl, Nat.eqb_refl. destruct (i =? 0)%nat; lra.
Qed.

(** ** C19 *)

(** At set-up. *)
Theorem C19_stages_at_setup :
  forall (E : env XR) meth n ntry drscale q ada iq sg v pi na ordr th c, inverts (e_inv E) ->
  (forall x, In x drscale -> x <> 0) -> drscale <> [] ->
  initialize_covariance E meth ntry (fin drscale) None q ada iq sg v pi na ordr th = Ok c ->
  uses_dr_setup meth = true -> (0 < n)%nat -> (0 < ntry)%nat ->
  dr_consistent n ntry drscale c.
Proof. exact dr_setup. Qed.
Print Assumptions C19_stages_at_setup.

(** After an adaptation. *)
Theorem C19_stages_after_adaptation :
  forall (E : env XR) n ntry drscale c o i ii rj ch ci u np al c', inverts (e_inv E) ->
  (forall x, In x drscale -> x <> 0) -> drscale <> [] ->
  run_adaptation E c o i ii rj ch ci u np al = Ok c' -> (ao_burnintime o <= Z.of_nat i)%Z ->
  ao_ntry o = ntry -> ao_drscale o = fin drscale -> (1 < ntry)%nat -> (0 < n)%nat ->
  dr_consistent n ntry drscale c'.
Proof. exact dr_adapt. Qed.
Print Assumptions C19_stages_after_adaptation.

(** At every step of a run without burn-in adaptations (those remove the factors altogether, see C20). *)
Theorem C19_stages_along_run :
  forall (E : env XR) b m m' n drscale, inverts (e_inv E) ->
  (forall x, In x drscale -> x <> 0) -> drscale <> [] ->
  run_simulation E b m = Ok m' -> uses_dr_setup (o_method (m_opts m)) = true -> o_RDR (m_opts m) = None ->
  o_drscale (m_opts m) = fin drscale -> (1 < o_ntry (m_opts m))%nat -> (0 < n)%nat ->
  (forall j, due (o_adaptint (m_opts m)) j -> (o_burnintime (m_opts m) <= Z.of_nat j)%Z) ->
  exists evs, m_trace m' = rev evs ++ m_trace m /\ List.length evs = (o_nsimu (m_opts m) - 1)%nat /\
    forall e, In e evs -> dr_consistent n (o_ntry (m_opts m)) drscale (ev_cov e).
Proof. exact dr_run. Qed.
Print Assumptions C19_stages_along_run.

(** Factors given by the user are kept as they are and inverted, and the first one is the proposal. *)
Theorem C19_stages_given_by_user :
  forall (E : env XR) meth n ntry drscale Ps q ada iq sg v pi na ordr th c, inverts (e_inv E) ->
  initialize_covariance E meth ntry drscale (Some Ps) q ada iq sg v pi na ordr th = Ok c ->
  uses_dr_setup meth = true -> (0 < n)%nat -> Forall (fun P => exists M, P = finm (table n n M)) Ps ->
  c_RDR c = RSome Ps /\ nth_error Ps 0%nat = Some (c_R c) /\
  exists iPs, c_invR c = Some iPs /\ List.length iPs = ntry /\
  forall i, (i < ntry)%nat -> exists M iM,
    nth_error Ps i = Some (finm (table n n M)) /\ nth_error iPs i = Some (finm (table n n iM)) /\ mat_inverse n M iM.
Proof. exact user_stages. Qed.
Print Assumptions C19_stages_given_by_user.

Example C19_case : inverts (e_inv flat_env) /\ (exists m', run_simulation flat_env false (flat DR) = Ok m' /\
    List.length (m_trace m') = 3%nat) /\
  o_RDR (m_opts (flat DR)) = None /\ o_drscale (m_opts (flat DR)) = fin [5; 4; 3] /\ (1 < o_ntry (m_opts (flat DR)))%nat /\
  o_burnintime (m_opts (flat DR)) = 0%Z.
Proof.
  split; [exact real_inv_ok|]. split; [destruct flat_dr as (m' & H & _ & H'); eauto|].
  repeat split. cbn. lia.
Qed.

(** ** C20 *)

(** What happens at an adaptation during burn-in.  Missing from the full statement: that the run can go on; with delayed
    rejection it cannot. *)
Theorem C20_burnin_rescales_partial :
  forall (E : env XR) b m m' n s, run_simulation E b m = Ok m' ->
  o_burnin_scale (m_opts m) = Fin s -> s <> 0 ->
  exists evs last r, m_trace m' = rev evs ++ m_trace m /\ m_results m' = Some r /\ rr_R r = c_R last /\
    List.length evs = (o_nsimu (m_opts m) - 1)%nat /\
    let a := Z.to_nat (o_adaptint (m_opts m)) in
    forall k c c', nth_error (map (@ev_cov XR) evs ++ [last]) k = Some c ->
      nth_error (map (@ev_cov XR) evs ++ [last]) (S k) = Some c' ->
      due (o_adaptint (m_opts m)) (S k) -> (Z.of_nat (S k) < o_burnintime (m_opts m))%Z ->
      c_covchain c' = c_covchain c /\ c_meanchain c' = c_meanchain c /\ c_wsum c' = c_wsum c /\ c_last c' = c_last c /\
      c_qcov c' = c_qcov c /\ c_qcov_scale c' = c_qcov_scale c /\
      forall P, c_R c = finm (table n n P) ->
        c_R c' = finm (table n n (burnin_rule s (count rejected_ev (slice (S k - a) (S k) evs)) a P)).
Proof. exact burnin_rescales. Qed.
Print Assumptions C20_burnin_rescales_partial.

(** With delayed rejection and burn-in the run fails at the first rejection after the rescaling; the same run without
    burn-in does not. *)
Theorem C20_refuted_for_delayed_rejection :
  exists (E : env XQ) w pos,
  let start b := new_mcmc demo_params demo_data demo_model (define_simulation_options (w b) "") pos [] in
  (forall b, w_burnintime (w b) = b) /\ (forall b, w_method (w b) = DRAM) /\
  run_simulation E false (start 5%Z) = Err TypeError /\ exists m, run_simulation E false (start 0%Z) = Ok m.
Proof. exact burnin_breaks. Qed.
Print Assumptions C20_refuted_for_delayed_rejection.

(** Nothing rejected at iterations 3 and 4: the factor is multiplied by 10. *)
Example C20_case : run_simulation demo_env false warm_start = Ok warm /\ o_burnintime (m_opts warm_start) = 5%Z /\
  map (fun e => nth 0 (nth 0 (c_R (ev_cov e)) []) n0) (rev (m_trace warm)) =
  [Fin (1 # 40); Fin (1 # 40); Fin (1 # 40); Fin (1 # 40); Fin (1 # 4); Fin (1 # 4)]%Q.
Proof. split; [exact warm_ok|]. split; [reflexivity|]. vm_compute. reflexivity. Qed.

(** ** C21 *)

(** A run with a sampled parameter and one of the option sets below, fresh or resumed, never fails with an attribute or type error: one
    try per iteration with any method, or delayed rejection with a delayed rejection method, without the robust
    adaptation and without burn-in.  (The chain of the object resumed from is an array: its rows have one length.)
    Missing from the full statement: the other option sets, for which it is false. *)
Theorem C21_accepted_options_run_partial :
  forall (F : Type) (NF : Num F) (E : env F) b m,
  (o_ntry (m_opts m) <= 1)%nat \/
  (uses_dr_setup (o_method (m_opts m)) = true /\ o_doram (m_opts m) = false /\
   (o_burnintime (m_opts m) <= o_adaptint (m_opts m))%Z) ->
  (exists p, In p (m_params m) /\ a_sample p = true) ->
  (b = true -> forall row, In row (m_chain m) -> List.length row = ncols (m_chain m)) ->
  run_simulation E b m <> Err AttributeError /\ run_simulation E b m <> Err TypeError.
Proof.
  intros F NF E [|] m H H' H''; [exact (sound_resumed E m H H' (H'' eq_refl))|exact (sound_fresh E m H H')].
Qed.
Print Assumptions C21_accepted_options_run_partial.

(** ntry = 2 with the method am fails at the first rejection. *)
Theorem C21_refuted_ntry_without_dr :
  exists (E : env XQ) m, run_simulation E false m = Err AttributeError /\
  exists w, m_opts m = define_simulation_options w "" /\ w_ntry w = Some 2%nat /\ w_method w = AM.
Proof. exact tries_without_dr. Qed.
Print Assumptions C21_refuted_ntry_without_dr.

(** The robust adaptation with delayed rejection fails when an adaptation follows a rejection. *)
Theorem C21_refuted_ram_with_dr :
  exists (E : env XQ) m, run_simulation E false m = Err TypeError /\
  exists w, m_opts m = define_simulation_options w "" /\ w_doram w = Some true /\ w_method w = DRAM /\ w_burnintime w = 0%Z.
Proof. exact ram_with_dr. Qed.
Print Assumptions C21_refuted_ram_with_dr.

Example C21_resumed_case : (o_ntry (m_opts half_more) <= 1)%nat /\ (exists p, In p (m_params half_more) /\ a_sample p = true) /\
  (forall row, In row (m_chain half_more) -> List.length row = ncols (m_chain half_more)) /\
  exists m', run_simulation demo_env true half_more = Ok m'.
Proof.
  split; [cbn; lia|]. split; [eexists; split; [left; reflexivity|reflexivity]|].
  split; [|eexists; exact both_ok]. apply Forall_forall. repeat constructor.
Qed.
Example C21_case : let m := adapt_start false 12 DRAM 4 None 0 0 in
  uses_dr_setup (o_method (m_opts m)) = true /\ o_doram (m_opts m) = false /\
  (o_burnintime (m_opts m) <= o_adaptint (m_opts m))%Z /\ (exists p, In p (m_params m) /\ a_sample p = true) /\
  exists m', run_simulation demo_env false m = Ok m'.
Proof.
  cbv zeta. split; [reflexivity|]. split; [reflexivity|]. split; [cbn; lia|]. split; [|exact no_burnin_dram].
  eexists. split; [left; reflexivity|reflexivity].
Qed.

(** ** C22 *)

(** For a non-negative [a] (a probability ratio).  Missing from the full statement: the values actually passed, which are
    logarithms of ratios; for those it is false. *)
Theorem C22_ram_update_partial :
  forall n P z isimu e tg a, (0 < n)%nat -> (0 < isimu)%nat ->
  (exists k, (k < n)%nat /\ z k <> 0) -> upper_triangular n P -> (forall i, (i < n)%nat -> P i i <> 0) ->
  0 <= e -> 0 <= tg < 1 -> 0 <= a ->
  exists C, update_cov_via_ram (fin (vtab n z)) isimu (Fin e) n (Fin tg) (Fin a) (finm (table n n P)) = finm (table n n C) /\
    symmetric n C /\ posdef n C /\
    (forall i j, (i < n)%nat -> (j < n)%nat ->
       C i j = gram n P i j + (Rmin 1 a - tg) / Rpower (INR isimu) e *
               (Sum n (fun k => P k i * z k) * Sum n (fun k => P k j * z k)) / Sum n (fun k => z k * z k)).
Proof. exact ram_update. Qed.
Print Assumptions C22_ram_update_partial.

(** The alpha of a Metropolis step, passed on as it is, can give a matrix that is not even positive semidefinite. *)
Theorem C22_refuted_log_alpha :
  exists (E : env XR) V P old s acc new outb z s1 alpha C,
  run_metropolis_step E V (finm (table 1 1 P)) old s = Ok (acc, new, outb, z, s1) /\
  p_alpha new = Some alpha /\ nonsingular 1 P /\
  update_cov_via_ram z 1 (Fin (7 / 10)) 1 (Fin (234 / 1000)) alpha (finm (table 1 1 P)) = finm (table 1 1 C) /\
  ~ psd 1 C.
Proof. exact ram_refuted. Qed.
Print Assumptions C22_refuted_log_alpha.

(** Exactly when the update of a factor is a covariance, whatever number is passed as alpha: at early iterations, large
    negative numbers are too much. *)
Theorem C22_valid_exactly_if :
  forall n P z isimu e tg a, (0 < n)%nat -> (0 < isimu)%nat ->
  (exists k, (k < n)%nat /\ z k <> 0) -> upper_triangular n P -> (forall i, (i < n)%nat -> P i i <> 0) ->
  exists C, update_cov_via_ram (fin (vtab n z)) isimu (Fin e) n (Fin tg) (Fin a) (finm (table n n P)) = finm (table n n C) /\
    symmetric n C /\ (posdef n C <-> tg - Rmin 1 a < Rpower (INR isimu) e).
Proof. exact ram_exact. Qed.
Print Assumptions C22_valid_exactly_if.

(** With the logarithm of the ratio [r], as the code has it: valid exactly for ratios above a bound that falls with the
    number of the iteration. *)
Theorem C22_log_alpha_valid_exactly_if :
  forall n P z isimu e tg r, (0 < n)%nat -> (0 < isimu)%nat ->
  (exists k, (k < n)%nat /\ z k <> 0) -> upper_triangular n P -> (forall i, (i < n)%nat -> P i i <> 0) -> tg < 1 -> 0 < r ->
  exists C, update_cov_via_ram (fin (vtab n z)) isimu (Fin e) n (Fin tg) (Fin (ln r)) (finm (table n n P)) = finm (table n n C) /\
    symmetric n C /\ (posdef n C <-> exp (tg - Rpower (INR isimu) e) < r).
Proof. exact ram_exact_log. Qed.
Print Assumptions C22_log_alpha_valid_exactly_if.

Example C22_case : let P := fun i j : nat => if (i =? j)%nat then 2 else if (i <? j)%nat then 1 else 0 in
  upper_triangular 2 P /\ (forall i, (i < 2)%nat -> P i i <> 0) /\
  (exists k, (k < 2)%nat /\ (fun k : nat => if (k =? 1)%nat then -3 else 0) k <> 0) /\ 0 <= 7 / 10 /\ 0 <= 234 / 1000 < 1 /\ 0 <= 5.
Proof.
  cbv zeta. split; [|split; [|split]].
  - intros i j _ H. destruct (Nat.eqb_spec i j); [lia|]. destruct (Nat.ltb_spec i j); [lia|reflexivity].
  - intros i _. rewrite Nat.eqb_refl. lra.
  - exists 1%nat. split; [lia|]. cbn. lra.
  - lra.
Qed.

(** ** C23 *)

Theorem C23_default_covariance :
  forall (E : env XR) m m' vals, factorises (e_chol E) ->
  run_simulation E false m = Ok m' -> o_restart (m_opts m) = None -> o_qcov (m_opts m) = None -> o_RDR (m_opts m) = None ->
  map (@a_theta0 XR) (m_params m) = fin vals ->
  let ps := sampled_params (m_params m) in
  let k := List.length ps in
  (0 < k)%nat ->
  exists evs last c0 var, m_trace m' = rev evs ++ m_trace m /\ nth_error (map (@ev_cov XR) evs ++ [last]) 0%nat = Some c0 /\
    (forall a p, nth_error ps a = Some p -> exists v, a_theta0 p = Fin v /\ var a = start_variance (a_sigma p) v) /\
    (forall a, (a < k)%nat -> 0 < var a) /\
    c_qcov c0 = finm (table k k (diagonal var)) /\ scaled_factor k (c_R c0) 1 (diagonal var) /\
    (forall oa, o_adascale (m_opts m) = option_map (@Fin R) oa ->
       c_qcov_scale c0 = Fin (match oa with Some v => if Rle_dec v 0 then 24 / 10 / sqrt (INR k) else v
                                         | None => 24 / 10 / sqrt (INR k) end)).
Proof. exact default_start_run. Qed.
Print Assumptions C23_default_covariance.

(** A run from 0 with a flat prior starts with variance 1; the other start variances by example. *)
Example C23_case : factorises (e_chol flat_env) /\ (exists m', run_simulation flat_env false plain = Ok m') /\
  o_restart (m_opts plain) = None /\ o_qcov (m_opts plain) = None /\ o_RDR (m_opts plain) = None /\
  map (@a_theta0 XR) (m_params plain) = fin [0] /\ List.length (sampled_params (m_params plain)) = 1%nat /\
  start_variance PInf 0 = 1 /\ start_variance NaN (-2) = 1 / 100 /\ start_variance (Fin 3) 0 = 9 /\ start_variance (Fin (-3)) 0 = 1.
Proof.
  split; [exact real_chol_ok|]. split; [destruct plain_run as (m' & H & _); eauto|].
  repeat (split; [reflexivity|]).
  unfold start_variance. split; [|split; [|split]].
  - destruct (Req_EM_T 0 0); lra.
  - destruct (Req_EM_T (-2) 0); lra.
  - destruct (Rlt_dec 0 3); lra.
  - destruct (Rlt_dec 0 (-3)); [lra|]. destruct (Req_EM_T 0 0); lra.
Qed.
