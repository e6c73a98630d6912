(** Lemmas in the form of the properties C14-C23. *)

From Coq Require Import ZArith QArith Bool Lia String List Reals Lra.
From Verif Require Import Base Num Samplers SamplerFacts Adapt Settings Simulator RunSpec RunFacts RunLift RVec RMat StatSpec
  CovFacts CholFacts AdaptFacts RamFacts InitFacts AdaptRun AdaptThms InitThms CleanFacts Demo DemoRuns DemoReal DemoRealRun DemoAdapt.
Import ListNotations.
Close Scope Q_scope.
Open Scope list_scope.
Open Scope R_scope.

(** ** C14 *)
Lemma weighted_feed n segs : (0 < n)%nat -> Forall (good_seg n) segs ->
  let all := List.concat (map seg_sample segs) in
  all <> [] ->
  fold_left (fun old s => update_covariance_mean_sum (finm (fst s)) (fin (snd s)) old) segs None =
    Some (finm (table n n (covariance all)), fin (vtab n (mean all)), Fin (total all)) /\
  symmetric n (covariance all) /\ psd n (covariance all).
Proof.
  intros Hn HS all Hne. pose proof (feed_spec n segs Hn HS [] (Forall_nil _)) as HF. cbn [known app] in HF.
  fold all in HF. unfold feed_from in HF.
  assert (HH : heavy all).
  { unfold all, heavy. apply Forall_concat. apply Forall_map. eapply Forall_impl; [|exact HS]. intros s Hs.
    now apply (setup_w_spec n s) in Hs. }
  split.
  - etransitivity; [exact HF|]. destruct all; [congruence|reflexivity].
  - split; [intros i j _ _; apply cov_sym|now apply covariance_psd].
Qed.

Lemma unit_feed n (segs : list (list (list R))) : (0 < n)%nat ->
  (forall seg row, In seg segs -> In row seg -> List.length row = n) ->
  let rows := List.concat segs in
  rows <> [] ->
  fold_left (fun old seg => update_covariance_mean_sum (finm seg) [Fin 1] old) segs None =
    Some (finm (table n n (row_cov rows)), fin (vtab n (row_mean rows)), Fin (INR (List.length rows))) /\
  symmetric n (row_cov rows) /\ psd n (row_cov rows).
Proof.
  intros Hn HS rows Hne.
  assert (HG : Forall (good_seg n) (map (fun x => (x, [1])) segs)).
  { apply Forall_map, Forall_forall. intros s Hs. repeat split; cbn [fst snd].
    - intros r Hr. eauto.
    - now left.
    - constructor; [lra|constructor]. }
  pose proof (weighted_feed n (map (fun x => (x, [1])) segs) Hn HG) as W. cbv zeta in W.
  rewrite map_map in W. rewrite unit_concat in W. fold rows in W.
  assert (Hu : unit_weights rows <> []) by (destruct rows; [congruence|discriminate]).
  destruct (W Hu) as (W1 & W2 & W3).
  assert (HX : forall i j, covariance (unit_weights rows) i j = row_cov rows i j) by (intros; apply unit_cov).
  split; [|split].
  - assert (Hf : fold_left (fun old seg => update_covariance_mean_sum (finm seg) [Fin 1] old) segs None =
      fold_left (fun old s => update_covariance_mean_sum (finm (fst s)) (fin (snd s)) old) (map (fun x => (x, [1])) segs) None).
    { match goal with |- _ _ _ ?o = _ => generalize o end. clear. induction segs as [|s t IH]; intros o; [reflexivity|].
      cbn [fold_left map fst snd]. apply IH. }
    etransitivity; [exact Hf|]. etransitivity; [exact W1|]. rewrite unit_total.
    rewrite (table_ext n n (covariance (unit_weights rows)) (row_cov rows)) by (intros; apply HX).
    replace (vtab n (mean (unit_weights rows))) with (vtab n (row_mean rows)); auto.
    unfold vtab. apply map_ext. intros; symmetry; apply unit_mean.
  - intros i j Hi Hj. rewrite <- !HX. now apply W2.
  - intros v. specialize (W3 v). replace (quad n (row_cov rows) v) with (quad n (covariance (unit_weights rows)) v); auto.
    unfold quad. apply Sum_ext. intros i _. apply Sum_ext. intros j _. now rewrite HX.
Qed.

(** ** C15 *)
Lemma fresh_run_statistics (E : env XR) m m' rows :
  run_simulation E false m = Ok m' -> o_initqcovn (m_opts m) = None -> m_chain m' = finm rows ->
  let n := List.length (sampled_params (m_params m)) in
  (0 < n)%nat ->
  exists evs last r, m_trace m' = rev evs ++ m_trace m /\ m_results m' = Some r /\
    rr_cov r = c_covchain last /\ rr_mean r = c_meanchain last /\
    List.length evs = (o_nsimu (m_opts m) - 1)%nat /\
    forall k c, nth_error (map (@ev_cov XR) evs ++ [last]) k = Some c ->
      latest (o_adaptint (m_opts m)) (o_burnintime (m_opts m)) k (c_last c) /\
      statistics_are n c (firstn (c_last c) rows).
Proof.
  intros HR HI HC n Hn. destruct (run_covs E false m m' HR) as (ps & evs & last & r & PC).
  assert (HP : List.length (sampled_params ps) = n).
  { symmetry. apply same_decls_sampled. apply PC. }
  exists evs, last, r. split; [apply PC|]. split; [apply PC|]. split; [apply PC|]. split; [apply PC|]. split; [apply PC|].
  intros k c Hk. rewrite <- HP in *. eapply fresh_statistics; eauto.
Qed.

Lemma resumed_double_count : exists (E : env XQ) m m' e k,
  run_simulation E true m = Ok m' /\ m_status m = true /\
  In e (m_trace m') /\ c_wsum (ev_cov e) = Some (Fin (inject_Z (Z.of_nat k))) /\
  (List.length (m_chain m') < k)%nat.
Proof.
  destruct both_weights as (H1 & e & H2 & H3). exists demo_env, half_more, both, e, 18%nat.
  split; [exact both_ok|]. split; [vm_compute; reflexivity|]. split; [exact H2|]. split; [exact H3|]. rewrite H1. lia.
Qed.

(** ** C16 *)
Lemma lastadapt_ignored : exists (E : env XQ) m m' e e' k,
  run_simulation E false m = Ok m' /\ (0 < o_lastadapt (m_opts m) < Z.of_nat k)%Z /\
  nth_error (rev (m_trace m')) (k - 1) = Some e /\ nth_error (rev (m_trace m')) k = Some e' /\
  c_R (ev_cov e) <> c_R (ev_cov e').
Proof.
  destruct late_changed as (e & e' & H1 & H2 & H3). exists demo_env, late_start, late, e, e', 8%nat.
  split; [exact late_ok|]. split; [vm_compute; split; reflexivity|]. auto.
Qed.

(** ** C19 *)
Lemma user_stages (E : env XR) meth n ntry drscale Ps q ada iq sg v pi na ordr th c : inverts (e_inv E) ->
  initialize_covariance E meth ntry drscale (Some Ps) q ada iq sg v pi na ordr th = Ok c ->
  uses_dr_setup meth = true -> (0 < n)%nat -> Forall (fun P => exists M, P = finm (table n n M)) Ps ->
  c_RDR c = RSome Ps /\ nth_error Ps 0%nat = Some (c_R c) /\
  exists iPs, c_invR c = Some iPs /\ List.length iPs = ntry /\
  forall i, (i < ntry)%nat -> exists M iM,
    nth_error Ps i = Some (finm (table n n M)) /\ nth_error iPs i = Some (finm (table n n iM)) /\ mat_inverse n M iM.
Proof.
  intros HI H Hm Hn HF. unfold initialize_covariance in H. peel H. destruct a as [R sub]. rewrite Hm in H.
  unfold setup_RDR_matrix in H. peel H. destruct a as [[R' l] i]. peel E1. destruct a as [[R1 l1] i1]. inv E1.
  peel E2. peel E2. inv E2. inv H. cbn [c_RDR c_R c_invR]. split; auto.
  apply (invert_all_spec E HI n) in E1; auto. destruct E1 as [L1 L2].
  split; [|eexists; split; [reflexivity|]; auto].
  unfold of_option in E3. destruct (@nth_error _ l1 0) eqn:X; [|discriminate]. injection E3 as <-. reflexivity.
Qed.

(** ** C20 *)
Lemma burnin_rescales (E : env XR) b m m' n s : run_simulation E b m = Ok m' ->
  o_burnin_scale (m_opts m) = Fin s -> s <> 0 ->
  exists evs last r, m_trace m' = rev evs ++ m_trace m /\ m_results m' = Some r /\ rr_R r = c_R last /\
    List.length evs = (o_nsimu (m_opts m) - 1)%nat /\
    let a := Z.to_nat (o_adaptint (m_opts m)) in
    forall k c c', nth_error (map (@ev_cov XR) evs ++ [last]) k = Some c ->
      nth_error (map (@ev_cov XR) evs ++ [last]) (S k) = Some c' ->
      due (o_adaptint (m_opts m)) (S k) -> (Z.of_nat (S k) < o_burnintime (m_opts m))%Z ->
      c_covchain c' = c_covchain c /\ c_meanchain c' = c_meanchain c /\ c_wsum c' = c_wsum c /\ c_last c' = c_last c /\
      c_qcov c' = c_qcov c /\ c_qcov_scale c' = c_qcov_scale c /\
      forall P, c_R c = finm (table n n P) ->
        c_R c' = finm (table n n (burnin_rule s (count rejected_ev (slice (S k - a) (S k) evs)) a P)).
Proof.
  intros HR Hs Hne. destruct (burnin_changes E b m m' HR) as (evs & last & r & H1 & H2 & H3 & H4 & H5).
  exists evs, last, r. split; [exact H1|]. split; [exact H2|]. split; [exact H3|]. split; [exact H4|].
  intros a k c c' Hk Hk' Hd Hb.
  destruct (H5 k c c' Hk Hk' Hd Hb) as (A1 & A2 & A3 & A4 & A5 & A6 & A7).
  split; [exact A1|]. split; [exact A2|]. split; [exact A3|]. split; [exact A4|]. split; [exact A5|]. split; [exact A6|].
  intros P HP. rewrite A7, Hs, HP. apply burnin_spec; auto. destruct Hd. lia.
Qed.

Lemma burnin_breaks : exists (E : env XQ) w pos,
  let start b := new_mcmc demo_params demo_data demo_model (define_simulation_options (w b) ""%string) pos [] in
  (forall b, w_burnintime (w b) = b) /\ (forall b, w_method (w b) = DRAM) /\
  run_simulation E false (start 5%Z) = Err TypeError /\ exists m, run_simulation E false (start 0%Z) = Ok m.
Proof.
  exists demo_env, (fun b => adapt_raw false 12 DRAM 4 None 0 b), 0%nat. cbv zeta.
  split; [reflexivity|]. split; [reflexivity|]. split; [exact burnin_dram|exact no_burnin_dram].
Qed.

(** ** C21 *)
Lemma tries_without_dr : exists (E : env XQ) m, run_simulation E false m = Err AttributeError /\
  exists w, m_opts m = define_simulation_options w ""%string /\ w_ntry w = Some 2%nat /\ w_method w = AM.
Proof. exists demo_env, (adapt_start false 3 AM 4 (Some 2%nat) 0 0). split; [exact ntry_am|]. eexists. repeat split. Qed.
Lemma ram_with_dr : exists (E : env XQ) m, run_simulation E false m = Err TypeError /\
  exists w, m_opts m = define_simulation_options w ""%string /\ w_doram w = Some true /\ w_method w = DRAM /\ w_burnintime w = 0%Z.
Proof. exists demo_env, ram_dr_start. split; [exact ram_dr|]. eexists. repeat split. Qed.

(** ** C22 *)
Lemma ram_update n P z isimu e tg a : (0 < n)%nat -> (0 < isimu)%nat ->
  (exists k, (k < n)%nat /\ z k <> 0) -> upper_triangular n P -> (forall i, (i < n)%nat -> P i i <> 0) ->
  0 <= e -> 0 <= tg < 1 -> 0 <= a ->
  exists C, update_cov_via_ram (fin (vtab n z)) isimu (Fin e) n (Fin tg) (Fin a) (finm (table n n P)) = finm (table n n C) /\
    symmetric n C /\ posdef n C /\
    (forall i j, (i < n)%nat -> (j < n)%nat ->
       C i j = gram n P i j + (Rmin 1 a - tg) / Rpower (INR isimu) e *
               (Sum n (fun k => P k i * z k) * Sum n (fun k => P k j * z k)) / Sum n (fun k => z k * z k)).
Proof.
  intros Hn Hi (k & Hk & Hz) HU HD He Ht Ha.
  assert (HS : 0 < Sum n (fun k => z k * z k)).
  { assert (H0 : forall j, 0 <= z j * z j) by (intros j; apply (Rle_0_sqr (z j))).
    destruct (Sum_nonneg n (fun j => z j * z j) (fun j _ => H0 j)) as [|X]; auto.
    symmetry in X. exfalso. apply Hz. apply Rsqr_0_uniq.
    exact (Sum_nonneg_0 n (fun j => z j * z j) (fun j _ => H0 j) X k Hk). }
  eexists. split; [apply ram_spec; auto|]. split; [apply ram_sym|]. split.
  - apply ram_posdef; auto; [now apply triangular_nonsingular|now apply ram_t_ok].
  - intros i j _ _. unfold ram_cov, ram_t. field.
    assert (0 < Rpower (INR isimu) e) by (unfold Rpower; apply exp_pos). lra.
Qed.

(** ** C23 *)
Lemma default_start_run (E : env XR) m m' vals : factorises (e_chol E) ->
  run_simulation E false m = Ok m' -> o_restart (m_opts m) = None -> o_qcov (m_opts m) = None -> o_RDR (m_opts m) = None ->
  map (@a_theta0 XR) (m_params m) = fin vals ->
  let ps := sampled_params (m_params m) in
  let k := List.length ps in
  (0 < k)%nat ->
  exists evs last c0 var, m_trace m' = rev evs ++ m_trace m /\ nth_error (map (@ev_cov XR) evs ++ [last]) 0%nat = Some c0 /\
    (forall a p, nth_error ps a = Some p -> exists v, a_theta0 p = Fin v /\ var a = start_variance (a_sigma p) v) /\
    (forall a, (a < k)%nat -> 0 < var a) /\
    c_qcov c0 = finm (table k k (diagonal var)) /\ scaled_factor k (c_R c0) 1 (diagonal var) /\
    (forall oa, o_adascale (m_opts m) = option_map (@Fin R) oa ->
       c_qcov_scale c0 = Fin (match oa with Some v => if Rle_dec v 0 then 24 / 10 / sqrt (INR k) else v
                                         | None => 24 / 10 / sqrt (INR k) end)).
Proof.
  intros HC HR Hre HQ HRDR HV ps k Hk.
  assert (HPS : exists ps0 evs last r, proposal_course E false m m' ps0 evs last r /\ ps0 = m_params m).
  { destruct (run_covs E false m m' HR) as (ps0 & evs & last & r & PC). exists ps0, evs, last, r. split; auto.
    destruct (run_facts E false m m' HR) as (ps1 & ini & st0 & st & ms & chains & HF). cbv zeta in HF.
    rewrite Hre in HF. destruct HF as (_ & _ & -> & HF).
    assert (m_params m' = m_params m) by (clear -HF; repeat match goal with H : _ /\ _ |- _ => destruct H end; auto).
    destruct PC. congruence. }
  destruct HPS as (ps0 & evs & last & r & PC & ->). destruct PC as [_ _ HT _ _ _ _ _ _ _ HS _ _].
  destruct HS as (c0 & H0 & HI). unfold run_options in HI. rewrite Hre, HQ, HRDR in HI. cbv zeta in HI.
  pose proof (init_cov_stats E _ _ _ _ _ _ _ _ _ _ _ _ _ _ HI) as (_ & _ & _ & _ & _ & HSC).
  apply default_start with (vals := vals) in HI; auto; [|intros X; unfold k, ps in Hk; rewrite X in Hk; cbn in Hk; lia].
  destruct HI as (var & V1 & V2 & V3). exists evs, last, c0, var. split; [auto|]. split; [auto|]. split; [auto|]. split.
  { intros a Ha. destruct (nth_error ps a) as [p|] eqn:Hp; [|apply nth_error_None in Hp; lia].
    destruct (V1 _ _ Hp) as (v & _ & ->). apply start_variance_pos. }
  split; [auto|]. split; [auto|]. intros oa Hoa. rewrite HSC, Hoa.
  replace (List.length (op_parind (check_prior_sigma (openparameterstructure (m_params m))))) with k by (symmetry; apply parind_length).
  now apply adascale_spec.
Qed.
