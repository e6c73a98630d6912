(** Parameters that are not sampled: declarations, resumed runs and sequences of user actions without them. *)

From Coq Require Import ZArith QArith Bool Lia List String.
From Verif Require Import Base Num Samplers Adapt Settings Simulator SamplerFacts RunSpec RunFacts RunLift SettingsFacts ScaleSpec ScaleFacts FixedSpec FixedFacts FixedRun.
Import ListNotations.
Close Scope Q_scope.
Open Scope list_scope.
Open Scope nat_scope.
Open Scope res_scope.

Section Session.
Context {F : Type} `{NF : Num F}.
Variable ps0 : list (param F).
Variable E : env F.
Notation E' := (closed_env ps0 E).
Notation pi := (flatnonzero (map (@a_sample F) ps0)).
Notation k := (List.length (sampled_params ps0)).
Hypothesis Hk : 0 < k.
Notation opened_of ps := (check_prior_sigma (openparameterstructure ps)).

(** ** Declarations *)
Lemma sel_one (f : param F -> F) ps : sel (map f (sampled_params ps)) (seq 0 (List.length (sampled_params ps))) = map f (sampled_params ps).
Proof. unfold sel. rewrite <- (map_length f (sampled_params ps)). apply nth_all. Qed.
Lemma parind_of ps : fixed_as ps ps0 -> op_parind (opened_of ps) = pi.
Proof. intros H. cbn [check_prior_sigma openparameterstructure setup_adaptation_indices op_parind]. now rewrite (fixed_sample _ _ H). Qed.
Lemma parind_sampled ps : op_parind (opened_of (sampled_params ps)) = seq 0 (List.length (sampled_params ps)).
Proof. cbn [check_prior_sigma openparameterstructure setup_adaptation_indices op_parind]. apply pos_sampled. Qed.
Lemma map2_map {A B C D} (f : B -> C -> D) (g : A -> B) (h : A -> C) l : map2 f (map g l) (map h l) = map (fun x => f (g x) (h x)) l.
Proof. induction l as [|x l IH]; [reflexivity|]. cbn [map map2]. now rewrite IH. Qed.
Lemma no_adapt_same ps : op_no_adapt (opened_of (sampled_params ps)) = op_no_adapt (opened_of ps).
Proof.
  cbn [check_prior_sigma openparameterstructure setup_adaptation_indices op_no_adapt]. rewrite !map2_map, pos_sampled.
  set (g := fun x : param F => xorb (setup_adapting (a_adapt x) (a_sample x)) (a_sample x)). rewrite (kept_at false ps (map g ps)) by apply map_length.
  rewrite kept_map. rewrite <- (map_length g (sampled_params ps)). apply nth_all.
Qed.
Lemma sel_both (f : param F -> F) ps : sel (map f (sampled_params ps)) (op_parind (opened_of (sampled_params ps))) = sel (map f ps) (op_parind (opened_of ps)).
Proof. rewrite parind_sampled, sel_one. symmetry. apply sel_filter. Qed.
Lemma sigma_map ps : op_sigma (opened_of ps) = map (fun p => let s := setup_prior_sigma (a_sigma p) in if nle s n0 then ninf else s) (ps : list (param F)).
Proof. cbn [check_prior_sigma openparameterstructure setup_adaptation_indices op_sigma]. now rewrite map_map. Qed.
Lemma view_same ps : fixed_as ps ps0 -> vrel ps0 (view (opened_of ps)) (view (opened_of (sampled_params ps))).
Proof.
  intros H. unfold vrel, view. cbn [v_parind v_npar v_lower v_upper v_mu v_sigma].
  split; [now apply parind_of|]. split; [rewrite (parind_of ps H); apply parind_length|]. rewrite !sigma_map.
  change (op_lower (opened_of ?q)) with (map (@a_min F) q). change (op_upper (opened_of ?q)) with (map (@a_max F) q).
  change (op_mu (opened_of ?q)) with (map (fun p => setup_prior_mu (a_mu p) (a_theta0 p)) q). rewrite !sel_both.
  rewrite (parind_sampled ps), seq_length, (fixed_sampled _ _ H). reflexivity.
Qed.

(** ** Initialisation *)
Definition irel (I I' : initrec F) : Prop :=
  options_kept ps0 (i_opts I) (i_opts I') /\ i_model I' = i_model I /\ i_cov I' = i_cov I /\ i_set I' = i_set I /\ i_nsos I' = i_nsos I /\ i_iacce I' = i_iacce I /\
  iorel ps0 (i_io I) (i_io I') /\ exists ps, fixed_as ps ps0 /\ i_op I = opened_of ps /\ i_op I' = opened_of (sampled_params ps).
Lemma covariance_same meth ntry drscale rdr q q' ada iq old theta ps : fixed_as ps ps0 -> cov_kept ps0 q q' ->
  initialize_covariance E' meth ntry drscale rdr q' ada iq (op_sigma (opened_of (sampled_params ps))) (op_initial (opened_of (sampled_params ps)))
    (op_parind (opened_of (sampled_params ps))) (op_no_adapt (opened_of (sampled_params ps))) old theta =
  initialize_covariance E meth ntry drscale rdr q ada iq (op_sigma (opened_of ps)) (op_initial (opened_of ps)) (op_parind (opened_of ps)) (op_no_adapt (opened_of ps)) old theta.
Proof.
  intros H C. unfold initialize_covariance. rewrite no_adapt_same, (parind_of ps H), parind_sampled, (fixed_sampled _ _ H), seq_length.
  assert (L1 : List.length (op_sigma (opened_of ps)) = List.length ps0) by (rewrite sigma_map, map_length; now apply fixed_length).
  assert (L2 : List.length (op_initial (opened_of ps)) = List.length ps0) by (cbn [check_prior_sigma openparameterstructure setup_adaptation_indices op_initial]; rewrite map_length; now apply fixed_length).
  replace (op_sigma (opened_of (sampled_params ps))) with (kept ps0 (op_sigma (opened_of ps)))
    by (rewrite <- (fixed_kept ps ps0 _ H), !sigma_map; apply kept_map).
  replace (op_initial (opened_of (sampled_params ps))) with (kept ps0 (op_initial (opened_of ps)))
    by (rewrite <- (fixed_kept ps ps0 _ H); apply (kept_map (@a_theta0 F))).
  rewrite (R_same E E' eq_refl ps0 q q' _ _ Hk C L1 L2). rewrite parind_length. reflexivity.
Qed.
Lemma init_same ps d ms o o' rdr pos calls calls' : fixed_as ps ps0 -> options_kept ps0 o o' ->
  Forall (fun t => List.length t = k) calls' -> calls = map (fill ps0) calls' ->
  outcomes irel (initialize_simulation E ps d ms o rdr pos calls) (initialize_simulation E' (sampled_params ps) d ms o' rdr pos calls').
Proof.
  intros H (HR & HQ & HO) LC CA. unfold initialize_simulation. apply out_same. intros m1 _.
  set (b := match ms_N0 ms with Some _ => true | None => false end).
  assert (DO : check_dependent_simulation_options o' b = with_covariance (check_dependent_simulation_options o b) (o_qcov o')) by (rewrite HO; reflexivity).
  assert (OK : options_kept ps0 (check_dependent_simulation_options o b) (check_dependent_simulation_options o' b)).
  { rewrite DO. split; [exact HR|]. split; [exact HQ|reflexivity]. }
  assert (PL : check_parameter_limits (openparameterstructure (sampled_params ps)) = check_parameter_limits (openparameterstructure ps)).
  { unfold check_parameter_limits. pose proof (sel_both (@a_min F) ps) as X. pose proof (sel_both (@a_max F) ps) as Y.
    change (op_parind (opened_of ?q)) with (op_parind (openparameterstructure q)) in X, Y.
    change (op_lower (openparameterstructure ?q)) with (map (@a_min F) q). change (op_upper (openparameterstructure ?q)) with (map (@a_max F) q). now rewrite X, Y. }
  assert (PV : check_initial_values (openparameterstructure (sampled_params ps)) = check_initial_values (openparameterstructure ps)).
  { unfold check_initial_values. pose proof (sel_both (@a_min F) ps) as X. pose proof (sel_both (@a_max F) ps) as Y. pose proof (sel_both (@a_theta0 F) ps) as Z.
    change (op_parind (opened_of ?q)) with (op_parind (openparameterstructure q)) in X, Y, Z.
    change (op_lower (openparameterstructure ?q)) with (map (@a_min F) q). change (op_upper (openparameterstructure ?q)) with (map (@a_max F) q).
    change (op_initial (openparameterstructure ?q)) with (map (@a_theta0 F) q). now rewrite X, Y, Z. }
  rewrite PL, PV. apply out_same. intros _ _. apply out_same. intros _ _.
  assert (T0 : sel (op_initial (opened_of (sampled_params ps))) (op_parind (opened_of (sampled_params ps))) = sel (op_initial (opened_of ps)) (op_parind (opened_of ps)))
    by apply (sel_both (@a_theta0 F)).
  assert (TV : sel (op_initial (opened_of ps)) (op_parind (opened_of ps)) = map (@a_theta0 F) (sampled_params ps)) by apply (sel_filter (@a_theta0 F)).
  rewrite T0, DO. set (oo := check_dependent_simulation_options o b) in *. cbn [with_covariance o_method o_ntry o_drscale o_RDR o_qcov o_adascale o_initqcovn].
  rewrite (covariance_same _ _ _ _ (o_qcov oo) (o_qcov o') _ _ rdr _ ps H HQ). apply out_same. intros cov _.
  pose proof (view_same ps H) as VR. rewrite TV. set (theta0 := map (@a_theta0 F) (sampled_params ps)).
  assert (LT : List.length theta0 = k) by (unfold theta0; rewrite map_length; now apply fixed_sampled).
  assert (IO : iorel ps0 (mkio pos (op_initial (opened_of ps)) calls) (mkio pos (op_initial (opened_of (sampled_params ps))) calls')).
  { constructor; cbn [io_pos io_value io_calls]; auto.
    change (op_initial (opened_of ps)) with (map (@a_theta0 F) ps). change (op_initial (opened_of (sampled_params ps))) with theta0.
    rewrite <- (fixed_fill ps ps0 H theta0 LT). unfold theta0. now rewrite fill_own. }
  destruct (sos_same ps0 E _ _ theta0 _ _ VR IO LT) as [A B].
  replace (evaluate_prior E' (view (opened_of (sampled_params ps))) theta0) with (evaluate_prior E (view (opened_of ps)) theta0) by (destruct VR as (_ & _ & ->); reflexivity).
  destruct (evaluate_sos_function E _ _ _) as [ss s1], (evaluate_sos_function E' _ _ _) as [ss' s1']. cbn [fst snd] in A, B. subst ss'.
  apply out_same. intros m2 _. cbn [outcomes]. unfold irel. cbn [i_opts i_model i_op i_cov i_set i_nsos i_iacce i_io].
  rewrite DO in OK. split; [exact OK|]. repeat (split; [reflexivity|]). split; [exact B|]. exists ps. auto.
Qed.

(** ** Runs *)
Definition mrel (m m' : mcmc F) : Prop := without_fixed ps0 m m' /\ fixed_as (m_params m) ps0 /\ (forall r, m_results m = Some r -> rr_parind r = pi).
Lemma npar_same I I' : irel I I' -> List.length (op_parind (i_op I')) = List.length (op_parind (i_op I)).
Proof. intros (_ & _ & _ & _ & _ & _ & _ & ps & H & -> & ->). rewrite (parind_of ps H), parind_sampled, seq_length, (fixed_sampled _ _ H). symmetry. apply parind_length. Qed.
Lemma chains_same I I' s2 : irel I I' -> initialize_chains I' s2 = initialize_chains I s2.
Proof.
  intros H. pose proof (npar_same _ _ H) as N. destruct H as ((_ & _ & HO) & HM & HC & HS & HN & _). unfold initialize_chains. rewrite N, HO, HS, HN. reflexivity.
Qed.
Lemma freeze_same m m' : without_fixed ps0 m m' -> forall r, freeze m' r = freeze m r.
Proof. intros H r. destruct (wf_chains _ _ _ H) as (A & B & C & D). destruct r; cbn [freeze]; now rewrite ?A, ?B, ?C. Qed.
Lemma expand_same m m' I I' : without_fixed ps0 m m' -> irel I I' -> expand_chains m' I' = expand_chains m I.
Proof.
  intros W H. pose proof (npar_same _ _ H) as N. destruct H as ((_ & _ & HO) & HM & HC & HS & HN & _). destruct (wf_chains _ _ _ W) as (A & B & C & D).
  unfold expand_chains. rewrite N, HO, HN, A, B, C, D. cbn [with_covariance o_nsimu o_updatesigma].
  rewrite (map_ext (fun e => (fst e, freeze m' (snd e))) (fun e => (fst e, freeze m (snd e)))) by (intros e; now rewrite (freeze_same m m' W)). reflexivity.
Qed.
Lemma prepared_same m m' ps I I' i x : mrel m m' -> fixed_as ps ps0 -> irel I I' ->
  outcomes mrel (run_prepared E m ps I i x) (run_prepared E' m' (sampled_params ps) I' i x).
Proof.
  intros [W _] Hps HI. pose proof HI as (OK & HM & HC & HS & HN & HA & HIO & qs & Hq & HP & HP'). destruct x as [[[c ss] s2] l]. unfold run_prepared.
  eapply out_bind.
  - apply (execute_same ps0 E) with (K' := make_const I' l).
    + unfold krel, make_const. cbn [k_opts k_view k_nsos k_N0 k_N k_alias k_chains]. rewrite HN, HM. split; [rewrite HP, HP'; now apply view_same|]. split; [exact OK|reflexivity].
    + unfold srel, start_state. cbn [r_index r_iiadapt r_savecount r_lastbin r_rej r_rejin r_rejout r_chain r_cov r_iacce r_io r_trace r_old r_ss r_s2 r_sigma2 r_S20 r_fs].
      split; [exact HIO|]. rewrite HS, HC, HM, HA, (wf_files _ _ _ W). reflexivity.
  - intros t t' [TI TS]. cbn [outcomes].
    assert (E1 : r_cov t' = r_cov t /\ r_chain t' = r_chain t /\ r_ss t' = r_ss t /\ r_s2 t' = r_s2 t /\ r_index t' = r_index t /\ r_sigma2 t' = r_sigma2 t /\ r_S20 t' = r_S20 t /\
      r_fs t' = r_fs t /\ r_trace t' = r_trace t /\ r_old t' = r_old t /\ r_rej t' = r_rej t /\ r_rejout t' = r_rejout t /\ r_iacce t' = r_iacce t) by (rewrite TS; repeat split).
    clear TS. destruct E1 as (T1 & T2 & T3 & T4 & T5 & T6 & T7 & T8 & T9 & T10 & T11 & T12 & T13).
    pose proof OK as (_ & _ & HO).
    assert (OS : o_nsimu (i_opts I') = o_nsimu (i_opts I) /\ o_ntry (i_opts I') = o_ntry (i_opts I) /\ o_save_to_json (i_opts I') = o_save_to_json (i_opts I) /\
      o_savedir (i_opts I') = o_savedir (i_opts I) /\ o_results_filename (i_opts I') = o_results_filename (i_opts I) /\ o_save_lightly (i_opts I') = o_save_lightly (i_opts I))
      by (rewrite HO; repeat split).
    destruct OS as (O1 & O2 & O3 & O4 & O5 & O6).
    split.
    + constructor; cbn [m_params m_data m_model m_opts m_RDR m_status m_chain m_sschain m_s2chain m_index m_chains m_pos m_calls m_fs m_results m_trace].
      * reflexivity.
      * exact OK.
      * split; [apply (wf_settings _ _ _ W)|]. now rewrite T6, T7, HM.
      * rewrite T1, T5. repeat (split; [reflexivity|]). apply (ir_pos _ _ _ TI).
      * auto.
      * split; [apply (ir_lens _ _ _ TI)|apply (ir_calls _ _ _ TI)].
      * now rewrite O3, O4, O5, O6, T8.
      * constructor; unfold generate_results;
          cbn [rr_theta rr_parind rr_total_rejected rr_outside rr_R rr_qcov rr_cov rr_mean rr_names rr_allnames rr_lower rr_upper rr_nsimu rr_iacce rr_opts rr_model rr_chain rr_sschain rr_s2chain].
        { rewrite HP, HP', (parind_of qs Hq), parind_sampled, T10, (fixed_sampled _ _ Hq). set (th := p_theta (r_old t)).
          change (op_value (opened_of qs)) with (map (@a_theta0 F) qs). change (op_value (opened_of (sampled_params qs))) with (map (@a_theta0 F) (sampled_params qs)).
          set (v := map (@a_theta0 F) (sampled_params qs)). assert (LV : List.length v = k) by (unfold v; rewrite map_length; now apply fixed_sampled).
          assert (X : scatter v (seq 0 k) th = over v th) by (rewrite <- LV; apply scatter_over). rewrite X, over_length. split; [exact LV|].
          rewrite <- (fill_own qs). fold v. rewrite (fixed_fill _ _ Hq v LV). apply (fill_over ps0 [] v th LV). }
        { rewrite HP', parind_sampled. now rewrite (fixed_sampled _ _ Hq). }
        { rewrite HP, HP'.
          assert (X : map (fun i => nth i (op_names (opened_of qs)) EmptyString) (op_parind (opened_of qs)) = map (@a_name F) (sampled_params qs)).
          { rewrite <- kept_map. apply (kept_at EmptyString qs (map (@a_name F) qs)). apply map_length. }
          assert (Y : map (fun i => nth i (op_names (opened_of (sampled_params qs))) EmptyString) (op_parind (opened_of (sampled_params qs))) = map (@a_name F) (sampled_params qs)).
          { rewrite parind_sampled, <- (map_length (@a_name F) (sampled_params qs)). apply nth_all. }
          rewrite X, Y. split; reflexivity. }
        { now rewrite O1, O2, T11, T12, T13. }
        { unfold proposal_cov. now rewrite T1. }
        { rewrite HP, HP'. split; [apply (sel_both (@a_min F))|apply (sel_both (@a_max F))]. }
        { split; [exact OK|]. now rewrite T6, T7, HM. }
        { auto. }
      * now rewrite T9, (wf_trace _ _ _ W).
    + cbn [m_params m_results]. split; [exact Hps|]. intros r Hr. injection Hr as <-. unfold generate_results. cbn [rr_parind]. rewrite HP. now apply parind_of.
Qed.

Lemma loop_same names names' theta theta' : names' = names -> List.length theta' = k -> theta = fill ps0 theta' ->
  forall n ii ix ps, fixed_as ps ps0 -> ii + n = k -> ix = skipn ii pi ->
  outcomes (fun a b => b = sampled_params a /\ fixed_as a ps0)
    (results_to_params_loop ii names theta ix ps) (results_to_params_loop ii names' theta' (seq ii n) (sampled_params ps)).
Proof.
  intros -> LT ->. induction n as [|n IH]; intros ii ix ps H N ->.
  - rewrite skipn_all2 by (rewrite parind_length; lia). cbn. auto.
  - assert (LP : ii < List.length pi) by (rewrite parind_length; lia).
    assert (SK : skipn ii pi = nth ii pi 0 :: skipn (S ii) pi).
    { clear -LP. set (l := pi) in *. clearbody l. revert ii LP. induction l as [|x l IHl]; intros [|ii] LP; cbn [List.length] in LP; try lia; [reflexivity|]. cbn [skipn nth]. apply IHl. lia. }
    rewrite SK. cbn [results_to_params_loop seq]. apply out_same. intros name _.
    assert (NT : nth_error (fill ps0 theta') (nth ii pi 0) = nth_error theta' ii).
    { rewrite <- (scatter_fill ps0 theta'). apply scatter_in; [apply flatnonzero_NoDup|exact LP|now rewrite parind_length|]. intros i Hi. rewrite map_length. now apply pos_bound. }
    rewrite NT. apply out_same. intros v _. rewrite <- restart_sampled. apply IH; [now apply restart_fixed|lia|reflexivity].
Qed.
Lemma run_same u m m' : mrel m m' -> outcomes mrel (run_simulation E u m) (run_simulation E' u m').
Proof.
  intros H0. pose proof H0 as (W & FX & RP). pose proof W as [W1 W2 [W3 W3'] (W4 & W5 & W6 & W7) W8 [W9 W10] W11 W12 W13].
  unfold run_simulation. rewrite W1, W3, W3', W4, W5, W6, W7. destruct u.
  - destruct (m_status m); [|reflexivity]. destruct (m_results m) as [r|], (m_results m') as [r'|]; try contradiction; [|reflexivity].
    eapply out_bind.
    + unfold results_to_params, restart_of. cbn [rs_names rs_theta rs_parind]. rewrite (rk_parind _ _ _ W12), (RP r eq_refl).
      apply (loop_same _ _ (rr_theta r) (rr_theta r')); [apply (rk_names _ _ _ W12)|apply (rk_theta _ _ _ W12)|apply (rk_theta _ _ _ W12)|exact FX|reflexivity|reflexivity].
    + intros ps ps' [-> Hps]. eapply out_bind; [apply init_same; [exact Hps|exact W2|exact W9|exact W10]|]. intros I I' HI.
      rewrite (expand_same m m' I I' W HI). apply out_same. intros x _. now apply prepared_same.
  - replace (o_restart (m_opts m')) with (o_restart (m_opts m)) by (destruct W2 as (_ & _ & ->); reflexivity). destruct W2 as (HR & HQ & HO). rewrite HR. cbn [bind].
    eapply out_bind; [apply init_same; [exact FX|split; [exact HR|split; [exact HQ|exact HO]]|exact W9|exact W10]|]. intros I I' HI.
    rewrite (chains_same I I' _ HI). replace (i_model I') with (i_model I) by (destruct HI as (_ & X & _); now symmetry). apply out_same. intros x _. now apply prepared_same.
Qed.
Lemma acts_same l l' : Forall2 (action_kept ps0) l l' -> forall m m', mrel m m' -> outcomes mrel (acts E l m) (acts E' l' m').
Proof.
  induction 1 as [|a a' l l' Ha _ IH]; intros m m' H; cbn [acts]; [exact H|].
  eapply out_bind with (R := mrel); [|intros x y Hxy; now apply IH].
  destruct a as [o|ms|u], a' as [o'|ms'|u']; cbn [action_kept] in Ha; try contradiction; cbn [act]; [| |subst u'; now apply run_same]; cbn [outcomes]; destruct H as (W & FX & RP).
  - split; [|split; [exact FX|exact RP]]. destruct W. constructor; cbn; auto.
  - subst ms'. split; [|split; [exact FX|exact RP]]. destruct W as [X1 X2 [X3 _] X4 X5 X6 X7 X8 X9]. constructor; cbn; auto.
Qed.
Lemma new_same d ms o o' pos l : options_kept ps0 o o' -> mrel (new_mcmc ps0 d ms o pos l) (new_mcmc (sampled_params ps0) d ms o' pos l).
Proof. intros H. split; [constructor; cbn; auto 10|]. split; [apply fixed_refl|]. discriminate. Qed.
End Session.
