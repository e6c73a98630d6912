(** A first run and its continuation together against one run of the whole length. *)

From Coq Require Import ZArith QArith Bool Lia List String.
From Verif Require Import Base Num Samplers Adapt Settings Simulator SamplerFacts RunSpec RunFacts RunLift SessionFacts ResumeFacts
  AdaptRun SettingsFacts SettingsProps TwinSpec TwinFacts ContFacts.
Import ListNotations.
Open Scope list_scope.
Open Scope nat_scope.
Open Scope res_scope.

Section Split.
Context {F : Type} `{NF : Num F}.
Variable E : env F.

Lemma step_fixed K i s t : (o_adaptint (k_opts K) <= 0)%Z -> o_updatesigma (k_opts K) = true ->
  step E K i s = Ok t -> r_cov t = r_cov s /\ p_sigma2 (r_old t) = r_sigma2 t.
Proof.
  intros Hno Hu H. unfold step in H. peel H. destruct a as [[[[[stage new] outb] z] ia] t0]. peel H.
  rewrite no_adapt in H by auto. cbn [bind] in H. peel H. apply save_frame in H.
  assert (Q1 : r_cov t = r_cov a0) by tauto. assert (Q2 : r_old t = r_old a0) by tauto. assert (Q3 : r_sigma2 t = r_sigma2 a0) by tauto.
  rewrite Q1, Q2, Q3. clear H Q1 Q2 Q3. unfold sigma_step in E2. rewrite Hu in E2.
  peel E2. destruct a1 as [[sg S0] u]. peel E2. peel E2. peel E2. apply Ok_inj in E2. subst a0. cbn [r_cov r_old p_sigma2 r_sigma2].
  split; [|reflexivity]. unfold update_chain in E1. peel E1. peel E1. peel E1. peel E1. apply Ok_inj in E1. subst a. reflexivity.
Qed.

Lemma iterate_fixed K is : (o_adaptint (k_opts K) <= 0)%Z -> o_updatesigma (k_opts K) = true -> forall s t,
  iterate E K is s = Ok t -> r_cov t = r_cov s /\ (is <> [] -> p_sigma2 (r_old t) = r_sigma2 t).
Proof.
  intros Hno Hu. induction is as [|i is IH]; intros s t H; cbn [iterate] in H.
  - inv H. split; [auto|congruence].
  - peel H. destruct (step_fixed _ _ _ _ Hno Hu E0) as [Q1 Q2]. destruct (IH _ _ H) as [Q3 Q4].
    split; [congruence|]. intros _. destruct is as [|j is].
    + cbn [iterate] in H. inv H. auto.
    + apply Q4. discriminate.
Qed.

Lemma same_decls_view ps ps' : same_decls ps ps' -> map (@prior_mean F NF) ps' = map (@prior_mean F NF) ps -> opview ps' = opview ps.
Proof.
  intros D HM. destruct (same_decls_maps _ _ D) as (T1 & _ & _ & T4 & T5).
  destruct (opview_facts ps) as (V1 & V2 & V3 & V4). destruct (opview_facts ps') as (W1 & W2 & W3 & W4).
  rewrite <- T1 in W1. rewrite <- (same_decls_sampled _ _ D) in W2. rewrite <- T4 in W3. rewrite <- T5 in W4.
  assert (Hp : op_parind (openparameterstructure ps') = op_parind (openparameterstructure ps)) by (rewrite !op_parind_open; congruence).
  assert (Hm : v_mu (opview ps') = v_mu (opview ps)).
  { unfold opview, view, check_prior_sigma. cbn [v_mu op_mu op_parind]. rewrite Hp. f_equal. exact HM. }
  assert (Hs : v_sigma (opview ps') = v_sigma (opview ps)).
  { unfold opview, view, check_prior_sigma. cbn [v_sigma op_sigma op_parind]. rewrite Hp. f_equal. f_equal.
    change (map (fun p => setup_prior_sigma (a_sigma p)) ps' = map (fun p => setup_prior_sigma (a_sigma p)) ps). clear - D. induction D; cbn; auto.
    destruct H as (_ & _ & _ & _ & -> & _). now rewrite IHD. }
  destruct (opview ps'), (opview ps). cbn in *. congruence.
Qed.

Lemma value_ok_decls ps ps' V s : same_decls ps ps' -> v_parind V = flatnonzero (map (@a_sample F) ps) ->
  value_ok (map (@a_theta0 F) ps') V s -> value_ok (map (@a_theta0 F) ps) V s.
Proof.
  intros D HV (L & H). rewrite map_length in L. split; [rewrite map_length; rewrite L; symmetry; apply (Forall2_len _ _ _ D)|].
  intros i Hi. rewrite H by auto. rewrite HV in Hi. rewrite !nth_error_map.
  revert i Hi. clear - D. unfold flatnonzero.
  assert (G : forall k i, ~ In (k + i) (flatnonzero_from k (map (@a_sample F) ps)) ->
     option_map (@a_theta0 F) (nth_error ps' i) = option_map (@a_theta0 F) (nth_error ps i)).
  { induction D as [|p q l l' Hpq D IH]; intros k [|i] Hi; cbn [nth_error option_map map flatnonzero_from] in *; auto.
    - destruct Hpq as (_ & _ & _ & _ & _ & _ & Q). destruct (a_sample p) eqn:Es.
      + destruct Hi. left. lia.
      + f_equal. symmetry. auto.
    - apply (IH (S k)). intros C. apply Hi. replace (k + S i) with (S k + i) by lia. destruct (a_sample p); [right|]; auto. }
  intros i Hi. apply (G 0). exact Hi.
Qed.

Lemma opts_again (o : simopts F) g : sampling_of (check_dependent_simulation_options o g) =
  sampling_of o \/ g = true.
Proof. destruct g; auto. Qed.

Lemma init_cov ps d ms o rdr pos calls ini : initialize_simulation E ps d ms o rdr pos calls = Ok ini ->
  exists q v th, q = setup_covariance_matrix (o_qcov (i_opts ini)) (op_sigma (i_op ini)) v /\
  initialize_covariance E (o_method (i_opts ini)) (o_ntry (i_opts ini)) (o_drscale (i_opts ini)) (o_RDR (i_opts ini)) (Some q)
    (o_adascale (i_opts ini)) (o_initqcovn (i_opts ini)) (op_sigma (i_op ini)) v (op_parind (i_op ini)) (op_no_adapt (i_op ini)) rdr th
  = Ok (i_cov ini).
Proof.
  unfold initialize_simulation. intros H. peel H. peel H. peel H. peel H. destruct (evaluate_sos_function _ _ _ _). peel H.
  apply Ok_inj in H. subst ini. cbn [i_opts i_op i_cov]. do 3 eexists. split; [reflexivity|]. exact E3.
Qed.

Lemma cov_same me nt ds ur q ad iq ts v pi na old th ts' v' na' th' c c' :
  initialize_covariance E me nt ds ur (Some q) ad iq ts v pi na old th = Ok c ->
  initialize_covariance E me nt ds ur (Some q) ad iq ts' v' pi na' (c_RDR c) th' = Ok c' ->
  c_R c = c_R c' /\ c_RDR c = c_RDR c' /\ c_invR c = c_invR c'.
Proof.
  unfold initialize_covariance. cbn [setup_covariance_matrix]. intros H1 H2. peel H1. rewrite E0 in H2. cbn [bind] in H2.
  destruct a as [R sub]. destruct (uses_dr_setup me).
  - destruct (setup_RDR_matrix E R nt ds ur) as [[[R' l] i]|]; cbn [bind] in *; [|discriminate].
    apply Ok_inj in H1. apply Ok_inj in H2. subst. auto.
  - cbn [bind] in *. apply Ok_inj in H1. apply Ok_inj in H2. subst. auto.
Qed.

Lemma upto_grown {A} n (a b c : list A) : List.length a = n -> upto n a b -> upto n b (a ++ c).
Proof. unfold upto. intros L H. rewrite firstn_app, L, Nat.sub_diag, firstn_O, app_nil_r. congruence. Qed.

Lemma upto_both {A} n (a b : list A) : List.length a = n -> List.length b = n -> upto n a b -> a = b.
Proof. unfold upto. intros L1 L2 H. rewrite !firstn_all2 in H by lia. auto. Qed.

Variable ps0 : list (param F).

Lemma run_split b m o1 o2 o3 m1 m2 m3 ms1 n :
  session E ps0 m -> NoDup (map (@a_name F) (sampled_params ps0)) ->
  sampling_of o1 = sampling_of o3 -> o_nsimu o3 = o_nsimu o1 + o_nsimu o2 - 1 ->
  run_simulation E b (with_opts m o1) = Ok m1 ->
  sampling_of o2 = sampling_of (m_opts m1) ->
  run_simulation E true (with_opts m1 o2) = Ok m2 ->
  run_simulation E b (with_opts m o3) = Ok m3 ->
  (o_adaptint (m_opts m1) <= 0)%Z -> o_qcov (m_opts m1) <> None -> o_updatesigma (m_opts m1) = true ->
  (forall p, In p (m_params m1) -> nisnan (a_theta0 p) = false) ->
  (forall r v, m_results m1 = Some r -> In v (rr_theta r) -> nisnan v = false) ->
  (forall v, List.length (e_sos E v) = n) ->
  check_dependent_model_settings (m_model m1) (m_data m1) = Ok ms1 -> check_wrt_nsos ms1 n = Ok (m_model m1) ->
  m_chain m3 = m_chain m2 /\ m_sschain m3 = m_sschain m2 /\ m_s2chain m3 = m_s2chain m2 /\ m_pos m3 = m_pos m2 /\
  ms_sigma2 (m_model m3) = ms_sigma2 (m_model m2) /\ ms_S20 (m_model m3) = ms_S20 (m_model m2) /\
  map (@brief F) (m_trace m3) = map (@brief F) (m_trace m2).
Proof.
  intros HS HND Ho13 Hn H1 Ho2 H2 H3 Hno Hq Hu Hnan1 Hnan2 Hlen Hdep Hwrt.
  assert (S1 : session E ps0 (with_opts m o1)) by (eapply session_act; [exact HS|]; exact (eq_refl : act E (SetOptions o1) m = _)).
  assert (S3 : session E ps0 (with_opts m o3)) by (eapply session_act; [exact HS|]; exact (eq_refl : act E (SetOptions o3) m = _)).
  pose proof (session_snoc _ _ _ _ _ S1 H1) as Sm1. pose proof (session_snoc _ _ _ _ _ S3 H3) as Sm3.
  assert (S2 : session E ps0 (with_opts m1 o2)) by (eapply session_act; [exact Sm1|]; exact (eq_refl : act E (SetOptions o2) m1 = _)).
  pose proof (session_snoc _ _ _ _ _ S2 H2) as Sm2.
  pose proof (session_minv _ _ _ HS) as M0. pose proof (session_minv _ _ _ Sm1) as M1.
  pose proof (session_minv _ _ _ Sm2) as M2. pose proof (session_minv _ _ _ Sm3) as M3.
  assert (SO : same_object (with_opts m o1) (with_opts m o3)) by (split; auto).
  assert (HLb : b = true -> List.length (m_chain m) = S (m_index m) /\ List.length (m_sschain m) = S (m_index m) /\
               (forall s2, m_s2chain m = Some s2 -> List.length s2 = S (m_index m))).
  { intros ->. apply (mi_len _ _ _ M0). unfold run_simulation in H1. cbn [with_opts m_status] in H1. destruct (m_status m); [reflexivity|discriminate]. }
  pose proof H1 as H1'. pose proof H2 as H2'. pose proof H3 as H3'.
  apply run_open in H1 as (ps1 & i1 & [[[c1 ss1] s21] ch1] & A1 & A2 & A3 & A4).
  apply run_open in H3 as (ps3 & i3 & [[[c3 ss3] s23] ch3] & B1 & B2 & B3 & B4).
  apply run_open in H2 as (ps2 & i2 & [[[c2 ss2] s22] ch2] & D1 & D2 & D3 & D4).
  destruct (run_options_twin b (with_opts m o1) (with_opts m o3) (so_opts _ _ SO)) as (RO & RN1 & RN3 & RR).
  assert (Hps : ps1 = ps3).
  { cbn [with_opts m_results m_params m_opts] in *. destruct b.
    - destruct A1 as (r1 & R1 & _ & A1). destruct B1 as (r3 & R3 & _ & B1). congruence.
    - rewrite RR in A1. destruct (o_restart o3); congruence. }
  subst ps3. cbn [with_opts m_data m_model m_RDR m_pos m_calls m_opts m_index m_params m_results m_status m_fs m_trace] in *.
  destruct (init_twin E _ _ _ _ _ _ _ _ _ _ RO A2 B2) as (I1 & I2 & I3 & I4 & I5 & I6 & I7 & I8 & I9 & I10).
  rewrite RN1 in I2. rewrite RN3 in I3.
  assert (Hu13 : o_updatesigma (i_opts i1) = o_updatesigma (i_opts i3)).
  { unfold sampling_of in I1. injection I1. intros. assumption. }
  destruct (arrays_twin b _ _ i1 i3 _ _ _ _ _ _ _ _ SO Hu13 I5 I7 I8 I4 HLb A3 B3) as (C1 & C2 & C3 & C4 & C5).
  cbv zeta in C1, C2, C3. cbn [with_opts m_index] in C1, C2, C3.
  set (idx := if b then m_index m else 0) in *.
  unfold run_prepared in A4, B4, D4. peel A4. peel B4. peel D4.
  rename a into t1, a0 into t3, a1 into t2, E0 into X1, E1 into X3, E2 into X2.
  set (K1 := make_const i1 ch1) in *. set (K3 := make_const i3 ch3) in *. set (K2 := make_const i2 ch2) in *.
  assert (SC13 : same_const K1 K3).
  { split; cbn [K1 K3 make_const k_view k_nsos k_N0 k_N k_alias k_opts]; rewrite ?I5, ?I4, ?I8; auto. }
  (* what the first run leaves behind *)
  pose proof (init_facts E _ _ _ _ _ _ _ _ A2) as HI1. cbv zeta in HI1.
  destruct HI1 as (J1 & J2 & J3 & J4 & J5 & J6 & J7 & J8 & J9 & J10 & J11).
  pose proof (init_facts E _ _ _ _ _ _ _ _ D2) as HI2. cbv zeta in HI2.
  destruct HI2 as (L1 & L2 & L3 & L4 & L5 & L6 & L7 & L8 & L9 & L10 & L11).
  assert (HV1 : k_view K1 = opview ps1) by (cbn [K1 make_const k_view]; rewrite J1; reflexivity).
  assert (HV2 : k_view K2 = opview ps2) by (cbn [K2 make_const k_view]; rewrite L1; reflexivity).
  destruct (execute_facts E (map (@a_theta0 F) ps1) K1 (start_state i1 idx c1 ss1 s21 (m_fs m)) t1 ltac:(rewrite HV1; apply opview_ok) eq_refl
     ltac:(rewrite HV1; exact J6) ltac:(rewrite HV1; exact J7) X1) as (N1 & RC & T1).
  apply (f_equal (fun x => match x with Ok y => y | Err _ => m end)) in A4.
  apply (f_equal (fun x => match x with Ok y => y | Err _ => m end)) in B4.
  apply (f_equal (fun x => match x with Ok y => y | Err _ => m end)) in D4.
  assert (P1 : m_params m1 = ps1) by (rewrite <- A4; reflexivity).
  assert (O1 : m_opts m1 = i_opts i1) by (rewrite <- A4; reflexivity).
  assert (R1 : m_RDR m1 = c_RDR (r_cov t1)) by (rewrite <- A4; reflexivity).
  assert (CH1 : m_chain m1 = r_chain t1 /\ m_sschain m1 = r_ss t1 /\ m_s2chain m1 = r_s2 t1 /\ m_index m1 = r_index t1 /\
     m_pos m1 = io_pos (r_io t1) /\ m_status m1 = true /\ m_trace m1 = r_trace t1 ++ m_trace m) by (rewrite <- A4; repeat split).
  destruct CH1 as (Q1 & Q2 & Q3 & Q4 & Q5 & Q6 & Q7).
  assert (MO1 : m_model m1 = mkms (Some (r_sigma2 t1)) (ms_N (i_model i1)) (ms_N0 (i_model i1)) (r_S20 t1) (ms_nbatch (i_model i1)) (ms_alias (i_model i1)))
    by (rewrite <- A4; reflexivity).
  (* the parameters of the continuation *)
  destruct D1 as (r & Dr & _ & D1). rewrite P1 in D1.
  assert (SD : same_decls ps1 ps2) by (eapply results_to_params_same; eauto).
  assert (PM : map (@prior_mean F NF) ps2 = map (@prior_mean F NF) ps1).
  { eapply restart_means; [| |exact D1].
    - intros p Hp. apply Hnan1. congruence.
    - intros v Hv. eapply Hnan2; eauto. }
  assert (VV : opview ps2 = opview ps1) by (apply same_decls_view; auto).
  destruct (mi_results _ _ _ M1 Q6) as (r' & row & Y1 & Y2 & Y3 & Y4 & Y5 & _). assert (r' = r) by congruence. subst r'.
  assert (Hrow : row = p_theta (r_old t1)).
  { rewrite Q1, Q4 in Y2. rewrite (rc_last _ _ _ _ _ RC) in Y2; [congruence|]. intros C. rewrite C in T1. cbn [List.length] in T1. lia. }
  assert (Hth : map (@a_theta0 F) (sampled_params ps2) = p_theta (r_old t1)).
  { rewrite <- Hrow. eapply (restart_from_row ps0 ps1 ps2 row (restart_of r)); auto.
    - rewrite <- P1. exact (mi_decl _ _ _ M1).
    - apply inside_length. apply (mi_rows _ _ _ M1). eapply nth_error_In; eauto. }
  (* model settings of the continuation *)
  pose proof (init_model E _ _ _ _ _ _ _ _ D2) as (ms2 & Z1 & Z2 & Z3 & Z4).
  rewrite Hdep in Z1. apply Ok_inj in Z1. subst ms2. rewrite Z3, Hlen, Hwrt in Z2. apply Ok_inj in Z2.
  pose proof (init_model E _ _ _ _ _ _ _ _ A2) as (ms3 & Z5 & Z6 & Z7 & Z8).
  assert (ZN : i_nsos i1 = i_nsos i2) by (rewrite Z3, Z7, !Hlen; reflexivity).
  assert (Hsg : p_sigma2 (i_set i2) = r_sigma2 t1).
  { revert D2. unfold initialize_simulation. rewrite Hdep. cbn [bind]. intros D2. peel D2. peel D2. peel D2.
    destruct (evaluate_sos_function _ _ _ _). peel D2. apply Ok_inj in D2. rewrite <- D2. cbn [i_set p_sigma2].
    rewrite MO1 in Hdep. unfold check_dependent_model_settings in Hdep. cbn [ms_N0 ms_sigma2 ms_N ms_S20 ms_nbatch ms_alias] in Hdep.
    unfold check_wrt_nsos in Z6. peel Z6. peel Z6. peel Z6. peel Z6. apply Ok_inj in Z6. rewrite <- Z6 in Hdep. cbn [ms_N0 ms_N] in Hdep.
    peel Hdep. destruct (existsb nisnan (r_S20 t1)); apply Ok_inj in Hdep; rewrite <- Hdep; reflexivity. }
  (* options *)
  assert (Ho : sampling_of (i_opts i1) = sampling_of (i_opts i2)).
  { change (run_options true (with_opts m1 o2)) with o2 in Z4. rewrite Z4. rewrite <- O1. destruct (opts_again o2 (match ms_N0 (m_model m1) with Some _ => true | None => false end)) as [G|G].
    - rewrite G. symmetry. exact Ho2.
    - rewrite G. unfold sampling_of in Ho2 |- *. injection Ho2 as G1 G2 G3 G4 G5 G6 G7 G8 G9 G10 G11 G12 G13 G14 G15 G16.
      cbn [check_dependent_simulation_options o_method o_adaptint o_ntry o_doram o_adascale o_burnintime o_qcov o_initqcovn
           o_updatesigma o_qcov_adjust o_burnin_scale o_alphatarget o_etaparam o_drscale o_RDR o_restart].
      rewrite G1, G2, G3, G4, G5, G6, G7, G8, G10, G11, G12, G13, G14, G15, G16, Hu. reflexivity. }
  assert (SC : same_const K3 K2).
  { destruct SC13 as [W1 W2 W3 W4 W5 W6]. split.
    - rewrite <- W1, HV1, HV2. auto.
    - rewrite <- W2. exact ZN.
    - rewrite <- W3. cbn [K1 K2 make_const k_N0]. rewrite <- Z2, MO1. reflexivity.
    - rewrite <- W4. cbn [K1 K2 make_const k_N]. rewrite <- Z2, MO1. reflexivity.
    - rewrite <- W5. cbn [K1 K2 make_const k_alias]. rewrite <- Z2, MO1. reflexivity.
    - rewrite <- W6. exact Ho. }
  (* the whole run, cut where the first run ends *)
  destruct (execute_iterate E _ _ _ X1) as (u1 & U1 & _ & Q8). destruct (execute_iterate E _ _ _ X3) as (u3 & U3 & N3 & Q9).
  destruct (execute_iterate E _ _ _ X2) as (u2 & U2 & N2 & Q10).
  assert (n1 : o_nsimu (k_opts K1) = o_nsimu o1) by exact I2. assert (n3 : o_nsimu (k_opts K3) = o_nsimu o3) by exact I3.
  assert (n2 : o_nsimu (k_opts K2) = o_nsimu o2) by (cbn [K2 make_const k_opts]; rewrite L2; reflexivity).
  rewrite n1 in *. rewrite n2 in *. rewrite n3 in *.
  replace (o_nsimu o3 - 1) with ((o_nsimu o1 - 1) + (o_nsimu o2 - 1)) in U3 by lia. rewrite seq_app, iterate_app in U3.
  destruct (iterate E K3 (seq 1 (o_nsimu o1 - 1)) _) as [mid|] eqn:Um in U3; [|discriminate]. cbn [bind] in U3.
  assert (TW : twin (start_state i1 idx c1 ss1 s21 (m_fs m)) (start_state i3 idx c3 ss3 s23 (m_fs m))).
  { split; cbn [start_state r_index r_iiadapt r_old r_rej r_rejin r_rejout r_chain r_ss r_s2 r_cov r_sigma2 r_S20 r_iacce r_io r_trace];
      rewrite ?I4, ?I6, ?I7, ?I9, ?I10; auto. }
  destruct (iterate_twin E K1 K3 SC13 _ _ _ _ _ TW C4 C5 U1 Um) as (TM & NS1 & NS3).
  rewrite O1 in Hno, Hu, Hq.
  destruct (iterate_fixed K1 _ Hno Hu _ _ U1) as (FX1 & FX2).
  assert (QQ : r_chain t1 = r_chain u1 /\ r_ss t1 = r_ss u1 /\ r_s2 t1 = r_s2 u1 /\ r_old t1 = r_old u1 /\ r_cov t1 = r_cov u1 /\
     r_io t1 = r_io u1 /\ r_index t1 = r_index u1 /\ r_sigma2 t1 = r_sigma2 u1 /\ r_S20 t1 = r_S20 u1 /\ r_trace t1 = r_trace u1).
  { rewrite Q8. repeat split. }
  destruct QQ as (q1 & q2 & q3 & q4 & q5 & q6 & q7 & q8 & q9 & q10).
  destruct (mi_len _ _ _ M1 Q6) as (G1 & G2 & G3).
  assert (EC : c2 = m_chain m1 ++ zeros (o_nsimu o2 - 1) (List.length (op_parind (i_op i2))) /\
     ss2 = m_sschain m1 ++ zeros (o_nsimu o2 - 1) (i_nsos i2) /\
     exists old, m_s2chain m1 = Some old /\ s22 = Some (old ++ zeros (o_nsimu o2 - 1) (i_nsos i2))).
  { apply expand_chains_facts in D3. cbv zeta in D3. cbn [with_opts m_chain m_sschain m_s2chain] in D3.
    replace (o_updatesigma (i_opts i2)) with true in D3.
    2: { unfold sampling_of in Ho. injection Ho. intros. congruence. }
    change (o_nsimu (i_opts i2)) with (o_nsimu (k_opts K2)) in D3. rewrite n2 in D3. tauto. }
  destruct EC as (EC1 & EC2 & old & EC3 & EC4).
  assert (CV : c_R (i_cov i1) = c_R (i_cov i2) /\ c_RDR (i_cov i1) = c_RDR (i_cov i2) /\ c_invR (i_cov i1) = c_invR (i_cov i2)).
  { apply init_cov in A2 as (qa & va & tha & K1a & A2). apply init_cov in D2 as (qb & vb & thb & K1b & D2).
    assert (Hqq : qa = qb).
    { rewrite K1a, K1b. assert (Hqo : o_qcov (i_opts i1) = o_qcov (i_opts i2)) by (unfold sampling_of in Ho; injection Ho; intros; assumption).
      rewrite <- Hqo. destruct (o_qcov (i_opts i1)); [reflexivity|congruence]. }
    assert (Hpi : op_parind (i_op i1) = op_parind (i_op i2)).
    { rewrite J1, L1. unfold check_prior_sigma. cbn [op_parind]. rewrite !op_parind_open. now destruct (same_decls_maps _ _ SD) as (-> & _). }
    unfold sampling_of in Ho. injection Ho as h1 h2 h3 h4 h5 h6 h7 h8 h9 h10 h11 h12 h13 h14 h15 h16.
    rewrite <- h1, <- h3, <- h5, <- h8, <- h14, <- h15, <- Hqq, <- Hpi, R1, q5, FX1 in D2.
    eapply cov_same; eauto. }
  assert (HC : cont (map (@a_theta0 F) ps1) (opview ps1) (map (@brief F) (r_trace mid)) mid (start_state i2 (m_index m1) c2 ss2 s22 (m_fs m1))).
  { rewrite Q4, q7 in G1, G2, G3. rewrite Q1, q1 in EC1. rewrite Q2, q2 in EC2. rewrite Q3, q3 in EC3. rewrite Q3, q3 in G3. rewrite Q1, q1 in G1. rewrite Q2, q2 in G2.
    split; cbn [start_state r_index r_old r_chain r_ss r_s2 r_cov r_sigma2 r_S20 r_io r_trace]; rewrite <- ?(tw_index _ _ TM).
    - congruence.
    - rewrite <- (tw_old _ _ TM), <- q4. pose proof (rc_good _ _ _ _ _ RC) as (_ & _ & g1 & g2). rewrite HV1 in g1, g2.
      destruct L6 as (_ & _ & g3 & g4). rewrite L4, Hth, VV in g3, g4. repeat split.
      + now rewrite L4, Hth.
      + rewrite g1, g3. f_equal. destruct (opview_facts ps1) as (-> & _). rewrite scatter_fill.
        destruct (same_decls_maps _ _ SD) as (-> & _). rewrite scatter_fill. apply same_decls_fill; auto.
        rewrite <- Hth, map_length. symmetry. now apply same_decls_sampled.
      + congruence.
      + rewrite Hsg, q4, q8. apply FX2. destruct (o_nsimu o1 - 1) eqn:En; [lia|discriminate].
    - rewrite EC1. apply upto_grown; auto. apply (tw_chain _ _ TM).
    - rewrite EC2. apply upto_grown; auto. apply (tw_ss _ _ TM).
    - rewrite EC4. pose proof (tw_s2 _ _ TM) as T. rewrite EC3 in T. destruct (r_s2 mid); cbn [upto_opt] in *; [|tauto].
      apply upto_grown; auto.
    - rewrite <- (tw_cov _ _ TM), FX1. exact (proj1 CV).
    - rewrite <- (tw_cov _ _ TM), FX1. exact (proj1 (proj2 CV)).
    - rewrite <- (tw_cov _ _ TM), FX1. exact (proj2 (proj2 CV)).
    - rewrite <- Z2, MO1. cbn [ms_sigma2 lst]. rewrite <- (tw_sigma2 _ _ TM). auto.
    - rewrite <- Z2, MO1. cbn [ms_S20 lst]. rewrite <- (tw_S20 _ _ TM). auto.
    - rewrite <- (tw_io _ _ TM), <- q6. split; [congruence|]. split.
      + rewrite <- HV1. exact (rc_value _ _ _ _ _ RC).
      + rewrite <- VV. apply (value_ok_decls ps1 ps2); auto. rewrite VV. apply opview_facts.
    - reflexivity. }
  assert (NS2 : no_s2 K2 (start_state i2 (m_index m1) c2 ss2 s22 (m_fs m1))).
  { intros C. exfalso. change (o_updatesigma (k_opts K2)) with (o_updatesigma (i_opts i2)) in C. unfold sampling_of in Ho. injection Ho. intros. congruence. }
  assert (HK3 : k_view K3 = opview ps1) by (rewrite <- (sc_view _ _ SC13); exact HV1).
  assert (Hno3 : (o_adaptint (k_opts K3) <= 0)%Z) by (rewrite <- (opts_adaptint _ _ SC13); exact Hno).
  pose proof (iterate_cont E _ _ (opview_ok ps1) K3 K2 SC HK3 Hno3 _ _ _ _ _ _ _ ltac:(rewrite !seq_length; reflexivity) HC NS3 NS2 U3 U2) as CT.
  destruct CT as [Y6 Y7 Y8 Y9 Y10 Y11 Y12 Y13 Y14 Y15 (Y16 & _) Y17].
  assert (K3c : m_chain m3 = r_chain u3 /\ m_sschain m3 = r_ss u3 /\ m_s2chain m3 = r_s2 u3 /\ m_index m3 = r_index u3 /\
     m_pos m3 = io_pos (r_io u3) /\ m_status m3 = true /\ m_trace m3 = r_trace u3 ++ m_trace m /\
     ms_sigma2 (m_model m3) = Some (r_sigma2 u3) /\ ms_S20 (m_model m3) = r_S20 u3) by (rewrite <- B4, Q9; repeat split).
  assert (K2c : m_chain m2 = r_chain u2 /\ m_sschain m2 = r_ss u2 /\ m_s2chain m2 = r_s2 u2 /\ m_index m2 = r_index u2 /\
     m_pos m2 = io_pos (r_io u2) /\ m_status m2 = true /\ m_trace m2 = r_trace u2 ++ m_trace m1 /\
     ms_sigma2 (m_model m2) = Some (r_sigma2 u2) /\ ms_S20 (m_model m2) = r_S20 u2) by (rewrite <- D4, Q10; repeat split).
  destruct K3c as (a1 & a2 & a3 & a4 & a5 & a6 & a7 & a8 & a9). destruct K2c as (b1 & b2 & b3 & b4 & b5 & b6 & b7 & b8 & b9).
  destruct (mi_len _ _ _ M3 a6) as (l1 & l2 & l3). destruct (mi_len _ _ _ M2 b6) as (l4 & l5 & l6).
  rewrite <- a4 in Y8, Y9, Y10. assert (Hix : m_index m3 = m_index m2) by congruence.
  split; [apply (upto_both _ _ _ l1); [congruence|]; congruence|].
  split; [apply (upto_both _ _ _ l2); [congruence|]; congruence|].
  split.
  { rewrite <- a3, <- b3 in Y10. destruct (m_s2chain m3) as [x|], (m_s2chain m2) as [y|]; cbn [upto_opt] in Y10; try tauto.
    f_equal. apply (upto_both (S (m_index m3))); auto. rewrite Hix. auto. }
  split; [congruence|]. split; [congruence|]. split; [congruence|].
  rewrite a7, b7, Q7, !map_app, Y17, q10, <- app_assoc. f_equal. f_equal.
  assert (HB : forall l : list (event F), map (@brief F) l =
    map (fun x : covst F * nat * nat * bool => (snd (fst (fst x)), snd (fst x), snd x)) (map (@what_happened F) l))
    by (intros; rewrite map_map; reflexivity).
  rewrite !HB. now rewrite (tw_trace _ _ TM).
Qed.
End Split.
