(** Whole runs and their continuations work with numbers only: proofs for C92. *)

From Coq Require Import ZArith QArith Bool Lia List Reals Lra.
From Verif Require Import Base Num Samplers Adapt Settings Simulator RunSpec CompleteSpec BalanceSpec NumberSpec.
From Verif Require Import SamplerFacts RVec BalanceFacts StatsFacts RunFacts RunLift NaNRun SessionFacts ResumeFacts SettingsFacts SettingsProps TwinFacts ContFacts SplitFacts.
From Verif Require Import NumberFacts NumberRun.
Import ListNotations.
Close Scope Q_scope.
Open Scope list_scope.
Open Scope R_scope.

Section Session.
Variable E : env XR.
Hypothesis HE : decent E.

(** ** Model settings *)

Lemma nnat_positive k : (0 < k)%nat -> positive (@nnat XR _ k).
Proof.
  intros H. exists (Q2R (inject_Z (Z.of_nat k))). split; [reflexivity|].
  rewrite <- RMicromega.Q2R_0. apply Qreals.Qlt_Rlt. unfold Qlt. simpl. lia.
Qed.

Lemma neq_fin (a b : XR) : neq a b = true -> positive a -> b = a.
Proof.
  intros H (v & -> & _). destruct b as [w| | |]; try discriminate. cbn in H. unfold Reqb in H. destruct (Req_EM_T v w); [congruence|discriminate].
Qed.

Lemma counts_ok udN dsN N : Forall positive dsN -> check_number_of_observations udN dsN = Ok N -> Forall positive N.
Proof.
  intros HD H. unfold check_number_of_observations in H. destruct (array_equal _ _); [inv H; auto|].
  destruct (_ && _)%bool; [destruct (forallb _ _); inv H; auto|].
  destruct (_ && _)%bool eqn:Hc; [|discriminate]. apply andb_true_iff in Hc as [_ Hc]. apply Nat.eqb_eq in Hc.
  destruct dsN as [|a [|b dsN]]; try discriminate. cbn [nth] in H. inv HD.
  destruct (forallb _ udN) eqn:Hf; [|discriminate]. inv H. apply Forall_forall. intros x Hx. rewrite forallb_forall in Hf.
  rewrite (neq_fin _ _ (Hf x Hx)); auto.
Qed.

Record model_ok (ms : modset XR) (est : Prop) : Prop := mkmok {
  mo_sigma2 : exists s, ms_sigma2 ms = Some s /\ Forall positive s;
  mo_S20 : Forall positive (ms_S20 ms);
  mo_N0 : exists s, ms_N0 ms = Some s /\ Forall not_negative s /\ (est -> Forall positive s \/ forall v x, In x (e_sos E v) -> bad x \/ positive x);
  mo_N : exists s, ms_N ms = Some s /\ (est -> Forall positive s)
}.

Lemma ones_positive n : Forall positive (repeat (@n1 XR _) n).
Proof. apply Forall_repeat. exists 1. rewrite XR_n1. split; auto. lra. Qed.

Lemma dependent_ok d ms ms1 est : usable_model E d ms est -> check_dependent_model_settings ms d = Ok ms1 -> model_ok ms1 est.
Proof.
  intros [U1 U2 U3 U4] H. unfold check_dependent_model_settings in H. cbv zeta in H. peel H.
  assert (HN : est -> Forall positive a).
  { intros He. destruct (U4 He) as [HD _].
    assert (HD' : Forall positive (map (@nnat XR _) (dt_n d))). { eapply Forall_mapP; [|exact HD]. intros k. apply nnat_positive. }
    destruct (ms_N ms); [eapply counts_ok; eauto|]. inv E0. auto. }
  assert (G : forall sg n0v, Forall positive sg -> Forall not_negative n0v -> (est -> Forall positive n0v \/ forall v x, In x (e_sos E v) -> bad x \/ positive x) ->
    (let '(S20, alias) := if existsb nisnan (ms_S20 ms) then (sg, true) else (ms_S20 ms, ms_alias ms) in
     Ok (mkms (Some sg) (Some a) (Some n0v) S20 (Some (match ms_nbatch ms with Some b => b | None => get_number_of_batches d end)) alias)) = Ok ms1 -> model_ok ms1 est).
  { intros sg n0v H1 H2 H3 H4. destruct (existsb nisnan (ms_S20 ms)) eqn:Hx; inv H4; constructor; cbn [ms_sigma2 ms_S20 ms_N0 ms_N]; eauto.
    destruct U2 as [U2|U2]; auto. exfalso. assert (existsb nisnan (ms_S20 ms) = true); [|congruence]. apply existsb_exists. exists NaN. auto. }
  unfold weights_positive in U4.
  destruct (ms_N0 ms) as [n0v|] eqn:E1.
  - destruct (ms_sigma2 ms) as [sg|] eqn:E2; eapply G; try exact H; auto; try (intros He; apply U4; auto). apply ones_positive.
  - destruct (ms_sigma2 ms) as [sg|] eqn:E2; eapply G; try exact H; auto.
    + constructor; [apply not_negative_1|constructor].
    + intros _. left. apply (ones_positive 1).
    + apply (ones_positive 1).
    + constructor; [apply not_negative_0|constructor].
    + intros He. destruct (U4 He) as [_ [[]|Hs]]. auto.
Qed.

Lemma one_times (a : XR) : number a -> nmul n1 a = a.
Proof. intros [v ->]. rewrite XR_n1, XR_nmul. f_equal. lra. Qed.

Lemma size_ok (P : XR -> Prop) x n y : (forall a, P a -> number a) -> Forall P x -> check_size_of_setting x n = Ok y -> Forall P y.
Proof.
  intros HP Hx H. unfold check_size_of_setting in H. destruct x as [|a [|b x]].
  - destruct (_ <? _)%nat; [discriminate|]. destruct (_ <? _)%nat; [discriminate|]. apply Ok_inj in H. now subst.
  - apply Ok_inj in H. subst y. inv Hx. rewrite one_times by auto. now apply Forall_repeat.
  - destruct (_ <? _)%nat; [discriminate|]. destruct (_ <? _)%nat; [discriminate|]. apply Ok_inj in H. now subst.
Qed.

Lemma size_length (x : list XR) n y : check_size_of_setting x n = Ok y -> length y = n.
Proof.
  unfold check_size_of_setting. destruct x as [|a [|b x]]; intros H.
  - destruct (Nat.ltb_spec n (length (@nil XR))); [discriminate|]. destruct (Nat.ltb_spec (length (@nil XR)) n); [discriminate|].
    apply Ok_inj in H. subst y. lia.
  - apply Ok_inj in H. subst y. apply repeat_length.
  - destruct (Nat.ltb_spec n (length (a :: b :: x))); [discriminate|]. destruct (Nat.ltb_spec (length (a :: b :: x)) n); [discriminate|].
    apply Ok_inj in H. subst y. lia.
Qed.

Lemma observations_ok x n y : Forall positive x -> check_size_of_observations x n = Ok y -> Forall positive y.
Proof.
  intros Hx H. unfold check_size_of_observations in H. destruct x as [|a [|b x]].
  - destruct (_ && _)%bool; [discriminate|]. destruct (_ && _)%bool eqn:Hb; apply Ok_inj in H; subst y; auto.
    apply andb_true_iff in Hb as [_ Hb]. discriminate.
  - apply Ok_inj in H. subst y. inv Hx. rewrite one_times by (now apply positive_number). now apply Forall_repeat.
  - destruct (_ && _)%bool; [discriminate|]. destruct (_ && _)%bool eqn:Hb; apply Ok_inj in H; subst y; auto.
    constructor; [|constructor]. apply positive_vsum; auto. discriminate.
Qed.

Lemma wrt_ok ms1 n ms2 est : model_ok ms1 est -> check_wrt_nsos ms1 n = Ok ms2 -> model_ok ms2 est /\ length (lst (ms_sigma2 ms2)) = n.
Proof.
  intros [(sg & A1 & A2) B (n0v & C1 & C2 & C3) (N & D1 & D2)] H. unfold check_wrt_nsos in H. rewrite A1, C1, D1 in H.
  peel H. peel H. peel H. peel H. apply Ok_inj in H. subst ms2.
  split; [|cbn [ms_sigma2 lst]; now apply size_length in E2].
  constructor; cbn [ms_sigma2 ms_S20 ms_N0 ms_N].
  - eexists. split; [reflexivity|]. eapply size_ok; [|exact A2|exact E2]. apply positive_number.
  - eapply size_ok; [|exact B|exact E0]. apply positive_number.
  - eexists. split; [reflexivity|]. split; [eapply size_ok; [|exact C2|exact E1]; apply not_negative_number|].
    intros He. destruct (C3 He) as [G|G]; [left|right; exact G]. eapply size_ok; [|exact G|exact E1]. apply positive_number.
  - eexists. split; [reflexivity|]. intros He. eapply observations_ok; [|exact E3]. auto.
Qed.

(** ** Initialisation *)

(** The point a run starts from. *)
Record start_ok (ps : list (param XR)) : Prop := mksok {
  so_sampled : sampled_params ps <> [];
  so_values : Forall number (map (@a_theta0 XR) ps);
  so_sos : Forall number (e_sos E (map (@a_theta0 XR) ps));
  so_prior : number (e_prior E (map (@a_theta0 XR) (sampled_params ps)) (v_mu (opview ps)) (v_sigma (opview ps)))
}.

Lemma sampled_numbers ps : Forall number (map (@a_theta0 XR) ps) -> Forall number (map (@a_theta0 XR) (sampled_params ps)).
Proof.
  unfold sampled_params. induction ps as [|p ps IH]; cbn [map filter]; intros H; auto. inv H. destruct (a_sample p); cbn [map]; auto.
Qed.

Lemma init_ok ps d ms o rdr pos calls ini :
  start_ok ps -> usable_model E d ms (o_updatesigma (i_opts ini) = true) -> usable_options o -> rdr_ok rdr ->
  initialize_simulation E ps d ms o rdr pos calls = Ok ini ->
  set_ok (i_set ini) /\ (exists v, p_ss (i_set ini) = e_sos E v) /\ cov_ok (i_cov ini) /\ model_ok (i_model ini) (o_updatesigma (i_opts ini) = true) /\
  lst (ms_sigma2 (i_model ini)) <> [] /\ (forall chains, const_ok E (make_const ini chains)).
Proof.
  intros [S1 S2 S3 S4] HM [O1 O2 O3 O4 O5 O6 O7 O8] HR H.
  pose proof (init_model E _ _ _ _ _ _ _ _ H) as (ms1 & M1 & M2 & M3 & M4).
  pose proof (init_facts E _ _ _ _ _ _ _ _ H) as HF. cbv zeta in HF. destruct HF as (F1 & F2 & F3 & F4 & F5 & F6 & F7 & F8 & F9 & F10 & F11).
  pose proof (dependent_ok _ _ _ _ HM M1) as D1. destruct (wrt_ok _ _ _ _ D1 M2) as [D2 D3].
  assert (Hss : p_ss (i_set ini) = e_sos E (map (@a_theta0 XR) ps)).
  { destruct F6 as (_ & _ & G & _). rewrite F4 in G. destruct (opview_facts ps) as (P1 & _). rewrite P1, scatter_fill, fill_own in G. exact G. }
  assert (Hpr : p_prior (i_set ini) = e_prior E (map (@a_theta0 XR) (sampled_params ps)) (v_mu (opview ps)) (v_sigma (opview ps))).
  { destruct F6 as (_ & _ & _ & G). rewrite F4 in G. exact G. }
  assert (Hn : i_nsos ini <> 0%nat).
  { rewrite M3. destruct (de_sos _ HE (map (@a_theta0 XR) ps)) as [G _]. destruct (e_sos E _); [congruence|discriminate]. }
  assert (Hsg : p_sigma2 (i_set ini) = lst (ms_sigma2 ms1) /\ cov_ok (i_cov ini)).
  { unfold initialize_simulation in H. rewrite M1 in H. cbn [bind] in H. peel H. peel H. peel H.
    destruct (evaluate_sos_function _ _ _ _) as [ss s1]. peel H. apply Ok_inj in H. rewrite <- H. cbn [i_set p_sigma2 i_cov].
    split; [destruct (ms_sigma2 ms1); reflexivity|].
    eapply initial_cov_ok; [exact (de_chol _ HE)| | | | | | | | | |exact E2]; auto.
    - apply Nat.neq_0_lt_0. intros HL. apply S1. cbn [check_prior_sigma op_parind] in HL. rewrite op_parind_open, parind_length in HL.
      destruct (sampled_params ps); [auto|discriminate].
    - cbn [check_prior_sigma op_initial op_parind]. rewrite op_parind_open. 
      change (op_initial (openparameterstructure ps)) with (map (@a_theta0 XR) ps). rewrite sel_filter. now apply sampled_numbers. }
  destruct Hsg as [Hsg Hcov]. 
  assert (Hne : lst (ms_sigma2 (i_model ini)) <> []) by (intros C; rewrite C in D3; cbn in D3; congruence).
  destruct D1 as [(sg & G1 & G2) _ _ _].
  split; [|split; [|split; [|split; [|split]]]]; auto.
  - split; [|split; [|split; [|split]]].
    + rewrite F4. now apply sampled_numbers.
    + rewrite Hss. apply Forall_forall. intros x Hx. destruct (de_sos _ HE (map (@a_theta0 XR) ps)) as [_ Hv].
      destruct (Hv x Hx) as [Hb|]; auto. rewrite Forall_forall in S3. destruct (S3 x Hx) as [y ->]. destruct Hb; discriminate.
    + rewrite Hpr. exact S4.
    + rewrite Hsg, G1. exact G2.
    + rewrite Hsg. intros C. apply Hn. unfold check_wrt_nsos in M2. rewrite G1 in *. cbn [lst] in C. subst sg. peel M2. peel M2. peel M2.
      pose proof (size_length _ _ _ E2) as HL. unfold check_size_of_setting in E2. destruct (_ <? _)%nat; [discriminate|]. destruct (_ <? _)%nat; [discriminate|].
      apply Ok_inj in E2. rewrite <- E2 in HL. symmetry. exact HL.
  - exists (map (@a_theta0 XR) ps). exact Hss.
  - intros chains. destruct D2 as [_ _ (n0v & N1 & N2 & N3) (N & N4 & N5)].
    constructor; cbn [make_const k_opts k_N0 k_N]; try (rewrite M4; assumption).
    rewrite N1, N4. cbn [lst]. auto.
Qed.

(** ** One run *)

Record left_ok (m : mcmc XR) : Prop := mklok {
  lk_numbers : only_numbers m;
  lk_RDR : rdr_ok (m_RDR m);
  lk_model : model_ok (m_model m) (m_s2chain m <> None);
  lk_last : exists theta, nth_error (m_chain m) (m_index m) = Some theta /\
    Forall number (e_sos E (fill (m_params m) theta)) /\ number (e_prior E theta (v_mu (opview (m_params m))) (v_sigma (opview (m_params m))));
  lk_values : sampled_params (m_params m) <> [] /\ Forall number (map (@a_theta0 XR) (m_params m))
}.

Lemma firstn_exact {A} (l : list A) n : length l = n -> firstn n l = l.
Proof. intros <-. apply firstn_all. Qed.

Lemma run_ok b m m' : run_simulation E b m = Ok m' ->
  start_ok (m_params m') -> usable_model E (m_data m) (m_model m) (o_updatesigma (m_opts m') = true) -> usable_options (run_options b m) -> rdr_ok (m_RDR m) ->
  (b = true -> only_numbers m /\ forall s2, m_s2chain m = Some s2 -> length s2 = S (m_index m)) -> left_ok m'.
Proof.
  intros H HS HM HO HR HB. pose proof (run_open E _ _ _ H) as (psx & inix & arrays & Z1 & Z2 & Z3 & Z4). apply run_facts in H as (ps & ini & st0 & st & ms & chains & H). cbv zeta in H.
  destruct H as (D & (o & I0 & On & Ot & Oo) & Hprev & Harr & Hst0 & HX & HK & RC & N2 & NK & NL &
                 P1 & P2 & P3 & P4 & P5 & P6 & P7 & P8 & P9 & P10 & P11 & P12 & P13 & P14 & P15).
  rewrite P1 in HS. rewrite P13 in HM. subst o.
  pose proof (init_facts E _ _ _ _ _ _ _ _ I0) as (J1 & J2 & J3 & J4 & J5 & J6 & J7 & J8 & J9 & J10 & J11).
  pose proof (init_ok _ _ _ _ _ _ _ _ HS HM HO HR I0) as (Q1 & Q2 & Q3 & Q4 & Q5 & Q6).
  set (K := make_const ini chains) in *. specialize (Q6 chains). fold K in Q6.
  set (idx := if b then m_index m else 0%nat) in *.
  assert (HU : o_updatesigma (k_opts K) = o_updatesigma (i_opts ini)) by reflexivity.
  assert (HA : every number (r_chain st0) /\ every not_negative (r_ss st0) /\
    (o_updatesigma (i_opts ini) = true -> s2_ok (r_s2 st0) (S idx)) /\
    (o_updatesigma (i_opts ini) = false -> r_s2 st0 = None) /\
    (forall l, r_s2 st0 = Some l -> length l = (idx + o_nsimu (i_opts ini))%nat)).
  { destruct b.
    - destruct (HB eq_refl) as [[B1 B2 B3 B4 B5] B6]. apply expand_chains_facts in Harr. cbv zeta in Harr. destruct Harr as (A1 & A2 & A3 & A4).
      split; [rewrite A1; apply Forall_app; split; [auto|apply every_zeros, number_0]|].
      split; [rewrite A2; apply Forall_app; split; [auto|apply every_zeros, not_negative_0]|].
      destruct (o_updatesigma (i_opts ini)).
      + destruct A3 as (old & A3 & A5). rewrite A5. split; [|split; [discriminate|]].
        * intros _ l Hl. injection Hl as <-. rewrite firstn_app. rewrite (B6 _ A3). unfold idx.
          rewrite Nat.sub_diag. rewrite firstn_exact by auto. cbn [firstn]. rewrite app_nil_r. apply B3, A3.
        * intros l Hl. injection Hl as <-. rewrite app_length, (B6 _ A3). unfold zeros. rewrite repeat_length. unfold idx. rewrite J2. rewrite On. lia.
      + rewrite A3. split; [discriminate|]. split; [auto|discriminate].
    - unfold initialize_chains in Harr. peel Harr. peel Harr. peel Harr. peel Harr.
      apply write_ok in E1 as [_ E1]. apply write_ok in E3 as [_ E3].
      destruct Q1 as (T1 & T2 & _).
      assert (G1 : every number a0). { rewrite E1. apply Forall_set_nth; [apply every_zeros, number_0|eapply fit_row_ok; eauto]. }
      assert (G2 : every not_negative a2). { rewrite E3. apply Forall_set_nth; [apply every_zeros, not_negative_0|eapply fit_row_ok; eauto]. }
      destruct (o_updatesigma (i_opts ini)).
      + peel Harr. peel Harr. apply Ok_inj in Harr. apply write_ok in E5 as [_ E5].
        injection Harr as X1 X2 X3 _. rewrite <- X1, <- X2, <- X3. split; [auto|]. split; [auto|]. split; [|split; [discriminate|]].
        * intros _ l Hl. injection Hl as <-. rewrite E5. unfold idx. apply (firstn_set_nth (Forall positive) 0); [constructor|].
          eapply fit_row_ok; [exact E4|]. destruct Q4 as [(sg & S1 & S2) _ _ _]. rewrite S1. exact S2.
        * intros l Hl. injection Hl as <-. rewrite E5, set_nth_length. unfold zeros. rewrite repeat_length. reflexivity.
      + apply Ok_inj in Harr.
        injection Harr as X1 X2 X3 _. rewrite <- X1, <- X2, <- X3. split; [auto|]. split; [auto|]. split; [discriminate|]. split; [auto|discriminate]. }
  destruct HA as (A1 & A2 & A3 & A4 & A5).
  assert (HI0 : num_inv E K st0).
  { constructor; try assumption; try (rewrite Hst0; cbn [start_state r_old r_cov r_sigma2 r_S20]; assumption).
    - rewrite Hst0. cbn [start_state r_sigma2]. split; auto. destruct Q4 as [(sg & S1 & S2) _ _ _]. rewrite S1. exact S2.
    - rewrite Hst0. cbn [start_state r_S20]. destruct Q4. auto. }
  assert (HI : num_inv E K st).
  { unfold execute in HX. peel HX. destruct (_ <=? 1)%nat in HX; [discriminate|]. peel HX. peel HX. apply Ok_inj in HX.
    assert (HI : num_inv E K a).
    { eapply (iterate_ind E K (fun _ x => num_inv E K x)); [exact HI0| |exact E0]. intros i s1 s2 _ G1 G2. eapply num_step; eauto. }
    destruct HI as [W1 W2 W3 W4 W5 W6 W7 W8 W9]. rewrite <- HX. constructor; assumption. }
  destruct HI as [W1 W2 W3 W4 W5 W6 W7 W8 W9].
  assert (Hidx : r_index st = (idx + (o_nsimu (i_opts ini) - 1))%nat).
  { rewrite (rc_index _ _ _ _ _ RC), NL, J2, On. rewrite Hst0. reflexivity. }
  assert (Hs2 : optionally (every positive) (r_s2 st)).
  { intros l Hl. destruct (o_updatesigma (i_opts ini)) eqn:Hu.
    - rewrite HU in W6. rewrite <- (firstn_exact l (S (r_index st))); [exact (W6 eq_refl l Hl)|].
      pose proof (rc_s2len _ _ _ _ _ RC) as HL. rewrite Hl in HL. destruct (r_s2 st0) as [l0|]; [|discriminate]. cbn in HL. injection HL as HL.
      rewrite HL, (A5 _ eq_refl), Hidx. rewrite J2, On. lia.
    - rewrite HU in W7. rewrite (W7 eq_refl) in Hl. discriminate. }
  assert (Hval : Forall number (map (@a_theta0 XR) ps)) by apply HS.
  assert (Hms : model_ok ms (r_s2 st <> None)).
  { assert (Hms : ms_sigma2 ms = Some (r_sigma2 st) /\ ms_S20 ms = r_S20 st /\ ms_N0 ms = ms_N0 (i_model ini) /\ ms_N ms = ms_N (i_model ini)).
    { assert (psx = ps) as -> by (destruct b; [destruct Z1 as (r1 & Y1 & _ & Y2); destruct Hprev as (r2 & Y3 & _ & Y4); congruence|
        destruct (o_restart (m_opts m)); congruence]).
      assert (inix = ini) as -> by congruence.
      assert (HZ : arrays = (r_chain st0, r_ss st0, r_s2 st0, chains)) by (destruct b; rewrite Harr in Z3; now apply Ok_inj in Z3).
      rewrite HZ in Z4. unfold run_prepared in Z4. fold K in Z4. fold idx in Z4. rewrite <- Hst0 in Z4. rewrite HX in Z4. cbn [bind] in Z4. apply Ok_inj in Z4.
      rewrite <- P14, <- Z4. cbn [m_model ms_sigma2 ms_S20 ms_N0 ms_N]. auto. }
    destruct Hms as (M1 & M2 & M3 & M4).
    assert (He : r_s2 st <> None -> o_updatesigma (i_opts ini) = true).
    { intros Hn. destruct (o_updatesigma (i_opts ini)) eqn:Hu; [reflexivity|]. exfalso. apply Hn, W7. rewrite HU. reflexivity. }
    destruct Q4 as [_ _ (n0v & G1 & G2 & G3) (N & G4 & G5)]. constructor.
    - rewrite M1. eexists. split; [reflexivity|]. apply W8.
    - rewrite M2. exact W9.
    - rewrite M3. exists n0v. auto.
    - rewrite M4. exists N. auto. }
  constructor.
  - constructor.
    + rewrite P4. exact W4.
    + rewrite P5. exact W5.
    + rewrite P6. exact Hs2.
    + rewrite P14. destruct Hms as [(sg & M1 & M2) _ _ _]. intros l Hl. congruence.
    + eexists. split; [exact P10|]. cbn [generate_results rr_theta rr_R rr_qcov rr_cov rr_mean rr_chain rr_sschain rr_s2chain].
      destruct W1 as (T1 & _). destruct W3 as [C1 C2 C3 C4 C5 C6 C7].
      split; [|split; [exact C1|split; [|split; [exact C4|split; [exact C5|split; [auto|split; auto]]]]]].
      * apply Forall_scatter; auto. rewrite J1. exact Hval.
      * unfold proposal_cov. apply numbers_matmul; auto. now apply numbers_transpose.
  - rewrite P15. apply (ck_RDR _ W3).
  - rewrite P14, P6. exact Hms.
  - exists (p_theta (r_old st)). rewrite P4, P7, P1. split; [|].
    + apply (rc_last _ _ _ _ _ RC). intros C. rewrite C in NL. cbn in NL. lia.
    + pose proof (rc_good _ _ _ _ _ RC) as (G1 & G2 & G3 & G4). rewrite HK in G3, G4. destruct W1 as (T1 & T2 & T3 & _).
      destruct (opview_facts ps) as (V1 & _). rewrite V1, scatter_fill in G3. rewrite <- G3, <- G4. split; auto.
      eapply Forall_impl; [|exact T2]. apply not_negative_number.
  - rewrite P1. split; [apply HS|exact Hval].
Qed.

(** ** The declarations of the user *)

Lemma declared_start ps : usable_start E ps -> start_ok ps.
Proof.
  intros [U1 U2 U3 U4]. constructor; auto.
  - eapply Forall_mapP; [|exact U2]. auto.
  - assert (G1 : v_mu (opview ps) = map mean_of_prior (sampled_params ps)).
    { unfold opview, view, check_prior_sigma. cbn [v_mu op_mu op_parind]. rewrite op_parind_open.
      exact (sel_filter mean_of_prior ps). }
    assert (G2 : v_sigma (opview ps) = map width_of_prior (sampled_params ps)).
    { unfold opview, view, check_prior_sigma. cbn [v_sigma op_sigma op_parind]. rewrite op_parind_open.
      change (op_sigma (openparameterstructure ps)) with (map (fun p : param XR => setup_prior_sigma (a_sigma p)) ps). rewrite map_map.
      rewrite (sel_filter (fun p : param XR => if nle (setup_prior_sigma (a_sigma p)) n0 then ninf else setup_prior_sigma (a_sigma p)) ps).
      apply map_ext. intros p. unfold setup_prior_sigma, width_of_prior. destruct (neq (a_sigma p) n0); cbn [orb]; auto. }
    rewrite G1, G2. exact U4.
Qed.

Lemma usable_weaker d ms (P Q : Prop) : (Q -> P) -> usable_model E d ms P -> usable_model E d ms Q.
Proof. intros H [U1 U2 U3 U4]. constructor; auto. Qed.

(** ** Continuing *)

Variable ps0 : list (param XR).

Lemma continue_ok m o m' : session E ps0 m -> NoDup (map (@a_name XR) (sampled_params ps0)) -> left_ok m ->
  (m_s2chain m <> None -> Forall (fun k => 0 < k)%nat (dt_n (m_data m))) -> usable_options o ->
  run_simulation E true (with_opts m o) = Ok m' ->
  left_ok m' /\ m_data m' = m_data m /\ m_s2chain m <> None.
Proof.
  intros HS HND [L1 L2 L3 (row & L4 & L5 & L6) (L7 & L8)] HC HO H.
  pose proof (session_minv _ _ _ HS) as MI.
  assert (Hst : m_status m = true). { unfold run_simulation in H. cbn [with_opts m_status] in H. destruct (m_status m); [reflexivity|discriminate]. }
  pose proof (run_facts E _ _ _ H) as (ps & ini & st0 & st & ms & chains & HF). cbv zeta in HF.
  destruct HF as (D & (o' & I0 & _) & (r & R1 & _ & R2) & Harr & _ & _ & _ & _ & _ & _ & _ & P1 & P2 & _ & _ & _ & _ & _ & _ & _ & _ & _ & _ & P13 & _).
  cbn [with_opts m_params m_results m_data m_model] in *.
  pose proof (init_model E _ _ _ _ _ _ _ _ I0) as (ms1 & _ & _ & _ & HU).
  destruct L3 as [(sg & G1 & G2) G3 (n0v & G4 & G5 & G6) (N & G7 & G8)].
  assert (Hu : o_updatesigma (i_opts ini) = true) by (rewrite HU, G4; reflexivity).
  apply expand_chains_facts in Harr. cbv zeta in Harr. destruct Harr as (_ & _ & A3 & _). rewrite Hu in A3. destruct A3 as (old & A3 & _).
  cbn [with_opts m_s2chain] in A3.
  assert (Hne : m_s2chain m <> None) by (rewrite A3; discriminate).
  split; [|auto].
  destruct (mi_results _ _ _ MI Hst) as (r' & row' & Y1 & Y2 & Y3 & Y4 & Y5 & _). assert (r' = r) by congruence. subst r'.
  assert (row' = row) by congruence. subst row'.
  assert (HLr : length row = length (sampled_params ps0)). { apply inside_length. apply (mi_rows _ _ _ MI). eapply nth_error_In; eauto. }
  assert (Hth : map (@a_theta0 XR) (sampled_params ps) = row).
  { eapply (restart_from_row ps0 (m_params m) ps row (restart_of r)); auto. exact (mi_decl _ _ _ MI). }
  assert (Hrow : Forall number row).
  { pose proof (on_chain _ L1) as C. unfold every in C. rewrite Forall_forall in C. apply C. eapply nth_error_In; eauto. }
  assert (HLm : length row = length (sampled_params (m_params m))). { rewrite HLr. apply same_decls_sampled. exact (mi_decl _ _ _ MI). }
  assert (Hval : map (@a_theta0 XR) ps = fill (m_params m) row).
  { rewrite <- fill_own, Hth. symmetry. apply same_decls_fill; auto. }
  assert (Hnum : Forall number (fill (m_params m) row)). { rewrite <- scatter_fill. apply Forall_scatter; auto. }
  assert (PM : map (@prior_mean XR _) ps = map (@prior_mean XR _) (m_params m)).
  { eapply restart_means; [| |exact R2].
    - intros p Hp. rewrite Forall_forall in L8. destruct (L8 (a_theta0 p)) as [v ->]; [now apply in_map|reflexivity].
    - intros v Hv. cbn [restart_of rs_theta] in Hv. rewrite Y3 in Hv. rewrite (same_decls_fill _ (m_params m)) in Hv; [|exact (mi_decl _ _ _ MI)|exact HLr].
      rewrite Forall_forall in Hnum. destruct (Hnum v Hv) as [w ->]. reflexivity. }
  assert (VV : opview ps = opview (m_params m)) by (apply same_decls_view; auto).
  eapply run_ok; [exact H| | | | |].
  - rewrite P1. constructor.
    + intros C. apply L7. apply same_decls_sampled in D. rewrite C in D. destruct (sampled_params (m_params m)); [reflexivity|discriminate].
    + rewrite Hval. exact Hnum.
    + rewrite Hval. exact L5.
    + rewrite Hth, VV. exact L6.
  - cbn [with_opts m_data m_model]. constructor.
    + intros s Hs. assert (s = sg) by congruence. now subst.
    + left. exact G3.
    + intros s Hs. assert (s = n0v) by congruence. now subst.
    + intros _. split; [auto|]. unfold weights_positive. rewrite G4. auto.
  - exact HO.
  - exact L2.
  - intros _. split; [destruct L1; constructor; assumption|]. apply (mi_len _ _ _ MI Hst).
Qed.
End Session.

(** ** Sessions *)

Lemma continued_ok (E : env XR) (HE : decent E) ps0 : NoDup (map (@a_name XR) (sampled_params ps0)) -> forall os m m',
  session E ps0 m -> left_ok E m -> (m_s2chain m <> None -> Forall (fun k => 0 < k)%nat (dt_n (m_data m))) -> Forall usable_options os ->
  acts E (continued os) m = Ok m' -> left_ok E m'.
Proof.
  intros HND os. induction os as [|o os IH]; intros m m' HS HL HC HO H.
  - apply Ok_inj in H. now subst.
  - inv HO. unfold continued in H. cbn [flat_map app acts act bind] in H. peel H.
    assert (S1 : session E ps0 (with_opts m o)) by (eapply session_act; [exact HS|]; exact (eq_refl : act E (SetOptions o) m = _)).
    pose proof (session_snoc _ _ _ _ _ S1 E0) as S2.
    destruct (continue_ok E HE ps0 m o a HS HND HL HC) as (G1 & G2 & G3); auto.
    eapply IH; eauto. intros _. rewrite G2. auto.
Qed.

Lemma numbers_session (E : env XR) ps d ms o os pos l m' : decent E -> usable_start E ps ->
  usable_model E d ms (o_updatesigma o = true \/ ms_N0 ms <> None) -> usable_options o -> o_restart o = None ->
  (os <> [] -> NoDup (map (@a_name XR) (sampled_params ps))) -> Forall usable_options os ->
  acts E (Run false :: continued os) (new_mcmc ps d ms o pos l) = Ok m' -> left_ok E m'.
Proof.
  intros HE HS HM HO Hr HND HOs H. cbn [acts act] in H. peel H. rename a into m, E0 into H0.
  assert (G : left_ok E m /\ m_data m = d /\ (m_s2chain m <> None -> o_updatesigma o = true \/ ms_N0 ms <> None)).
  { pose proof (run_facts E _ _ _ H0) as (ps' & ini & st0 & st & ms' & chains & HF). cbv zeta in HF.
    destruct HF as (D & (o' & I0 & _ & _ & Oo) & Hp & Harr & Hst0 & HX & _ & RC & _ & _ & _ & P1 & P2 & _ & _ & _ & P6 & _ & _ & _ & _ & _ & _ & P13 & _).
    cbn [new_mcmc m_params m_data m_model m_opts] in *. rewrite Hr in Hp. subst ps'.
    pose proof (init_model E _ _ _ _ _ _ _ _ I0) as (ms1 & _ & _ & _ & HU).
    assert (Hu : o_updatesigma (m_opts m) = true -> o_updatesigma o = true \/ ms_N0 ms <> None).
    { assert (H1 : o' = o).  { rewrite Oo. unfold run_options, new_mcmc. cbn [m_opts]. now rewrite Hr. } subst o'.
      rewrite P13, HU. cbn [check_dependent_simulation_options o_updatesigma]. destruct (ms_N0 ms); intros Hx; [right; discriminate|left; rewrite <- H1; exact Hx]. }
    split; [|split; [exact P2|]].
    - eapply run_ok; [exact HE|exact H0| | | | |discriminate].
      + rewrite P1. now apply declared_start.
      + cbn [new_mcmc m_data m_model]. eapply usable_weaker; [|exact HM]. auto.
      + unfold run_options. cbn [new_mcmc m_opts]. rewrite Hr. exact HO.
      + intros ? C. discriminate C.
    - intros Hs. apply Hu. rewrite P13. destruct (o_updatesigma (i_opts ini)) eqn:Hui; [reflexivity|]. exfalso. apply Hs. rewrite P6.
      unfold initialize_chains in Harr. peel Harr. peel Harr. peel Harr. peel Harr. rewrite Hui in Harr. apply Ok_inj in Harr.
      injection Harr as _ _ X3 _. pose proof (rc_s2len _ _ _ _ _ RC) as HL. rewrite <- X3 in HL. destruct (r_s2 st); [discriminate|reflexivity]. }
  destruct G as (G1 & G2 & G3).
  destruct os as [|o1 os1]; [apply Ok_inj in H; now subst|].
  eapply (continued_ok E HE ps); [apply HND; discriminate| |exact G1| |exact HOs|exact H].
  - exists d, ms, o, pos, l, [Run false]. cbn [acts act]. rewrite H0. reflexivity.
  - intros Hs. rewrite G2. apply (um_est _ _ _ _ HM). auto.
Qed.

