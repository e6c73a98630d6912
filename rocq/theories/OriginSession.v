(** A session seen from another origin: declarations, initial covariance, resumed runs and sequences of user actions. *)

From Coq Require Import ZArith QArith Bool Lia List String Reals Lra.
From Verif Require Import Base Num Samplers Adapt Settings Simulator SamplerFacts RunSpec ScaleNum ScaleSpec ScaleFacts OriginSpec OriginFacts OriginAdapt OriginRun.
Import ListNotations.
Close Scope Q_scope.
Close Scope R_scope.
Open Scope list_scope.
Open Scope nat_scope.
Open Scope res_scope.

(** ** Declarations *)
Lemma params_length d : forall ps, List.length (moved_params d ps) = List.length ps.
Proof. induction d as [|r d IH]; intros [|p ps]; cbn; auto. Qed.
Lemma params_same {B} (f : param XR -> B) : (forall r p, f (moved_param r p) = f p) -> forall d ps, map f (moved_params d ps) = map f ps.
Proof. intros H. induction d as [|r d IH]; intros [|p ps]; cbn [moved_params map]; auto. now rewrite H, IH. Qed.
Lemma params_mv (f : param XR -> XR) : (forall r p, f (moved_param r p) = sh r (f p)) -> forall d ps, map f (moved_params d ps) = mv d (map f ps).
Proof. intros H. induction d as [|r d IH]; intros [|p ps]; cbn [moved_params map mv]; auto. now rewrite H, IH. Qed.
Lemma mu_moved r p : setup_prior_mu (a_mu (moved_param r p)) (a_theta0 (moved_param r p)) = sh r (setup_prior_mu (a_mu p) (a_theta0 p)).
Proof. unfold setup_prior_mu. cbn [moved_param a_mu a_theta0]. destruct (a_mu p); reflexivity. Qed.
Definition moved_opened (d : list R) (op : opened XR) : opened XR :=
  mkopened (op_names op) (mv d (op_initial op)) (mv d (op_value op)) (op_parind op) (op_adapt op) (op_no_adapt op)
           (mv d (op_lower op)) (mv d (op_upper op)) (mv d (op_mu op)) (op_sigma op).
Lemma open_moved d ps : openparameterstructure (moved_params d ps) = moved_opened d (openparameterstructure ps).
Proof.
  unfold openparameterstructure. rewrite !(params_same (@a_name XR)), !(params_same (@a_sample XR)), (params_same (fun p => setup_adapting (a_adapt p) (a_sample p))) by reflexivity.
  rewrite (params_same (fun p => setup_prior_sigma (a_sigma p))) by reflexivity. rewrite (params_mv (@a_theta0 XR)), (params_mv (@a_min XR)), (params_mv (@a_max XR)) by reflexivity.
  rewrite (params_mv (fun p => setup_prior_mu (a_mu p) (a_theta0 p))) by apply mu_moved. unfold setup_adaptation_indices. reflexivity.
Qed.
Lemma shifts_at d ps : List.length d = List.length ps -> sampled_shifts d ps = map (fun i => nth i d 0%R) (flatnonzero (map (@a_sample XR) ps)).
Proof.
  intros L. assert (H : forall k, sampled_shifts d ps = map (fun i => nth (i - k) d 0%R) (flatnonzero_from k (map (@a_sample XR) ps))).
  { revert ps L. induction d as [|r d IH]; intros [|p ps] L k; cbn [List.length] in L; try discriminate; [reflexivity|]. injection L as L.
    cbn [sampled_shifts map flatnonzero_from].
    assert (G : map (fun i => nth (i - k) (r :: d) 0%R) (flatnonzero_from (S k) (map (@a_sample XR) ps)) = sampled_shifts d ps).
    { rewrite (IH ps L (S k)). apply map_ext_in. intros i Hi. apply flatnonzero_from_spec in Hi as [Hi _]. replace (i - k) with (S (i - S k)) by lia. reflexivity. }
    destruct (a_sample p); [|now rewrite G]. cbn [map]. rewrite Nat.sub_diag, G. reflexivity. }
  rewrite (H 0). apply map_ext. intros i. now rewrite Nat.sub_0_r.
Qed.

(** ** The covariance of the proposals *)
Lemma variance_fixed s v v' : default_variance (Fin s) v = default_variance (Fin s) v'.
Proof. reflexivity. Qed.
Lemma sigma_kept s : (0 < s)%R -> (if nle (setup_prior_sigma (Fin s : XR)) n0 then ninf else setup_prior_sigma (Fin s : XR)) = Fin s.
Proof.
  intros H. unfold setup_prior_sigma. assert (A : neq (Fin s : XR) n0 = false).
  { unfold n0. cbn [neq nQ Num_X xeq aeq aQ Arith_R]. rewrite Q2R0. unfold Reqb. destruct (Req_EM_T s 0); [lra|reflexivity]. }
  rewrite A. assert (B : nle (Fin s : XR) n0 = false).
  { unfold n0. cbn [nle nQ Num_X xle ale aQ Arith_R]. rewrite Q2R0. unfold Rleb. destruct (Rle_dec s 0); [lra|reflexivity]. }
  now rewrite B.
Qed.
Lemma variances_fixed d ps : Forall (fun p => exists s, a_sigma p = Fin s /\ (0 < s)%R) ps ->
  map2 default_variance (op_sigma (check_prior_sigma (openparameterstructure ps))) (mv d (map (@a_theta0 XR) ps)) =
  map2 default_variance (op_sigma (check_prior_sigma (openparameterstructure ps))) (map (@a_theta0 XR) ps).
Proof.
  cbn [openparameterstructure check_prior_sigma setup_adaptation_indices op_sigma]. rewrite map_map. intros H. revert d.
  induction H as [|p ps (s & Hs & Ps) _ IH]; intros [|r d]; cbn [map mv map2]; auto. rewrite Hs, (sigma_kept s Ps). f_equal. apply IH.
Qed.

Section Session.
Variable d : list R.
Variable ps0 : list (param XR).
Hypothesis Hd : List.length d = List.length ps0.
Hypothesis Hnames : NoDup (map (@a_name XR) ps0).
Variable E : env XR.
Notation ds := (sampled_shifts d ps0).
Notation pi := (flatnonzero (map (@a_sample XR) ps0)).
Notation E' := (moved_env d ds E).
Notation npar := (List.length ds).
Let Hds : ds = map (fun i => nth i d 0%R) pi := shifts_at d ps0 Hd.

Definition decl (ps : list (param XR)) : Prop :=
  map (@a_name XR) ps = map (@a_name XR) ps0 /\ map (@a_sample XR) ps = map (@a_sample XR) ps0 /\ map (@a_sigma XR) ps = map (@a_sigma XR) ps0.
Lemma decl_length ps : decl ps -> List.length ps = List.length ps0.
Proof. intros (H & _). rewrite <- (map_length (@a_name XR) ps), H. apply map_length. Qed.
Lemma decl_sigma ps (P : XR -> Prop) : decl ps -> Forall (fun p => P (a_sigma p)) ps0 -> Forall (fun p => P (a_sigma p)) ps.
Proof. intros (_ & _ & H). rewrite <- !(Forall_map (@a_sigma XR)), H. auto. Qed.

Lemma pi_bound i : In i pi -> i < List.length ps0.
Proof. intros H. apply flatnonzero_spec in H. rewrite <- (map_length (@a_sample XR) ps0). apply nth_error_Some. congruence. Qed.
Lemma npar_pi : npar = List.length pi.
Proof. rewrite Hds. apply map_length. Qed.

Definition irel (I I' : initrec XR) : Prop :=
  i_opts I' = i_opts I /\ i_model I' = i_model I /\ i_op I' = moved_opened d (i_op I) /\ i_cov I' = moved_cov ds (i_cov I) /\
  i_set I' = mset ds (i_set I) /\ List.length (p_theta (i_set I)) = npar /\ i_nsos I' = i_nsos I /\ i_iacce I' = i_iacce I /\ i_io I' = moved_io d (i_io I) /\
  (exists ps, decl ps /\ i_op I = check_prior_sigma (openparameterstructure ps)) /\ covariance_given ps0 (i_opts I).

Lemma sel_at v : List.length v = List.length ps0 -> sel (mv d v) pi = mv ds (sel v pi).
Proof. intros L. rewrite Hds. apply sel_mv. intros i Hi. rewrite L. now apply pi_bound. Qed.
Lemma view_at ps : decl ps -> view (moved_opened d (check_prior_sigma (openparameterstructure ps))) = moved_view d (view (check_prior_sigma (openparameterstructure ps))).
Proof.
  intros D. pose proof (decl_length ps D) as L. destruct D as (_ & D & _).
  unfold view, moved_view. cbn [openparameterstructure check_prior_sigma setup_adaptation_indices moved_opened op_parind op_lower op_upper op_mu op_sigma v_npar v_parind v_lower v_upper v_mu v_sigma].
  rewrite D, <- Hds, !sel_at by (rewrite map_length; exact L). reflexivity.
Qed.
Lemma init_same ps dt ms o rdr pos calls : decl ps -> covariance_given ps0 o ->
  outcomes irel (initialize_simulation E ps dt ms o rdr pos calls) (initialize_simulation E' (moved_params d ps) dt ms o rdr pos (map (mv d) calls)).
Proof.
  intros D [Hr Hq]. pose proof (decl_length ps D) as L. unfold initialize_simulation. apply out_same. intros m1 _. rewrite open_moved.
  assert (PI : op_parind (openparameterstructure ps) = pi) by (destruct D as (_ & D & _); cbn [openparameterstructure setup_adaptation_indices op_parind]; now rewrite D).
  set (o' := check_dependent_simulation_options _ _).
  assert (QO : o_qcov o' = o_qcov o /\ o_restart o' = o_restart o) by (split; reflexivity).
  assert (C1 : check_parameter_limits (moved_opened d (openparameterstructure ps)) = check_parameter_limits (openparameterstructure ps)).
  { unfold check_parameter_limits. cbn [moved_opened op_parind op_lower op_upper]. rewrite PI, !sel_at by (cbn; rewrite map_length; exact L). now rewrite le_mv. }
  assert (C2 : check_initial_values (moved_opened d (openparameterstructure ps)) = check_initial_values (openparameterstructure ps)).
  { unfold check_initial_values. cbn [moved_opened op_parind op_lower op_upper op_initial]. rewrite PI, !sel_at by (cbn; rewrite map_length; exact L). now rewrite !lt_mv. }
  rewrite C1, C2. apply out_same. intros _ _. apply out_same. intros _ _.
  change (check_prior_sigma (moved_opened d (openparameterstructure ps))) with (moved_opened d (check_prior_sigma (openparameterstructure ps))).
  pose proof (view_at ps D) as VW.
  assert (OPI : op_initial (check_prior_sigma (openparameterstructure ps)) = map (@a_theta0 XR) ps) by reflexivity.
  assert (VF : o_qcov o' <> None \/ map2 default_variance (op_sigma (check_prior_sigma (openparameterstructure ps))) (mv d (op_initial (check_prior_sigma (openparameterstructure ps)))) =
                                   map2 default_variance (op_sigma (check_prior_sigma (openparameterstructure ps))) (op_initial (check_prior_sigma (openparameterstructure ps)))).
  { destruct Hq as [Hq|Hq]; [left; exact Hq|right]. rewrite OPI. apply variances_fixed. exact (decl_sigma ps (fun x => exists s, x = Fin s /\ (0 < s)%R) D Hq). }
  set (op := check_prior_sigma (openparameterstructure ps)) in *.
  assert (PI2 : op_parind op = pi) by exact PI.
  assert (T0 : sel (op_initial (moved_opened d op)) (op_parind (moved_opened d op)) = mv ds (sel (op_initial op) (op_parind op))).
  { cbn [moved_opened op_initial op_parind]. rewrite PI2. apply sel_at. rewrite OPI, map_length. exact L. }
  rewrite T0. set (theta0 := sel (op_initial op) (op_parind op)) in *.
  assert (CV : initialize_covariance E' (o_method o') (o_ntry o') (o_drscale o') (o_RDR o') (o_qcov o') (o_adascale o') (o_initqcovn o') (op_sigma (moved_opened d op))
      (op_initial (moved_opened d op)) (op_parind (moved_opened d op)) (op_no_adapt (moved_opened d op)) rdr (mv ds theta0) =
    rmap (moved_cov ds) (initialize_covariance E (o_method o') (o_ntry o') (o_drscale o') (o_RDR o') (o_qcov o') (o_adascale o') (o_initqcovn o') (op_sigma op)
      (op_initial op) (op_parind op) (op_no_adapt op) rdr theta0)).
  { unfold initialize_covariance. cbn [moved_opened op_sigma op_initial op_parind op_no_adapt].
    assert (SC : setup_covariance_matrix (o_qcov o') (op_sigma op) (mv d (op_initial op)) = setup_covariance_matrix (o_qcov o') (op_sigma op) (op_initial op)).
    { unfold setup_covariance_matrix. destruct (o_qcov o'); [reflexivity|]. destruct VF as [VF|VF]; [congruence|]. now rewrite VF. }
    rewrite SC, rmap_bind. change (setup_R_matrix E') with (setup_R_matrix E). apply bind_ext. intros [R sub] _. rewrite rmap_bind.
    change (setup_RDR_matrix E') with (setup_RDR_matrix E). apply bind_ext. intros [[R1 rd] inv] _. cbn [rmap]. f_equal. unfold moved_cov. cbn. f_equal. destruct (o_initqcovn o); reflexivity. }
  rewrite CV. destruct (initialize_covariance E _ _ _ _ _ _ _ _ _ _ _ _ _) as [cov|]; [|reflexivity]. cbn [rmap bind].
  rewrite VW. assert (VP : v_parind (view op) = pi) by exact PI2.
  pose proof (sos_moved d E (view op) theta0 (mkio pos (op_initial op) calls)) as SM. rewrite VP, <- Hds in SM.
  change (mkio pos (op_initial (moved_opened d op)) (map (mv d) calls)) with (moved_io d (mkio pos (op_initial op) calls)). rewrite SM.
  pose proof (prior_moved d E (view op) theta0) as PM. rewrite VP, <- Hds in PM. rewrite PM.
  destruct (evaluate_sos_function E (view op) theta0 (mkio pos (op_initial op) calls)) as [ss s1]. cbn [fst snd].
  apply out_same. intros m2 _. cbn [outcomes]. unfold irel. cbn [i_opts i_model i_op i_cov i_set i_nsos i_iacce i_io p_theta].
  repeat (split; [reflexivity|]). split; [unfold theta0, sel; rewrite map_length, PI2; symmetry; apply npar_pi|].
  repeat (split; [reflexivity|]). split; [exists ps; split; [exact D|reflexivity]|]. destruct QO as [Q1 Q2]. split; [congruence|]. rewrite Q1. exact Hq.
Qed.

(** ** Chains *)
Definition arel (n : nat) (L : nat) (x y : list (list XR) * list (list XR) * option (list (list XR)) * list (string * chref XR)) : Prop :=
  let '(c, s, s2, l) := x in let '(c', s', s2', l') := y in
  mixed ds (S n) c c' /\ List.length c = L /\ s' = s /\ s2' = s2 /\ Forall2 (moved_ref ds) l l'.
Lemma irel_pi I I' : irel I I' -> op_parind (i_op I) = pi.
Proof. intros (_ & _ & _ & _ & _ & _ & _ & _ & _ & (ps & (_ & D & _) & ->) & _). cbn [check_prior_sigma openparameterstructure setup_adaptation_indices op_parind]. now rewrite D. Qed.
Lemma chains_same I I' s2 : irel I I' -> outcomes (arel 0 (o_nsimu (i_opts I))) (initialize_chains I s2) (initialize_chains I' s2).
Proof.
  intros H. pose proof (irel_pi _ _ H) as HP. destruct H as (Ho & Hm & Hp & Hc & Hs & HL & Hn & _). unfold initialize_chains. rewrite Ho, Hp, Hs, Hn. cbn [moved_opened op_parind mset p_theta p_ss].
  rewrite HP, <- npar_pi, !fit_len by (rewrite ?mv_length; exact HL).
  eapply out_bind; [apply (mixed_write ds 0 _ (zeros (o_nsimu (i_opts I)) npar))|].
  - exists [], (zeros (o_nsimu (i_opts I)) npar). repeat split. constructor.
  - exact HL.
  - intros c c' [Hm1 HL1]. assert (LZ : List.length c = o_nsimu (i_opts I)) by (etransitivity; [exact HL1|apply repeat_length]).
    apply out_same. intros r _. apply out_same. intros ss _. destruct (o_updatesigma (i_opts I)).
    + apply out_same. intros q _. apply out_same. intros w _. cbn. split; [exact Hm1|]. split; [exact LZ|]. repeat (split; [reflexivity|]). repeat constructor.
    + cbn. split; [exact Hm1|]. split; [exact LZ|]. repeat (split; [reflexivity|]). repeat constructor.
Qed.
Definition wellrun (m : mcmc XR) : Prop :=
  decl (m_params m) /\ covariance_given ps0 (m_opts m) /\
  (m_status m = true -> List.length (m_chain m) = S (m_index m) /\ wide ds (m_chain m)) /\
  (forall r, m_results m = Some r -> rr_parind r = pi /\ rr_names r = map (fun i => nth i (map (@a_name XR) ps0) EmptyString) pi).
Definition orel2 (m m' : mcmc XR) : Prop := moved d ds m m' /\ wellrun m.
Lemma expand_same m m' I I' : orel2 m m' -> m_status m = true -> irel I I' ->
  outcomes (arel (m_index m) (S (m_index m) + (o_nsimu (i_opts I) - 1))) (expand_chains m I) (expand_chains m' I').
Proof.
  intros [H (_ & _ & HW & _)] St HI. pose proof (irel_pi _ _ HI) as HP. destruct HI as (Ho & Hm & Hp & Hc & _ & _ & Hn & _). destruct (HW St) as [LC WC]. unfold expand_chains.
  rewrite Ho, Hp, Hn, (mo_chain _ _ _ _ H), (mo_sschain _ _ _ _ H), (mo_s2chain _ _ _ _ H). cbn [moved_opened op_parind].
  set (n := o_nsimu (i_opts I) - 1). set (np := List.length (op_parind (i_op I))).
  assert (EX : outcomes (fun a b => mixed ds (S (m_index m)) a b /\ List.length a = S (m_index m) + n) (extend (m_chain m) n np) (extend (map (mv ds) (m_chain m)) n np)).
  { unfold extend. rewrite ncols_mv. destruct (_ =? _); [|reflexivity]. cbn [outcomes]. split; [exists (m_chain m), (zeros n np); repeat split; assumption|].
    rewrite app_length, LC. unfold zeros. now rewrite repeat_length. }
  eapply out_bind; [exact EX|]. intros c c' [MX LX]. apply out_same. intros ss _.
  assert (F : Forall2 (moved_ref ds) (map (fun e => (fst e, freeze m (snd e))) (m_chains m)) (map (fun e => (fst e, freeze m' (snd e))) (m_chains m'))).
  { pose proof (mo_chains _ _ _ _ H) as X. induction X as [|[k r] [k' r'] l l' [H1 H2] H3 IH]; cbn [map]; constructor; [|exact IH].
    cbn [fst snd] in *. split; [exact H1|]. cbn [snd]. destruct r, r'; try contradiction; cbn [freeze].
    - right. apply (mo_chain _ _ _ _ H).
    - left. apply (mo_sschain _ _ _ _ H).
    - left. now rewrite (mo_s2chain _ _ _ _ H).
    - exact H2. }
  destruct (o_updatesigma (i_opts I)).
  - apply out_same. intros s2 _. apply out_same. intros t _. cbn [outcomes arel]. auto.
  - cbn [outcomes arel]. auto.
Qed.

(** ** Runs and sessions *)
Lemma prepared_same m m' ps I I' i x y : orel2 m m' -> decl ps -> irel I I' -> arel i (S i + (o_nsimu (i_opts I) - 1)) x y ->
  outcomes orel2 (run_prepared E m ps I i x) (run_prepared E' m' (moved_params d ps) I' i y).
Proof.
  intros [H _] D HI Ha. pose proof (irel_pi _ _ HI) as HP. destruct HI as (Ho & Hm & Hp & Hc & Hst & Hth & Hn & Hi & Hio & (qs & Dq & Hop) & Hcg).
  destruct x as [[[c ss] s2] l], y as [[[c' ss'] s2'] l']. destruct Ha as (MX & LX & -> & -> & Hl).
  unfold run_prepared. eapply out_bind.
  - apply (execute_same d ds pi Hds E (S i + (o_nsimu (i_opts I) - 1))).
    + unfold krel, make_const. cbn [k_opts k_view k_nsos k_N0 k_N k_alias k_chains]. rewrite Ho, Hn, Hm, Hp. split; [exact HP|].
      split; [unfold view; cbn [v_npar]; rewrite HP; symmetry; apply npar_pi|]. split; [|exact Hl]. rewrite Hop, view_at by exact Dq. reflexivity.
    + unfold start_state. rewrite Hc, Hi, Hio, Hm, Hst.
      constructor; cbn [r_index r_iiadapt r_savecount r_lastbin r_rej r_rejin r_rejout r_chain r_cov r_iacce r_io r_trace r_old r_ss r_s2 r_sigma2 r_S20 r_fs]; auto.
      apply (mo_fs _ _ _ _ H).
  - intros t t' [[P [O OL] [Ch CL] Cv Io Fs Tr] It]. inversion P as [[P1 P2 P3 P4 P5 P6 P7 P8 P9 P10 P11 P12]]. clear P. cbn [start_state r_index make_const k_opts] in It.
    assert (FX : r_chain t' = map (mv ds) (r_chain t) /\ wide ds (r_chain t)) by (apply (mixed_full ds _ _ _ Ch); rewrite CL, It; lia). destruct FX as [FX FW].
    cbn [outcomes]. split.
    + rewrite Ho. constructor;
        cbn [m_params m_data m_model m_opts m_RDR m_status m_chain m_sschain m_s2chain m_index m_chains m_pos m_calls m_fs m_results m_trace]; auto.
      * apply (mo_data _ _ _ _ H).
      * now rewrite P10, P11, Hm.
      * now rewrite Cv.
      * now rewrite Io.
      * now rewrite Io.
      * destruct (o_save_to_json (i_opts I)); [|exact Fs]. apply snoc_same; [exact Fs|]. cbn. auto.
      * cbn [option_map]. f_equal. unfold generate_results, moved_results. cbn [rr_theta rr_parind rr_total_rejected rr_outside rr_R rr_qcov rr_cov rr_mean rr_names rr_allnames rr_lower rr_upper rr_nsimu rr_iacce rr_opts rr_model rr_chain rr_sschain rr_s2chain].
        replace (proposal_cov t') with (proposal_cov t) by (unfold proposal_cov; now rewrite Cv).
        rewrite Ho, Hp, P5, P7, P8, P9, P10, P11, P12, FX, Cv, O, Hm. cbn [moved_opened op_value op_parind op_names op_lower op_upper moved_cov c_R c_covchain c_meanchain mset p_theta].
        rewrite HP. pose proof (decl_length qs Dq) as Lq. rewrite !sel_at by (rewrite Hop; cbn; rewrite map_length; exact Lq). rewrite Hds at 1. rewrite scatter_mv. reflexivity.
      * rewrite map_app, Tr, (mo_trace _ _ _ _ H). reflexivity.
    + split; [exact D|]. split; [exact Hcg|]. cbn [m_status m_chain m_index m_results]. split.
      * intros _. split; [rewrite CL, P1, It; lia|exact FW].
      * intros r Hr. inversion Hr; subst r. unfold generate_results. cbn [rr_parind rr_names]. split; [exact HP|]. rewrite HP, Hop. cbn [check_prior_sigma openparameterstructure setup_adaptation_indices op_names].
        destruct Dq as (-> & _). reflexivity.
Qed.

Lemma one_moved r name v : forall e ps, List.length e = List.length ps ->
  (forall i p, nth_error ps i = Some p -> a_name p = name -> nth i e 0%R = r) ->
  map (restart_one name (sh r v)) (moved_params e ps) = moved_params e (map (restart_one name v) ps).
Proof.
  induction e as [|x e IH]; intros [|p ps] L H; try discriminate; [reflexivity|]. cbn [moved_params map]. f_equal.
  - unfold restart_one. cbn [moved_param a_name a_theta0 a_min a_max a_mu a_sigma a_sample a_adapt]. destruct (String.eqb name (a_name p)) eqn:N; [|reflexivity].
    apply String.eqb_eq in N. assert (X : x = r) by (apply (H 0 p); [reflexivity|now symmetry]). subst x. unfold moved_param. cbn [a_name a_theta0 a_min a_max a_mu a_sigma a_sample a_adapt].
    f_equal; [destruct (a_sample p); reflexivity|]. destruct (a_mu p); reflexivity.
  - apply IH; [now injection L|]. intros i q Hq. apply (H (S i) q Hq).
Qed.
Lemma decl_one name v ps : decl ps -> decl (map (restart_one name v) ps).
Proof.
  intros (D1 & D2 & D3). unfold decl. rewrite !map_map, <- D1, <- D2, <- D3.
  repeat split; apply map_ext; intros p; unfold restart_one; destruct (String.eqb _ _); reflexivity.
Qed.
Lemma loop_same names theta : forall l ii ps, decl ps ->
  (forall k i, nth_error l k = Some i -> i < List.length ps0 /\ nth_error names (ii + k) = Some (nth i (map (@a_name XR) ps0) EmptyString)) ->
  outcomes (fun a b => b = moved_params d a /\ decl a) (results_to_params_loop ii names theta l ps) (results_to_params_loop ii names (mv d theta) l (moved_params d ps)).
Proof.
  induction l as [|i l IH]; intros ii ps D H; cbn [results_to_params_loop]; [cbn; auto|].
  destruct (H 0 i eq_refl) as [Hi Hn]. rewrite Nat.add_0_r in Hn. rewrite Hn. cbn [of_option bind]. rewrite mv_nth_error.
  destruct (nth_error theta i) as [v|]; [|reflexivity]. cbn [option_map of_option bind]. rewrite one_moved.
  - apply IH; [now apply decl_one|]. intros k j Hj. destruct (H (S k) j Hj) as [A B]. split; [exact A|]. rewrite <- B. f_equal. lia.
  - rewrite Hd. symmetry. now apply decl_length.
  - intros j p Hj Np. assert (j = i); [|now subst].
    destruct D as (D1 & _). assert (X : nth_error (map (@a_name XR) ps0) j = Some (a_name p)) by (rewrite <- D1; now apply map_nth_error).
    apply (proj1 (NoDup_nth_error _) Hnames); [apply nth_error_Some; congruence|]. rewrite X, Np. symmetry. apply nth_error_nth'. now rewrite map_length.
Qed.
Lemma run_same u m m' : orel2 m m' -> outcomes orel2 (run_simulation E u m) (run_simulation E' u m').
Proof.
  intros H0. pose proof H0 as [H (D & CG & HW & HR)]. unfold run_simulation.
  rewrite (mo_params _ _ _ _ H), (mo_data _ _ _ _ H), (mo_model _ _ _ _ H), (mo_opts _ _ _ _ H), (mo_RDR _ _ _ _ H), (mo_status _ _ _ _ H), (mo_index _ _ _ _ H), (mo_pos _ _ _ _ H), (mo_calls _ _ _ _ H).
  destruct u.
  - destruct (m_status m) eqn:St; [|reflexivity]. rewrite (mo_results _ _ _ _ H). destruct (m_results m) as [r|]; [|reflexivity]. cbn [option_map].
    destruct (HR r eq_refl) as [R1 R2]. eapply out_bind.
    + unfold results_to_params, restart_of. cbn [moved_results rr_names rr_parind rr_theta rr_qcov rs_names rs_parind rs_theta]. apply loop_same; [exact D|].
      rewrite R1, R2. intros k i Hk. split; [apply pi_bound; now apply nth_error_In in Hk|]. cbn [Nat.add]. now apply (map_nth_error (fun i => nth i (map (@a_name XR) ps0) EmptyString)) in Hk.
    + intros ps ps' [-> Dp]. eapply out_bind; [apply init_same; [exact Dp|exact CG]|]. intros I I' HI.
      eapply out_bind; [apply expand_same; [exact H0|exact St|exact HI]|]. intros x y Hxy. now apply prepared_same.
  - destruct CG as [CR CQ]. rewrite CR. cbn [bind]. eapply out_bind; [apply init_same; [exact D|split; [exact CR|exact CQ]]|]. intros I I' HI.
    replace (lst (ms_sigma2 (i_model I'))) with (lst (ms_sigma2 (i_model I))) by (destruct HI as (_ & -> & _); reflexivity).
    pose proof (chains_same I I' (lst (ms_sigma2 (i_model I))) HI) as X.
    destruct (initialize_chains I _) as [x|], (initialize_chains I' _) as [y|]; cbn in X; try contradiction; [|subst; reflexivity]. cbn [bind].
    apply prepared_same; auto. destruct x as [[[c ss] s2] l], y as [[[c' ss'] s2'] l']. destruct X as (X1 & X2 & X3). split; [exact X1|]. split; [|exact X3].
    rewrite X2. destruct X1 as (w & t & -> & _ & Lw & _). rewrite app_length in X2. lia.
Qed.
Lemma acts_same l : covariances_given ps0 l -> forall m m', orel2 m m' -> outcomes orel2 (acts E l m) (acts E' l m').
Proof.
  induction 1 as [|a l Ha Hl IH]; intros m m' H; cbn [acts]; [exact H|].
  eapply out_bind with (R := orel2); [|intros u v Huv; now apply IH].
  destruct a as [o|ms|u]; cbn [act]; [| |now apply run_same]; cbn; destruct H as [H (D & CG & HW & HR)].
  - split; [destruct H; constructor; cbn; auto|]. repeat (split; [assumption|]). assumption.
  - split; [destruct H; constructor; cbn; auto|]. repeat (split; [assumption|]). assumption.
Qed.
Lemma new_same dt ms o pos l : covariance_given ps0 o -> orel2 (new_mcmc ps0 dt ms o pos l) (new_mcmc (moved_params d ps0) dt ms o pos l).
Proof.
  intros H. split.
  - constructor; cbn; auto. induction l as [|x l IH]; constructor; [|exact IH]. destruct x; cbn; unfold moved_rows; auto.
  - split; [repeat split|]. split; [exact H|]. split; discriminate.
Qed.
End Session.
