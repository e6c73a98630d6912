(** A session in other units: declarations, resumed runs and sequences of user actions. *)

From Coq Require Import ZArith QArith Bool Lia List String Reals Lra.
From Verif Require Import Base Num Samplers Adapt Settings Simulator SamplerFacts RunSpec ScaleNum ScaleSpec ScaleFacts OriginFacts UnitSpec UnitNum UnitFacts UnitAdapt UnitCov UnitRun.
Import ListNotations.
Close Scope Q_scope.
Close Scope R_scope.
Open Scope list_scope.
Open Scope nat_scope.
Open Scope res_scope.

(** ** Declarations *)
Lemma params_length c : forall ps, List.length (unit_params c ps) = List.length ps.
Proof. induction c as [|r c IH]; intros [|p ps]; cbn; auto. Qed.
Lemma params_same {B} (f : param XR -> B) : (forall r p, f (unit_param r p) = f p) -> forall c ps, map f (unit_params c ps) = map f ps.
Proof. intros H. induction c as [|r c IH]; intros [|p ps]; cbn [unit_params map]; auto. now rewrite H, IH. Qed.
Lemma params_us (f : param XR -> XR) c : (forall r p, (0 < r)%R -> f (unit_param r p) = sc r (f p)) -> posl c -> forall ps, map f (unit_params c ps) = us c (map f ps).
Proof. intros H P. induction P as [|r c Hr _ IH]; intros [|p ps]; cbn [unit_params map us]; auto. now rewrite H, IH. Qed.
Lemma map_us (f : XR -> XR) c : (forall r x, (0 < r)%R -> f (sc r x) = sc r (f x)) -> posl c -> forall v, map f (us c v) = us c (map f v).
Proof. intros H P. induction P as [|r c Hr _ IH]; intros [|x v]; cbn [map us]; auto. now rewrite H, IH. Qed.
Lemma mu_unit r p : setup_prior_mu (a_mu (unit_param r p)) (a_theta0 (unit_param r p)) = sc r (setup_prior_mu (a_mu p) (a_theta0 p)).
Proof. unfold setup_prior_mu. cbn [unit_param a_mu a_theta0]. destruct (a_mu p); reflexivity. Qed.
Lemma eq0_sc r x : (0 < r)%R -> neq (sc r x) n0 = neq x n0.
Proof. intros H. unfold n0. destruct x; try reflexivity. cbn [sc neq nQ Num_X xeq aeq aQ Arith_R]. rewrite Q2R0. now apply eqb_scale0. Qed.
Lemma le0_sc r x : (0 < r)%R -> nle (sc r x) n0 = nle x n0.
Proof. intros H. rewrite <- (sc_zero r) at 1. now apply sc_le. Qed.
Lemma sigma_unit r x : (0 < r)%R -> setup_prior_sigma (sc r x) = sc r (setup_prior_sigma x).
Proof. intros H. unfold setup_prior_sigma. rewrite eq0_sc by exact H. destruct (neq x n0); reflexivity. Qed.
Definition unit_opened (c : list R) (op : opened XR) : opened XR :=
  mkopened (op_names op) (us c (op_initial op)) (us c (op_value op)) (op_parind op) (op_adapt op) (op_no_adapt op)
           (us c (op_lower op)) (us c (op_upper op)) (us c (op_mu op)) (us c (op_sigma op)).
Lemma open_unit c ps : posl c -> openparameterstructure (unit_params c ps) = unit_opened c (openparameterstructure ps).
Proof.
  intros P. unfold openparameterstructure. rewrite !(params_same (@a_name XR)), !(params_same (@a_sample XR)), (params_same (fun p => setup_adapting (a_adapt p) (a_sample p))) by reflexivity.
  rewrite (params_us (@a_theta0 XR)), (params_us (@a_min XR)), (params_us (@a_max XR)) by (try reflexivity; exact P).
  rewrite (params_us (fun p => setup_prior_mu (a_mu p) (a_theta0 p))) by (try (intros; apply mu_unit); exact P).
  rewrite (params_us (fun p => setup_prior_sigma (a_sigma p))) by (try (intros; now apply sigma_unit); exact P). unfold setup_adaptation_indices. reflexivity.
Qed.
Lemma check_unit c op : posl c -> check_prior_sigma (unit_opened c op) = unit_opened c (check_prior_sigma op).
Proof.
  intros P. unfold check_prior_sigma, unit_opened. cbn [op_names op_initial op_value op_parind op_adapt op_no_adapt op_lower op_upper op_mu op_sigma]. f_equal.
  apply (map_us (fun s => if nle s n0 then ninf else s)); [|exact P]. intros r x H. rewrite le0_sc by exact H. destruct (nle x n0); reflexivity.
Qed.
Lemma units_at c ps : List.length c = List.length ps -> sampled_units c ps = map (fun i => nth i c 1%R) (flatnonzero (map (@a_sample XR) ps)).
Proof.
  intros L. assert (H : forall k, sampled_units c ps = map (fun i => nth (i - k) c 1%R) (flatnonzero_from k (map (@a_sample XR) ps))).
  { revert ps L. induction c as [|r c IH]; intros [|p ps] L k; cbn [List.length] in L; try discriminate; [reflexivity|]. injection L as L.
    cbn [sampled_units map flatnonzero_from].
    assert (G : map (fun i => nth (i - k) (r :: c) 1%R) (flatnonzero_from (S k) (map (@a_sample XR) ps)) = sampled_units c ps).
    { rewrite (IH ps L (S k)). apply map_ext_in. intros i Hi. apply flatnonzero_from_spec in Hi as [Hi _]. replace (i - k) with (S (i - S k)) by lia. reflexivity. }
    destruct (a_sample p); [|now rewrite G]. cbn [map]. rewrite Nat.sub_diag, G. reflexivity. }
  rewrite (H 0). apply map_ext. intros i. now rewrite Nat.sub_0_r.
Qed.

(** ** The default covariance *)
Definition checked (s : XR) : XR := if nle (setup_prior_sigma s) n0 then ninf else setup_prior_sigma s.
Lemma checked_spec s : (exists a, checked s = Fin a /\ (0 < a)%R) \/ unbounded (checked s).
Proof.
  unfold checked, setup_prior_sigma. destruct s as [a| | |]; [|right; exact I|right; exact I|right; exact I].
  unfold n0. cbn [neq nle nQ Num_X xeq xle aeq ale aQ Arith_R]. rewrite Q2R0. unfold Reqb, Rleb. destruct (Req_EM_T a 0) as [Z|Z].
  - right. exact I.
  - cbn [neq nle nQ Num_X xeq xle aeq ale aQ Arith_R]. unfold Rleb. destruct (Rle_dec a 0); [right; exact I|]. left. exists a. split; [reflexivity|lra].
Qed.
Lemma checked_pos s : (0 < s)%R -> checked (Fin s) = Fin s.
Proof.
  intros H. unfold checked, setup_prior_sigma, n0. cbn [neq nQ Num_X xeq aeq aQ Arith_R]. rewrite Q2R0. unfold Reqb. destruct (Req_EM_T s 0); [lra|].
  cbn [nle Num_X xle ale Arith_R]. unfold Rleb. destruct (Rle_dec s 0); [lra|reflexivity].
Qed.
Lemma usable_starts ps : Forall (fun p => (exists s, a_sigma p = Fin s /\ (0 < s)%R) \/ a_theta0 p <> Fin 0%R) ps ->
  Forall2 usable (op_sigma (check_prior_sigma (openparameterstructure ps))) (map (@a_theta0 XR) ps).
Proof.
  cbn [openparameterstructure check_prior_sigma setup_adaptation_indices op_sigma]. rewrite map_map.
  induction 1 as [|p ps H _ IH]; cbn [map]; constructor; [|exact IH]. change (usable (checked (a_sigma p)) (a_theta0 p)).
  destruct H as [(s & Hs & Ps)|H]; [left; exists s; rewrite Hs; split; [now apply checked_pos|exact Ps]|]. destruct (checked_spec (a_sigma p)) as [X|X]; [now left|right; auto].
Qed.

Section Session.
Variable k : R.
Variable c : list R.
Variable ps0 : list (param XR).
Hypothesis Hk : (0 < k)%R.
Hypothesis Hc : posl c.
Hypothesis Hlen : List.length c = List.length ps0.
Hypothesis Hnames : NoDup (map (@a_name XR) ps0).
Variable E : env XR.
Notation cs := (sampled_units c ps0).
Notation pi := (flatnonzero (map (@a_sample XR) ps0)).
Notation E' := (unit_env c cs E).
Notation npar := (List.length cs).
Hypothesis HE : unit_free cs E.
Let Hcs : cs = map (fun i => nth i c 1%R) pi := units_at c ps0 Hlen.

Definition decl (ps : list (param XR)) : Prop :=
  map (@a_name XR) ps = map (@a_name XR) ps0 /\ map (@a_sample XR) ps = map (@a_sample XR) ps0 /\ map (@a_sigma XR) ps = map (@a_sigma XR) ps0.
Lemma decl_length ps : decl ps -> List.length ps = List.length ps0.
Proof. intros (H & _). rewrite <- (map_length (@a_name XR) ps), H. apply map_length. Qed.
Lemma decl_sigma ps (P : XR -> Prop) : decl ps -> Forall (fun p => P (a_sigma p)) ps0 -> Forall (fun p => P (a_sigma p)) ps.
Proof. intros (_ & _ & H). rewrite <- !(Forall_map (@a_sigma XR)), H. auto. Qed.
Lemma known_start ps o : decl ps -> covariance_known ps0 o -> start_known ps o.
Proof.
  intros D [H|H]; [now left|right]. apply (decl_sigma ps (fun x => exists s, x = Fin s /\ (0 < s)%R) D) in H. eapply Forall_impl; [|exact H]. intros p Hp. now left.
Qed.

Lemma pi_bound i : In i pi -> i < List.length ps0.
Proof. intros H. apply flatnonzero_spec in H. rewrite <- (map_length (@a_sample XR) ps0). apply nth_error_Some. congruence. Qed.
Lemma npar_pi : npar = List.length pi.
Proof. rewrite Hcs. apply map_length. Qed.

Definition irel (I I' : initrec XR) : Prop :=
  i_opts I' = unit_opts k c cs (i_opts I) /\ i_model I' = i_model I /\ i_op I' = unit_opened c (i_op I) /\ i_cov I' = unit_cov cs (i_cov I) /\
  i_set I' = mset cs (i_set I) /\ List.length (p_theta (i_set I)) = npar /\ i_nsos I' = i_nsos I /\ i_iacce I' = i_iacce I /\ i_io I' = unit_io c (i_io I) /\
  (exists ps, decl ps /\ i_op I = check_prior_sigma (openparameterstructure ps)) /\ convertible k cs (i_opts I).

Lemma sel_at v : sel (us c v) pi = us cs (sel v pi).
Proof. rewrite Hcs. apply us_sel. Qed.
Lemma pos_cs : posl cs.
Proof. rewrite Hcs. clear -Hc. induction pi as [|i l IH]; cbn [map]; constructor; [now apply pos_nth|exact IH]. Qed.
Lemma view_at ps : decl ps -> view (unit_opened c (check_prior_sigma (openparameterstructure ps))) = unit_view c (view (check_prior_sigma (openparameterstructure ps))).
Proof.
  intros (_ & D & _).
  unfold view, unit_view. cbn [openparameterstructure check_prior_sigma setup_adaptation_indices unit_opened op_parind op_lower op_upper op_mu op_sigma v_npar v_parind v_lower v_upper v_mu v_sigma].
  rewrite D, <- Hcs, !sel_at. reflexivity.
Qed.
Lemma init_same ps dt ms o rdr pos calls : decl ps -> convertible k cs o -> start_known ps o ->
  outcomes (fun I I' => irel I I' /\ o_qcov (i_opts I) = o_qcov o) (initialize_simulation E ps dt ms o rdr pos calls)
    (initialize_simulation E' (unit_params c ps) dt ms (unit_opts k c cs o) (unit_rdr cs rdr) pos (map (us c) calls)).
Proof.
  intros D Hv Hq. unfold initialize_simulation. apply out_same. intros m1 _. rewrite open_unit by exact Hc.
  assert (PI : op_parind (openparameterstructure ps) = pi) by (destruct D as (_ & D & _); cbn [openparameterstructure setup_adaptation_indices op_parind]; now rewrite D).
  match goal with |- context [check_dependent_simulation_options (unit_opts k c cs o) ?x] =>
    change (check_dependent_simulation_options (unit_opts k c cs o) x) with (unit_opts k c cs (check_dependent_simulation_options o x)) end.
  set (o' := check_dependent_simulation_options o _).
  assert (QO : o_qcov o' = o_qcov o /\ o_restart o' = o_restart o /\ o_qcov_adjust o' = o_qcov_adjust o) by (repeat split; reflexivity).
  assert (C1 : check_parameter_limits (unit_opened c (openparameterstructure ps)) = check_parameter_limits (openparameterstructure ps)).
  { unfold check_parameter_limits. cbn [unit_opened op_parind op_lower op_upper]. rewrite PI, !sel_at. now rewrite us_le by apply pos_cs. }
  assert (C2 : check_initial_values (unit_opened c (openparameterstructure ps)) = check_initial_values (openparameterstructure ps)).
  { unfold check_initial_values. cbn [unit_opened op_parind op_lower op_upper op_initial]. rewrite PI, !sel_at. now rewrite !us_lt by apply pos_cs. }
  rewrite C1, C2. apply out_same. intros _ _. apply out_same. intros _ _.
  rewrite check_unit by exact Hc.
  pose proof (view_at ps D) as VW.
  assert (OPI : op_initial (check_prior_sigma (openparameterstructure ps)) = map (@a_theta0 XR) ps) by reflexivity.
  assert (VF : o_qcov o' <> None \/ Forall2 usable (op_sigma (check_prior_sigma (openparameterstructure ps))) (op_initial (check_prior_sigma (openparameterstructure ps)))).
  { destruct Hq as [Hq|Hq]; [left; exact Hq|right]. rewrite OPI. now apply usable_starts. }
  set (op := check_prior_sigma (openparameterstructure ps)) in *.
  assert (PI2 : op_parind op = pi) by exact PI.
  assert (T0 : sel (op_initial (unit_opened c op)) (op_parind (unit_opened c op)) = us cs (sel (op_initial op) (op_parind op))).
  { cbn [unit_opened op_initial op_parind]. rewrite PI2. apply sel_at. }
  rewrite T0. set (theta0 := sel (op_initial op) (op_parind op)) in *.
  pose proof (initialize_covariance_unit c pi Hc E E') as CV. rewrite <- Hcs in CV. specialize (CV HE eq_refl eq_refl).
  specialize (CV (o_method o') (o_ntry o') (o_drscale o') (o_RDR o') (o_qcov o') (o_adascale o') (o_initqcovn o') (op_sigma op) (op_initial op) (op_no_adapt op) rdr theta0 VF).
  cbn [unit_opened op_sigma op_initial op_parind op_no_adapt]. rewrite PI2.
  change (o_method (unit_opts k c cs o')) with (o_method o'). change (o_ntry (unit_opts k c cs o')) with (o_ntry o'). change (o_drscale (unit_opts k c cs o')) with (o_drscale o').
  change (o_RDR (unit_opts k c cs o')) with (option_map (map (map (us cs))) (o_RDR o')). change (o_qcov (unit_opts k c cs o')) with (option_map (unit_qcov c) (o_qcov o')).
  change (o_adascale (unit_opts k c cs o')) with (o_adascale o'). change (o_initqcovn (unit_opts k c cs o')) with (o_initqcovn o').
  rewrite CV. destruct (initialize_covariance E _ _ _ _ _ _ _ _ _ _ _ _ _) as [cov|]; [|reflexivity]. cbn [rmap bind].
  fold (unit_opened c op). rewrite VW. assert (VP : v_parind (view op) = pi) by exact PI2.
  pose proof (sos_unit c E (view op) Hc theta0 (mkio pos (op_initial op) calls)) as SM. rewrite VP, <- Hcs in SM.
  change (mkio pos (us c (op_initial op)) (map (us c) calls)) with (unit_io c (mkio pos (op_initial op) calls)). rewrite SM.
  pose proof (prior_unit c E (view op) Hc theta0) as PM. rewrite VP, <- Hcs in PM. rewrite PM.
  destruct (evaluate_sos_function E (view op) theta0 (mkio pos (op_initial op) calls)) as [ss s1]. cbn [fst snd].
  apply out_same. intros m2 _. cbn [outcomes]. split; [|reflexivity]. unfold irel. cbn [i_opts i_model i_op i_cov i_set i_nsos i_iacce i_io p_theta].
  repeat (split; [reflexivity|]). split; [unfold theta0, sel; rewrite map_length, PI2; symmetry; apply npar_pi|].
  repeat (split; [reflexivity|]). split; [exists ps; split; [exact D|reflexivity]|]. exact Hv.
Qed.

(** ** Chains *)
Definition arel (x y : list (list XR) * list (list XR) * option (list (list XR)) * list (string * chref XR)) : Prop :=
  let '(c, s, s2, l) := x in let '(c', s', s2', l') := y in c' = map (us cs) c /\ s' = s /\ s2' = s2 /\ Forall2 (unit_ref cs) l l'.
Lemma irel_pi I I' : irel I I' -> op_parind (i_op I) = pi.
Proof. intros (_ & _ & _ & _ & _ & _ & _ & _ & _ & (ps & (_ & D & _) & ->) & _). cbn [check_prior_sigma openparameterstructure setup_adaptation_indices op_parind]. now rewrite D. Qed.
Lemma zeros_us n m : map (us cs) (zeros n m) = zeros n m.
Proof.
  assert (Z : forall e j, us e (repeat (n0 : XR) j) = repeat n0 j).
  { induction e as [|r e IH]; intros j; [apply us_nil|]. destruct j as [|j]; [reflexivity|]. cbn [repeat us]. now rewrite sc_zero, IH. }
  unfold zeros. induction n as [|n IH]; cbn [repeat map]; [reflexivity|]. now rewrite Z, IH.
Qed.
Lemma chains_same I I' s2 : irel I I' -> outcomes arel (initialize_chains I s2) (initialize_chains I' s2).
Proof.
  intros H. pose proof (irel_pi _ _ H) as HP. destruct H as (Ho & Hm & Hp & Hcv & Hs & HL & Hn & _). unfold initialize_chains. rewrite Ho, Hp, Hs, Hn. cbn [unit_opened op_parind mset p_theta p_ss].
  change (o_nsimu (unit_opts k c cs (i_opts I))) with (o_nsimu (i_opts I)). change (o_updatesigma (unit_opts k c cs (i_opts I))) with (o_updatesigma (i_opts I)).
  rewrite HP, <- npar_pi, !fit_len by (rewrite ?us_length; exact HL).
  rewrite <- (zeros_us (o_nsimu (i_opts I)) npar) at 2.
  eapply out_bind; [apply write_us|]. intros ch ch' ->.
  apply out_same. intros r _. apply out_same. intros ss _. destruct (o_updatesigma (i_opts I)).
  - apply out_same. intros q _. apply out_same. intros w _. cbn. repeat (split; [reflexivity|]). repeat constructor.
  - cbn. repeat (split; [reflexivity|]). repeat constructor.
Qed.
Definition wellrun (m : mcmc XR) : Prop :=
  decl (m_params m) /\ convertible k cs (m_opts m) /\
  (forall r, m_results m = Some r -> rr_parind r = pi /\ rr_names r = map (fun i => nth i (map (@a_name XR) ps0) EmptyString) pi).
Definition orel2 (m m' : mcmc XR) : Prop := in_units k c cs m m' /\ wellrun m.
Lemma expand_same m m' I I' : orel2 m m' -> irel I I' -> outcomes arel (expand_chains m I) (expand_chains m' I').
Proof.
  intros [H _] HI. pose proof (irel_pi _ _ HI) as HP. destruct HI as (Ho & Hm & Hp & Hcv & _ & _ & Hn & _). unfold expand_chains.
  rewrite Ho, Hp, Hn, (un_chain _ _ _ _ _ H), (un_sschain _ _ _ _ _ H), (un_s2chain _ _ _ _ _ H). cbn [unit_opened op_parind].
  change (o_nsimu (unit_opts k c cs (i_opts I))) with (o_nsimu (i_opts I)). change (o_updatesigma (unit_opts k c cs (i_opts I))) with (o_updatesigma (i_opts I)).
  set (n := o_nsimu (i_opts I) - 1). set (np := List.length (op_parind (i_op I))).
  assert (EX : outcomes (fun a b => b = map (us cs) a) (extend (m_chain m) n np) (extend (map (us cs) (m_chain m)) n np)).
  { unfold extend. rewrite us_ncols. destruct (_ =? _); [|reflexivity]. cbn [outcomes]. now rewrite map_app, zeros_us. }
  eapply out_bind; [exact EX|]. intros ch ch' ->. apply out_same. intros ss _.
  assert (F : Forall2 (unit_ref cs) (map (fun e => (fst e, freeze m (snd e))) (m_chains m)) (map (fun e => (fst e, freeze m' (snd e))) (m_chains m'))).
  { pose proof (un_chains _ _ _ _ _ H) as X. induction X as [|[q r] [q' r'] l l' [H1 H2] H3 IH]; cbn [map]; constructor; [|exact IH].
    cbn [fst snd] in *. split; [exact H1|]. cbn [snd]. destruct r, r'; try contradiction; cbn [freeze].
    - right. apply (un_chain _ _ _ _ _ H).
    - left. apply (un_sschain _ _ _ _ _ H).
    - left. now rewrite (un_s2chain _ _ _ _ _ H).
    - exact H2. }
  destruct (o_updatesigma (i_opts I)).
  - apply out_same. intros s2 _. apply out_same. intros t _. cbn [outcomes arel]. auto.
  - cbn [outcomes arel]. auto.
Qed.

(** ** Runs and sessions *)
Lemma prepared_same m m' ps I I' i x y : orel2 m m' -> decl ps -> irel I I' -> arel x y ->
  outcomes (fun t t' => orel2 t t' /\ m_opts t = i_opts I) (run_prepared E m ps I i x) (run_prepared E' m' (unit_params c ps) I' i y).
Proof.
  intros [H _] D HI Ha. pose proof (irel_pi _ _ HI) as HP. destruct HI as (Ho & Hm & Hp & Hcv & Hst & Hth & Hn & Hi & Hio & (qs & Dq & Hop) & Hcg).
  destruct x as [[[ch ss] s2] l], y as [[[ch' ss'] s2'] l']. destruct Ha as (-> & -> & -> & Hl).
  unfold run_prepared. eapply out_bind.
  - apply (execute_same k c cs pi Hcs Hk Hc E HE).
    + unfold krel, make_const. cbn [k_opts k_view k_nsos k_N0 k_N k_alias k_chains]. rewrite Ho, Hn, Hm, Hp. split; [exact HP|].
      split; [unfold view; cbn [v_npar]; rewrite HP; symmetry; apply npar_pi|]. split; [|split; [exact Hl|exact Hcg]]. rewrite Hop, view_at by exact Dq. reflexivity.
    + unfold start_state. rewrite Hcv, Hi, Hio, Hm, Hst.
      constructor; cbn [r_index r_iiadapt r_savecount r_lastbin r_rej r_rejin r_rejout r_chain r_cov r_iacce r_io r_trace r_old r_ss r_s2 r_sigma2 r_S20 r_fs]; auto.
      apply (un_fs _ _ _ _ _ H).
  - intros t t' [[P [O OL] Ch Cv Io Fs Tr] _]. inversion P as [[P1 P2 P3 P4 P5 P6 P7 P8 P9 P10 P11 P12]]. clear P.
    cbn [outcomes]. split; [split|reflexivity].
    + rewrite Ho. constructor;
        cbn [m_params m_data m_model m_opts m_RDR m_status m_chain m_sschain m_s2chain m_index m_chains m_pos m_calls m_fs m_results m_trace]; auto.
      * apply (un_data _ _ _ _ _ H).
      * now rewrite P10, P11, Hm.
      * now rewrite Cv.
      * now rewrite Io.
      * now rewrite Io.
      * change (o_save_to_json (unit_opts k c cs (i_opts I))) with (o_save_to_json (i_opts I)). destruct (o_save_to_json (i_opts I)); [|exact Fs]. apply snoc_same; [exact Fs|]. cbn. auto.
      * cbn [option_map]. f_equal. unfold generate_results, unit_results. cbn [rr_theta rr_parind rr_total_rejected rr_outside rr_R rr_qcov rr_cov rr_mean rr_names rr_allnames rr_lower rr_upper rr_nsimu rr_iacce rr_opts rr_model rr_chain rr_sschain rr_s2chain].
        replace (proposal_cov t') with (both cs (proposal_cov t)) by (unfold proposal_cov; rewrite Cv; symmetry; apply gram_both; apply pos_cs).
        rewrite Ho, Hp, P5, P7, P8, P9, P10, P11, P12, Ch, Cv, O, Hm. cbn [unit_opened op_value op_parind op_names op_lower op_upper unit_cov c_R c_covchain c_meanchain mset p_theta].
        rewrite HP. rewrite !sel_at. rewrite Hcs at 1. rewrite us_scatter. reflexivity.
      * rewrite map_app, Tr, (un_trace _ _ _ _ _ H). reflexivity.
    + split; [exact D|]. split; [exact Hcg|]. cbn [m_results].
      intros r Hr. inversion Hr; subst r. unfold generate_results. cbn [rr_parind rr_names]. split; [exact HP|]. rewrite HP, Hop. cbn [check_prior_sigma openparameterstructure setup_adaptation_indices op_names].
      destruct Dq as (-> & _). reflexivity.
Qed.

Lemma one_unit r name v : forall e ps, List.length e = List.length ps ->
  (forall i p, nth_error ps i = Some p -> a_name p = name -> nth i e 1%R = r) ->
  map (restart_one name (sc r v)) (unit_params e ps) = unit_params e (map (restart_one name v) ps).
Proof.
  induction e as [|x e IH]; intros [|p ps] L H; try discriminate; [reflexivity|]. cbn [unit_params map]. f_equal.
  - unfold restart_one. cbn [unit_param a_name a_theta0 a_min a_max a_mu a_sigma a_sample a_adapt]. destruct (String.eqb name (a_name p)) eqn:N; [|reflexivity].
    apply String.eqb_eq in N. assert (X : x = r) by (apply (H 0 p); [reflexivity|now symmetry]). subst x. unfold unit_param. cbn [a_name a_theta0 a_min a_max a_mu a_sigma a_sample a_adapt].
    f_equal; [destruct (a_sample p); reflexivity|]. destruct (a_mu p); reflexivity.
  - apply IH; [now injection L|]. intros i q Hq. apply (H (S i) q Hq).
Qed.
Lemma decl_one name v ps : decl ps -> decl (map (restart_one name v) ps).
Proof.
  intros (D1 & D2 & D3). unfold decl. rewrite !map_map, <- D1, <- D2, <- D3.
  repeat split; apply map_ext; intros p; unfold restart_one; destruct (String.eqb _ _); reflexivity.
Qed.
Lemma loop_same names theta : forall l ii ps, decl ps ->
  (forall q i, nth_error l q = Some i -> i < List.length ps0 /\ nth_error names (ii + q) = Some (nth i (map (@a_name XR) ps0) EmptyString)) ->
  outcomes (fun a b => b = unit_params c a /\ decl a) (results_to_params_loop ii names theta l ps) (results_to_params_loop ii names (us c theta) l (unit_params c ps)).
Proof.
  induction l as [|i l IH]; intros ii ps D H; cbn [results_to_params_loop]; [cbn; auto|].
  destruct (H 0 i eq_refl) as [Hi Hn]. rewrite Nat.add_0_r in Hn. rewrite Hn. cbn [of_option bind]. rewrite us_nth_error.
  destruct (nth_error theta i) as [v|]; [|reflexivity]. cbn [option_map of_option bind]. rewrite one_unit.
  - apply IH; [now apply decl_one|]. intros q j Hj. destruct (H (S q) j Hj) as [A B]. split; [exact A|]. rewrite <- B. f_equal. lia.
  - rewrite Hlen. symmetry. now apply decl_length.
  - intros j p Hj Np. assert (j = i); [|now subst].
    destruct D as (D1 & _). assert (X : nth_error (map (@a_name XR) ps0) j = Some (a_name p)) by (rewrite <- D1; now apply map_nth_error).
    apply (proj1 (NoDup_nth_error _) Hnames); [apply nth_error_Some; congruence|]. rewrite X, Np. symmetry. apply nth_error_nth'. now rewrite map_length.
Qed.
Lemma run_same u m m' : orel2 m m' -> covariance_known ps0 (m_opts m) \/ (u = false /\ start_known (m_params m) (m_opts m)) ->
  outcomes (fun t t' => orel2 t t' /\ o_qcov (m_opts t) = o_qcov (m_opts m)) (run_simulation E u m) (run_simulation E' u m').
Proof.
  intros H0 CK. pose proof H0 as [H (D & CG & HR)]. unfold run_simulation.
  rewrite (un_params _ _ _ _ _ H), (un_data _ _ _ _ _ H), (un_model _ _ _ _ _ H), (un_opts _ _ _ _ _ H), (un_RDR _ _ _ _ _ H), (un_status _ _ _ _ _ H), (un_index _ _ _ _ _ H), (un_pos _ _ _ _ _ H), (un_calls _ _ _ _ _ H).
  destruct u.
  - destruct CK as [CK|[? _]]; [|discriminate].
    destruct (m_status m) eqn:St; [|reflexivity]. rewrite (un_results _ _ _ _ _ H). destruct (m_results m) as [r|]; [|reflexivity]. cbn [option_map].
    destruct (HR r eq_refl) as [R1 R2]. eapply out_bind.
    + unfold results_to_params, restart_of. cbn [unit_results rr_names rr_parind rr_theta rr_qcov rs_names rs_parind rs_theta]. apply loop_same; [exact D|].
      rewrite R1, R2. intros q i Hq. split; [apply pi_bound; now apply nth_error_In in Hq|]. cbn [Nat.add]. now apply (map_nth_error (fun i => nth i (map (@a_name XR) ps0) EmptyString)) in Hq.
    + intros ps ps' [-> Dp]. eapply out_bind; [apply init_same; [exact Dp|exact CG|now apply known_start]|]. intros I I' [HI QI].
      eapply out_bind; [apply expand_same; [exact H0|exact HI]|]. intros x y Hxy. eapply out_weaken; [|now apply prepared_same]. intros t t' [T1 T2]. split; [exact T1|now rewrite T2].
  - assert (SK : start_known (m_params m) (m_opts m)) by (destruct CK as [CK|[_ CK]]; [now apply known_start|exact CK]).
    assert (CR : o_restart (m_opts m) = None) by exact (proj1 CG). change (o_restart (unit_opts k c cs (m_opts m))) with (o_restart (m_opts m)). rewrite CR. cbn [bind].
    eapply out_bind; [apply init_same; [exact D|exact CG|exact SK]|]. intros I I' [HI QI].
    replace (lst (ms_sigma2 (i_model I'))) with (lst (ms_sigma2 (i_model I))) by (destruct HI as (_ & -> & _); reflexivity).
    eapply out_bind; [apply chains_same; exact HI|]. intros x y Hxy. eapply out_weaken; [|now apply prepared_same]. intros t t' [T1 T2]. split; [exact T1|now rewrite T2].
Qed.
Lemma acts_same l : all_options (fun o => convertible k cs o /\ covariance_known ps0 o) l -> forall m m', orel2 m m' -> covariance_known ps0 (m_opts m) ->
  outcomes orel2 (acts E l m) (acts E' (map (unit_action k c cs) l) m').
Proof.
  induction 1 as [|a l Ha Hl IH]; intros m m' H K; cbn [acts map]; [exact H|].
  eapply out_bind with (R := fun t t' => orel2 t t' /\ covariance_known ps0 (m_opts t)); [|intros u v [Huv Ku]; now apply IH].
  destruct a as [o|ms|u]; cbn [act unit_action].
  - cbn. destruct H as [H (D & CG & HR)]. destruct Ha as [Ha1 Ha2]. split; [|exact Ha2]. split; [destruct H; constructor; cbn; auto|]. split; [exact D|]. split; assumption.
  - cbn. destruct H as [H (D & CG & HR)]. split; [|exact K]. split; [destruct H; constructor; cbn; auto|]. split; [exact D|]. split; assumption.
  - eapply out_weaken; [|apply run_same; [exact H|now left]]. intros t t' [T1 T2]. split; [exact T1|]. unfold covariance_known. rewrite T2. exact K.
Qed.
Lemma new_same dt ms o pos l : convertible k cs o -> orel2 (new_mcmc ps0 dt ms o pos l) (new_mcmc (unit_params c ps0) dt ms (unit_opts k c cs o) pos l).
Proof.
  intros H. split.
  - constructor; cbn; auto. induction l as [|x l IH]; constructor; [|exact IH]. assert (S0 : forall r, unit_rows cs r r) by (intros r; left; now left). destruct x; cbn; auto.
  - split; [repeat split|]. split; [exact H|]. discriminate.
Qed.
End Session.
