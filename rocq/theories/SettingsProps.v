(** The properties C24-C28 and C51-C55 in the form in which they are stated in Prop_Settings.v. *)

From Coq Require Import ZArith QArith Bool Lia List String Reals Lra Sorting.Sorted.
From Verif Require Import Base Num Samplers SamplerFacts Adapt Settings Simulator RunSpec RunLift RVec GammaSpec SettingsFacts VarFacts
  SettingsThms Procedures ProcFacts ParamFacts ResumeFacts RunThms.
Import ListNotations.
Close Scope Q_scope.
Open Scope list_scope.

(** ** Options *)

Section O.
Context {F : Type} `{NF : Num F}.

Lemma options_resolved (w : rawopts F) date g :
  let o := check_dependent_simulation_options (define_simulation_options w date) g in
  let given {A} (x : option A) (d : A) := match x with Some v => v | None => d end in
  o_nsimu o = w_nsimu w /\ o_method o = w_method w /\
  o_adaptint o = (match w_method w with MH | DR => 0%Z | RAM => given (w_adaptint w) 1%Z | AM | DRAM => given (w_adaptint w) 100%Z end) /\
  o_ntry o = given (w_ntry w) (match w_method w with DR | DRAM => 2%nat | MH | AM | RAM => 1%nat end) /\
  o_doram o = given (w_doram w) (match w_method w with RAM => true | _ => false end) /\
  o_adascale o = (match w_adascale w, w_method w with Some a, _ => Some a | None, RAM => Some n1 | None, _ => None end) /\
  o_dodram o = (1 <? o_ntry o)%nat /\
  (o_savesize o = if (0 <? w_savesize w)%Z && (w_savesize w <=? Z.of_nat (w_nsimu w))%Z then w_savesize w else Z.of_nat (w_nsimu w)) /\
  ((1 <= w_nsimu w)%nat -> (1 <= o_savesize o <= Z.of_nat (w_nsimu w))%Z) /\
  o_lastadapt o = (if (1 <=? w_lastadapt w)%Z then w_lastadapt w else Z.of_nat (w_nsimu w)) /\
  o_printint o = Some (given (w_printint w) (Z.max 100 (Z.min 1000 (o_adaptint o)))) /\
  o_updatesigma o = g || w_updatesigma w /\
  (w_save_to_json w = true -> (o_save_lightly o = true <-> w_save_to_bin w = true \/ w_save_to_txt w = true)) /\
  o_savedir o = given (w_savedir w) (date ++ "_chain_log")%string.
Proof.
  cbv zeta. unfold check_dependent_simulation_options, define_simulation_options, check_lightly_save.
  cbn [o_nsimu o_method o_adaptint o_ntry o_doram o_adascale o_dodram o_savesize o_lastadapt o_printint o_updatesigma o_save_lightly o_savedir].
  assert (HSV : (if ((w_savesize w <=? 0) || (Z.of_nat (w_nsimu w) <? w_savesize w))%Z then Z.of_nat (w_nsimu w) else w_savesize w) =
    if (0 <? w_savesize w)%Z && (w_savesize w <=? Z.of_nat (w_nsimu w))%Z then w_savesize w else Z.of_nat (w_nsimu w)).
  { destruct (Z.leb_spec (w_savesize w) 0), (Z.ltb_spec (Z.of_nat (w_nsimu w)) (w_savesize w)),
      (Z.ltb_spec 0 (w_savesize w)), (Z.leb_spec (w_savesize w) (Z.of_nat (w_nsimu w))); cbn; lia. }
  split; [reflexivity|]. split; [reflexivity|].
  split; [destruct (w_adaptint w), (w_method w); reflexivity|].
  split; [destruct (w_ntry w), (w_method w); reflexivity|].
  split; [destruct (w_doram w), (w_method w); reflexivity|].
  split; [destruct (w_adascale w), (w_method w); reflexivity|].
  split; [reflexivity|]. split; [exact HSV|]. split.
  { intros H. rewrite HSV. destruct (Z.ltb_spec 0 (w_savesize w)), (Z.leb_spec (w_savesize w) (Z.of_nat (w_nsimu w))); cbn [andb]; lia. }
  split; [destruct (Z.ltb_spec (w_lastadapt w) 1), (Z.leb_spec 1 (w_lastadapt w)); lia|].
  split; [destruct (w_printint w); reflexivity|].
  split; [destruct g; reflexivity|].
  split; [intros ->; rewrite orb_true_iff; reflexivity|].
  destruct (w_savedir w); reflexivity.
Qed.

(** Prior means survive a restart. *)
Lemma restart_means r (ps ps' : list (param F)) :
  (forall p, In p ps -> nisnan (a_theta0 p) = false) -> (forall v, In v (rs_theta r) -> nisnan v = false) ->
  results_to_params r ps = Ok ps' ->
  map (fun p => if nisnan (a_mu p) then a_theta0 p else a_mu p) ps' = map (fun p => if nisnan (a_mu p) then a_theta0 p else a_mu p) ps.
Proof. intros H1 H2 H3. exact (restart_prior_means r ps ps' H1 H2 H3). Qed.

(** The first row of the variance chain. *)
Lemma first_row (E : env F) (L : forall a : F, nmul n1 a = a) m m' n : run_simulation E false m = Ok m' ->
  (forall v, List.length (e_sos E v) = n) -> o_updatesigma (m_opts m') = true ->
  exists s2, m_s2chain m' = Some s2 /\
    nth_error s2 0 = Some (match ms_sigma2 (m_model m) with Some s => spread n s | None => repeat n1 n end).
Proof.
  intros H Hn Hu. pose proof (sizes_of_run E L false m m' H) as HS. cbv zeta in HS. rewrite Hn in HS. specialize (HS Hn).
  destruct HS as (sg & Nv & _ & _ & _ & _ & _ & _ & HI & _).
  apply first_variance_row in H as (s2 & H1 & H2); auto. exists s2. split; auto. rewrite H2, Hn. f_equal.
  unfold initial_variances in *. destruct (ms_sigma2 (m_model m)); [reflexivity|]. destruct (ms_N0 (m_model m)); [|reflexivity].
  rewrite repeat_length in HI. destruct HI as [-> | ->]; [reflexivity|]. destruct n as [|[|n]]; reflexivity.
Qed.
End O.

(** ** Variances *)

(** The components do not influence each other except through the position in the stream. *)
Lemma draws_app nrm unif q1 : forall q2 p vs p', variance_draws nrm unif (q1 ++ q2) p vs p' <->
  exists v1 pm v2, vs = v1 ++ v2 /\ variance_draws nrm unif q1 p v1 pm /\ variance_draws nrm unif q2 pm v2 p'.
Proof.
  induction q1 as [|[[[a b] c] d] q1 IH]; intros q2 p vs p'; split.
  - intros H. exists [], p, vs. split; [reflexivity|]. split; [constructor|exact H].
  - intros (v1 & pm & v2 & -> & H1 & H2). inversion H1; subst. exact H2.
  - intros H. cbn in H. inversion H as [|? ? ? ? ? ? v p1 vs' ? HD HR]; subst. apply IH in HR as (v1 & pm & v2 & -> & H1 & H2).
    exists (v :: v1), pm, v2. split; [reflexivity|]. split; [econstructor; eauto|exact H2].
  - intros (v1 & pm & v2 & -> & H1 & H2). inversion H1 as [|? ? ? ? ? ? v p1 vs' ? HD HR]; subst. cbn. econstructor; [eassumption|].
    apply IH. eauto 6.
Qed.

(** The scale of every draw is the one known before the first iteration. *)
Lemma scale_fixed (E : env XR) nrm unif sos n b m m' N0 S20 N :
  (forall k, s_normal (e_str E) k = Fin (nrm k)) -> (forall k, s_unif (e_str E) k = Fin (unif k)) -> (forall k, (0 <= unif k)%R) ->
  (forall v, e_sos E v = fin (sos v)) -> (forall v, List.length (sos v) = n) ->
  run_simulation E b m = Ok m' -> o_updatesigma (m_opts m') = true -> ms_alias (m_model m) = false ->
  (existsb nisnan (ms_S20 (m_model m)) = false \/ List.length (initial_variances (m_model m) (m_data m)) = 1%nat) ->
  prior_scale (m_model m) (m_data m) = fin S20 ->
  ms_N0 (m_model m') = Some (fin N0) -> ms_N (m_model m') = Some (fin N) ->
  (forall v, Forall proper (components N0 (spread n S20) N (sos v) n)) ->
  ms_S20 (m_model m') = fin (spread n S20) /\
  exists evs s2, m_trace m' = rev evs ++ m_trace m /\ List.length evs = (o_nsimu (m_opts m) - 1)%nat /\ m_s2chain m' = Some s2 /\
  forall k e, nth_error evs k = Some e ->
    exists v row p, let i := ((if b then m_index m else 0) + S k)%nat in
      nth_error (m_sschain m') i = Some (fin (sos v)) /\ nth_error s2 i = Some row /\ (ev_pos e <= p)%nat /\
      variance_draws nrm unif (components N0 (spread n S20) N (sos v) n) p row (nth (S k) (map (@ev_pos XR) evs) (m_pos m')).
Proof.
  intros Hn Hu Hu0 Hs Hl H Hup HA HB HP E0 E2 Hpr.
  pose proof (separate_arrays E b m m' H HA HB) as HA'.
  assert (HS : ms_S20 (m_model m') = fin (spread n S20)).
  { rewrite (scale_of_run E law_one_R b m m' H HA'), HP, Hs, fin_length, Hl.
    - destruct S20 as [|x [|]]; cbn [fin map spread]; try reflexivity. unfold fin. clear. induction n as [|n IH]; cbn; [reflexivity|]. now rewrite IH.
    - intros. now rewrite !Hs, !fin_length, !Hl. }
  split; [exact HS|]. eapply run_variances; eauto.
Qed.

(** With shared arrays the scale of a draw is the row before it. *)
Lemma shared_scale (E : env XR) nrm unif sos n m m' N0 N :
  (forall k, s_normal (e_str E) k = Fin (nrm k)) -> (forall k, s_unif (e_str E) k = Fin (unif k)) -> (forall k, (0 <= unif k)%R) ->
  (forall v, e_sos E v = fin (sos v)) -> (forall v, List.length (sos v) = n) -> ms_alias (m_model m) = false ->
  run_simulation E false m = Ok m' -> o_updatesigma (m_opts m') = true -> ms_alias (m_model m') = true ->
  ms_N0 (m_model m') = Some (fin N0) -> ms_N (m_model m') = Some (fin N) ->
  exists evs s2, m_trace m' = rev evs ++ m_trace m /\ List.length evs = (o_nsimu (m_opts m) - 1)%nat /\ m_s2chain m' = Some s2 /\
  forall k e before ss, nth_error evs k = Some e -> nth_error s2 k = Some (fin before) -> nth_error (m_sschain m') (S k) = Some (fin ss) ->
    Forall proper (components N0 before N ss n) ->
    exists row p p', nth_error s2 (S k) = Some row /\ variance_draws nrm unif (components N0 before N ss n) p row p'.
Proof.
  intros Hn Hu Hu0 Hs Hl HA H Hup HA' E0 E2.
  apply (aliased_course E m m' n) in H as (evs & s2 & T1 & T2 & T3 & T4); auto using law_one_R.
  2: { intros. now rewrite Hs, fin_length. }
  exists evs, s2. split; auto. split; auto. split; auto. intros k e before ss Hk Hb Hss Hp.
  destruct (T4 k e Hk) as (ssrow & bf & after & s & s' & X1 & X2 & X3 & X4).
  rewrite E0, E2 in X4. assert (Y : bf = fin before) by congruence. assert (Z : ssrow = fin ss) by congruence. subst bf ssrow.
  cbn [lst] in X4. rewrite quads_fin in X4. exists after, (io_pos s), (io_pos s'). split; auto. eapply drawn_ok; eauto.
Qed.
