(** Theorems about the settings in force during a run (C25-C28, C51, C54-C56). *)

From Coq Require Import ZArith QArith Bool Lia List String Reals Lra.
From Verif Require Import Base Num Samplers SamplerFacts Adapt Settings Simulator RunSpec RunFacts RunLift RVec SettingsFacts.
Import ListNotations.
Close Scope Q_scope.
Open Scope list_scope.
Open Scope nat_scope.

(** ** Vocabulary *)

Section Vocabulary.
Context {F : Type} `{NF : Num F}.

(** A single value stands for [n] equal ones. *)
Definition spread (n : nat) (x : list F) : list F :=
  match x with [a] => repeat a n | _ => x end.

(** The initial error variances before they are spread over the SS components: the user's, or ones. *)
Definition initial_variances (ms : modset F) (d : data F) : list F :=
  match ms_sigma2 ms with
  | Some s => s
  | None => match ms_N0 ms with
            | None => [n1]
            | Some _ => repeat n1 (match ms_nbatch ms with Some b => b | None => List.length (dt_shape d) end)
            end
  end.

(** The prior scale: the user's, or the initial variances if it is missing (NaN). *)
Definition prior_scale (ms : modset F) (d : data F) : list F :=
  if existsb nisnan (ms_S20 ms) then initial_variances ms d else ms_S20 ms.

(** The prior weight: the user's; without one 1 if variances were given and 0 otherwise. *)
Definition prior_weight (ms : modset F) : list F :=
  match ms_N0 ms with Some n => n | None => match ms_sigma2 ms with Some _ => [n1] | None => [n0] end end.
End Vocabulary.

Section G.
Context {F : Type} `{NF : Num F}.
Variable E : env F.

Lemma check_dep_ok ms d ms1 : check_dependent_model_settings ms d = Ok ms1 ->
  exists N, ms1 = mkms (Some (initial_variances ms d)) (Some N) (Some (prior_weight ms)) (prior_scale ms d)
      (Some (match ms_nbatch ms with Some b => b | None => List.length (dt_shape d) end))
      (existsb nisnan (ms_S20 ms) || ms_alias ms) /\
    (match ms_N ms with
     | Some udN => check_number_of_observations udN (map nnat (dt_n d)) = Ok N
     | None => N = map nnat (dt_n d) end).
Proof.
  unfold check_dependent_model_settings. intros H. peel H. exists a.
  assert (HN : match ms_N ms with
     | Some udN => check_number_of_observations udN (map nnat (dt_n d)) = Ok a
     | None => a = map nnat (dt_n d) end) by (destruct (ms_N ms); congruence).
  split; [|exact HN]. unfold prior_scale, prior_weight, get_number_of_batches in *. unfold initial_variances.
  destruct (ms_N0 ms) as [n0v|]; destruct (ms_sigma2 ms) as [sg|]; cbn iota in H |- *;
    destruct (existsb nisnan (ms_S20 ms)); cbn [orb] in *; try congruence.
Qed.

Definition law_one : Prop := forall a : F, nmul n1 a = a.

Lemma check_size_spread (L : law_one) x n y : check_size_of_setting x n = Ok y ->
  y = spread n x /\ List.length y = n /\ (List.length x = 1 \/ List.length x = n).
Proof.
  intros H. apply check_size_length in H as [Hl [(a & -> & ->)|[H1 ->]]].
  - rewrite L. rewrite L in Hl. cbn. auto.
  - split; auto. unfold spread. destruct x as [|a [|b x]]; auto. cbn in H1. subst n. reflexivity.
Qed.

(** A run leaves S20, N0 and sigma2 with one entry per SS component, spread from the user's values. *)
Lemma sizes_of_run (L : law_one) b m m' : run_simulation E b m = Ok m' ->
  let n := List.length (e_sos E (map (@a_theta0 F) (m_params m'))) in
  let one_or_n (x : list F) := List.length x = 1 \/ List.length x = n in
  (forall v, List.length (e_sos E v) = n) ->
  exists sg N, m_model m' = mkms (Some sg) (Some N) (Some (spread n (prior_weight (m_model m)))) (ms_S20 (m_model m'))
       (ms_nbatch (m_model m')) (ms_alias (m_model m')) /\
    List.length sg = n /\ List.length (ms_S20 (m_model m')) = n /\ List.length (spread n (prior_weight (m_model m))) = n /\
    one_or_n (prior_weight (m_model m)) /\ one_or_n (prior_scale (m_model m) (m_data m)) /\
    one_or_n (initial_variances (m_model m) (m_data m)) /\
    (n = 1 -> 2 <= List.length (dt_n (m_data m)) -> ms_N (m_model m) = None -> N = [vsum (map nnat (dt_n (m_data m)))]) /\
    (forall k, dt_n (m_data m) = [k] -> ms_N (m_model m) = None -> N = repeat (nnat k) n) /\
    (List.length (dt_n (m_data m)) = n -> ms_N (m_model m) = None -> N = map nnat (dt_n (m_data m))).
Proof.
  intros H n one_or_n Hn. apply run_model in H as (ini & ms1 & st0 & st & chains & H). cbv zeta in H.
  destruct H as (H1 & H2 & H3 & H4 & H5 & H6 & H7 & H8 & H9 & H10 & H11 & H12 & H13 & H14 & H15 & H16 & H17 & H18 & H19 & H20 & H21 & H22 & H23).
  fold n in H4. rewrite H23. cbn [ms_S20 ms_nbatch ms_alias].
  apply check_dep_ok in H2 as (N1 & EM1 & HN).
  apply check_wrt_nsos_ok in H3 as (S20' & N0' & sg' & N' & EM & C1 & C2 & C3 & C4). rewrite EM. cbn [ms_N ms_N0 ms_nbatch ms_alias].
  rewrite EM1 in C1, C2, C3, C4. cbn [ms_S20 ms_N0 ms_sigma2 ms_N lst] in C1, C2, C3, C4. rewrite H4 in *.
  apply (check_size_spread L) in C1 as (-> & D1 & D1'), C2 as (-> & D2 & D2'), C3 as (-> & D3 & D3').
  assert (HL : List.length (r_sigma2 st) = n /\ List.length (r_S20 st) = n).
  { assert (I0 : List.length (r_sigma2 st0) = n /\ List.length (r_S20 st0) = n).
    { rewrite H8. cbn. rewrite EM. cbn. auto. }
    unfold execute in H9. peel H9. destruct (o_nsimu _ <=? 1); [discriminate|]. peel H9. peel H9.
    match type of H9 with Ok ?x = _ => assert (st = x) as -> by congruence end. cbn [r_sigma2 r_S20]. clear - I0 E0.
    apply (iterate_ind E _ (fun _ s => List.length (r_sigma2 s) = n /\ List.length (r_S20 s) = n)) in E0; auto.
    intros i s1 s2 _ [A B] Hs.
    apply step_parts in Hs as (stage & new & outb & z & iacce & s & st1 & st2 & st3 & S1 & S2 & S3 & S4 & S5).
    apply save_frame in S5 as (_ & _ & _ & _ & _ & _ & _ & _ & _ & _ & -> & -> & _).
    apply adapt_frame in S3 as (_ & _ & _ & _ & _ & _ & _ & _ & _ & A10 & A11 & _).
    unfold update_chain in S2. peel S2. peel S2. peel S2. peel S2. inv S2. cbn in A10, A11.
    unfold sigma_step in S4. destruct (o_updatesigma _); [|inv S4; rewrite A10, A11; auto].
    destruct (update_error_variance _ _ _ _ _ _ _ _ _ _) as [[[sg S20v] s']|] eqn:EU in S4; [|discriminate]. cbn [bind] in S4. peel S4. peel S4. peel S4. inv S4. cbn [r_sigma2 r_S20].
    apply update_error_variance_io in EU as (_ & _ & L1 & L2 & _). rewrite L1, L2, A10, A11. auto. }
  destruct HL as [HL1 HL2].
  exists (r_sigma2 st), N'. split; [reflexivity|]. split; [exact HL1|]. split; [exact HL2|]. split; [exact D2|].
  split; [exact D2'|]. split; [exact D1'|]. split; [exact D3'|]. split; [|split].
  - intros Hn1 H2 HNone. rewrite HNone in HN. subst N1. unfold check_size_of_observations in C4.
    destruct (dt_n (m_data m)) as [|x [|y l]]; [cbn in H2; lia|cbn in H2; lia|]. rewrite Hn1 in C4. cbn in C4.
    inversion C4. reflexivity.
  - intros k Hk HNone. rewrite HNone in HN. subst N1. rewrite Hk in C4. cbn in C4. rewrite L in C4. congruence.
  - intros Hk HNone. rewrite HNone in HN. subst N1. unfold check_size_of_observations in C4.
    destruct (dt_n (m_data m)) as [|x [|y l]].
    + cbn in Hk. rewrite <- Hk in C4. cbn in C4. cbn. congruence.
    + cbn in Hk. rewrite <- Hk in C4. cbn in C4. rewrite L in C4. cbn. congruence.
    + cbn [map] in *. set (N1 := nnat x :: nnat y :: map nnat l) in *.
      assert (HN1 : List.length N1 = n) by (rewrite <- Hk; unfold N1; cbn; now rewrite map_length).
      assert (H1n : 2 <= n) by (rewrite <- HN1; cbn; lia). unfold N1 in C4. fold N1 in C4. rewrite HN1 in C4.
      rewrite Nat.ltb_irrefl in C4. cbn [andb] in C4. destruct (n =? 1) eqn:Q; [apply Nat.eqb_eq in Q; lia|]. cbn [andb] in C4. congruence.
Qed.

(** The error variances before the first iteration. *)
Lemma first_variance_row (L : law_one) m m' : run_simulation E false m = Ok m' -> o_updatesigma (m_opts m') = true ->
  exists s2, m_s2chain m' = Some s2 /\
    nth_error s2 0 = Some (spread (List.length (e_sos E (map (@a_theta0 F) (m_params m')))) (initial_variances (m_model m) (m_data m))).
Proof.
  intros H Hu. apply run_model in H as (ini & ms1 & st0 & st & chains & H). cbv zeta in H.
  destruct H as (H1 & H2 & H3 & H4 & H5 & H6 & H7 & H8 & H9 & H10 & H11 & H12 & H13 & H14 & H15 & H16 & H17 & H18 & H19 & H20 & H21 & H22 & H23).
  apply check_dep_ok in H2 as (N1 & EM1 & HN).
  apply check_wrt_nsos_ok in H3 as (S20' & N0' & sg' & N' & EM & C1 & C2 & C3 & C4).
  rewrite EM1 in C3. cbn [ms_sigma2 lst] in C3. apply (check_size_spread L) in C3 as (-> & D3 & D3').
  rewrite EM in H7. cbn [ms_sigma2 lst] in H7. unfold initialize_chains in H7. rewrite H6 in Hu.
  peel H7. peel H7. peel H7. peel H7. rewrite Hu in H7. peel H7. peel H7.
  assert (Hs2 : r_s2 st0 = Some a4) by congruence. clear H7.
  unfold fit_row in E4. rewrite D3, Nat.eqb_refl in E4. apply write_ok in E5 as [W1 ->].
  pose proof (rc_s2frame _ _ _ _ _ H10 0) as Hf. rewrite Hs2 in Hf. rewrite H17.
  assert (Hf' : option_map (fun m => nth_error m 0) (r_s2 st) = Some (Some a3)).
  { etransitivity; [apply Hf; left; lia|]. unfold option_map. f_equal. apply set_nth_same. exact W1. }
  destruct (r_s2 st) as [s2|]; [|discriminate].
  exists s2. split; [reflexivity|]. cbn [option_map] in Hf'. rewrite <- H4. injection E4 as E4. rewrite E4. injection Hf' as Hf'. exact Hf'.
Qed.

(** Aliased arrays: every update takes the variances of the previous row as its prior scale. *)
Lemma aliased_course m m' n : (forall v, List.length (e_sos E v) = n) -> ms_alias (m_model m) = false ->
  run_simulation E false m = Ok m' -> o_updatesigma (m_opts m') = true -> ms_alias (m_model m') = true ->
  law_one ->
  exists evs s2, m_trace m' = rev evs ++ m_trace m /\ List.length evs = o_nsimu (m_opts m) - 1 /\ m_s2chain m' = Some s2 /\
  forall k e, nth_error evs k = Some e ->
    exists ssrow before after s s', nth_error (m_sschain m') (S k) = Some ssrow /\ nth_error s2 k = Some before /\
      nth_error s2 (S k) = Some after /\
      drawn E (quads (lst (ms_N0 (m_model m'))) before (lst (ms_N (m_model m'))) ssrow 0 n) s after s'.
Proof.
  intros Hn Hal H Hu Ha L. pose proof (first_variance_row L m m' H Hu) as (s20 & Q1 & Q2).
  apply run_model in H as (ini & ms1 & st0 & st & chains & H). cbv zeta in H.
  destruct H as (H1 & H2 & H3 & H4 & H5 & H6 & H7 & H8 & H9 & H10 & H11 & H12 & H13 & H14 & H15 & H16 & H17 & H18 & H19 & H20 & H21 & H22 & H23).
  rewrite Hn in H4, Q2. rewrite H23 in Ha |- *. cbn [ms_alias ms_S20 ms_N0 ms_N lst] in *. rewrite H6 in Hu.
  apply check_dep_ok in H2 as (N1 & EM1 & HN).
  apply check_wrt_nsos_ok in H3 as (S20' & N0' & sg' & N' & EM & C1 & C2 & C3 & C4).
  rewrite EM1 in EM, C1, C3. cbn [ms_sigma2 ms_S20 lst ms_alias] in *. rewrite Hal, orb_false_r in EM.
  assert (Hnan : existsb nisnan (ms_S20 (m_model m)) = true).
  { rewrite EM in Ha. cbn in Ha. apply andb_true_iff in Ha. tauto. }
  unfold prior_scale in C1. rewrite Hnan in C1. assert (S20' = sg') as -> by congruence.
  apply (check_size_spread L) in C3 as (-> & D3 & D3'). rewrite H4 in *.
  set (K := make_const ini chains) in *.
  assert (HK : k_alias K = true) by exact Ha.
  assert (HS0 : r_sigma2 st0 = spread n (initial_variances (m_model m) (m_data m)) /\ r_S20 st0 = r_sigma2 st0).
  { rewrite H8. cbn. rewrite EM. cbn. auto. }
  assert (Hs0 : exists s2, r_s2 st0 = Some s2 /\ nth_error s2 0 = Some (r_sigma2 st0)).
  { pose proof (rc_s2frame _ _ _ _ _ H10 0) as Hf. rewrite <- H17, Q1 in Hf.
    destruct (r_s2 st0) as [x|]; [|specialize (Hf (or_introl (Nat.le_0_l _))); discriminate].
    exists x. split; auto. specialize (Hf (or_introl (Nat.le_0_l _))). cbn [option_map] in Hf. destruct HS0 as [-> _]. injection Hf as Hf. etransitivity; [symmetry; exact Hf|exact Q2]. }
  assert (EI : r_index st0 = 0) by (rewrite H8; reflexivity).
  assert (HV : vinv E K n st0 st).
  { unfold execute in H9. peel H9. destruct (o_nsimu (k_opts K) <=? 1); [discriminate|]. peel H9. peel H9.
    match type of H9 with Ok ?x = _ => assert (st = x) as -> by congruence end.
    assert (HV : vinv E K n st0 a).
    { eapply (vinv_iterate E K n Hn); eauto.
      - rewrite H8. reflexivity.
      - destruct HS0 as [-> _]. exact D3.
      - unfold scale_used. rewrite HK, EI. destruct HS0 as [_ ->]. exact Hs0.
      - intros _. tauto. }
    exact HV. }
  destruct HV as (_ & _ & _ & V3).
  exists (rev (r_trace st)), s20. rewrite rev_involutive, rev_length. split; [exact H19|]. split; [exact H14|]. split; [exact Q1|].
  intros k e Hk. destruct (V3 k e Hk) as (S20v & SV & s2 & ssrow & row & s & s' & X1 & X2 & X3 & X4 & X5 & X6 & X7 & X8).
  unfold scale_used in SV. rewrite HK, EI in SV. destruct SV as (s2' & Y1 & Y2).
  rewrite EI in X2, X3. cbn [Nat.add] in *. assert (s2 = s20 /\ s2' = s20) as [-> ->] by (split; congruence).
  exists ssrow, S20v, row, s, s'. rewrite H16. split; [exact X2|]. split; [exact Y2|]. split; [exact X3|]. exact X5.
Qed.

(** When S20 and sigma2 are separate arrays after initialisation. *)
Lemma separate_arrays b m m' : run_simulation E b m = Ok m' -> ms_alias (m_model m) = false ->
  (existsb nisnan (ms_S20 (m_model m)) = false \/ List.length (initial_variances (m_model m) (m_data m)) = 1) ->
  ms_alias (m_model m') = false.
Proof.
  intros H Hal HC. apply run_model in H as (ini & ms1 & st0 & st & chains & H). cbv zeta in H.
  destruct H as (H1 & H2 & H3 & H4 & H5 & H6 & H7 & H8 & H9 & H10 & H11 & H12 & H13 & H14 & H15 & H16 & H17 & H18 & H19 & H20 & H21 & H22 & H23).
  apply check_dep_ok in H2 as (N1 & EM1 & HN).
  apply check_wrt_nsos_ok in H3 as (S20' & N0' & sg' & N' & EM & C1 & C2 & C3 & C4). rewrite H23, EM, EM1. cbn.
  rewrite Hal, orb_false_r. destruct HC as [-> | ->]; [reflexivity|]. cbn. apply andb_false_r.
Qed.
Lemma scale_of_run (L : law_one) b m m' : run_simulation E b m = Ok m' -> ms_alias (m_model m') = false ->
  (forall v w, List.length (e_sos E v) = List.length (e_sos E w)) ->
  ms_S20 (m_model m') = spread (List.length (e_sos E (map (@a_theta0 F) (m_params m')))) (prior_scale (m_model m) (m_data m)).
Proof.
  intros H Ha Hn. apply run_model in H as (ini & ms1 & st0 & st & chains & H). cbv zeta in H.
  destruct H as (H1 & H2 & H3 & H4 & H5 & H6 & H7 & H8 & H9 & H10 & H11 & H12 & H13 & H14 & H15 & H16 & H17 & H18 & H19 & H20 & H21 & H22 & H23).
  apply check_dep_ok in H2 as (N1 & EM1 & HN).
  apply check_wrt_nsos_ok in H3 as (S20' & N0' & sg' & N' & EM & C1 & C2 & C3 & C4). rewrite H23 in Ha |- *. cbn [ms_S20 ms_alias] in *.
  rewrite EM1 in C1. cbn [ms_S20] in C1. apply (check_size_spread L) in C1 as (-> & D1 & D1'). rewrite <- H4.
  assert (I0 : r_S20 st0 = spread (i_nsos ini) (prior_scale (m_model m) (m_data m))) by (rewrite H8; cbn; rewrite EM; reflexivity).
  rewrite <- I0. unfold execute in H9. peel H9. destruct (o_nsimu _ <=? 1); [discriminate|]. peel H9. peel H9.
  match type of H9 with Ok ?x = _ => assert (st = x) as -> by congruence end. cbn [r_S20].
  assert (HK : k_alias (make_const ini chains) = false) by exact Ha. revert E0 HK. clear. intros E0 HK.
  apply (iterate_ind E _ (fun _ s => r_S20 s = r_S20 st0)) in E0; auto.
  intros i s1 s2 _ A Hs.
  apply step_parts in Hs as (stage & new & outb & z & iacce & s & st1 & st2 & st3 & S1 & S2 & S3 & S4 & S5).
  apply save_frame in S5 as (_ & _ & _ & _ & _ & _ & _ & _ & _ & _ & _ & -> & _).
  apply adapt_frame in S3 as (_ & _ & _ & _ & _ & _ & _ & _ & _ & A10 & A11 & _).
  unfold update_chain in S2. peel S2. peel S2. peel S2. peel S2. inv S2. cbn in A10, A11.
  unfold sigma_step in S4. destruct (o_updatesigma _); [|inv S4; rewrite A11; auto].
    destruct (update_error_variance _ _ _ _ _ _ _ _ _ _) as [[[sg S20v] s']|] eqn:EU in S4; [|discriminate]. cbn [bind] in S4. peel S4. peel S4. peel S4. inv S4. cbn [r_S20].
  apply update_error_variance_io in EU as (_ & _ & _ & _ & L2 & _). rewrite L2, A11 by auto. exact A.
Qed.

(** ** Repeating the checks *)

(** Only updatesigma may differ after the second check. *)
Definition with_updatesigma (o : simopts F) (b : bool) : simopts F :=
  mkopts (o_nsimu o) (o_method o) (o_adaptint o) (o_ntry o) (o_dodram o) (o_doram o) (o_adascale o)
    (o_printint o) (o_lastadapt o) (o_burnintime o) (o_qcov o) (o_initqcovn o) b
    (o_qcov_adjust o) (o_burnin_scale o) (o_alphatarget o) (o_etaparam o) (o_drscale o) (o_RDR o)
    (o_savesize o) (o_chainfile o) (o_sschainfile o) (o_s2chainfile o) (o_covchainfile o)
    (o_savedir o) (o_save_to_bin o) (o_save_to_txt o) (o_save_to_json o) (o_save_lightly o)
    (o_results_filename o) (o_restart o).

Lemma mkopts_cong a1 a2 a3 a4 a5 a6 a7 p p' l l' b1 b2 b3 b4 b5 b6 b7 b8 b9 b10 s s' c1 c2 c3 c4 c5 c6 c7 c8 c9 c10 c11 :
  p = p' -> l = l' -> s = s' ->
  @mkopts F a1 a2 a3 a4 a5 a6 a7 p l b1 b2 b3 b4 b5 b6 b7 b8 b9 b10 s c1 c2 c3 c4 c5 c6 c7 c8 c9 c10 c11 =
  mkopts a1 a2 a3 a4 a5 a6 a7 p' l' b1 b2 b3 b4 b5 b6 b7 b8 b9 b10 s' c1 c2 c3 c4 c5 c6 c7 c8 c9 c10 c11.
Proof. intros -> -> ->. reflexivity. Qed.
Lemma options_twice (o : simopts F) g g' :
  check_dependent_simulation_options (check_dependent_simulation_options o g) g' =
  with_updatesigma (check_dependent_simulation_options o g) (g' || (g || o_updatesigma o)).
Proof.
  unfold check_dependent_simulation_options, with_updatesigma. cbn. apply mkopts_cong.
  - destruct (o_printint o); reflexivity.
  - destruct (o_lastadapt o <? 1)%Z eqn:A; [|now rewrite A]. destruct (Z.of_nat (o_nsimu o) <? 1)%Z; reflexivity.
  - destruct ((o_savesize o <=? 0) || (Z.of_nat (o_nsimu o) <? o_savesize o))%Z eqn:A; [|now rewrite A].
    destruct ((Z.of_nat (o_nsimu o) <=? 0) || (Z.of_nat (o_nsimu o) <? Z.of_nat (o_nsimu o)))%Z; reflexivity.
Qed.

End G.

Lemma law_one_R : @law_one XR _.
Proof.
  intros a. rewrite XR_n1. destruct a; cbn; try reflexivity; [f_equal; change (1 * a = a)%R; ring| |];
    unfold xsgninf; cbn [alt Arith_R]; rewrite XR_a0; assert (H : Rltb 0 1 = true) by (apply Rltb_true; lra); now rewrite H.
Qed.

Lemma neq_R (x y : XR) : neq x y = true -> x = y.
Proof. destruct x, y; cbn; try discriminate; auto. intros H. apply Reqb_true in H. now subst. Qed.
Lemma neq_R_nnat k : neq (@nnat XR _ k) (nnat k) = true.
Proof. rewrite XR_nnat. cbn. now apply Reqb_true. Qed.

Lemma array_equal_counts l : array_equal (map (@nnat XR _) l) (map nnat l) = true.
Proof.
  unfold array_equal. rewrite Nat.eqb_refl. cbn [andb]. induction l as [|k l IH]; [reflexivity|].
  cbn [map map2 forallb]. now rewrite neq_R_nnat, IH.
Qed.

(** What the check of N can leave behind: the counts of the data sets, or the user's list of equal counts for a single set. *)
Lemma check_obs_cases (ud : list XR) (l : list nat) N1 : check_number_of_observations ud (map nnat l) = Ok N1 ->
  N1 = map nnat l \/ exists k, l = [k] /\ N1 = repeat (nnat k) (List.length N1) /\ N1 = ud /\ 2 <= List.length N1.
Proof.
  unfold check_number_of_observations. destruct (array_equal _ _); [left; congruence|].
  destruct (_ && _) eqn:A. { destruct (forallb _ _); [left; congruence|discriminate]. }
  destruct ((List.length (map nnat l) <? List.length ud) && (List.length (map nnat l) =? 1)) eqn:B; [|discriminate].
  apply andb_true_iff in B as [B1 B2]. apply Nat.ltb_lt in B1. apply Nat.eqb_eq in B2. rewrite map_length in *.
  destruct l as [|k [|? ?]]; try discriminate. cbn [map nth]. destruct (forallb _ ud) eqn:C; [|discriminate].
  intros H. inv H. right. exists k. split; auto. split; [|split; auto; cbn in B1; lia].
  clear - C. induction N1 as [|x N1 IH]; [reflexivity|]. cbn [forallb List.length repeat] in *. apply andb_true_iff in C as [C1 C2].
  apply neq_R in C1. subst x. f_equal. now apply IH.
Qed.

Lemma obs_repeat_ok k c : 2 <= c -> check_number_of_observations (repeat (nnat k) c) (map (@nnat XR _) [k]) = Ok (repeat (nnat k) c).
Proof.
  intros Hc. unfold check_number_of_observations, array_equal. rewrite repeat_length. cbn [map List.length nth].
  destruct (c =? 1) eqn:Q; [apply Nat.eqb_eq in Q; lia|]. cbn [andb].
  destruct (c <? 1) eqn:Q1; [apply Nat.ltb_lt in Q1; lia|]. cbn [andb].
  destruct (1 <? c) eqn:Q2; [|apply Nat.ltb_ge in Q2; lia]. cbn [andb Nat.eqb].
  assert (HF : forallb (fun u => neq (@nnat XR _ k) u) (repeat (nnat k) c) = true).
  { clear. induction c as [|c IH]; [reflexivity|]. cbn [repeat forallb]. rewrite IH, neq_R_nnat. reflexivity. }
  now rewrite HF.
Qed.

Lemma size_obs_keep (N : list XR) n : List.length N = n \/ (2 <= n /\ (n <= List.length N \/ N = [])) ->
  List.length N <> 1 \/ n = 1 -> check_size_of_observations N n = Ok N.
Proof.
  intros H H1. unfold check_size_of_observations. destruct N as [|a [|b N]].
  - cbn [List.length Nat.ltb Nat.leb]. rewrite !andb_false_r. reflexivity.
  - destruct H1 as [H1| ->]; [now elim H1|]. cbn [repeat]. now rewrite law_one_R.
  - destruct (List.length (a :: b :: N) <? n) eqn:A; [apply Nat.ltb_lt in A; destruct H as [H|[H [H'|H']]]; [lia|lia|discriminate]|].
    cbn [andb]. destruct (n =? 1) eqn:B; [|reflexivity]. apply Nat.eqb_eq in B. cbn [List.length] in *. lia.
Qed.

Lemma observations_twice (ud : option (list XR)) l n N1 N' : 1 <= n ->
  (match ud with Some u => check_number_of_observations u (map nnat l) = Ok N1 | None => N1 = map nnat l end) ->
  check_size_of_observations N1 n = Ok N' -> (n = 1 -> List.length N1 <= 1) ->
  exists N2, check_number_of_observations N' (map nnat l) = Ok N2 /\ check_size_of_observations N2 n = Ok N'.
Proof.
  intros Hn H1 H2 Hs.
  assert (HC : N1 = map nnat l \/ exists k, l = [k] /\ N1 = repeat (nnat k) (List.length N1) /\ 2 <= List.length N1).
  { destruct ud; [|auto]. apply check_obs_cases in H1 as [?|(k & ? & ? & ? & ?)]; eauto 6. }
  destruct HC as [->|(k & -> & HR & HL)].
  - destruct l as [|k [|k2 l]].
    + cbn in H2. assert (N' = []) as ->.
      { destruct n; [lia|]. cbn in H2. destruct n; cbn in H2; congruence. }
      exists []. split; [reflexivity|]. destruct n as [|[|n]]; reflexivity.
    + unfold check_size_of_observations in H2. cbn [map] in H2. rewrite law_one_R in H2. assert (N' = repeat (nnat k) n) as -> by congruence.
      destruct (Nat.eq_dec n 1) as [->|].
      * exists [nnat k]. split; [|unfold check_size_of_observations; cbn [repeat]; now rewrite law_one_R].
        unfold check_number_of_observations. cbn [repeat]. pose proof (array_equal_counts [k]) as HA. cbn [map] in HA |- *. now rewrite HA.
      * exists (repeat (nnat k) n). split; [apply obs_repeat_ok; lia|]. apply size_obs_keep; rewrite repeat_length; lia.
    + assert (N' = map nnat (k :: k2 :: l)) as ->.
      { set (N1 := map nnat (k :: k2 :: l)) in *. unfold check_size_of_observations in H2. unfold N1 at 1 in H2. cbn [map] in H2.
        destruct (_ && _); [discriminate|]. destruct (n =? 1) eqn:Q; [|cbn [andb] in H2; congruence].
        apply Nat.eqb_eq in Q. specialize (Hs Q). unfold N1 in Hs. cbn in Hs. lia. }
      exists (map nnat (k :: k2 :: l)). split; [|exact H2].
      unfold check_number_of_observations. rewrite array_equal_counts. reflexivity.
  - assert (Hn2 : 2 <= n) by (destruct (Nat.eq_dec n 1) as [->|]; [specialize (Hs eq_refl); lia|lia]).
    assert (N' = N1) as ->.
    { unfold check_size_of_observations in H2. destruct N1 as [|a [|b N1]]; [cbn in HL; lia|cbn in HL; lia|].
      destruct (_ && _); [discriminate|]. destruct (n =? 1) eqn:Q; [apply Nat.eqb_eq in Q; lia|]. cbn [andb] in H2. congruence. }
    exists N1. split; [|exact H2]. rewrite HR. now apply obs_repeat_ok.
Qed.

Lemma check_size_again (x : list XR) n : List.length x = n -> check_size_of_setting x n = Ok x.
Proof.
  intros H. unfold check_size_of_setting. destruct x as [|a [|b x]].
  - cbn in H. subst n. reflexivity.
  - cbn in H. subst n. cbn [repeat]. now rewrite law_one_R.
  - rewrite H, Nat.ltb_irrefl. reflexivity.
Qed.

(** The settings a run leaves behind pass the checks of a second run unchanged. *)
Lemma model_twice (E : env XR) b m m' n : run_simulation E b m = Ok m' -> (forall v, List.length (e_sos E v) = n) -> 1 <= n ->
  existsb nisnan (ms_S20 (m_model m')) = false ->
  (n = 1 -> List.length (dt_n (m_data m)) <= 1 /\ forall N, ms_N (m_model m) = Some N -> List.length N <= 1) ->
  exists ms1, check_dependent_model_settings (m_model m') (m_data m') = Ok ms1 /\ check_wrt_nsos ms1 n = Ok (m_model m').
Proof.
  intros H Hn Hn1 Hnan Hone. pose proof H as HD. apply run_facts in HD as (? & ? & ? & ? & ? & ? & HD). cbv zeta in HD.
  assert (Hdat : m_data m' = m_data m) by tauto. clear HD. 
  pose proof (sizes_of_run E law_one_R b m m' H) as HS. cbv zeta in HS.
  assert (Hnn : List.length (e_sos E (map (@a_theta0 XR) (m_params m'))) = n) by apply Hn.
  rewrite Hnn in HS. destruct (HS Hn) as (sg & N & EM' & L1 & L2 & L3 & _). clear HS.
  apply run_model in H as (ini & ms1 & st0 & st & chains & H). cbv zeta in H.
  destruct H as (H1 & H2 & H3 & H4 & H5 & H6 & H7 & H8 & H9 & H10 & H11 & H12 & H13 & H14 & H15 & H16 & H17 & H18 & H19 & H20 & H21 & H22 & H23).
  rewrite Hn in H4. apply check_dep_ok in H2 as (N1 & EM1 & HN). rewrite H4 in H3.
  apply check_wrt_nsos_ok in H3 as (S20' & N0' & sg' & N' & EM & C1 & C2 & C3 & C4).
  rewrite EM1 in C4. cbn [ms_N lst] in C4.
  assert (HNN : N = N') by (rewrite H23, EM in EM'; cbn in EM'; congruence). subst N'.
  assert (Hs : n = 1 -> List.length N1 <= 1).
  { intros Q. destruct (Hone Q) as [O1 O2]. destruct (ms_N (m_model m)) as [u|] eqn:EU.
    - apply check_obs_cases in HN as [->|(k & _ & _ & -> & _)]; [now rewrite map_length|auto].
    - subst N1. now rewrite map_length. }
  destruct (observations_twice _ _ n N1 N Hn1 HN C4 Hs) as (N2 & O1 & O2).
  rewrite Hdat. rewrite EM'. unfold check_dependent_model_settings. cbn [ms_N ms_nbatch ms_N0 ms_sigma2 ms_S20 ms_alias].
  rewrite O1. cbn [bind]. rewrite Hnan. eexists. split; [reflexivity|].
  unfold check_wrt_nsos. cbn [ms_N ms_nbatch ms_N0 ms_sigma2 ms_S20 ms_alias].
  rewrite (check_size_again _ _ L2), (check_size_again _ _ L3), (check_size_again _ _ L1). cbn [bind]. rewrite O2. cbn [bind].
  assert (HB : ms_nbatch (m_model m') = Some (match ms_nbatch (m_model m) with Some b0 => b0 | None => List.length (dt_shape (m_data m)) end)).
  { rewrite H23, EM, EM1. reflexivity. }
  assert (HA : ms_alias (m_model m') && negb (List.length sg =? 1) = ms_alias (m_model m')).
  { rewrite L1, H23, EM. cbn [ms_alias ms_sigma2 lst]. 
    apply check_size_length in C3 as [D1 D2]. destruct (ms_alias ms1); [|reflexivity]. cbn [andb].
    destruct D2 as [(a & D2 & _)|[D2 _]]; [rewrite D2; reflexivity|]. rewrite D2. destruct (n =? 1); reflexivity. }
  rewrite HA, HB. reflexivity.
Qed.
