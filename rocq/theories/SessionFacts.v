(** Invariants of whole sessions. *)

From Coq Require Import ZArith QArith Bool Lia List String.
From Verif Require Import Base Num Samplers Adapt Settings Simulator SamplerFacts RunFacts RunSpec RunLift.
Import ListNotations.
Open Scope list_scope.
Open Scope nat_scope.
Open Scope res_scope.

Section Session.
Context {F : Type} `{NF : Num F}.
Variable E : env F.
Variable ps0 : list (param F).

Record minv (m : mcmc F) : Prop := {
  mi_decl : same_decls ps0 (m_params m);
  mi_calls : Forall (admissible ps0) (m_calls m);
  mi_fresh : m_status m = false -> m_results m = None /\ m_chain m = [] /\ m_sschain m = [] /\ m_s2chain m = None;
  mi_len : m_status m = true ->
           List.length (m_chain m) = S (m_index m) /\ List.length (m_sschain m) = S (m_index m) /\
           (forall s2, m_s2chain m = Some s2 -> List.length s2 = S (m_index m));
  mi_rows : forall row, In row (m_chain m) -> inside ps0 row;
  mi_ss : forall k row ssrow, nth_error (m_chain m) k = Some row -> nth_error (m_sschain m) k = Some ssrow ->
          exists v, admissible ps0 v /\
            fit_row (List.length (e_sos E v)) (e_sos E (fill ps0 row)) = Ok ssrow;
  mi_results : m_status m = true ->
     exists r row, m_results m = Some r /\ nth_error (m_chain m) (m_index m) = Some row /\
       rr_theta r = fill ps0 row /\ rr_parind r = flatnonzero (map (@a_sample F) ps0) /\
       rr_names r = map (@a_name F) (sampled_params ps0) /\ rr_allnames r = map (@a_name F) ps0 /\
       rr_lower r = map (@a_min F) (sampled_params ps0) /\ rr_upper r = map (@a_max F) (sampled_params ps0) /\
       rr_chain r = m_chain m /\ rr_sschain r = m_sschain m /\ rr_s2chain r = m_s2chain m
}.

Lemma minv_new d ms o pos l : minv (new_mcmc ps0 d ms o pos l).
Proof.
  split; simpl; auto; try discriminate; try tauto.
  - apply same_decls_refl.
  - intros [|k]; discriminate.
Qed.

Lemma minv_opts m o : minv m -> minv (with_opts m o).
Proof. intros []; split; auto. Qed.
Lemma minv_model m o : minv m -> minv (with_model m o).
Proof. intros []; split; auto. Qed.

Lemma same_decls_maps a b : same_decls a b ->
  map (@a_sample F) a = map (@a_sample F) b /\ map (@a_name F) a = map (@a_name F) b /\
  map (@a_name F) (sampled_params a) = map (@a_name F) (sampled_params b) /\
  map (@a_min F) (sampled_params a) = map (@a_min F) (sampled_params b) /\
  map (@a_max F) (sampled_params a) = map (@a_max F) (sampled_params b).
Proof.
  unfold sampled_params. induction 1 as [|p q a b (H1 & H2 & H3 & H4 & _) H IH]; simpl; auto.
  destruct IH as (I1 & I2 & I3 & I4 & I5). rewrite <- H4. destruct (a_sample p); simpl;
    repeat split; congruence.
Qed.

Lemma call_ok_admissible ps v : call_ok (map (@a_theta0 F) ps) (opview ps) v -> admissible ps v.
Proof.
  intros (theta & HL & HW & HF). destruct (opview_facts ps) as (A & B & C & D).
  rewrite C, D in HW. rewrite B in HL. exists theta. split; [apply within_inside; auto|].
  rewrite <- scatter_fill.
  destruct (scatter_full (map (@a_theta0 F) ps) (opview ps) (mkio 0 (map (@a_theta0 F) ps) []) theta (opview_ok ps))
    as [(F1 & F2 & F3) _]; [split; auto|congruence|].
  destruct HF as (G1 & G2 & G3). simpl io_value in *. rewrite A in *.
  apply list_eq_nth; [congruence|].
  intros j. destruct (in_dec Nat.eq_dec j (flatnonzero (map (@a_sample F) ps))) as [Hin|Hout].
  - apply In_nth_error in Hin as (k & Hk). rewrite (F2 _ _ Hk), (G2 _ _ Hk). reflexivity.
  - rewrite F3, G3; auto.
Qed.

Lemma In_nth_error_lt {A} (l : list A) x : In x l -> exists k, k < List.length l /\ nth_error l k = Some x.
Proof.
  intros H. apply In_nth_error in H as (k & Hk). exists k. split; auto. apply nth_error_Some. congruence.
Qed.

Lemma minv_run b m m' : minv m -> run_simulation E b m = Ok m' -> minv m'.
Proof.
  intros [M1 M2 M3 M4 M5 M6 M7] H.
  apply run_facts in H as (ps & ini & st0 & st & ms & chains & H).
  cbv zeta in H.
  destruct H as (D & (o & I0 & On & Ot & Oo) & Hprev & Harr & Hst0 & _ & HK & R & N2 & NK & NL &
                 P1 & P2 & P3 & P4 & P5 & P6 & P7 & P8 & P9 & P10 & _).
  pose proof (init_facts _ _ _ _ _ _ _ _ _ I0) as (J1 & J2 & J3 & J4 & J5 & J6 & J7 & J8 & J9 & J10 & J11).
  pose proof (same_decls_trans _ _ _ M1 D) as D0.
  destruct (opview_facts ps) as (V1 & V2 & V3 & V4).
  assert (HX : forall (A B C : Prop), A /\ B /\ C -> A /\ B /\ C) by auto.
  set (idx := if b then m_index m else 0) in *.
  assert (Hidx0 : r_index st0 = idx) by (rewrite Hst0; reflexivity).
  assert (Hset0 : r_old st0 = i_set ini) by (rewrite Hst0; reflexivity).
  assert (Hio0 : r_io st0 = i_io ini) by (rewrite Hst0; reflexivity).
  (* lengths and old rows of the start arrays *)
  assert (HA : List.length (r_chain st0) = idx + o_nsimu (m_opts m) /\
               List.length (r_ss st0) = idx + o_nsimu (m_opts m) /\
               (forall s2, r_s2 st0 = Some s2 -> List.length s2 = idx + o_nsimu (m_opts m)) /\
               (forall k row ssrow, k <= idx -> nth_error (r_chain st0) k = Some row ->
                   nth_error (r_ss st0) k = Some ssrow ->
                   inside ps0 row /\ exists v, admissible ps0 v /\
                     fit_row (List.length (e_sos E v)) (e_sos E (fill ps0 row)) = Ok ssrow)).
  { destruct b.
    - destruct Hprev as (r & Hr & Hs & _). destruct (M4 Hs) as (L1 & L2 & L3).
      apply expand_chains_facts in Harr. cbv zeta in Harr. rewrite J2, On in Harr.
      destruct Harr as (A1 & A2 & A3 & A4). unfold idx.
      split; [rewrite A1, app_length, zeros_length; lia|].
      split; [rewrite A2, app_length, zeros_length; lia|].
      split. { intros s2 Hs2. destruct (o_updatesigma (i_opts ini)).
               - destruct A3 as (old & Ho & Hn). rewrite Hn in Hs2. inv Hs2.
                 rewrite app_length, zeros_length, (L3 _ Ho). lia.
               - congruence. }
      intros k row ssrow Hk H1 H2. rewrite A1, nth_error_app1 in H1 by lia.
      rewrite A2, nth_error_app1 in H2 by lia. split; [|eauto].
      apply M5. eapply nth_error_In; eauto.
    - apply initialize_chains_facts in Harr; [|rewrite J1; simpl; rewrite J4, map_length; symmetry; apply parind_length|auto].
      cbv zeta in Harr. rewrite J2, On in Harr. destruct Harr as (A0 & A1 & A2 & A3 & A4 & A5 & _).
      unfold idx. simpl. split; [auto|]. split; [auto|].
      split. { intros s2 Hs2. rewrite Hs2 in A5. destruct (o_updatesigma (i_opts ini)); inv A5. auto. }
      intros k row ssrow Hk H1 H2. assert (k = 0) by lia. subst k.
      rewrite A3 in H1. rewrite A4 in H2. inv H1. inv H2.
      assert (Hi : inside ps0 (p_theta (i_set ini))).
      { rewrite J4. apply (same_decls_inside _ _ _ D0); auto. }
      split; auto.
      destruct J6 as (G1 & G2 & G3 & G4).
      assert (Hss : p_ss (i_set ini) = e_sos E (fill ps0 (p_theta (i_set ini)))).
      { rewrite G3. rewrite V1, scatter_fill. f_equal. symmetry. apply same_decls_fill; auto.
        apply inside_length; auto. }
      exists (fill ps0 (p_theta (i_set ini))). split; [exists (p_theta (i_set ini)); auto|].
      rewrite Hss. unfold fit_row. rewrite Nat.eqb_refl. reflexivity. }
  destruct HA as (HA1 & HA2 & HA3 & HA4).
  destruct R. rewrite Hidx0 in *.
  assert (Hfin : S (r_index st) = idx + o_nsimu (m_opts m)) by lia.
  assert (Hrows : forall k row ssrow, nth_error (r_chain st) k = Some row -> nth_error (r_ss st) k = Some ssrow ->
            inside ps0 row /\ exists v, admissible ps0 v /\
                     fit_row (List.length (e_sos E v)) (e_sos E (fill ps0 row)) = Ok ssrow).
  { intros k row ssrow H1 H2. destruct (Nat.le_gt_cases k idx) as [Hle|Hgt].
    - destruct (rc_frame k) as [F1 F2]; [lia|]. rewrite F1 in H1. rewrite F2 in H2. eauto.
    - assert (Hk : idx < k <= r_index st).
      { split; auto. apply Nat.lt_succ_r. rewrite Hfin. rewrite <- HA1, <- rc_len. apply nth_error_Some. congruence. }
      destruct (rc_rows k Hk) as (theta & row' & ssrow' & Q1 & Q2 & Q3 & Q4 & Q5 & Q6 & Q7).
      assert (row = theta) by congruence. assert (ssrow = ssrow') by congruence. clear Q1 Q6. subst row ssrow.
      rewrite HK, V3, V4 in Q5. rewrite HK, V2 in Q4.
      assert (Hi : inside ps theta) by (apply within_inside; auto).
      assert (Hi0 : inside ps0 theta) by (apply (same_decls_inside _ _ _ D0); auto).
      split; auto.
      exists (fill ps0 (p_theta (i_set ini))). split.
      { exists (p_theta (i_set ini)). split; auto. rewrite J4. apply (same_decls_inside _ _ _ D0); auto. }
      destruct J6 as (G1 & G2 & G3 & G4).
      assert (Hss : p_ss (i_set ini) = e_sos E (fill ps0 (p_theta (i_set ini)))).
      { rewrite G3. rewrite V1, scatter_fill. f_equal. symmetry. apply same_decls_fill; auto.
        rewrite (same_decls_sampled _ _ D0). rewrite <- V2. exact G1. }
      rewrite <- Hss, <- J9. simpl k_nsos in Q7.
      rewrite HK, V1, scatter_fill in Q7. rewrite (same_decls_fill ps0 ps); auto. apply inside_length; auto. }
  assert (Hcur : nth_error (r_chain st) (r_index st) = Some (p_theta (r_old st))).
  { apply rc_last. intros Ht. rewrite Ht in NL. simpl in NL. lia. }
  destruct (same_decls_maps _ _ D0) as (T1 & T2 & T3 & T4 & T5).
  split.
  - congruence.
  - rewrite P8. destruct rc_calls as (new & C1 & C2). rewrite C1, Hio0, J8.
    apply Forall_app. split.
    + eapply Forall_impl; [|exact C2]. intros v Hv. rewrite HK in Hv.
      eapply same_decls_admissible; [exact D0|]. apply call_ok_admissible; auto.
    + constructor; auto. eapply same_decls_admissible; [exact D0|].
      exists (map (@a_theta0 F) (sampled_params ps)). auto.
  - congruence.
  - intros _. rewrite P4, P5, P6, P7. split; [lia|]. split; [lia|].
    intros s2 Hs2. rewrite Hs2 in rc_s2len. destruct (r_s2 st0) as [s20|] eqn:Es; [|discriminate].
    simpl in rc_s2len. inv rc_s2len. rewrite (HA3 _ eq_refl) in *. lia.
  - intros row Hin. rewrite P4 in Hin. apply In_nth_error_lt in Hin as (k & Hk & Hn).
    destruct (nth_error (r_ss st) k) as [ssrow|] eqn:Es.
    + eapply Hrows; eauto.
    + apply nth_error_None in Es. lia.
  - intros k row ssrow. rewrite P4, P5. intros. eapply Hrows; eauto.
  - intros _. do 2 eexists. split; [exact P10|]. rewrite P4, P5, P6, P7. split; [exact Hcur|].
    unfold generate_results. simpl. rewrite J1. simpl.
    destruct rc_good as (G1 & G2 & _). rewrite HK, V2 in G1.
    rewrite scatter_fill, !sel_filter.
    pose proof (pick_filter_from EmptyString (@a_name F) ps []) as Hnm. simpl in Hnm.
    unfold flatnonzero. rewrite Hnm.
    split. { symmetry. apply same_decls_fill; auto. rewrite (same_decls_sampled _ _ D0). auto. }
    rewrite <- T1, <- T2, <- T3, <- T4, <- T5. repeat split; auto.
Qed.

Lemma minv_acts l : forall m m', minv m -> acts E l m = Ok m' -> minv m'.
Proof.
  induction l as [|a t IH]; intros m m' HM H; simpl in H.
  - inv H. auto.
  - peel H. eapply IH; [|exact H]. destruct a as [o|ms|b]; simpl in E0.
    + inv E0. apply minv_opts; auto.
    + inv E0. apply minv_model; auto.
    + eapply minv_run; eauto.
Qed.

Lemma session_minv m : session E ps0 m -> minv m.
Proof. intros (d & ms & o & pos & l & acs & H). eapply minv_acts; [apply minv_new|exact H]. Qed.

End Session.
