(** Theorems about adaptation during runs, assembled for the property files. *)

From Coq Require Import ZArith QArith Bool Lia List String Reals Lra.
From Verif Require Import Base Num Samplers Adapt Settings Simulator SamplerFacts RunSpec RunFacts RunLift ResumeFacts
  AdaptRun RVec RMat StatSpec CovFacts CholFacts AdaptFacts RamFacts InitFacts.
Import ListNotations.
Close Scope Q_scope.
Open Scope list_scope.
Open Scope nat_scope.
Open Scope res_scope.

(** [j] is the latest iteration up to [k] with an adaptation due at or after burn-in; 0 if there is none. *)
Definition latest (a burnin : Z) (k j : nat) : Prop :=
  (j = 0 \/ (j <= k /\ due a j /\ (burnin <= Z.of_nat j)%Z)) /\
  forall i, j < i <= k -> ~ (due a i /\ (burnin <= Z.of_nat i)%Z).

Section Gen.
Context {F : Type} `{NF : Num F}.
Variable E : env F.

Lemma adaptation_stats c o i ii rj ch ci u n al c' :
  run_adaptation E c o i ii rj ch ci u n al = Ok c' ->
  c_qcov c' = c_qcov c /\ c_qcov_scale c' = c_qcov_scale c /\ c_no_adapt c' = c_no_adapt c /\
  if (Z.of_nat i <? ao_burnintime o)%Z then
    cov_stats c' = cov_stats c /\ c_last c' = c_last c /\ c_covchain c' = c_covchain c /\
    c_meanchain c' = c_meanchain c /\ c_wsum c' = c_wsum c /\
    c_R c' = below_burnin_threshold rj ii (c_R c) (ao_burnin_scale o)
  else
    cov_stats c' = update_covariance_mean_sum (slice (c_last c) ci ch) [n1] (cov_stats c) /\ c_last c' = i /\
    (cov_stats c' = None -> c_covchain c' = None /\ c_meanchain c' = None /\ c_wsum c' = None).
Proof.
  unfold run_adaptation. destruct (_ <? _)%Z.
  - intros H. inv H. cbn. auto 10.
  - intros H. set (stats := update_covariance_mean_sum _ _ _) in *. peel H. peel H. inv H.
    cbn [c_qcov c_qcov_scale c_no_adapt c_last c_covchain c_meanchain c_wsum]. unfold cov_stats at 1 2. cbn [c_covchain c_meanchain c_wsum].
    destruct stats as [[[x y] z]|]; cbn; auto 10. repeat split; auto; discriminate.
Qed.

(** Statistics held at iteration [k]: those obtained by feeding consecutive blocks of the chain that make up exactly the
    rows before the latest adaptation. *)
Lemma stats_of_run b m m' ps evs last r :
  proposal_course E b m m' ps evs last r -> b = false ->
  forall c0, nth_error (map (@ev_cov F) evs ++ [last]) 0 = Some c0 ->
  forall k c, nth_error (map (@ev_cov F) evs ++ [last]) k = Some c ->
  latest (o_adaptint (m_opts m)) (o_burnintime (m_opts m)) k (c_last c) /\
  exists segs, List.concat segs = firstn (c_last c) (m_chain m') /\
    cov_stats c = fold_left (fun o s => update_covariance_mean_sum s [n1] o) segs (cov_stats c0).
Proof.
  intros PC -> c0 H0. destruct PC. induction k as [|k IH]; intros c Hc.
  - assert (c0 = c) by congruence. subst c0.
    destruct pc_start as (c1 & S1 & S2). assert (c1 = c) by congruence. subst c1.
    apply init_cov_stats in S2 as (L & _). rewrite L. split.
    + split; [auto|]. intros; lia.
    + exists []. auto.
  - assert (Hk : S k < o_nsimu (m_opts m)).
    { assert (HH : S k < List.length (map (@ev_cov F) evs ++ [last])) by (apply nth_error_Some; congruence).
      rewrite app_length, map_length in HH. cbn in HH. lia. }
    destruct (pc_moves (S k)) as (c1 & c2 & T1 & T2 & T3 & T4); [lia|].
    assert (c2 = c) by congruence. subst c2. replace (S k - 1) with k in T1 by lia.
    specialize (IH _ T1) as [[I1 I2] (segs & I3 & I4)].
    destruct (due_dec (o_adaptint (m_opts m)) (S k)) as [Hd|Hd].
    + destruct (T4 Hd) as (z & al & HR). apply adaptation_stats in HR as (_ & _ & _ & HR).
      cbn [ao_burnintime ado_of] in HR.
      destruct (Z.ltb_spec (Z.of_nat (S k)) (o_burnintime (m_opts m))) as [Hb|Hb].
      * destruct HR as (R1 & R2 & _). rewrite R2, R1. split; [|eauto].
        split; [destruct I1 as [|(? & ?)]; [auto|right; split; [lia|auto]]|].
        intros i Hi [D1 D2]. destruct (Nat.eq_dec i (S k)) as [->|]; [lia|]. apply (I2 i); [lia|auto].
      * destruct HR as (R1 & R2 & _). rewrite R2, R1. split.
        -- split; [right; auto|]. intros; lia.
        -- exists (segs ++ [slice (c_last c1) (S k) (m_chain m')]). split.
           ++ rewrite concat_app, I3. cbn [List.concat]. rewrite app_nil_r. unfold slice.
              rewrite <- (firstn_skipn (c_last c1) (firstn (S k) (m_chain m'))) at 1.
              rewrite firstn_firstn, Nat.min_l by (destruct I1 as [|(? & ?)]; lia).
              rewrite skipn_firstn_comm. reflexivity.
           ++ etransitivity; [|symmetry; apply fold_left_app]. cbn [fold_left]. f_equal. exact I4.
    + rewrite (T3 Hd). split; [|eauto]. split; [destruct I1 as [|(? & ?)]; [auto|right; split; [lia|auto]]|].
      intros i Hi [D1 D2]. destruct (Nat.eq_dec i (S k)) as [->|]; [auto|]. apply (I2 i); [lia|auto].
Qed.

(** ** C16 *)

Lemma covs_nth b m m' ps evs last r k : proposal_course E b m m' ps evs last r ->
  k < o_nsimu (m_opts m) -> exists c, nth_error (map (@ev_cov F) evs ++ [last]) k = Some c.
Proof.
  intros PC Hk. destruct PC. destruct (nth_error _ k) eqn:Hn; eauto. apply nth_error_None in Hn.
  rewrite app_length, map_length in Hn. cbn in Hn. lia.
Qed.

Lemma unchanged_unless_due b m m' : run_simulation E b m = Ok m' ->
  exists evs last r, m_trace m' = rev evs ++ m_trace m /\ m_results m' = Some r /\ rr_R r = c_R last /\
    List.length evs = o_nsimu (m_opts m) - 1 /\
    forall k c c', nth_error (map (@ev_cov F) evs ++ [last]) k = Some c ->
      nth_error (map (@ev_cov F) evs ++ [last]) (S k) = Some c' ->
      ~ due (o_adaptint (m_opts m)) (S k) -> c' = c.
Proof.
  intros H. apply run_covs in H as (ps & evs & last & r & H). exists evs, last, r. destruct H.
  split; auto. split; auto. split; auto. split; auto.
  intros k c c' H1 H2 Hd.
  assert (Hk : S k < o_nsimu (m_opts m)).
  { assert (HH : S k < List.length (map (@ev_cov F) evs ++ [last])) by (apply nth_error_Some; congruence).
    rewrite app_length, map_length in HH. cbn in HH. lia. }
  destruct (pc_moves (S k)) as (c1 & c2 & T1 & T2 & T3 & _); [lia|]. replace (S k - 1) with k in T1 by lia.
  assert (c1 = c) by congruence. assert (c2 = c') by congruence. subst. auto.
Qed.

Lemma never_for_mh_dr b m m' w date : run_simulation E b m = Ok m' ->
  m_opts m = define_simulation_options w date -> w_method w = MH \/ w_method w = DR ->
  exists evs r c0, m_trace m' = rev evs ++ m_trace m /\ m_results m' = Some r /\
    (forall e, In e evs -> ev_cov e = c0) /\ rr_R r = c_R c0.
Proof.
  intros H Ho Hm. apply run_covs in H as (ps & evs & last & r & H). destruct H.
  destruct pc_start as (c0 & S1 & _). exists evs, r, c0. split; auto. split; auto.
  assert (Ha : o_adaptint (m_opts m) = 0%Z).
  { rewrite Ho. cbn. destruct Hm as [-> | ->]; destruct (w_adaptint w); reflexivity. }
  assert (HA : forall k c, nth_error (map (@ev_cov F) evs ++ [last]) k = Some c -> c = c0).
  { induction k as [|k IH]; intros c Hc; [congruence|].
    assert (Hk : S k < o_nsimu (m_opts m)).
    { assert (HH : S k < List.length (map (@ev_cov F) evs ++ [last])) by (apply nth_error_Some; congruence).
      rewrite app_length, map_length in HH. cbn in HH. lia. }
    destruct (pc_moves (S k)) as (c1 & c2 & T1 & T2 & T3 & _); [lia|]. replace (S k - 1) with k in T1 by lia.
    assert (c2 = c) by congruence. subst c2. rewrite T3; [auto|]. rewrite Ha. intros [? _]; lia. }
  split.
  - intros e He. apply In_nth_error in He as [k Hk]. apply (HA k).
    rewrite nth_error_app1 by (rewrite map_length; apply nth_error_Some; congruence).
    rewrite nth_error_map, Hk. reflexivity.
  - rewrite pc_R. f_equal. apply (HA (List.length evs)).
    rewrite nth_error_app2 by (rewrite map_length; lia). rewrite map_length, Nat.sub_diag. reflexivity.
Qed.

(** ** C20 *)

(** Burn-in rescaling of a factor by the number of rejected candidates in an interval. *)
Lemma burnin_changes b m m' : run_simulation E b m = Ok m' ->
  exists evs last r, m_trace m' = rev evs ++ m_trace m /\ m_results m' = Some r /\ rr_R r = c_R last /\
    List.length evs = o_nsimu (m_opts m) - 1 /\
    forall k c c', nth_error (map (@ev_cov F) evs ++ [last]) k = Some c ->
      nth_error (map (@ev_cov F) evs ++ [last]) (S k) = Some c' ->
      due (o_adaptint (m_opts m)) (S k) -> (Z.of_nat (S k) < o_burnintime (m_opts m))%Z ->
      c_covchain c' = c_covchain c /\ c_meanchain c' = c_meanchain c /\ c_wsum c' = c_wsum c /\ c_last c' = c_last c /\
      c_qcov c' = c_qcov c /\ c_qcov_scale c' = c_qcov_scale c /\
      c_R c' = below_burnin_threshold
        (count rejected_ev (slice (S k - Z.to_nat (o_adaptint (m_opts m))) (S k) evs)) (Z.to_nat (o_adaptint (m_opts m)))
        (c_R c) (o_burnin_scale (m_opts m)).
Proof.
  intros H. apply run_covs in H as (ps & evs & last & r & H). exists evs, last, r. destruct H.
  split; auto. split; auto. split; auto. split; auto.
  intros k c c' H1 H2 Hd Hb.
  assert (Hk : S k < o_nsimu (m_opts m)).
  { assert (HH : S k < List.length (map (@ev_cov F) evs ++ [last])) by (apply nth_error_Some; congruence).
    rewrite app_length, map_length in HH. cbn in HH. lia. }
  destruct (pc_moves (S k)) as (c1 & c2 & T1 & T2 & _ & T4); [lia|]. replace (S k - 1) with k in T1 by lia.
  assert (c1 = c) by congruence. assert (c2 = c') by congruence. subst.
  destruct (T4 Hd) as (z & al & HR). apply adaptation_stats in HR as (Q1 & Q2 & _ & HR).
  cbn [ao_burnintime ado_of] in HR. replace (_ <? _)%Z with true in HR by (symmetry; apply Z.ltb_lt; auto).
  destruct HR as (R1 & R2 & R3 & R4 & R5 & R6). cbn [ao_burnin_scale ado_of] in R6. auto 10.
Qed.

End Gen.

(** ** Exact arithmetic *)

Open Scope R_scope.

(** The statistics held are those of [rows] (nothing is held before the first row is used). *)
Definition statistics_are (n : nat) (c : covst XR) (rows : list (list R)) : Prop :=
  match rows with
  | [] => c_covchain c = None /\ c_meanchain c = None /\ c_wsum c = None
  | _ => c_covchain c = Some (finm (table n n (row_cov rows))) /\
         c_meanchain c = Some (fin (vtab n (row_mean rows))) /\
         c_wsum c = Some (Fin (INR (List.length rows)))
  end.

Section Exact.
Variable E : env XR.

Lemma statistics_known n c rows :
  cov_stats c = known n (unit_weights rows) ->
  (cov_stats c = None -> c_covchain c = None /\ c_meanchain c = None /\ c_wsum c = None) ->
  statistics_are n c rows.
Proof.
  intros H HN. unfold statistics_are. destruct rows as [|a t]; [apply HN, H|].
  set (rows := a :: t) in *. unfold known in H. cbn [unit_weights map rows] in H. fold (unit_weights rows) in H.
  change ((a, 1) :: map (fun r => (r, 1)) t) with (unit_weights rows) in H.
  unfold cov_stats in H. destruct (c_covchain c); [|discriminate]. destruct (c_meanchain c); [|discriminate].
  destruct (c_wsum c); [|discriminate]. unfold stats_of in H.
  assert (H1 : l = finm (table n n (covariance (unit_weights rows)))) by congruence.
  assert (H2 : l0 = fin (vtab n (mean (unit_weights rows)))) by congruence.
  assert (H3 : x = Fin (total (unit_weights rows))) by congruence.
  rewrite H1, H2, H3, unit_total. split; [|split; [|reflexivity]].
  - do 2 f_equal. apply table_ext. intros. apply unit_cov.
  - do 2 f_equal. apply vtab_ext. intros. apply unit_mean.
Qed.

Lemma slice_finm a b rows : slice a b (finm rows) = finm (slice a b rows).
Proof. unfold slice, finm. now rewrite <- firstn_map, <- skipn_map. Qed.

Lemma fresh_statistics m m' ps evs last r rows :
  proposal_course E false m m' ps evs last r -> o_initqcovn (m_opts m) = None -> m_chain m' = finm rows ->
  (0 < List.length (sampled_params ps))%nat ->
  forall k c, nth_error (map (@ev_cov XR) evs ++ [last]) k = Some c ->
  latest (o_adaptint (m_opts m)) (o_burnintime (m_opts m)) k (c_last c) /\
  statistics_are (List.length (sampled_params ps)) c (firstn (c_last c) rows).
Proof.
  intros PC Hiq Hrows Hn.
  assert (HA : exists c0, nth_error (map (@ev_cov XR) evs ++ [last]) 0%nat = Some c0).
  { apply (covs_nth E _ _ _ _ _ _ _ 0 PC). destruct PC. lia. }
  destruct HA as [c0 Hc0].
  set (n := List.length (sampled_params ps)) in *.
  enough (HH : forall k c, nth_error (map (@ev_cov XR) evs ++ [last]) k = Some c ->
    cov_stats c = known n (unit_weights (firstn (c_last c) rows)) /\
    (cov_stats c = None -> c_covchain c = None /\ c_meanchain c = None /\ c_wsum c = None)).
  { intros k c Hc. destruct (HH k c Hc). split; [|apply statistics_known; auto].
    apply (stats_of_run E _ _ _ _ _ _ _ PC eq_refl c0 Hc0 k c Hc). }
  induction k as [|k IH]; intros c Hc.
  - destruct PC. destruct pc_start as (c1 & S1 & S2). assert (c1 = c) by congruence. subst c1.
    apply init_cov_stats in S2. destruct (run_options_same false m) as (_ & _ & Q & _). rewrite Q, Hiq in S2.
    destruct S2 as (L & W & M & C & _). rewrite L. unfold cov_stats. rewrite W, M, C. cbn. auto.
  - pose proof PC as PC'. destruct PC.
    assert (Hk : (S k < o_nsimu (m_opts m))%nat).
    { assert (HH : (S k < List.length (map (@ev_cov XR) evs ++ [last]))%nat) by (apply nth_error_Some; congruence).
      rewrite app_length, map_length in HH. cbn in HH. lia. }
    destruct (pc_moves (S k)) as (c1 & c2 & T1 & T2 & T3 & T4); [lia|].
    assert (c2 = c) by congruence. subst c2. replace (S k - 1)%nat with k in T1 by lia.
    destruct (due_dec (o_adaptint (m_opts m)) (S k)) as [Hd|Hd]; [|rewrite (T3 Hd); auto].
    destruct (T4 Hd) as (z & al & HR). apply adaptation_stats in HR as (_ & _ & _ & HR).
    specialize (IH _ T1) as [I1 I2].
    destruct (_ <? _)%Z.
    + destruct HR as (R1 & R2 & R3 & R4 & R5 & _). rewrite R1, R2, R3, R4, R5. auto.
    + destruct HR as (R1 & R2 & R3). split; [|auto]. rewrite R1, R2, I1, Hrows, slice_finm.
      rewrite XR_n1. change [@Fin R 1] with (fin [1]).
      etransitivity; [apply (update_spec n (slice (c_last c1) (0 + S k) rows, [1]))|]; cbn [Nat.add].
      4: { f_equal. rewrite unit_seg, <- unit_app. f_equal. unfold slice.
        destruct (stats_of_run E _ _ _ _ _ _ _ PC' eq_refl c0 Hc0 k c1 T1) as [[L1 _] _].
        rewrite <- (firstn_skipn (c_last c1) (firstn (S k) rows)).
        rewrite firstn_firstn, Nat.min_l by (destruct L1 as [|(? & ?)]; lia).
        rewrite skipn_firstn_comm. reflexivity. }
      * exact Hn.
      * split; [|split]; cbn [fst snd].
        -- intros row Hr. destruct (pc_rows eq_refl) as [_ Hlen].
           assert (Hin : In (fin row) (m_chain m')).
           { rewrite Hrows. unfold finm. apply in_map. unfold slice in Hr. 
             assert (G : forall (A : Type) i (l : list A) x, In x (skipn i l) -> In x l).
             { intros A i l x Hx. rewrite <- (firstn_skipn i l). apply in_or_app. auto. }
             assert (G' : forall (A : Type) i (l : list A) x, In x (firstn i l) -> In x l).
             { intros A i l x Hx. rewrite <- (firstn_skipn i l). apply in_or_app. auto. }
             eauto. }
           specialize (Hlen _ Hin). unfold fin in Hlen. rewrite map_length in Hlen. exact Hlen.
        -- auto.
        -- constructor; [lra|constructor].
      * apply unit_heavy.
Qed.

(** ** C17 along a run *)

Lemma qcov_constant m m' ps evs last r b :
  proposal_course E b m m' ps evs last r ->
  forall c0, nth_error (map (@ev_cov XR) evs ++ [last]) 0%nat = Some c0 ->
  forall k c, nth_error (map (@ev_cov XR) evs ++ [last]) k = Some c ->
  c_qcov c = c_qcov c0 /\ c_qcov_scale c = c_qcov_scale c0 /\ c_no_adapt c = c_no_adapt c0.
Proof.
  intros PC c0 H0. induction k as [|k IH]; intros c Hc; [replace c with c0 by congruence; auto|].
  destruct PC.
  assert (Hk : (S k < o_nsimu (m_opts m))%nat).
  { assert (HH : (S k < List.length (map (@ev_cov XR) evs ++ [last]))%nat) by (apply nth_error_Some; congruence).
    rewrite app_length, map_length in HH. cbn in HH. lia. }
  destruct (pc_moves (S k)) as (c1 & c2 & T1 & T2 & T3 & T4); [lia|].
  assert (c2 = c) by congruence. subst c2. replace (S k - 1)%nat with k in T1 by lia.
  destruct (IH _ T1) as (A & B & C).
  destruct (due_dec (o_adaptint (m_opts m)) (S k)) as [Hd|Hd]; [|rewrite (T3 Hd); auto].
  destruct (T4 Hd) as (z & al & HR). apply adaptation_stats in HR as (R1 & R2 & R3 & _).
  rewrite R1, R2, R3. auto.
Qed.

Definition adapted_from (n : nat) (c c' : covst XR) (s a : R) (T : nat -> nat -> R) : Prop :=
  (e_chol E (finm (table n n T)) <> None /\ scaled_factor n (c_R c') s T) \/
  (e_chol E (finm (table n n T)) = None /\ e_chol E (finm (table n n (plus_eye a T))) <> None /\
     scaled_factor n (c_R c') s (plus_eye a T)) \/
  (e_chol E (finm (table n n T)) = None /\ e_chol E (finm (table n n (plus_eye a T))) = None /\ c_R c' = c_R c).

Lemma adapted_along_run m m' rows c0 Q s a :
  factorises (e_chol E) ->
  run_simulation E false m = Ok m' -> o_initqcovn (m_opts m) = None -> o_doram (m_opts m) = false ->
  m_chain m' = finm rows ->
  let n := List.length (sampled_params (m_params m)) in
  (0 < n)%nat ->
  exists evs last r, m_trace m' = rev evs ++ m_trace m /\ m_results m' = Some r /\ rr_R r = c_R last /\
    let covs := map (@ev_cov XR) evs ++ [last] in
    List.length evs = (o_nsimu (m_opts m) - 1)%nat /\
    (nth_error covs 0%nat = Some c0 -> c_qcov c0 = finm (table n n Q) -> symmetric n Q -> c_qcov_scale c0 = Fin s ->
     o_qcov_adjust (m_opts m) = Fin a ->
     forall k c c', nth_error covs k = Some c -> nth_error covs (S k) = Some c' ->
     due (o_adaptint (m_opts m)) (S k) -> (o_burnintime (m_opts m) <= Z.of_nat (S k))%Z ->
     adapted_from n c c' s a (mixed (c_no_adapt c0) Q (row_cov (firstn (S k) rows)))).
Proof.
  intros Hfac H Hiq Hram Hrows n Hn. apply run_covs in H as (ps & evs & last & r & PC). exists evs, last, r.
  pose proof PC as PC'. destruct PC. split; [auto|]. split; [auto|]. split; [auto|]. cbv zeta. split; [auto|].
  intros H0 HQ HSQ Hs Ha k c c' Hc Hc' Hd Hb.
  assert (Hnn : List.length (sampled_params ps) = n) by (symmetry; apply same_decls_sampled; auto).
  assert (Hk : (S k < o_nsimu (m_opts m))%nat).
  { assert (HH : (S k < List.length (map (@ev_cov XR) evs ++ [last]))%nat) by (apply nth_error_Some; congruence).
    rewrite app_length, map_length in HH. cbn in HH. lia. }
  destruct (qcov_constant _ _ _ _ _ _ _ PC' c0 H0 k c Hc) as (A & B & C).
  destruct (pc_moves (S k)) as (c1 & c2 & T1 & T2 & _ & T4); [lia|]. replace (S k - 1)%nat with k in T1 by lia.
  assert (c1 = c) by congruence. assert (c2 = c') by congruence. subst c1 c2.
  destruct (T4 Hd) as (z & al & HR). rewrite Hnn in *.
  destruct (fresh_statistics _ _ _ _ _ _ _ PC' Hiq Hrows ltac:(lia) (S k) c' Hc') as [_ HS]. rewrite Hnn in HS.
  assert (HL : c_last c' = S k).
  { pose proof HR as HR'. apply adaptation_stats in HR' as (_ & _ & _ & HR'). cbn [ao_burnintime ado_of] in HR'.
    replace (_ <? _)%Z with false in HR' by (symmetry; apply Z.ltb_ge; auto). tauto. }
  rewrite HL in HS.
  assert (Hcc : c_covchain c' = Some (finm (table n n (row_cov (firstn (S k) rows))))).
  { unfold statistics_are in HS. destruct rows as [|r0 rows'].
    - destruct (pc_rows eq_refl) as [Hlen _]. rewrite Hrows in Hlen. cbn in Hlen. lia.
    - cbn [firstn] in *. tauto. }
  rewrite <- C. unfold adapted_from.
  assert (HSC : symmetric n (row_cov (firstn (S k) rows))).
  { intros i j _ _. unfold row_cov. f_equal. f_equal. apply map_ext. intros; ring. }
  eapply (adapt_factor E Hfac); eauto; congruence.
Qed.

(** ** C19 *)

(** Factors and inverses held for delayed rejection fit the first-stage factor. *)
Definition dr_consistent (n ntry : nat) (drscale : list R) (c : covst XR) : Prop :=
  forall P, c_R c = finm (table n n P) ->
  exists Ps iPs, c_RDR c = RSome Ps /\ c_invR c = Some iPs /\ stage_factors n ntry drscale P Ps iPs.

Lemma dr_setup meth n ntry drscale q ada iq sg v pi na ordr th c : inverts (e_inv E) ->
  (forall x, In x drscale -> x <> 0) -> drscale <> [] ->
  initialize_covariance E meth ntry (fin drscale) None q ada iq sg v pi na ordr th = Ok c ->
  uses_dr_setup meth = true -> (0 < n)%nat -> (0 < ntry)%nat ->
  dr_consistent n ntry drscale c.
Proof.
  intros HI D1 D2 H Hm Hn Hnt P HP. unfold initialize_covariance in H. rewrite Hm in H. peel H. destruct a as [R0 sub].
  destruct (setup_RDR_matrix E R0 ntry (fin drscale) None) as [[[R' l] i]|] eqn:HS; [|discriminate].
  cbn [bind] in H. inv H. cbn [c_R c_RDR c_invR] in *. exists l, i. split; auto. split; auto.
  assert (R0 = finm (table n n P)).
  { cbn in HS. peel HS. peel HS. destruct a0 as [x1 x2]. inv HS. auto. }
  subst R0. apply (setup_rdr_spec E HI drscale D1 D2 n) in HS; tauto.
Qed.

Lemma dr_adapt n ntry drscale c o i ii rj ch ci u np al c' : inverts (e_inv E) ->
  (forall x, In x drscale -> x <> 0) -> drscale <> [] ->
  run_adaptation E c o i ii rj ch ci u np al = Ok c' -> (ao_burnintime o <= Z.of_nat i)%Z ->
  ao_ntry o = ntry -> ao_drscale o = fin drscale -> (1 < ntry)%nat -> (0 < n)%nat ->
  dr_consistent n ntry drscale c'.
Proof.
  intros HI D1 D2 H Hb Hnt Hds H1 Hn P HP. unfold run_adaptation in H.
  replace (_ <? _)%Z with false in H by (symmetry; apply Z.ltb_ge; auto). peel H.
  rewrite Hnt, Hds in H.
  destruct (update_delayed_rejection E _ ntry (fin drscale)) as [[[Ps iPs]|]|] eqn:HU; [| |discriminate].
  - cbn [bind] in H. inv H. cbn [c_R c_RDR c_invR option_map snd] in *. exists Ps, iPs. split; auto. split; auto.
    rewrite HP in HU. apply (update_dr_spec E HI drscale D1 D2 n) in HU; auto.
  - unfold update_delayed_rejection in HU. replace (1 <? ntry)%nat with true in HU by (symmetry; apply Nat.ltb_lt; auto).
    peel HU. peel HU. destruct a1. discriminate.
Qed.

Lemma dr_run b m m' n drscale : inverts (e_inv E) ->
  (forall x, In x drscale -> x <> 0) -> drscale <> [] ->
  run_simulation E b m = Ok m' -> uses_dr_setup (o_method (m_opts m)) = true -> o_RDR (m_opts m) = None ->
  o_drscale (m_opts m) = fin drscale -> (1 < o_ntry (m_opts m))%nat -> (0 < n)%nat ->
  (forall j, due (o_adaptint (m_opts m)) j -> (o_burnintime (m_opts m) <= Z.of_nat j)%Z) ->
  exists evs, m_trace m' = rev evs ++ m_trace m /\ List.length evs = (o_nsimu (m_opts m) - 1)%nat /\
    forall e, In e evs -> dr_consistent n (o_ntry (m_opts m)) drscale (ev_cov e).
Proof.
  intros HI D1 D2 H Hm HR Hds Hnt Hn Hb. apply run_covs in H as (ps & evs & last & r & PC). exists evs.
  pose proof PC as PC'. destruct PC. split; [auto|]. split; [auto|].
  enough (HH : forall k c, nth_error (map (@ev_cov XR) evs ++ [last]) k = Some c -> dr_consistent n (o_ntry (m_opts m)) drscale c).
  { intros e He. apply In_nth_error in He as [k Hk]. apply (HH k).
    rewrite nth_error_app1 by (rewrite map_length; apply nth_error_Some; congruence).
    rewrite nth_error_map, Hk. reflexivity. }
  induction k as [|k IH]; intros c Hc.
  - destruct pc_start as (c1 & S1 & S2). assert (c1 = c) by congruence. subst c1. cbv zeta in S2.
    destruct (run_options_same b m) as (_ & _ & _ & Q1 & Q2 & Q3 & Q4). rewrite Q1, Q2, Q3, Q4, HR, Hds in S2.
    eapply (dr_setup _ n); eauto. lia.
  - assert (Hk : (S k < o_nsimu (m_opts m))%nat).
    { assert (HH : (S k < List.length (map (@ev_cov XR) evs ++ [last]))%nat) by (apply nth_error_Some; congruence).
      rewrite app_length, map_length in HH. cbn in HH. lia. }
    destruct (pc_moves (S k)) as (c1 & c2 & T1 & T2 & T3 & T4); [lia|].
    assert (c2 = c) by congruence. subst c2. replace (S k - 1)%nat with k in T1 by lia.
    destruct (due_dec (o_adaptint (m_opts m)) (S k)) as [Hd|Hd]; [|rewrite (T3 Hd); auto].
    destruct (T4 Hd) as (z & al & HX). eapply (dr_adapt n); eauto.
Qed.

(** ** C20 *)

(** Burn-in rule for a factor [P] and the number of rejections in an interval of [k] iterations. *)
Definition burnin_rule (s : R) (rejected k : nat) (P : nat -> nat -> R) (i j : nat) : R :=
  if Rlt_dec (95 / 100) (INR rejected / INR k) then P i j / s
  else if Rlt_dec (INR rejected / INR k) (5 / 100) then P i j * s
  else P i j.

Lemma burnin_spec n P s rj k : (0 < k)%nat -> s <> 0 ->
  below_burnin_threshold rj k (finm (table n n P)) (Fin s) = finm (table n n (burnin_rule s rj k P)).
Proof.
  intros Hk Hs. unfold below_burnin_threshold.
  assert (HI : INR k <> 0) by (apply not_0_INR; lia).
  assert (Hr : nmul (@nnat XR _ rj) (ninv (nnat k)) = Fin (INR rj / INR k)).
  { rewrite !XR_nnat, XR_ninv by auto. reflexivity. }
  rewrite Hr, XR_ninv by auto. rewrite !mscale_tab.
  assert (H95 : @nQ XR _ (95 # 100) = Fin (95 / 100)) by (cbn; f_equal; unfold Q2R; cbn; lra).
  assert (H5 : @nQ XR _ (5 # 100) = Fin (5 / 100)) by (cbn; f_equal; unfold Q2R; cbn; lra).
  rewrite H95, H5. cbn [nlt Num_X xlt alt Arith_R]. unfold Rltb, burnin_rule.
  destruct (Rlt_dec (95 / 100) (INR rj / INR k)).
  - reflexivity.
  - destruct (Rlt_dec (INR rj / INR k) (5 / 100)); reflexivity.
Qed.

End Exact.
