(** Proofs of the theorems stated in Prop_Run.v. *)

From Coq Require Import ZArith QArith Bool Lia List String Reals Lra.
From Verif Require Import Base Num Samplers Adapt Settings Simulator SamplerFacts RunFacts RunSpec RunLift
  SessionFacts ResumeFacts.
Import ListNotations.
Close Scope Q_scope.
Close Scope R_scope.
Open Scope list_scope.
Open Scope nat_scope.
Open Scope res_scope.

Section T.
Context {F : Type} `{NF : Num F}.
Variable E : env F.

Lemma rows_inside ps m row : session E ps m -> In row (m_chain m) -> inside ps row.
Proof. intros H. apply session_minv in H. apply (mi_rows _ _ _ H). Qed.

Lemma calls_admissible ps m v : session E ps m -> In v (m_calls m) -> admissible ps v.
Proof.
  intros H Hin. apply session_minv in H. pose proof (mi_calls _ _ _ H) as HF.
  rewrite Forall_forall in HF. auto.
Qed.

Lemma sschain_rows ps m :
  (forall v w, admissible ps v -> admissible ps w -> List.length (e_sos E v) = List.length (e_sos E w)) ->
  session E ps m -> m_sschain m = map (fun row => e_sos E (fill ps row)) (m_chain m).
Proof.
  intros HC H. apply session_minv in H as HM.
  assert (HL : List.length (m_sschain m) = List.length (m_chain m)).
  { destruct (m_status m) eqn:Hs.
    - destruct (mi_len _ _ _ HM Hs) as (A & B & _). lia.
    - destruct (mi_fresh _ _ _ HM Hs) as (_ & -> & -> & _). reflexivity. }
  apply list_eq_nth; [now rewrite map_length|].
  intros k. rewrite nth_error_map.
  destruct (nth_error (m_chain m) k) as [row|] eqn:Hr; simpl.
  - destruct (nth_error (m_sschain m) k) as [ssrow|] eqn:Hs.
    + destruct (mi_ss _ _ _ HM k row ssrow Hr Hs) as (v & Hv & Hfit). f_equal.
      eapply fit_row_exact; [|exact Hfit]. apply HC; auto.
      exists row. split; auto. eapply rows_inside; eauto. eapply nth_error_In; eauto.
    + apply nth_error_None in Hs. assert (k < List.length (m_chain m)) by (apply nth_error_Some; congruence). lia.
  - apply nth_error_None. apply nth_error_None in Hr. lia.
Qed.

Lemma course_of_run ps b m m' :
  session E ps m -> (b = true -> NoDup (map (@a_name F) (sampled_params ps))) ->
  run_simulation E b m = Ok m' -> exists start evs, course E ps b m m' start evs.
Proof.
  intros H HN HR. apply session_minv in H.
  destruct (run_course E ps b m m' H HN HR) as (start & evs & C & _). eauto.
Qed.

Lemma count_le {A} (p q : A -> bool) l :
  (forall x, p x = true -> q x = true) -> count p l <= count q l.
Proof.
  intros H. unfold count. induction l as [|x t IH]; simpl; auto.
  specialize (H x). destruct (p x); [rewrite H by auto; simpl; lia|]. destruct (q x); simpl; lia.
Qed.

Lemma count_length {A} (p : A -> bool) l : count p l <= List.length l.
Proof. unfold count. induction l as [|x t IH]; simpl; auto. destruct (p x); simpl; lia. Qed.

Lemma counters ps b m m' :
  session E ps m -> (b = true -> NoDup (map (@a_name F) (sampled_params ps))) ->
  run_simulation E b m = Ok m' ->
  exists start evs r, course E ps b m m' start evs /\ m_results m' = Some r /\
    let n := o_nsimu (m_opts m) in
    let rejected := count rejected_ev evs in
    let outside := count (fun e => rejected_ev e && ev_outb e) evs in
    rr_total_rejected r = nmul (nnat rejected) (ninv (nnat n)) /\
    rr_outside r = nmul (nnat outside) (ninv (nnat n)) /\
    outside <= rejected /\ rejected <= n - 1.
Proof.
  intros H HN HR. apply session_minv in H.
  destruct (run_course E ps b m m' H HN HR) as (start & evs & C & _ & _ & r & R1 & R2 & R3 & R4 & _).
  exists start, evs, r. split; [auto|]. split; [auto|]. cbv zeta. split; [auto|]. split; [auto|].
  split.
  - apply count_le. intros e He. apply andb_true_iff in He. tauto.
  - rewrite <- (co_iterations _ _ _ _ _ _ _ C). apply count_length.
Qed.

Lemma stage_sum (evs : list (event F)) n ntry :
  List.length evs = n - 1 -> 2 <= n -> 1 < ntry -> (forall e, In e evs -> ev_stage e <= ntry) ->
  (fold_right Z.add 0 (Z.of_nat (S (count (accepted_at 1) evs)) ::
      map (fun j => Z.of_nat (count (accepted_at j) evs)) (seq 2 (ntry - 1)))
   + Z.of_nat (count rejected_ev evs) = Z.of_nat n)%Z.
Proof.
  intros HL Hn Ht HS. pose proof (stages_partition evs ntry HS) as Hp.
  replace (S ntry) with (S (S (ntry - 1))) in Hp by lia. cbn [seq map natlist_sum fold_right] in Hp.
  change (count (accepted_at 0) evs) with (count rejected_ev evs) in Hp.
  cbn [fold_right].
  rewrite <- (map_map (fun j => count (accepted_at j) evs) Z.of_nat), fold_Zadd_nat.
  unfold natlist_sum. lia.
Qed.

Lemma iacce_closes ps b m m' :
  session E ps m -> (b = true -> NoDup (map (@a_name F) (sampled_params ps))) ->
  run_simulation E b m = Ok m' -> 1 < o_ntry (m_opts m) ->
  exists start evs r iacce, course E ps b m m' start evs /\ m_results m' = Some r /\ rr_iacce r = Some iacce /\
    List.length iacce = o_ntry (m_opts m) /\
    (forall j, 1 <= j < o_ntry (m_opts m) ->
       nth_error iacce j = Some (Z.of_nat (count (accepted_at (S j)) evs))) /\
    nth_error iacce 0 = Some (Z.of_nat (S (count (accepted_at 1) evs))) /\
    (fold_right Z.add 0 iacce + Z.of_nat (count rejected_ev evs) = Z.of_nat (o_nsimu (m_opts m)))%Z.
Proof.
  intros H HN HR Hnt. apply session_minv in H.
  pose proof (run_facts _ _ _ _ HR) as (q1 & q2 & q3 & q4 & q5 & q6 & HQ). cbv zeta in HQ.
  assert (H2 : 2 <= o_nsimu (m_opts m)) by (decompose [and] HQ; auto). clear HQ.
  destruct (run_course E ps b m m' H HN HR) as (start & evs & C & _ & _ & r & R1 & R2 & R3 & R4 & R5).
  apply Nat.ltb_lt in Hnt as Hb. rewrite Hb in R5.
  exists start, evs, r. eexists. split; [exact C|]. split; [exact R1|]. split; [exact R5|].
  split; [cbn [List.length]; rewrite map_length, seq_length; lia|].
  split.
  { intros j Hj. destruct j as [|j]; [lia|]. cbn [nth_error]. rewrite nth_error_map.
    rewrite (nth_error_nth' _ 0) by (rewrite seq_length; lia). rewrite seq_nth by lia. reflexivity. }
  split; [reflexivity|].
  apply stage_sum; auto.
  - apply (co_iterations _ _ _ _ _ _ _ C).
  - intros e He. pose proof (co_stage _ _ _ _ _ _ _ C e He). lia.
Qed.

Lemma final_theta ps m :
  session E ps m -> m_status m = true ->
  exists r row, m_results m = Some r /\ nth_error (m_chain m) (List.length (m_chain m) - 1) = Some row /\
    rr_theta r = fill ps row /\
    rr_names r = map (@a_name F) (sampled_params ps) /\
    rr_lower r = map (@a_min F) (sampled_params ps) /\ rr_upper r = map (@a_max F) (sampled_params ps) /\
    List.length row = List.length (sampled_params ps) /\
    rr_chain r = m_chain m /\ rr_sschain r = m_sschain m /\ rr_s2chain r = m_s2chain m.
Proof.
  intros H Hs. apply session_minv in H as HM.
  destruct (mi_results _ _ _ HM Hs) as (r & row & H1 & H2 & H3 & H4 & H5 & H6 & H7 & H8 & H9 & H10 & H11).
  destruct (mi_len _ _ _ HM Hs) as (L1 & _).
  exists r, row. rewrite L1. replace (S (m_index m) - 1) with (m_index m) by lia.
  repeat split; auto. apply inside_length. apply (mi_rows _ _ _ HM). eapply nth_error_In; eauto.
Qed.

Lemma fresh_run_rows ps m m' :
  session E ps m -> run_simulation E false m = Ok m' ->
  List.length (m_chain m') = o_nsimu (m_opts m) /\ List.length (m_sschain m') = o_nsimu (m_opts m) /\
  (forall s2, m_s2chain m' = Some s2 -> List.length s2 = o_nsimu (m_opts m)) /\
  nth_error (m_chain m') 0 = Some (map (@a_theta0 F) (sampled_params (m_params m'))) /\
  2 <= o_nsimu (m_opts m).
Proof.
  intros H HR. apply session_minv in H.
  pose proof (run_facts _ _ _ _ HR) as (q1 & q2 & q3 & q4 & q5 & q6 & HQ). cbv zeta in HQ.
  assert (H2 : 2 <= o_nsimu (m_opts m)) by (decompose [and] HQ; auto). clear HQ.
  destruct (run_course E ps false m m' H ltac:(discriminate) HR) as (start & evs & C & _ & R0 & _).
  pose proof (co_start _ _ _ _ _ _ _ C) as Hs. simpl in Hs. subst start.
  destruct (co_length _ _ _ _ _ _ _ C) as (A & B & D). simpl in *. repeat split; auto.
Qed.

Lemma single_raises b m m' : o_nsimu (m_opts m) <= 1 -> run_simulation E b m <> Ok m'.
Proof.
  intros H HR. pose proof (run_facts _ _ _ _ HR) as (q1 & q2 & q3 & q4 & q5 & q6 & HQ). cbv zeta in HQ.
  assert (H2 : 2 <= o_nsimu (m_opts m)) by (decompose [and] HQ; auto). lia.
Qed.

Lemma resumed_extends ps m m' :
  session E ps m -> NoDup (map (@a_name F) (sampled_params ps)) ->
  run_simulation E true m = Ok m' ->
  m_status m = true /\
  (exists new, m_chain m' = m_chain m ++ new /\ List.length new = o_nsimu (m_opts m) - 1) /\
  (exists new, m_sschain m' = m_sschain m ++ new /\ List.length new = o_nsimu (m_opts m) - 1) /\
  (forall s2', m_s2chain m' = Some s2' -> exists s2 new, m_s2chain m = Some s2 /\ s2' = s2 ++ new /\
       List.length new = o_nsimu (m_opts m) - 1) /\
  exists evs, course E ps true m m' (List.length (m_chain m) - 1) evs.
Proof.
  intros H HN HR. apply session_minv in H as HM.
  pose proof (run_facts _ _ _ _ HR) as (q1 & q2 & q3 & q4 & q5 & q6 & HQ). cbv zeta in HQ.
  assert (H2 : 2 <= o_nsimu (m_opts m) /\ m_status m = true).
  { split; [decompose [and] HQ; auto|]. destruct HQ as (_ & _ & (r & _ & Hs & _) & _). auto. }
  clear HQ. destruct H2 as [H2 Hs]. split; auto.
  destruct (mi_len _ _ _ HM Hs) as (L1 & L2 & L3).
  destruct (run_course E ps true m m' HM ltac:(auto) HR) as (start & evs & C & _).
  pose proof (co_start _ _ _ _ _ _ _ C) as Hst. simpl in Hst. subst start.
  destruct (co_length _ _ _ _ _ _ _ C) as (A & B & D).
  assert (Hpre : forall (old l : list (list F)), List.length old = S (m_index m) ->
     List.length l = m_index m + o_nsimu (m_opts m) ->
     (forall k, k <= m_index m -> nth_error l k = nth_error old k) ->
     exists new, l = old ++ new /\ List.length new = o_nsimu (m_opts m) - 1).
  { intros old l Ho Hl Hk. exists (skipn (S (m_index m)) l). split.
    - rewrite <- (firstn_skipn (S (m_index m)) l) at 1. f_equal.
      apply list_eq_nth; [rewrite firstn_length; lia|].
      intros j. destruct (Nat.le_gt_cases j (m_index m)) as [Hle|Hgt].
      + rewrite <- Hk by auto. rewrite <- (firstn_skipn (S (m_index m)) l) at 2.
        symmetry. apply nth_error_app1. rewrite firstn_length. lia.
      + transitivity (@None (list F)); [|symmetry]; apply nth_error_None; rewrite ?firstn_length; lia.
    - rewrite skipn_length. lia. }
  pose proof (co_old _ _ _ _ _ _ _ C eq_refl) as HO.
  split; [apply Hpre; auto; intros; apply HO; auto|].
  split; [apply Hpre; auto; intros; apply HO; auto|].
  split.
  - intros s2' Hs2'. destruct (HO 0 ltac:(lia)) as (_ & _ & H0). destruct (H0 _ Hs2') as (s2 & Hs2 & _).
    destruct (Hpre s2 s2') as (new & N1 & N2); [apply L3; auto|apply D; auto| |eauto].
    intros k Hk. destruct (HO k Hk) as (_ & _ & Hk'). destruct (Hk' _ Hs2') as (s2'' & E1 & E2). congruence.
  - exists evs. rewrite L1. replace (S (m_index m) - 1) with (m_index m) by lia. exact C.
Qed.

(** Values of the prior means seen by the sampler are kept by a restart. *)
Lemma restart_prior_means r (ps ps' : list (param F)) :
  (forall p, In p ps -> nisnan (a_theta0 p) = false) ->
  (forall v, In v (rs_theta r) -> nisnan v = false) ->
  results_to_params r ps = Ok ps' -> map (@prior_mean F NF) ps' = map (@prior_mean F NF) ps.
Proof.
  unfold results_to_params. generalize 0. intros ii HP HT. revert ii ps HP.
  induction (rs_parind r) as [|i t IH]; intros ii ps HP H; simpl in H; [inv H; auto|].
  peel H. peel H. unfold of_option in E1. destruct (nth_error (rs_theta r) i) as [v|] eqn:Hv; inv E1.
  apply IH in H.
  - rewrite H, map_map. apply map_ext_in. intros p Hp. apply restart_one_prior_mean; auto.
  - intros p Hp. apply in_map_iff in Hp as (q & <- & Hq). unfold restart_one.
    destruct (String.eqb a (a_name q)); simpl; auto.
    destruct (a_sample q); auto. apply HT. eapply nth_error_In; eauto.
Qed.

End T.

(** ** Exact reals *)

Lemma nnat_R n : @nnat XR _ n = Fin (INR n).
Proof.
  unfold nnat. simpl. f_equal. unfold Q2R. simpl. rewrite Rinv_1, Rmult_1_r. symmetry. apply INR_IZR_INZ.
Qed.

Lemma fraction_R k n : 1 <= n -> nmul (@nnat XR _ k) (ninv (nnat n)) = Fin (INR k / INR n)%R.
Proof.
  intros Hn. rewrite !nnat_R. unfold ninv, n1. simpl. unfold Reqb, a0. simpl.
  destruct (Req_EM_T (INR n) (Q2R 0)) as [He|He].
  - exfalso. assert (0 < INR n)%R by (apply lt_0_INR; lia). unfold Q2R in He. simpl in He. lra.
  - simpl. f_equal. unfold Rdiv. replace (Q2R 1) with 1%R by (unfold Q2R; simpl; lra). lra.
Qed.

Lemma inside_R ps (row : list XR) :
  inside ps row ->
  Forall2 (fun p t => nisnan t = false -> nisnan (a_min p) = false -> nisnan (a_max p) = false ->
                      nle (a_min p) t = true /\ nle t (a_max p) = true) (sampled_params ps) row.
Proof.
  intros H. induction H as [|p t l l' [H1 H2] H IH]; constructor; auto.
  intros Ht Hlo Hhi. clear IH H.
  destruct (a_min p), (a_max p), t; simpl in *; try discriminate; auto;
    unfold Rltb, Rleb in *; repeat destruct (Rlt_dec _ _); repeat destruct (Rle_dec _ _); try discriminate; split; auto; lra.
Qed.
