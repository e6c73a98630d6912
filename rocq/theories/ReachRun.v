(** The proposal factors of a run reach every point: proofs for C93. *)

From Coq Require Import ZArith QArith Bool Lia List Reals Lra.
From Verif Require Import Base Num Samplers Adapt Settings Simulator RunSpec CompleteSpec NumberSpec ReachSpec.
From Verif Require Import SamplerFacts RVec RMat RunFacts RunLift InitFacts CleanFacts StatsFacts SettingsFacts TwinFacts ContFacts CompleteFacts CompleteRun NaNRun NumberFacts NumberRun NumberSession ReachFacts.
Import ListNotations.
Close Scope Q_scope.
Open Scope list_scope.
Open Scope R_scope.

Lemma nonzero_inv x : nonzero x -> nonzero (@ninv XR _ x).
Proof. intros (v & -> & Hv). exists (/ v). split; [now apply XR_ninv|now apply Rinv_neq_0_compat]. Qed.

Section Reach.
Variable E : env XR.
Hypothesis HE : sound_library E.
Variable n : nat.
Hypothesis Hn : (0 < n)%nat.

Lemma chol_numbers A L : every number A -> e_chol E A = Some L -> every number L.
Proof. intros H1 H2. destruct (sl_chol _ HE A L H1 H2) as (k & f & _ & -> & _). apply table_numbers. Qed.

Lemma chol_regular A L : square n A -> every number A -> e_chol E A = Some L -> regular n (transpose L).
Proof.
  intros HS H1 H2. destruct (sl_chol _ HE A L H1 H2) as (k & f & HA & -> & H3 & H4).
  assert (k = n) as -> by (destruct HS, HA; congruence). rewrite transpose_tab by exact Hn. apply regular_triangle; auto.
  intros i Hi. specialize (H4 i Hi). lra.
Qed.

(** ** The covariance object *)
Record cov_reg (c : covst XR) : Prop := mkcr {
  cr_ok : cov_ok c;
  cr_R : regular n (c_R c);
  cr_stats : CompleteFacts.stats_ok n (cov_stats c);
  cr_scale : nonzero (c_qcov_scale c);
  cr_RDR : forall l, c_RDR c = RSome l -> Forall (regular n) l
}.

Lemma factors_regular drs m : forall ii P iP l1 l2, Forall nonzero drs -> regular n P -> dr_factors drs m ii P iP = Ok (l1, l2) -> Forall (regular n) l1.
Proof.
  induction m as [|m IH]; intros ii P iP l1 l2 Hd HP H; cbn [dr_factors] in H; [inv H; constructor|].
  peel H. peel H. destruct a0 as [t1 t2]. assert (l1 = mscale (ninv a) P :: t1) as -> by congruence. apply drscale_nonzero in E0; auto.
  assert (HR : regular n (mscale (ninv a) P)) by (apply regular_scaled; [exact Hn|now apply nonzero_inv|exact HP]).
  constructor; [exact HR|]. eapply IH; [exact Hd|exact HR|exact E1].
Qed.
Lemma loop_factors_regular drs m : forall ii P l1 l2, Forall nonzero drs -> regular n P -> setup_RDR_loop E drs m ii P = Ok (l1, l2) -> Forall (regular n) l1.
Proof.
  induction m as [|m IH]; intros ii P l1 l2 Hd HP H; cbn [setup_RDR_loop] in H; [inv H; constructor|].
  peel H. peel H. peel H. destruct a1 as [t1 t2]. assert (l1 = mscale (ninv a) P :: t1) as -> by congruence. apply drscale_nonzero in E0; auto.
  assert (HR : regular n (mscale (ninv a) P)) by (apply regular_scaled; [exact Hn|now apply nonzero_inv|exact HP]).
  constructor; [exact HR|]. eapply IH; [exact Hd|exact HR|exact E2].
Qed.

Lemma adaptation_regular c o isimu ii rej chain idx u alpha c' :
  cov_reg c -> nonzero (ao_burnin_scale o) -> number (ao_qcov_adjust o) -> Forall nonzero (ao_drscale o) -> ao_doram o = false ->
  every number chain -> Forall (fun r => length r = n) chain ->
  run_adaptation E c o isimu ii rej chain idx u n alpha = Ok c' -> cov_reg c'.
Proof.
  intros [C0 C1 C2 C3 C4] Hb Ha Hd Hr Hc Hw H. pose proof (adaptation_ok E chol_numbers _ _ _ _ _ _ _ _ _ _ _ C0 Hb Ha Hd Hr Hc H) as HO.
  unfold run_adaptation in H. destruct (_ <? _)%Z.
  - apply Ok_inj in H. rewrite <- H in *. constructor; cbn [c_R c_qcov_scale c_RDR]; [exact HO| |exact C2|exact C3|intros l Hl; discriminate].
    unfold below_burnin_threshold. destruct (nlt _ _); [apply regular_scaled; auto using nonzero_inv|]. destruct (nlt _ _); [apply regular_scaled; auto|auto].
  - rewrite Hr in H. cbv zeta in H.
    assert (HS : forall t, update_covariance_mean_sum (slice (c_last c) idx chain) [n1] (cov_stats c) = Some t -> NumberFacts.stats_ok t).
    { apply updated_stats; [now apply every_slice|]. destruct C0 as [_ _ _ A4 A5 A6 _]. unfold cov_stats. intros t.
      destruct (c_covchain c) eqn:A1, (c_meanchain c) eqn:A2, (c_wsum c) eqn:A3; intros Ht; inv Ht. split; [|split]; simpl; auto. }
    assert (HQ : CompleteFacts.stats_ok n (update_covariance_mean_sum (slice (c_last c) idx chain) [n1] (cov_stats c))).
    { apply (fine_stats n 1 Hn Nat.lt_0_1 (mkpview n [] [] [] [] []) eq_refl); [|exact C2]. intros r Hr'. 
      pose proof (Forall_slice _ (c_last c) idx chain Hw) as G. rewrite Forall_forall in G. exact (G r Hr'). }
    destruct (update_covariance_mean_sum _ _ _) as [[[cv mn] w]|] eqn:Hst; [|discriminate H].
    specialize (HS _ eq_refl). destruct HS as (S1 & S2 & S3). destruct HQ as [Q1 Q2]. cbn [fst snd] in *. cbn [bind] in H.
    set (up := update_cov_from_covchain cv (c_qcov c) (c_no_adapt c)) in *.
    assert (Hup : every number up).
    { apply Forall_map_all. intros i. apply Forall_map_all. intros j. destruct (_ || _); apply every_entry; auto using number_0. apply (ck_qcov _ C0). }
    assert (Hsq : square n up) by (apply (sq_from_chain n Hn); exact Q1).
    assert (HR : regular n (check_for_singular_cov_matrix E up (c_R c) n (ao_qcov_adjust o) (c_qcov_scale c))).
    { unfold check_for_singular_cov_matrix, adjust_cov_matrix, is_semi_pos_def_chol.
      destruct (e_chol E up) eqn:Hch; [apply regular_scaled; auto; eapply chol_regular; eauto|].
      destruct (e_chol E (madd up _)) eqn:Hch2; auto. apply regular_scaled; auto. eapply chol_regular; [| |exact Hch2].
      - apply (sq_madd n Hn); [exact Hsq|]. apply sq_scale, sq_eye.
      - apply numbers_madd; auto. apply numbers_mscale; auto. apply numbers_eye. }
    peel H. apply Ok_inj in H. rewrite <- H in *. constructor; cbn [c_R c_qcov_scale c_RDR]; auto.
    + unfold cov_stats. cbn [c_covchain c_meanchain c_wsum option_map fst snd]. split; auto.
    + unfold update_delayed_rejection in E0. destruct (1 <? ao_ntry o)%nat.
      * peel E0. peel E0. destruct a1 as [t1 t2]. apply Ok_inj in E0. intros l Hl. rewrite <- E0 in Hl. injection Hl as <-. constructor; [exact HR|]. eapply factors_regular; [exact Hd|exact HR|exact E2].
      * apply Ok_inj in E0. intros l Hl. rewrite <- E0 in Hl. discriminate.
Qed.

(** ** The starting covariance *)
Lemma gather_map {A} (x : list A) d : forall ix y, gather x ix = Ok y -> y = map (fun i => nth i x d) ix /\ forall i, In i ix -> (i < length x)%nat.
Proof.
  induction ix as [|i ix IH]; cbn [gather]; intros y H; [apply Ok_inj in H; subst; split; [reflexivity|intros ? []]|].
  peel H. peel H. apply Ok_inj in H. subst y. destruct (nth_error x i) as [v|] eqn:Hv; [|discriminate E0]. cbn [of_option] in E0. apply Ok_inj in E0. subst a.
  destruct (IH _ E1) as [-> I2]. split.
  - cbn [map]. f_equal. symmetry. now apply nth_error_nth.
  - intros j [<-|Hj]; [apply nth_error_Some; congruence|auto].
Qed.
Lemma submat_is (q : list (list XR)) ix S : submat q ix = Ok S -> S = restrict q ix /\ forall i, In i ix -> (i < length q)%nat.
Proof.
  unfold submat. intros H. peel H. destruct (gather_map q [] _ _ E0) as [-> I2]. split; [|exact I2]. unfold restrict.
  clear I2 E0. revert S H. generalize ix at 2 4. intros ri. induction ri as [|i ri IH]; cbn [map fold_right]; intros S H; [now apply Ok_inj in H|].
  peel H. peel H. apply Ok_inj in H. subst S. destruct (gather_map _ n0 _ _ E0) as [-> _]. f_equal. apply IH. exact E1.
Qed.

Lemma setup_R_regular q ix R0 sub : usable_cov q -> positive_variances ix q -> NoDup ix -> length ix = n ->
  setup_R_matrix E q ix = Ok (R0, sub) -> regular n R0 /\ square n sub.
Proof.
  intros (U1 & U2 & U3) [V1 V2] ND HL H. unfold setup_R_matrix in H. destruct (Nat.eqb_spec (Nat.min (length q) (ncols q)) 1) as [Hv|Hv].
  - specialize (V1 Hv). peel H. apply Ok_inj in H. injection H as <- <-. apply submat_is in E0 as [-> HB]. split; [|rewrite <- HL; apply restrict_square].
    assert (HI : forall i, In i ix -> (i < length (concat q))%nat).
    { intros i Hi. specialize (HB i Hi). unfold diagflat, range in HB. rewrite map_length, seq_length in HB. exact HB. }
    pose proof (CompleteRun.diag_entry (F := XR) (concat q) ix HI) as DE.
    match type of DE with ?l = ?r => change (regular n l) end. rewrite DE. clear DE.
    assert (P : exists g, forall k, (k < n)%nat -> nth (nth k ix 0%nat) (concat q) n0 = Fin (g k) /\ 0 < g k).
    { exists (fun k => match nth (nth k ix 0%nat) (concat q) n0 with Fin v => v | _ => 1 end).
      intros k Hk. destruct (V1 (nth k ix 0%nat)) as (v & -> & H); [apply nth_In; rewrite HL; exact Hk|apply HI, nth_In; rewrite HL; exact Hk|]. auto. }
    destruct P as [g Hg].
    match goal with |- regular n ?M => assert (HM : M = finm (table n n (fun a b => if (a =? b)%nat then sqrt (g a) else 0))) end.
    { rewrite finm_table. apply (list_ext []); [rewrite !map_length, seq_length; exact HL|]. intros a Ha'. rewrite map_length in Ha'.
      rewrite (nth_indep _ [] ((fun i => map (fun j => nsqrt (if (i =? j)%nat then nth i (concat q) n0 else n0)) ix) 0%nat)) by (rewrite map_length; exact Ha').
      rewrite (map_nth (fun i => map (fun j => nsqrt (if (i =? j)%nat then nth i (concat q) n0 else n0)) ix)).
      rewrite HL in Ha'. rewrite (nth_map_seq (fun i => fin (vtab n (fun b => if (i =? b)%nat then sqrt (g i) else 0))) n a [] Ha'). rewrite fin_vtab.
      apply (list_ext (Fin 0)); [rewrite !map_length, seq_length; exact HL|]. intros b Hb. rewrite map_length in Hb.
      rewrite (nth_indep _ (Fin 0) ((fun j => nsqrt (if (nth a ix 0 =? j)%nat then nth (nth a ix 0%nat) (concat q) n0 else n0)) 0%nat)) by (rewrite map_length; exact Hb).
      rewrite (map_nth (fun j => nsqrt (if (nth a ix 0 =? j)%nat then nth (nth a ix 0%nat) (concat q) n0 else n0))).
      rewrite HL in Hb. rewrite (nth_map_seq (fun k => Fin (if (a =? k)%nat then sqrt (g a) else 0)) n b (Fin 0) Hb).
      destruct (Hg a Ha') as [G1 G2]. destruct (Nat.eqb_spec a b) as [->|Hab].
      + rewrite Nat.eqb_refl, G1. apply XR_nsqrt. lra.
      + destruct (Nat.eqb_spec (nth a ix 0%nat) (nth b ix 0%nat)) as [He|He].
        * exfalso. apply Hab. apply (proj1 (NoDup_nth ix 0%nat) ND a b); rewrite ?HL; auto.
        * rewrite XR_n0, XR_nsqrt by lra. now rewrite sqrt_0. }
    rewrite HM. apply regular_triangle; auto.
    + intros i j Hj _. destruct (Nat.eqb_spec i j); [lia|reflexivity].
    + intros i Hi. rewrite Nat.eqb_refl. destruct (Hg i Hi) as [_ G]. apply Rgt_not_eq, sqrt_lt_R0, G.
  - peel H. pose proof (every_submat number _ _ _ U1 E0) as HS. apply submat_is in E0 as [-> HB].
    pose proof (restrict_square q ix) as SQ. rewrite HL in SQ. pose proof (square_concat _ _ SQ) as HC.
    destruct (Nat.eqb_spec (length (concat (restrict q ix))) 1) as [H1|H1].
    + apply Ok_inj in H. injection H as <- <-. split; [|exact SQ]. assert (N1 : n = 1%nat) by nia. rewrite N1 in *.
      destruct ix as [|i [|j t]]; try discriminate HL. destruct (V2 Hv i eq_refl) as (v & Hq & Hp).
      unfold restrict. cbn [map]. assert (Hs : @nsqrt XR _ (nth i (nth i q []) n0) = Fin (sqrt v)) by (rewrite Hq; apply XR_nsqrt; lra).
      match goal with |- regular _ ?M => change M with (transpose [[@nsqrt XR _ (nth i (nth i q []) n0)]]) end. rewrite Hs.
      change (transpose [[Fin (sqrt v)]]) with (finm (table 1 1 (fun _ _ => sqrt v))). apply regular_triangle; [lia|intros; lia|].
      intros _ _. apply Rgt_not_eq, sqrt_lt_R0, Hp.
    + peel H. apply Ok_inj in H. injection H as <- <-. split; [|exact SQ]. destruct (e_chol E (restrict q ix)) as [L|] eqn:Hch; [|discriminate E0].
      cbn [of_option] in E0. apply Ok_inj in E0. subst a. eapply chol_regular; [exact SQ|exact HS|exact Hch].
Qed.

Lemma default_variance_positive s v : number v -> positive (default_variance s v).
Proof.
  clear E HE Hn. clear n.
  intros Hv. destruct (default_variance_ok s v Hv) as (x & Hx & H0). exists x. split; [exact Hx|]. destruct (Req_dec x 0) as [->|]; [|lra]. exfalso.
  unfold default_variance in Hx. set (q := if (nisinf _ || nisnan _)%bool then _ else _) in Hx. destruct (neq q n0) eqn:Hq.
  - rewrite XR_n1 in Hx. injection Hx as Hx. lra.
  - rewrite Hx, XR_n0 in Hq. cbn [neq Num_X xeq aeq Arith_R] in Hq. unfold Reqb in Hq. destruct (Req_EM_T 0 0); [discriminate|lra].
Qed.

Lemma usable_diagflat (v : list XR) : Forall not_negative v -> usable_cov (diagflat v).
Proof.
  clear E HE Hn. clear n.
  intros Hv. assert (HN : every not_negative (diagflat v)) by (apply every_diagflat; [apply not_negative_0|exact Hv]). split; [|split].
  - eapply Forall_impl; [|exact HN]. intros r Hr. eapply Forall_impl; [|exact Hr]. apply not_negative_number.
  - intros i row x H1 H2. unfold every in HN. rewrite Forall_forall in HN. specialize (HN _ (nth_error_In _ _ H1)). rewrite Forall_forall in HN.
    apply HN. eapply nth_error_In, H2.
  - intros _. exact HN.
Qed.
Lemma default_positive (v : list XR) ix : Forall positive v -> (forall i, In i ix -> (i < length v)%nat) -> positive_variances ix (diagflat v).
Proof.
  clear E HE Hn. clear n.
  intros Hv Hix. assert (HG : forall i, (i < length v)%nat -> positive (nth i v n0)). { intros i Hi. rewrite Forall_forall in Hv. apply Hv, nth_In, Hi. }
  constructor.
  - intros Ha i Hi _. specialize (Hix i Hi). specialize (HG i Hix). unfold as_vector, diagflat, range in Ha. rewrite map_length, seq_length in Ha.
    destruct v as [|x [|y v]]; [inversion Hix| |cbn in Ha; rewrite map_length, seq_length in Ha; discriminate Ha].
    assert (i = 0%nat) as -> by (cbn in Hix; lia). exact HG.
  - intros _ i ->. assert (Hi : (i < length v)%nat) by (apply Hix; left; reflexivity). specialize (HG i Hi). unfold diagflat, range.
    rewrite (nth_map_seq (fun i0 => map (fun j => if (i0 =? j)%nat then nth i0 v n0 else n0) (seq 0 (length v))) _ _ [] Hi).
    rewrite (nth_map_seq (fun j => if (i =? j)%nat then nth i v n0 else n0) _ _ n0 Hi). now rewrite Nat.eqb_refl.
Qed.

Lemma scale_nonzero a : (forall x, a = Some x -> number x) -> nonzero (check_adascale a n).
Proof.
  intros Ha. assert (Hd : nonzero (nmul (nQ (24 # 10)) (ninv (nsqrt (@nnat XR _ n))))).
  { assert (HI : 0 < INR n) by (apply lt_0_INR; exact Hn). assert (HS : 0 < sqrt (INR n)) by (apply sqrt_lt_R0; exact HI).
    rewrite XR_nnat, XR_nsqrt, XR_ninv by lra. exists (Q2R (24 # 10) * / sqrt (INR n)). split; [reflexivity|].
    assert (0 < / sqrt (INR n)) by (apply Rinv_0_lt_compat; exact HS). assert (0 < Q2R (24 # 10)) by (unfold Q2R; cbn; lra). nra. }
  unfold check_adascale. destruct a as [x|]; [|exact Hd]. destruct (nle x n0) eqn:Hx; [exact Hd|]. destruct (Ha x eq_refl) as [v ->].
  exists v. split; [reflexivity|]. intros ->. rewrite XR_n0 in Hx. cbn [nle Num_X xle ale Arith_R] in Hx. unfold Rleb in Hx. destruct (Rle_dec 0 0); [discriminate|lra].
Qed.

Definition rdr_reg (r : rdrval XR) : Prop := forall l, r = RSome l -> Forall (regular n) l.

Lemma initial_regular meth ntry drs urdr qcov ada iq sig val parind noad old th c :
  Forall nonzero drs -> (forall l, urdr = Some l -> Forall (regular n) l) ->
  usable_cov (setup_covariance_matrix qcov sig val) -> positive_variances parind (setup_covariance_matrix qcov sig val) ->
  (forall q, qcov = Some q -> usable_cov q) ->
  (forall x, ada = Some x -> number x) -> (forall w, iq = Some w -> positive w) -> Forall number val -> NoDup parind -> length parind = n ->
  rdr_reg old -> Forall number th -> length th = n ->
  initialize_covariance E meth ntry drs urdr qcov ada iq sig val parind noad old th = Ok c -> cov_reg c.
Proof.
  intros Hd Hu Hq1 Hq2 Hq Ha Hi Hv HD HL Ho Ht Htl H.
  assert (HO : cov_ok c).
  { eapply initial_cov_ok; [exact chol_numbers|exact Hd| |exact Hq|exact Ha|exact Hi|exact Hv|rewrite HL; exact Hn| |exact Ht|exact H].
    - intros l Hl. specialize (Hu l Hl). eapply Forall_impl; [|exact Hu]. intros P (_ & X & _). exact X.
    - intros l Hl. specialize (Ho l Hl). eapply Forall_impl; [|exact Ho]. intros P (_ & X & _). exact X. }
  unfold initialize_covariance in H. cbv zeta in H. peel H. destruct a as [R0 sub].
  apply setup_R_regular in E0 as [HR HS]; auto. peel H. destruct a as [[R1 rdr] inv]. apply Ok_inj in H.
  assert (G : regular n R1 /\ rdr_reg rdr).
  { destruct (uses_dr_setup meth); [|apply Ok_inj in E0; injection E0 as <- <- _; auto]. peel E0. destruct a as [[R' l] i].
    apply Ok_inj in E0. injection E0 as <- <- _.
    unfold setup_RDR_matrix in E1. destruct urdr as [l0|].
    - peel E1. peel E1. apply Ok_inj in E1. injection E1 as <- <- _. specialize (Hu _ eq_refl). split; [|intros l' Hl; injection Hl as <-; exact Hu].
      destruct l0 as [|M l0]; [discriminate E2|]. cbn in E2. apply Ok_inj in E2. subst M. now inversion Hu.
    - peel E1. peel E1. destruct a0 as [t1 t2]. apply Ok_inj in E1. injection E1 as <- <- _. split; [exact HR|]. intros l' Hl. injection Hl as <-.
      constructor; [exact HR|]. eapply loop_factors_regular; [exact Hd|exact HR|exact E2]. }
  destruct G as [G1 G2]. rewrite <- H in *. constructor; cbn [c_R c_qcov_scale c_RDR]; auto.
  - unfold cov_stats. cbn [c_covchain c_meanchain c_wsum]. destruct iq; [split; [exact HS|exact Htl]|exact I].
  - rewrite HL. now apply scale_nonzero.
Qed.

(** ** The loop *)
Variable K : rconst XR.
Hypothesis HV : v_npar (k_view K) = n.

Record kept_reg : Prop := mkkr {
  kr_burnin : nonzero (o_burnin_scale (k_opts K));
  kr_adjust : number (o_qcov_adjust (k_opts K));
  kr_drscale : Forall nonzero (o_drscale (k_opts K));
  kr_ram : o_doram (k_opts K) = false
}.

Record reg_inv (st : rstate XR) : Prop := mkri {
  ri_old : Forall number (p_theta (r_old st));
  ri_cov : cov_reg (r_cov st);
  ri_chain : every number (r_chain st);
  ri_width : Forall (fun r => length r = n) (r_chain st);
  ri_trace : Forall (fun e => cov_reg (ev_cov e)) (r_trace st)
}.

Lemma in_force_regular c stage P : cov_reg c -> factor_in_force c stage P -> regular n P.
Proof.
  intros [_ C1 _ _ C4] [[_ ->]|(_ & l & Hl & HP)]; [exact C1|]. specialize (C4 l Hl). rewrite Forall_forall in C4. apply C4. eapply nth_error_In, HP.
Qed.

Lemma reg_step base st0 i st st' : kept_reg -> view_ok (k_view K) (length base) -> reached E K base st0 st -> reg_inv st ->
  step E K i st = Ok st' -> reg_inv st'.
Proof.
  intros [K1 K2 K3 K4] HW R [I1 I2 I3 I4 I5] H. pose proof H as HP. 
  apply step_summary in H as (stage & new & outb & z & iacce & s & H1 & H). cbv zeta in H.
  destruct H as (_ & A2 & _ & _ & (row & B1 & B2 & B3) & _ & _ & _ & _ & _ & _ & A10 & _).
  pose proof (sample_facts E K base st _ _ _ _ _ _ HW (rc_value _ _ _ _ _ R) H1) as (_ & _ & S3 & _).
  set (cur := if (stage =? 0)%nat then r_old st else new) in *.
  assert (Hcur : Forall number (p_theta cur)).
  { unfold cur. destruct (Nat.eqb_spec stage 0) as [|Hs]; [exact I1|]. destruct (S3 Hs) as (_ & _ & P & pos & Q1 & _ & _ & _ & ->).
    apply numbers_vadd; [exact I1|]. apply numbers_vecmat; [apply Forall_map_all; intros k; apply (sl_normal _ HE)|].
    apply (in_force_regular _ _ _ I2 Q1). }
  assert (HC : every number (r_chain st')).
  { rewrite B3. apply Forall_set_nth; [exact I3|]. eapply fit_row_ok; [exact B1|exact Hcur]. }
  assert (HL : Forall (fun r => length r = n) (r_chain st')).
  { rewrite B3. apply Forall_set_nth; [exact I4|]. rewrite <- HV. eapply fit_length, B1. }
  constructor; auto.
  - rewrite A2. exact Hcur.
  - apply step_parts in HP as (stage' & new' & outb' & z' & iacce' & s' & st1 & st2 & st3 & P1 & P2 & P3 & P4 & P5).
    pose proof (adapt_frame _ _ _ _ _ _ _ P3) as G3. apply sigma_frame in P4. apply save_frame in P5.
    assert (E1 : r_cov st' = r_cov st2) by (decompose [and] P4; decompose [and] P5; congruence).
    assert (E2 : r_chain st' = r_chain st1) by (decompose [and] G3; decompose [and] P4; decompose [and] P5; congruence).
    assert (E3 : r_cov st1 = r_cov st). { unfold update_chain in P2. peel P2. peel P2. peel P2. peel P2. apply Ok_inj in P2. rewrite <- P2. reflexivity. }
    rewrite E1. unfold adapt_step in P3. destruct (_ && _)%bool in P3.
    + peel P3. apply Ok_inj in P3. rewrite <- P3. cbn [r_cov]. rewrite HV in E0.
      eapply adaptation_regular; [rewrite <- E3 in I2; exact I2| | | | | | |exact E0]; auto; rewrite <- E2; assumption.
    + apply Ok_inj in P3. rewrite <- P3, E3. exact I2.
  - rewrite A10. constructor; [exact I2|exact I5].
Qed.

Lemma reg_execute base st0 st : kept_reg -> view_ok (k_view K) (length base) -> reached E K base st0 st0 -> reg_inv st0 ->
  execute E K st0 = Ok st -> reg_inv st.
Proof.
  intros HK HW R0 H0 HX. unfold execute in HX. peel HX. destruct (_ <=? 1)%nat in HX; [discriminate|]. peel HX. peel HX. apply Ok_inj in HX.
  assert (HI : reached E K base st0 a /\ reg_inv a).
  { eapply (iterate_ind E K (fun _ x => reached E K base st0 x /\ reg_inv x)); [split; [exact R0|exact H0]| |exact E0].
    intros i s1 s2 _ [G1 G2] G3. split; [eapply reached_step; eauto|eapply reg_step; eauto]. }
  destruct HI as [_ [I1 I2 I3 I4 I5]]. rewrite <- HX. constructor; assumption.
Qed.
End Reach.

(** ** Whole runs *)
Section Runs.
Variable E : env XR.
Hypothesis HE : sound_library E.
Variable ps0 : list (param XR).
Let n := length (positions ps0).
Hypothesis Hn : (0 < n)%nat.

Lemma same_positions ps : same_decls ps0 ps -> positions ps = positions ps0.
Proof.
  intros H. unfold positions. f_equal. clear - H. induction H as [|p q a b Hp H IH]; cbn [map]; [reflexivity|]. f_equal; [|exact IH].
  destruct Hp as (_ & _ & _ & H3 & _). symmetry. exact H3.
Qed.

Record good_mcmc (m : mcmc XR) : Prop := mkgm {
  gm_decls : same_decls ps0 (m_params m);
  gm_values : Forall number (map (@a_theta0 XR) (m_params m));
  gm_opts : reaching_options ps0 (m_opts m);
  gm_RDR : rdr_reg n (m_RDR m);
  gm_chain : every number (m_chain m);
  gm_width : Forall (fun r => length r = n) (m_chain m);
  gm_results : forall r, m_results m = Some r -> Forall number (rr_theta r) /\ regular n (rr_R r);
  gm_trace : Forall (fun e => cov_reg n (ev_cov e)) (m_trace m)
}.

Lemma restarted_values r ps ps' : Forall number (rs_theta r) -> Forall number (map (@a_theta0 XR) ps) -> results_to_params r ps = Ok ps' ->
  Forall number (map (@a_theta0 XR) ps').
Proof.
  intros Hr. unfold results_to_params. generalize 0%nat. revert ps. induction (rs_parind r) as [|i t IH]; intros ps k Hp H; cbn [results_to_params_loop] in H.
  - apply Ok_inj in H. now subst.
  - peel H. peel H. eapply IH; [|exact H]. destruct (nth_error (rs_theta r) i) as [v|] eqn:Hv; [|discriminate E1]. cbn [of_option] in E1. apply Ok_inj in E1. subst a0.
    assert (number v) by (rewrite Forall_forall in Hr; eapply Hr, nth_error_In, Hv).
    clear - Hp H0. induction ps as [|p ps IH]; cbn [map]; [constructor|]. inversion Hp; subst. constructor; [|apply IH; assumption].
    unfold restart_one. destruct (String.eqb _ _); [|assumption]. destruct (a_sample p); assumption.
Qed.

Lemma with_dependent o b : reaching_options ps0 o -> reaching_options ps0 (check_dependent_simulation_options o b).
Proof. intros [[U1 U2 U3 U4 U5 U6 U7 U8] V1 V2 V3]. constructor; [constructor|..]; assumption. Qed.

Lemma with_restart m b : reaching_options ps0 (m_opts m) -> reaching_options ps0 (run_options b m).
Proof.
  intros H. unfold run_options. destruct b; [exact H|]. destruct (o_restart (m_opts m)) as [r|] eqn:Hr; [|exact H].
  destruct H as [[U1 U2 U3 U4 U5 U6 U7 U8] V1 V2 V3]. destruct (V3 r Hr) as (W1 & W2 & W3).
  constructor; [constructor|..]; cbn [set_qcov o_qcov o_adascale o_initqcovn o_drscale o_burnin_scale o_qcov_adjust o_doram o_RDR o_restart]; try assumption.
  - intros q Hq. injection Hq as <-. exact W2.
  - intros q Hq. injection Hq as <-. exact W3.
Qed.

Lemma init_regular ps d ms o rdr pos calls ini : same_decls ps0 ps -> Forall number (map (@a_theta0 XR) ps) -> reaching_options ps0 o -> rdr_reg n rdr ->
  initialize_simulation E ps d ms o rdr pos calls = Ok ini -> cov_reg n (i_cov ini) /\ Forall number (p_theta (i_set ini)) /\ length (p_theta (i_set ini)) = n.
Proof.
  intros D HP [[U1 U2 U3 U4 U5 U6 U7 U8] V1 V2 V3] HR H.
  pose proof (init_facts E _ _ _ _ _ _ _ _ H) as HF. cbv zeta in HF. destruct HF as (_ & _ & _ & F4 & _).
  assert (HL : length (map (@a_theta0 XR) (sampled_params ps)) = n).
  { rewrite map_length, <- parind_length. change (length (positions ps) = n). now rewrite (same_positions _ D). }
  assert (HN : Forall number (map (@a_theta0 XR) (sampled_params ps))) by now apply sampled_numbers.
  split; [|rewrite F4; auto].
  unfold initialize_simulation in H. cbv zeta in H. peel H. peel H. peel H. peel H. destruct (evaluate_sos_function _ _ _ _) as [ss s1]. peel H. apply Ok_inj in H.
  rewrite <- H. cbn [i_cov].
  assert (Hpar : op_parind (check_prior_sigma (openparameterstructure ps)) = positions ps0).
  { rewrite <- (same_positions _ D). reflexivity. }
  set (o1 := check_dependent_simulation_options o _) in *.
  assert (HQ : usable_cov (start_covariance ps o1) /\ positive_variances (positions ps0) (start_covariance ps o1)).
  { unfold start_covariance. change (o_qcov o1) with (o_qcov o). destruct (o_qcov o) as [q|]; [split; [apply U1|apply V1]; reflexivity|].
    assert (Hpos : Forall positive (map (start_variance (F := XR)) ps)).
    { apply Forall_forall. intros x Hx. apply in_map_iff in Hx as (p & <- & Hp). unfold start_variance. apply default_variance_positive.
      rewrite Forall_forall in HP. apply HP, in_map, Hp. }
    split.
    - apply usable_diagflat. eapply Forall_impl; [|exact Hpos]. intros x (v & -> & Hv). exists v. split; [reflexivity|lra].
    - apply default_positive; [exact Hpos|]. rewrite map_length. rewrite <- (same_positions _ D). intros i Hi. unfold positions in Hi. apply flatnonzero_spec in Hi.
      rewrite <- (map_length (@a_sample XR)). apply nth_error_Some. congruence. }
  destruct HQ as [HQ1 HQ2]. rewrite <- start_cov_same in HQ1, HQ2.
  eapply (initial_regular E HE n Hn); [.. |exact E3]; try assumption; rewrite ?Hpar; auto.
  - apply flatnonzero_NoDup.
  - rewrite <- Hpar. change (Forall number (sel (map (@a_theta0 XR) ps) (positions ps))). unfold positions. rewrite sel_filter. exact HN.
  - unfold sel. rewrite map_length. reflexivity.
Qed.

Lemma good_run b m m' : good_mcmc m -> run_simulation E b m = Ok m' -> good_mcmc m'.
Proof.
  intros [G1 G2 G3 G4 G5 G6 G7 G8] H. apply run_facts in H as (ps & ini & st0 & st & ms & chains & H). cbv zeta in H.
  destruct H as (D & (o & I0 & On & Ot & Oo) & Hprev & Harr & Hst0 & HX & HK & RC & N2 & NK & NL &
                 P1 & P2 & P3 & P4 & P5 & P6 & P7 & P8 & P9 & P10 & P11 & P12 & P13 & P14 & P15).
  assert (D' : same_decls ps0 ps) by (eapply same_decls_trans; eauto).
  assert (HO : reaching_options ps0 o) by (rewrite Oo; now apply with_restart).
  assert (HP : Forall number (map (@a_theta0 XR) ps)).
  { destruct b.
    - destruct Hprev as (r & R1 & _ & R2). eapply restarted_values; [|exact G2|exact R2]. exact (proj1 (G7 r R1)).
    - destruct (o_restart (m_opts m)) as [r|] eqn:Hr; [|now subst]. eapply restarted_values; [|exact G2|exact Hprev]. exact (proj1 (ro_restart _ _ G3 r Hr)). }
  pose proof (init_regular _ _ _ _ _ _ _ _ D' HP HO G4 I0) as (Q1 & Q2 & Q3).
  pose proof (init_facts E _ _ _ _ _ _ _ _ I0) as HF. cbv zeta in HF. destruct HF as (J1 & J2 & J3 & J4 & J5 & J6 & J7 & J8 & J9 & J10 & J11).
  pose proof (init_model E _ _ _ _ _ _ _ _ I0) as (ms1 & M1 & M2 & M3 & M4).
  set (K := make_const ini chains) in *.
  assert (HV : v_npar (k_view K) = n).
  { rewrite HK. destruct (opview_facts ps) as (_ & -> & _). rewrite <- parind_length. change (length (positions ps) = n). now rewrite (same_positions _ D'). }
  assert (HIO : reaching_options ps0 (i_opts ini)) by (rewrite M4; now apply with_dependent).
  assert (Hz : forall k, every number (zeros k n) /\ Forall (fun r : list XR => length r = n) (zeros k n)).
  { intros k. split; [apply every_zeros, number_0|]. unfold zeros. apply Forall_repeat. apply repeat_length. }
  assert (Hpl : length (op_parind (i_op ini)) = n).
  { rewrite J1. change (length (positions ps) = n). now rewrite (same_positions _ D'). }
  assert (HC : every number (r_chain st0) /\ Forall (fun r => length r = n) (r_chain st0)).
  { destruct b.
    - apply expand_chains_facts in Harr. cbv zeta in Harr. destruct Harr as (A1 & _). rewrite A1, Hpl. split; apply Forall_app; split; auto; apply Hz.
    - unfold initialize_chains in Harr. peel Harr. peel Harr. peel Harr. peel Harr. apply write_ok in E1 as [_ E1].
      assert (HA : a0 = r_chain st0). { destruct (o_updatesigma (i_opts ini)); [peel Harr; peel Harr|]; apply Ok_inj in Harr; now injection Harr. }
      rewrite <- HA, E1. rewrite Hpl in *. split; apply Forall_set_nth; try apply Hz; [eapply fit_row_ok; eauto|eapply fit_length; eauto]. }
  assert (HI0 : reg_inv n st0).
  { constructor; try apply HC; rewrite Hst0; cbn [start_state r_old r_cov r_trace]; auto. }
  assert (R0 : reached E K (map (@a_theta0 XR) ps) st0 st0).
  { apply reached_refl; rewrite Hst0; cbn [start_state r_trace r_old r_io]; [reflexivity|rewrite HK; exact J6|rewrite HK; exact J7]. }
  assert (HKR : kept_reg K).
  { destruct HIO as [[U1 U2 U3 U4 U5 U6 U7 U8] _ _ _]. constructor; assumption. }
  pose proof (reg_execute E HE n Hn K HV _ _ _ HKR ltac:(rewrite HK; apply opview_ok) R0 HI0 HX) as [W1 W2 W3 W4 W5].
  constructor.
  - rewrite P1. exact D'.
  - rewrite P1. exact HP.
  - rewrite P13. exact HIO.
  - rewrite P15. exact (cr_RDR _ _ W2).
  - rewrite P4. exact W3.
  - rewrite P4. exact W4.
  - intros r Hr. rewrite P10 in Hr. injection Hr as <-. cbn [generate_results rr_theta rr_R]. split; [|exact (cr_R _ _ W2)].
    apply Forall_scatter; [|exact W1]. rewrite J1. exact HP.
  - rewrite P11. apply Forall_app. split; assumption.
Qed.

Lemma good_acts acs : forall m m', Forall (options_set (reaching_options ps0)) acs -> good_mcmc m -> acts E acs m = Ok m' -> good_mcmc m'.
Proof.
  induction acs as [|a acs IH]; intros m m' HA HG H; cbn [acts] in H; [apply Ok_inj in H; now subst|].
  inversion HA as [|? ? A1 A2]; subst. peel H. eapply IH; [exact A2| |exact H]. destruct a as [o|ms|b]; cbn [act] in E0.
  - apply Ok_inj in E0. subst a0. destruct HG as [G1 G2 G3 G4 G5 G6 G7 G8]. constructor; assumption.
  - apply Ok_inj in E0. subst a0. destruct HG as [G1 G2 G3 G4 G5 G6 G7 G8]. constructor; assumption.
  - eapply good_run; eauto.
Qed.

Lemma good_new d ms o pos l : Forall number (map (@a_theta0 XR) ps0) -> reaching_options ps0 o -> good_mcmc (new_mcmc ps0 d ms o pos l).
Proof.
  intros H1 H2. constructor; cbn [new_mcmc m_params m_opts m_RDR m_chain m_results m_trace]; auto; try (constructor; fail).
  - apply same_decls_refl.
  - intros l' Hl. discriminate.
  - discriminate.
Qed.
End Runs.

(** ** Runs without adaptation *)
Lemma frozen_run (E : env XR) m m' : (o_adaptint (m_opts m) <= 0)%Z -> o_restart (m_opts m) = None -> run_simulation E false m = Ok m' ->
  exists ini tr, initialize_simulation E (m_params m) (m_data m) (m_model m) (m_opts m) (m_RDR m) (m_pos m) (m_calls m) = Ok ini /\
    m_trace m' = tr ++ m_trace m /\ length tr = (o_nsimu (m_opts m) - 1)%nat /\ (2 <= o_nsimu (m_opts m))%nat /\ Forall (fun e => ev_cov e = i_cov ini) tr.
Proof.
  intros Ha Hr H. apply run_facts in H as (ps & ini & st0 & st & ms & chains & H). cbv zeta in H.
  destruct H as (D & (o & I0 & On & Ot & Oo) & Hprev & _ & Hst0 & HX & _ & _ & N2 & _ & NL & _ & _ & _ & _ & _ & _ & _ & _ & _ & _ & P11 & _).
  rewrite Hr in Hprev. subst ps. unfold run_options in Oo. rewrite Hr in Oo. subst o. exists ini, (r_trace st). do 4 (split; [assumption|]).
  pose proof (init_model E _ _ _ _ _ _ _ _ I0) as (ms1 & _ & _ & _ & M4). set (K := make_const ini chains) in *.
  assert (HA : (o_adaptint (k_opts K) <= 0)%Z) by (change (k_opts K) with (i_opts ini); rewrite M4; exact Ha).
  unfold execute in HX. peel HX. destruct (_ <=? 1)%nat in HX; [discriminate|]. peel HX. peel HX. apply Ok_inj in HX. rewrite <- HX. cbn [r_trace].
  assert (HI : r_cov a = i_cov ini /\ Forall (fun e => ev_cov e = i_cov ini) (r_trace a)); [|apply HI].
  eapply (iterate_ind E K (fun _ x => r_cov x = i_cov ini /\ Forall (fun e => ev_cov e = i_cov ini) (r_trace x))); [| |exact E0].
  - rewrite Hst0. cbn [start_state r_cov r_trace]. auto.
  - intros i s1 s2 _ [G1 G2] G3. pose proof G3 as G4. apply step_summary in G3 as (stage & new & outb & z & iacce & s & H1 & G3). cbv zeta in G3.
    destruct G3 as (_ & _ & _ & _ & _ & _ & _ & _ & _ & _ & _ & A10 & _). split; [|rewrite A10; constructor; assumption].
    apply step_parts in G4 as (stage' & new' & outb' & z' & iacce' & s' & st1 & st2 & st3 & P1 & P2 & P3 & P4 & P5).
    apply sigma_frame in P4. apply save_frame in P5.
    assert (X1 : r_cov s2 = r_cov st2) by (decompose [and] P4; decompose [and] P5; congruence).
    assert (X2 : r_cov st1 = r_cov s1). { unfold update_chain in P2. peel P2. peel P2. peel P2. peel P2. apply Ok_inj in P2. rewrite <- P2. reflexivity. }
    unfold adapt_step in P3. replace (0 <? o_adaptint (k_opts K))%Z with false in P3 by (symmetry; apply Z.ltb_ge; exact HA). cbn [andb] in P3.
    apply Ok_inj in P3. congruence.
Qed.
