(** A run continued from another, against one uninterrupted run. *)

From Coq Require Import ZArith QArith Bool Lia List String.
From Verif Require Import Base Num Samplers Adapt Settings Simulator SamplerFacts RunSpec RunFacts RunLift SessionFacts AdaptRun TwinSpec TwinFacts.
Import ListNotations.
Open Scope list_scope.
Open Scope nat_scope.
Open Scope res_scope.

Section Cont.
Context {F : Type} `{NF : Num F}.
Variable E : env F.

(** Equal but for the log ratio remembered with the point. *)
Definition same_pset (p q : pset F) : Prop :=
  p_theta p = p_theta q /\ p_ss p = p_ss q /\ p_prior p = p_prior q /\ p_sigma2 p = p_sigma2 q.

Lemma same_pset_refl p : same_pset p p.
Proof. repeat split. Qed.

Lemma same_nth l1 l2 : Forall2 same_pset l1 l2 -> forall i,
  match nth_error l1 i, nth_error l2 i with Some p, Some q => same_pset p q | None, None => True | _, _ => False end.
Proof. induction 1; intros [|i]; cbn; auto. apply IHForall2. Qed.

Lemma same_length l1 l2 : Forall2 same_pset l1 l2 -> List.length l1 = List.length l2.
Proof. induction 1; cbn; auto. Qed.

Lemma extract_same iq st l1 l2 : Forall2 same_pset l1 l2 -> extract_state_elements iq st l1 = extract_state_elements iq st l2.
Proof.
  intros H. unfold extract_state_elements. cbv zeta.
  assert (G : forall i, (let* p := of_option IndexError (nth_error l1 i) in Ok (p_theta p)) = (let* p := of_option IndexError (nth_error l2 i) in Ok (p_theta p))).
  { intros i. pose proof (same_nth _ _ H i) as X. destruct (nth_error l1 i), (nth_error l2 i); cbn; try tauto. destruct X as (X & _). now rewrite X. }
  rewrite !G. reflexivity.
Qed.

Lemma nth_ratio_same iq l1 l2 invR : Forall2 same_pset l1 l2 ->
  nth_stage_log_proposal_ratio iq l1 invR = nth_stage_log_proposal_ratio iq l2 invR.
Proof. intros H. unfold nth_stage_log_proposal_ratio. rewrite (same_length _ _ H), (extract_same _ _ _ _ H). reflexivity. Qed.

Lemma exponent_same l1 l2 invR : Forall2 same_pset l1 l2 -> alpha_exponent l1 invR = alpha_exponent l2 invR.
Proof.
  intros H. unfold alpha_exponent. rewrite <- (same_length _ _ H).
  pose proof (same_nth _ _ H 0) as X0. pose proof (same_nth _ _ H (List.length l1 - 1)) as X1.
  destruct (nth_error l1 0), (nth_error l2 0); cbn [of_option bind]; try tauto.
  destruct (nth_error l1 (List.length l1 - 1)), (nth_error l2 (List.length l1 - 1)); cbn [of_option bind]; try tauto.
  destruct X0 as (_ & A1 & A2 & A3), X1 as (_ & B1 & B2 & B3). rewrite A1, A2, A3, B1, B2, B3.
  destruct (loglik (p_ss p2) (p_sigma2 p2)); cbn [bind]; auto. destruct (loglik (p_ss p0) (p_sigma2 p0)); cbn [bind]; auto.
  match goal with |- fold_left ?f ?l ?x = fold_left ?g ?l ?x => assert (Hfg : forall l' a, fold_left f l' a = fold_left g l' a) end.
  { induction l' as [|k t IH]; intros a'; cbn; auto. rewrite IH. destruct a'; cbn; auto. now rewrite (nth_ratio_same _ _ _ _ H). }
  apply Hfg.
Qed.

Lemma Forall2_firstn {A B} (P : A -> B -> Prop) n : forall l1 l2, Forall2 P l1 l2 -> Forall2 P (firstn n l1) (firstn n l2).
Proof. induction n; intros l1 l2 H; cbn; auto. destruct H; auto. Qed.

Lemma Forall2_rev' {A B} (P : A -> B -> Prop) l1 l2 : Forall2 P l1 l2 -> Forall2 P (rev l1) (rev l2).
Proof. induction 1; cbn; auto. apply Forall2_app; auto. Qed.

Lemma alphafun_same fuel invR : forall l1 l2, Forall2 same_pset l1 l2 -> alphafun fuel invR l1 = alphafun fuel invR l2.
Proof.
  induction fuel as [|f IH]; intros l1 l2 H; cbn [alphafun]; auto.
  rewrite (same_length _ _ H), (exponent_same _ _ _ H).
  assert (G : forall kks a1 a2, alpha_loop (alphafun f invR) l1 kks a1 a2 = alpha_loop (alphafun f invR) l2 kks a1 a2).
  { induction kks as [|k t IHk]; intros a1 a2; cbn [alpha_loop]; auto.
    rewrite (IH _ _ (Forall2_firstn _ (k + 2) _ _ H)).
    rewrite (IH _ _ (Forall2_firstn _ (k + 2) _ _ (Forall2_rev' _ _ _ H))).
    destruct (alphafun f invR (firstn (k + 2) l2)); cbn [bind]; auto.
    destruct (alphafun f invR (firstn (k + 2) (rev l2))); cbn [bind]; auto.
    destruct (neq _ _); auto. }
  rewrite G. reflexivity.
Qed.

Variable base : list F.

Definition same_io (V : pview F) (s t : io F) : Prop :=
  io_pos s = io_pos t /\ value_ok base V s /\ value_ok base V t.

Section View.
Variable V : pview F.
Hypothesis HV : view_ok V (List.length base).

Lemma candidate_same theta R s t x z s1 : same_io V s t -> sample_candidate E (v_npar V) theta R s = Ok (x, z, s1) ->
  exists t1, sample_candidate E (v_npar V) theta R t = Ok (x, z, t1) /\ same_io V s1 t1 /\ List.length x = v_npar V.
Proof.
  intros (P & Vs & Vt) H. pose proof H as H'.
  apply sample_candidate_facts in H' as (_ & _ & L1 & L2 & _).
  unfold sample_candidate in *. destruct (is_square (v_npar V) R && (List.length theta =? v_npar V)); [|discriminate].
  unfold randn in *. inv H. rewrite P. eexists. split; [reflexivity|]. split; [|congruence]. split; cbn; auto.
Qed.

Lemma sos_same theta s t ss s1 : same_io V s t -> List.length theta = v_npar V -> evaluate_sos_function E V theta s = (ss, s1) ->
  exists t1, evaluate_sos_function E V theta t = (ss, t1) /\ same_io V s1 t1.
Proof.
  intros (P & Vs & Vt) L H.
  destruct (evaluate_sos_function E V theta t) as [ss' t1] eqn:Ht.
  destruct (sos_io E V theta s ss s1 base H HV Vs L) as (A1 & A2 & _ & _ & A3).
  destruct (sos_io E V theta t ss' t1 base Ht HV Vt L) as (B1 & B2 & _ & _ & B3).
  exists t1. split; [congruence|]. split; [congruence|]. auto.
Qed.

Lemma logtest_same al s t acc s1 : same_io V s t -> log_posterior_ratio_acceptance_test E al s = (acc, s1) ->
  exists t1, log_posterior_ratio_acceptance_test E al t = (acc, t1) /\ same_io V s1 t1.
Proof.
  intros (P & Vs & Vt) H. unfold log_posterior_ratio_acceptance_test, rand in *. inv H. rewrite P.
  eexists. split; [reflexivity|]. split; cbn; auto.
Qed.

Lemma test_same al s t acc s1 : same_io V s t -> posterior_ratio_acceptance_test E al s = (acc, s1) ->
  exists t1, posterior_ratio_acceptance_test E al t = (acc, t1) /\ same_io V s1 t1.
Proof.
  intros X H. pose proof X as (P & Vs & Vt). unfold posterior_ratio_acceptance_test, rand in *. destruct (nle n1 al).
  - inv H. eauto.
  - inv H. rewrite P. eexists. split; [reflexivity|]. split; cbn; auto.
Qed.

Lemma metropolis_same R p q s t acc new outb z s1 : same_pset p q -> same_io V s t ->
  run_metropolis_step E V R p s = Ok (acc, new, outb, z, s1) ->
  exists t1, run_metropolis_step E V R q t = Ok (acc, new, outb, z, t1) /\ same_io V s1 t1.
Proof.
  intros (T1 & T2 & T3 & T4) X H. unfold run_metropolis_step in *. rewrite T1, T4 in H. peel H. destruct a as [[x zz] s2].
  destruct (candidate_same _ _ _ _ _ _ _ X E0) as (t2 & Y1 & Y2 & Y3). rewrite Y1. cbn [bind].
  destruct (is_sample_outside_bounds x (v_lower V) (v_upper V)).
  - inv H. eauto.
  - destruct (evaluate_sos_function E V x s2) as [ss s3] eqn:Es.
    destruct (sos_same _ _ _ _ _ Y2 Y3 Es) as (t3 & Z1 & Z2). rewrite Z1.
    rewrite T2, T3 in H. peel H. cbn [bind]. rewrite E1. cbn [bind]. peel H. rewrite E2. cbn [bind].
    destruct (log_posterior_ratio_acceptance_test E _ s3) as [ac s4] eqn:Ea.
    destruct (logtest_same _ _ _ _ _ Z2 Ea) as (t4 & W1 & W2). rewrite W1. inv H. eauto.
Qed.

Lemma dr_same RDR invR new1 new2 p q n : same_pset p q -> same_pset new1 new2 -> forall itry path1 path2 ia1 ia2 a1 o1 b1 o2 s t acc out outb ia1' path1' s1 acc2 out2 outb2 ia2' path2' t1,
  Forall2 same_pset path1 path2 -> same_io V s t -> same_pset o1 o2 ->
  dr_loop E V RDR invR p new1 n itry path1 ia1 (a1, o1, b1) s = Ok (acc, out, outb, ia1', path1', s1) ->
  dr_loop E V RDR invR q new2 n itry path2 ia2 (a1, o2, b1) t = Ok (acc2, out2, outb2, ia2', path2', t1) ->
  acc = acc2 /\ outb = outb2 /\ same_pset out out2 /\ List.length path1' = List.length path2' /\ same_io V s1 t1.
Proof.
  intros Hpq Hn. induction n as [|n IH]; intros itry path1 path2 ia1 ia2 a1 o1 b1 o2 s t acc out outb ia1' path1' s1 acc2 out2 outb2 ia2' path2' t1 HP X HO H1 H2; cbn [dr_loop] in H1, H2.
  - inv H1. inv H2. split; [auto|]. split; [auto|]. split; [auto|]. split; [apply (same_length _ _ HP)|]. auto.
  - peel H1. rewrite E0 in H2. cbn [bind] in H2. peel H1. destruct a0 as [[x z] s2].
    pose proof Hpq as (T1 & T2 & T3 & T4). pose proof Hn as (N1 & N2 & N3 & N4). rewrite T1 in E1.
    destruct (candidate_same _ _ _ _ _ _ _ X E1) as (t2 & Y1 & Y2 & Y3). rewrite Y1 in H2. cbn [bind] in H2. rewrite N4 in H1.
    destruct (is_sample_outside_bounds x (v_lower V) (v_upper V)).
    + refine (IH _ _ _ _ _ _ _ _ _ _ _ _ _ _ _ _ _ _ _ _ _ _ _ _ Y2 Hpq H1 H2). apply Forall2_app; auto. constructor; auto. apply same_pset_refl.
    + destruct (evaluate_sos_function E V x s2) as [ss s3] eqn:Es.
      destruct (sos_same _ _ _ _ _ Y2 Y3 Es) as (t3 & Z1 & Z2). rewrite Z1 in H2.
      assert (HP' : forall nx, Forall2 same_pset (path1 ++ [nx]) (path2 ++ [nx])).
      { intros nx. apply Forall2_app; auto. constructor; auto. apply same_pset_refl. }
      rewrite !app_length, (same_length _ _ HP) in H1. rewrite !app_length in H2. rewrite (alphafun_same _ _ _ _ (HP' _)) in H1.
      peel H1. rewrite E2 in H2. cbn [bind] in H2.
      destruct (posterior_ratio_acceptance_test E a0 s3) as [ac s4] eqn:Ea.
      destruct (test_same _ _ _ _ _ Z2 Ea) as (t4 & W1 & W2). rewrite W1 in H2.
      peel H1. peel H2. destruct ac.
      * inv H1. inv H2. split; [auto|]. split; [auto|]. split; [apply same_pset_refl|]. split; [|auto].
        rewrite !app_length, (same_length _ _ HP). reflexivity.
      * cbn [update_set_based_on_acceptance] in *.
        refine (IH _ _ _ _ _ _ _ _ _ _ _ _ _ _ _ _ _ _ _ _ _ _ _ (HP' _) W2 Hpq H1 H2).
Qed.

(** Drawing numbers depends on the position in the stream only. *)
Definition at_place (t : io F) (n : nat) : io F := mkio n (io_value t) (io_calls t).

Lemma draw_v_place fuel : forall c s t x v s1, io_pos s = io_pos t ->
  draw_v E fuel c s = Ok (x, v, s1) -> draw_v E fuel c t = Ok (x, v, at_place t (io_pos s1)).
Proof.
  induction fuel as [|f IH]; intros c s t x v s1 P H; [discriminate|].
  cbn [draw_v] in *. unfold randn in *. rewrite <- P. destruct (nlt _ _) in *.
  - inv H. reflexivity.
  - eapply (IH c _ (mkio (io_pos s + 1) (io_value t) (io_calls t))) in H; [|reflexivity]. exact H.
Qed.

Lemma gamma_place fuel : forall c d s t v s1, io_pos s = io_pos t ->
  gamma_mt_loop E fuel c d s = Ok (v, s1) -> gamma_mt_loop E fuel c d t = Ok (v, at_place t (io_pos s1)).
Proof.
  induction fuel as [|f IH]; intros c d s t v s1 P H; [discriminate|].
  cbn [gamma_mt_loop] in *. peel H. destruct a as [[x v'] s'].
  rewrite (draw_v_place _ _ _ _ _ _ _ P E0). cbn [bind]. unfold rand in *. cbn [at_place io_pos io_value io_calls].
  destruct (nlt _ _) in *; [inv H; reflexivity|]. destruct (nlt _ _) in *; [inv H; reflexivity|].
  eapply (IH c d _ (mkio (S (io_pos s')) (io_value t) (io_calls t))) in H; [|reflexivity]. exact H.
Qed.

Lemma sigma2_place a b c d s t v s1 : io_pos s = io_pos t ->
  draw_sigma2 E a b c d s = Ok (v, s1) -> draw_sigma2 E a b c d t = Ok (v, at_place t (io_pos s1)).
Proof.
  intros P H. unfold draw_sigma2, gammar in *. peel H. destruct a0 as [y s']. inv H.
  destruct (nle _ _) in *.
  - inv E0. cbn [bind]. f_equal. f_equal. unfold at_place. rewrite P. destruct t; reflexivity.
  - unfold gammar_mt1, gammar_ge1 in *. destruct (nlt _ _) in *.
    + peel E0. destruct a0 as [y' s'']. peel E1. destruct a0 as [y0 s0]. inv E1.
      rewrite (gamma_place _ _ _ _ _ _ _ P E2). cbn [bind]. unfold rand in *. inv E0. reflexivity.
    + peel E0. destruct a0 as [y' s'']. inv E0. rewrite (gamma_place _ _ _ _ _ _ _ P E1). reflexivity.
Qed.

Lemma variance_place n : forall al N0v N sos jj sg S20 s t sg' S20' s1, io_pos s = io_pos t ->
  update_error_variance E al N0v N sos jj n sg S20 s = Ok (sg', S20', s1) ->
  update_error_variance E al N0v N sos jj n sg S20 t = Ok (sg', S20', at_place t (io_pos s1)).
Proof.
  induction n as [|n IH]; intros al N0v N sos jj sg S20 s t sg' S20' s1 P H; cbn [update_error_variance] in *.
  - inv H. f_equal. f_equal. unfold at_place. rewrite P. destruct t; reflexivity.
  - peel H. rewrite E0. cbn [bind]. peel H. rewrite E1. cbn [bind]. peel H. rewrite E2. cbn [bind]. peel H. rewrite E3. cbn [bind].
    peel H. destruct a3 as [v s']. rewrite (sigma2_place _ _ _ _ _ _ _ _ P E4). cbn [bind]. peel H. rewrite E5. cbn [bind].
    eapply IH in H; [rewrite H; reflexivity|]. reflexivity.
Qed.

Lemma Ok_inj {A} (x y : A) : Ok x = Ok y -> x = y.
Proof. congruence. Qed.

Record cont (tr0 : list (nat * nat * bool)) (s1 s2 : rstate F) : Prop := {
  ct_index : r_index s1 = r_index s2;
  ct_old : same_pset (r_old s1) (r_old s2);
  ct_chain : upto (S (r_index s1)) (r_chain s1) (r_chain s2);
  ct_ss : upto (S (r_index s1)) (r_ss s1) (r_ss s2);
  ct_s2 : upto_opt (S (r_index s1)) (r_s2 s1) (r_s2 s2);
  ct_R : c_R (r_cov s1) = c_R (r_cov s2);
  ct_RDR : c_RDR (r_cov s1) = c_RDR (r_cov s2);
  ct_invR : c_invR (r_cov s1) = c_invR (r_cov s2);
  ct_sigma2 : r_sigma2 s1 = r_sigma2 s2;
  ct_S20 : r_S20 s1 = r_S20 s2;
  ct_io : same_io V (r_io s1) (r_io s2);
  ct_trace : map brief (r_trace s1) = map brief (r_trace s2) ++ tr0
}.

Section Loop.
Variables K1 K2 : rconst F.
Hypothesis HK : same_const K1 K2.
Hypothesis HKV : k_view K1 = V.
Hypothesis Hno : (o_adaptint (k_opts K1) <= 0)%Z.

Lemma no_adapt K i z al s : (o_adaptint (k_opts K) <= 0)%Z -> adapt_step E K i z al s = Ok s.
Proof.
  intros H. unfold adapt_step. replace (0 <? o_adaptint (k_opts K))%Z with false by (symmetry; apply Z.ltb_ge; auto). reflexivity.
Qed.

Lemma sample_cont tr0 s1 s2 stage new outb z ia t stage2 new2 outb2 z2 ia2 t2 : cont tr0 s1 s2 ->
  sample_step E K1 s1 = Ok (stage, new, outb, z, ia, t) -> sample_step E K2 s2 = Ok (stage2, new2, outb2, z2, ia2, t2) ->
  stage = stage2 /\ same_pset new new2 /\ outb = outb2 /\ z = z2 /\ same_io V t t2.
Proof.
  intros C H1 H2. unfold sample_step in H1, H2. rewrite <- (sc_view _ _ HK), HKV in H2. rewrite HKV in H1.
  peel H1. destruct a as [[[[acc nw] ob] zz] t0]. rewrite (ct_R _ _ _ C) in E0.
  destruct (metropolis_same _ _ _ _ _ _ _ _ _ _ (ct_old _ _ _ C) (ct_io _ _ _ C) E0) as (t0' & Y1 & Y2).
  rewrite Y1 in H2. cbn [bind] in H2. rewrite (opts_ntry _ _ HK) in H1.
  destruct ((1 <? o_ntry (k_opts K2)) && negb acc).
  - peel H1. destruct a as [[[[[ac out] ob'] ia'] pth] t3]. inv H1.
    peel H2. destruct a as [[[[[ac2 out2] ob2'] ia2'] pth2] t3']. inv H2.
    unfold delayed_rejection_call in E1, E2. rewrite (ct_RDR _ _ _ C), (ct_invR _ _ _ C), HKV, (opts_ntry _ _ HK) in E1.
    rewrite <- (sc_view _ _ HK), HKV in E2.
    destruct (c_RDR (r_cov s2)); try discriminate. unfold run_delayed_rejection in E1, E2.
    pose proof (ct_old _ _ _ C) as HO.
    assert (HP : Forall2 same_pset [r_old s1; nw] [r_old s2; nw]) by (constructor; [exact HO|]; constructor; [apply same_pset_refl|constructor]).
    destruct (dr_same _ _ _ _ _ _ _ HO (same_pset_refl nw) _ _ _ _ _ _ _ _ _ _ _ _ _ _ _ _ _ _ _ _ _ _ _ HP Y2 HO E1 E2)
      as (A1 & A2 & A3 & A4 & A5).
    subst. rewrite A4. repeat (split; [solve [auto]|]). auto.
  - inv H1. inv H2. split; [auto|]. split; [apply same_pset_refl|]. auto.
Qed.

Lemma step_cont tr0 i j s1 s2 t1 t2 : cont tr0 s1 s2 -> no_s2 K1 s1 -> no_s2 K2 s2 ->
  step E K1 i s1 = Ok t1 -> step E K2 j s2 = Ok t2 -> cont tr0 t1 t2.
Proof.
  intros C N1 N2 H1 H2. unfold step in H1, H2. peel H1. destruct a as [[[[[stage new] outb] z] ia] t].
  peel H2. destruct a as [[[[[stage2 new2] outb2] z2] ia2] t'].
  destruct (sample_cont _ _ _ _ _ _ _ _ _ _ _ _ _ _ _ C E0 E1) as (<- & A2 & <- & <- & A5).
  peel H1. peel H2. rewrite no_adapt in H1 by auto. rewrite no_adapt in H2 by (rewrite <- (opts_adaptint _ _ HK); auto).
  cbn [bind] in H1, H2. peel H1. peel H2. rename a into u1, a0 into u2, a1 into w1, a2 into w2.
  pose proof (ct_old _ _ _ C) as HO.
  assert (Hcur : same_pset (if negb (stage =? 0) then new else r_old s1) (if negb (stage =? 0) then new2 else r_old s2)) by (destruct (stage =? 0); auto).
  unfold update_chain in E2, E3. rewrite <- (sc_view _ _ HK), <- (sc_nsos _ _ HK) in E3.
  set (cur1 := if negb (stage =? 0) then new else r_old s1) in *. set (cur2 := if negb (stage =? 0) then new2 else r_old s2) in *.
  clearbody cur1 cur2. destruct Hcur as (Q1 & Q2 & Q3 & Q4). rewrite Q1, Q2 in E2.
  peel E2. peel E2. peel E2. peel E2. apply Ok_inj in E2. subst u1. peel E3. peel E3. peel E3. peel E3. apply Ok_inj in E3. subst u2.
  rewrite E2 in E6. inv E6. rewrite E11 in E8. inv E8.
  apply write_ok in E7 as [L1 ->]; apply write_ok in E9 as [L2 ->]; apply write_ok in E10 as [L3 ->]; apply write_ok in E12 as [L4 ->].
  destruct C as [C1 C2 C3 C4 C5 C6 C7 C8 C9 C10 C11 C12]. rewrite <- C1 in *.
  unfold no_s2 in N1, N2. rewrite <- (opts_updatesigma _ _ HK) in N2.
  assert (W : cont tr0 w1 w2).
  { unfold sigma_step in E4, E5. rewrite <- (opts_updatesigma _ _ HK) in E5.
    destruct (o_updatesigma (k_opts K1)).
    - cbn [r_old r_sigma2 r_S20 r_io r_s2 r_index] in E4, E5. rewrite <- (sc_N0 _ _ HK), <- (sc_N _ _ HK), <- (sc_alias _ _ HK), <- (sc_nsos _ _ HK) in E5.
      rewrite <- C9, <- C10, <- Q2 in E5.
      peel E4. destruct a0 as [[sg S0] t3]. destruct A5 as (P & V1 & V2).
      rewrite (variance_place _ _ _ _ _ _ _ _ _ _ _ _ _ P E3) in E5. cbn [bind] in E5.
      peel E4. rewrite E6 in E5. cbn [bind] in E5. peel E4. peel E4. apply Ok_inj in E4. subst w1. peel E5. peel E5. apply Ok_inj in E5. subst w2.
      destruct (r_s2 s1) as [x1|]; [|discriminate]. destruct (r_s2 s2) as [x2|]; [|discriminate].
      cbn in E7, E4. inv E7. inv E4. cbn in C5.
      apply write_ok in E8 as [L5 ->]; apply write_ok in E9 as [L6 ->].
      apply update_error_variance_io in E3 as (G1 & G2 & _).
      split; cbn [r_index r_old r_chain r_ss r_s2 r_cov r_sigma2 r_S20 r_io r_trace]; auto.
      + repeat split; auto.
      + apply upto_set; auto.
      + apply upto_set; auto.
      + cbn [upto_opt]. apply upto_set; auto.
      + split; [reflexivity|]. split.
        * destruct V1 as (V1 & V1'). split; rewrite G1; auto.
        * exact V2.
      + cbn [map app]. f_equal; auto. unfold brief. cbn. destruct C11 as (P' & _). now rewrite P'.
    - apply Ok_inj in E4. subst w1. apply Ok_inj in E5. subst w2. rewrite (N1 eq_refl), (N2 eq_refl) in *.
      split; cbn [r_index r_old r_chain r_ss r_s2 r_cov r_sigma2 r_S20 r_io r_trace]; auto.
      + repeat split; auto.
      + apply upto_set; auto.
      + apply upto_set; auto.
      + cbn [map app]. f_equal; auto. unfold brief. cbn. destruct C11 as (P' & _). now rewrite P'. }
  apply save_frame in H1. apply save_frame in H2.
  clear - W H1 H2. decompose [and] H1; clear H1. decompose [and] H2; clear H2.
  destruct W as [C1 C2 C3 C4 C5 C6 C7 C8 C9 C10 C11 C12]. split; congruence.
Qed.

Lemma iterate_cont tr0 : forall is js s1 s2 t1 t2, List.length is = List.length js -> cont tr0 s1 s2 -> no_s2 K1 s1 -> no_s2 K2 s2 ->
  iterate E K1 is s1 = Ok t1 -> iterate E K2 js s2 = Ok t2 -> cont tr0 t1 t2.
Proof.
  induction is as [|i is IH]; intros [|j js] s1 s2 t1 t2 HL C N1 N2 H1 H2; cbn in HL; try discriminate; cbn [iterate] in H1, H2.
  - inv H1. inv H2. auto.
  - peel H1. peel H2. eapply (IH js a a0); eauto using step_no_s2. eapply step_cont; eauto.
Qed.
End Loop.
End View.
End Cont.
