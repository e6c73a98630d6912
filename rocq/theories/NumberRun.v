(** Runs work with numbers only: proofs for C92. *)

From Coq Require Import ZArith QArith Bool Lia List Reals Lra.
From Verif Require Import Base Num Samplers Adapt Settings Simulator RunSpec CompleteSpec BalanceSpec NumberSpec.
From Verif Require Import SamplerFacts RVec BalanceFacts InfFacts StatsFacts RunFacts RunLift NaNFacts NaNRun GammaSpec VarFacts NumberFacts.
Import ListNotations.
Close Scope Q_scope.
Open Scope list_scope.
Open Scope R_scope.

Section Loop.
Variable E : env XR.
Hypothesis HE : decent E.

Lemma unif_not_negative k : nlt (s_unif (e_str E) k) (@n0 XR _) = false.
Proof.
  destruct (de_uniform _ HE k) as (v & -> & H). rewrite XR_n0, XR_nlt. unfold Rltb. destruct (Rlt_dec v 0); [lra|auto].
Qed.

Definition set_ok (p : pset XR) : Prop :=
  Forall number (p_theta p) /\ Forall not_negative (p_ss p) /\ number (p_prior p) /\ Forall positive (p_sigma2 p) /\ p_sigma2 p <> [].

(** A point evaluated by the user's functions. *)
Definition evaluated (p : pset XR) : Prop :=
  Forall number (p_theta p) /\ (exists v, p_ss p = e_sos E v) /\ exists mu sg, p_prior p = e_prior E (p_theta p) mu sg.

Lemma evaluated_ok p : evaluated p -> ~ hopeless p -> Forall positive (p_sigma2 p) -> p_sigma2 p <> [] -> set_ok p.
Proof.
  intros (H1 & (v & H2) & (mu & sg & H3)) Hh Hs Hn. split; [auto|]. split; [|split; [|auto]].
  - apply Forall_forall. intros x Hx. destruct (de_sos _ HE v) as [_ Hv]. rewrite <- H2 in Hv. destruct (Hv x Hx) as [Hb|]; auto.
    exfalso. apply Hh. apply hopeless_bad; auto; [|eauto]. intros y Hy. rewrite Forall_forall in Hs. apply Hs, Hy.
  - destruct (p_prior p) as [y| | |] eqn:Hp; [apply number_fin| | |].
    + exfalso. apply Hh. right. rewrite Hp. now right.
    + exfalso. eapply (de_prior _ HE). symmetry. exact H3.
    + exfalso. apply Hh. right. rewrite Hp. now left.
Qed.

Lemma candidate_ok n old P s theta z s1 : Forall number old -> every number P -> sample_candidate E n old P s = Ok (theta, z, s1) -> Forall number theta.
Proof.
  intros Ho HP. unfold sample_candidate. destruct (_ && _)%bool; [|discriminate]. unfold randn. intros H. inv H.
  apply numbers_vadd; auto. apply numbers_vecmat; auto. apply Forall_map_all. apply (de_normal _ HE).
Qed.

Lemma metropolis_evaluated V P old s new outb z s1 : Forall number (p_theta old) -> every number P ->
  run_metropolis_step E V P old s = Ok (true, new, outb, z, s1) -> evaluated new.
Proof.
  intros Ho HP H. unfold run_metropolis_step in H. peel H. destruct a as [[theta z'] s2]. apply candidate_ok in E0; auto.
  destruct (is_sample_outside_bounds _ _ _); [discriminate|]. unfold evaluate_sos_function in H. peel H. peel H.
  destruct (log_posterior_ratio_acceptance_test _ _ _) as [acc s3]. inv H. split; [auto|]. split; cbn [p_ss p_prior]; [eauto|].
  unfold evaluate_prior. eauto.
Qed.

Lemma of_option_some {A} e (x : option A) a : of_option e x = Ok a -> x = Some a.
Proof. destruct x; intros H; inv H. reflexivity. Qed.

Lemma dr_evaluated V RDR invR old new n : Forall number (p_theta old) -> Forall (every number) RDR ->
  forall itry path iacce cur s acc out outb iacce' path' s1,
  fst (fst cur) = false -> dr_loop E V RDR invR old new n itry path iacce cur s = Ok (acc, out, outb, iacce', path', s1) -> acc = true -> evaluated out.
Proof.
  intros Ho HR. induction n as [|n IH]; intros itry path iacce cur s acc out outb iacce' path' s1 Hc H Ha; cbn [dr_loop] in H.
  - destruct cur as [[a b] c]. simpl in Hc. inv H. discriminate.
  - peel H. peel H. destruct a0 as [[theta z] s2]. 
    assert (Hth : Forall number theta).
    { apply of_option_some in E0. eapply candidate_ok; [exact Ho| |exact E1]. rewrite Forall_forall in HR. apply HR. apply nth_error_In in E0. exact E0. }
    destruct (is_sample_outside_bounds _ _ _).
    + eapply IH in H; auto.
    + unfold evaluate_sos_function in H. peel H. destruct (posterior_ratio_acceptance_test _ _ _) as [ac s3]. peel H. destruct ac.
      * inv H. cbn [update_set_based_on_acceptance]. split; [auto|]. split; cbn [p_ss p_prior]; [eauto|]. unfold evaluate_prior. eauto.
      * eapply IH in H; auto.
Qed.

Variable K : rconst XR.

Lemma sampled_ok st stage new outb z iacce s : set_ok (r_old st) -> cov_ok (r_cov st) ->
  sample_step E K st = Ok (stage, new, outb, z, iacce, s) -> stage <> 0%nat -> set_ok new.
Proof.
  intros (S1 & S2 & S3 & S4 & S5) HC H Hs. unfold sample_step in H. peel H. destruct a as [[[[acc nw] ob] zz] s1].
  pose proof (metropolis_sigma2 _ _ _ _ _ _ _ _ _ _ E0) as HS.
  destruct ((1 <? o_ntry (k_opts K))%nat && negb acc) eqn:Ec.
  - peel H. destruct a as [[[[[acc' out] outb'] ia] path'] s2]. inv H.
    unfold delayed_rejection_call in E1. destruct (c_RDR (r_cov st)) as [| |l] eqn:ER; try discriminate.
    destruct acc'; [|congruence]. pose proof (dr_hopeless E unif_not_negative _ _ _ _ _ _ _ _ _ _ _ _ _ E1) as [G1 G2].
    apply evaluated_ok; auto; try (rewrite G2, HS; assumption).
    unfold run_delayed_rejection in E1. eapply dr_evaluated; [exact S1| | |exact E1|reflexivity]; [|reflexivity].
    apply (ck_RDR _ HC), ER.
  - inv H. destruct acc; [|congruence].
    pose proof (metropolis_hopeless _ _ _ _ _ _ _ _ _ E0) as [G1 G2].
    apply evaluated_ok; auto; try (rewrite G2; assumption). eapply metropolis_evaluated; [exact S1|apply (ck_R _ HC)|exact E0].
Qed.

Lemma fit_row_ok (P : XR -> Prop) n x row : fit_row n x = Ok row -> Forall P x -> Forall P row.
Proof.
  unfold fit_row. destruct (_ =? _)%nat; [intros H; inv H; auto|]. destruct x as [|a [|b x]]; try discriminate.
  intros H HP. inv H. inv HP. apply Forall_repeat. auto.
Qed.

(** ** Error variances *)

Definition value_of (x : XR) : R := match x with Fin v => v | _ => 0 end.

Lemma draw_positive n0v s20 nv sj s v s' :
  not_negative n0v -> positive s20 -> positive nv -> not_negative sj -> (positive n0v \/ positive sj) ->
  draw_sigma2 E n0v s20 nv sj s = Ok (v, s') -> positive v.
Proof.
  intros (a & -> & Ha) (b & -> & Hb) (c & -> & Hc) (d & -> & Hd) Hor H.
  set (nrm := fun k => value_of (s_normal (e_str E) k)). set (unif := fun k => value_of (s_unif (e_str E) k)).
  assert (Hn : forall k, s_normal (e_str E) k = Fin (nrm k)). { intros k. unfold nrm. destruct (de_normal _ HE k) as (x & ->). reflexivity. }
  assert (Hu : forall k, s_unif (e_str E) k = Fin (unif k)). { intros k. unfold unif. destruct (de_uniform _ HE k) as (x & -> & _). reflexivity. }
  assert (Hu0 : forall k, 0 < unif k). { intros k. unfold unif. destruct (de_uniform _ HE k) as (x & -> & Hx). exact Hx. }
  assert (Hpos : 0 < a * b + d).
  { destruct Hor as [(x & Hx & Hp)|(x & Hx & Hp)]; inv Hx; nra. }
  assert (Hu1 : forall k, 0 <= unif k). { intros k. specialize (Hu0 k). lra. }
  destruct (draw_sigma2_ok E nrm unif Hn Hu Hu1 a b c d s v s' ltac:(lra) ltac:(lra) H) as [HV _].
  assert (HVS : variance_draws nrm unif [(a, b, c, d)] (io_pos s) [v] (io_pos s')).
  { econstructor; [exact HV|constructor]. }
  assert (HP : Forall positive [v]); [|inv HP; assumption].
  eapply variances_positive; [exact Hu1|exact HVS| |].
  - constructor; [|constructor]. split; lra.
  - intros k. specialize (Hu0 k). lra.
Qed.

Lemma update_positive al n : forall N0v N sos jj sg S20 s sg' S20' s1,
  Forall not_negative N0v -> Forall positive N -> Forall not_negative sos -> (Forall positive N0v \/ Forall positive sos) ->
  Forall positive sg -> Forall positive S20 ->
  update_error_variance E al N0v N sos jj n sg S20 s = Ok (sg', S20', s1) -> Forall positive sg' /\ Forall positive S20'.
Proof.
  induction n as [|n IH]; intros N0v N sos jj sg S20 s sg' S20' s1 H1 H2 H3 H4 H5 H6 H; cbn [update_error_variance] in H; [inv H; auto|].
  peel H. peel H. peel H. peel H. peel H. destruct a3 as [v s2]. peel H. apply write_ok in E5 as [_ ->].
  assert (G : forall P (l : list XR) x e, Forall P l -> of_option e (nth_error l jj) = Ok x -> P x).
  { intros P l x e Hl Hx. destruct (nth_error l jj) eqn:Hn; inv Hx. rewrite Forall_forall in Hl. eapply Hl, nth_error_In, Hn. }
  assert (HV : positive v).
  { eapply draw_positive; [exact (G _ _ _ _ H1 E0)|exact (G _ _ _ _ H6 E2)|exact (G _ _ _ _ H2 E1)|exact (G _ _ _ _ H3 E3)| |exact E4].
    destruct H4 as [H4|H4]; [left; exact (G _ _ _ _ H4 E0)|right; exact (G _ _ _ _ H4 E3)]. }
  eapply IH; [| | | | | |exact H]; auto; [|destruct al; auto]; apply Forall_set_nth; auto.
Qed.

(** ** The loop *)

(** What stays fixed during the loop. *)
Record const_ok : Prop := mkkok {
  kk_burnin : nonzero (o_burnin_scale (k_opts K));
  kk_adjust : number (o_qcov_adjust (k_opts K));
  kk_drscale : Forall nonzero (o_drscale (k_opts K));
  kk_ram : o_doram (k_opts K) = false;
  kk_est : o_updatesigma (k_opts K) = true -> Forall not_negative (k_N0 K) /\ Forall positive (k_N K) /\
    (Forall positive (k_N0 K) \/ forall v x, In x (e_sos E v) -> bad x \/ positive x)
}.

Definition s2_ok (s2 : option (list (list XR))) (n : nat) : Prop :=
  forall l, s2 = Some l -> Forall (Forall positive) (firstn n l).

Record num_inv (st : rstate XR) : Prop := mkni {
  ni_old : set_ok (r_old st);
  ni_at : exists v, p_ss (r_old st) = e_sos E v;
  ni_cov : cov_ok (r_cov st);
  ni_chain : every number (r_chain st);
  ni_ss : every not_negative (r_ss st);
  ni_s2 : o_updatesigma (k_opts K) = true -> s2_ok (r_s2 st) (S (r_index st));
  ni_s2none : o_updatesigma (k_opts K) = false -> r_s2 st = None;
  ni_sigma2 : Forall positive (r_sigma2 st) /\ r_sigma2 st <> [];
  ni_S20 : Forall positive (r_S20 st)
}.

Lemma firstn_set_nth {A} (P : A -> Prop) k v : forall l, Forall P (firstn k l) -> P v -> Forall P (firstn (S k) (set_nth k v l)).
Proof.
  induction k as [|k IH]; intros [|x l] H Hv; simpl; auto. simpl in H. inv H. constructor; auto. apply (IH l); auto.
Qed.

Lemma adapt_cov_ok i z al st st' : const_ok -> cov_ok (r_cov st) -> every number (r_chain st) ->
  adapt_step E K i z al st = Ok st' -> cov_ok (r_cov st').
Proof.
  intros [K1 K2 K3 K4 _] HC Hch. unfold adapt_step. destruct (_ && _)%bool; [|intros H; inv H; auto].
  intros H. peel H. inv H. cbn [r_cov]. eapply adaptation_ok; [exact (de_chol _ HE)|exact HC| | | | |exact Hch|exact E0]; auto.
Qed.

(** The variance chain between the sampling and the estimation of an iteration lags by one row. *)
Lemma num_step i st st' : const_ok -> num_inv st -> step E K i st = Ok st' -> num_inv st'.
Proof.
  intros HK HI H. apply step_parts in H as (stage & new & outb & z & iacce & s & st1 & st2 & st3 & H1 & H2 & H3 & H4 & H5).
  destruct HI as [I1 I2 I3 I4 I5 I6 I6' I7 I8].
  assert (HA : exists v, stage <> 0%nat -> p_ss new = e_sos E v).
  { destruct (Nat.eq_dec stage 0) as [->|Hs]; [exists []; congruence|].
    assert (HEv : evaluated new).
    { destruct I1 as (S1 & _). unfold sample_step in H1. peel H1. destruct a as [[[[acc nw] ob] zz] s1].
      destruct ((1 <? o_ntry (k_opts K))%nat && negb acc) eqn:Ec.
      - peel H1. destruct a as [[[[[acc' out] outb'] ia] path'] s2]. inv H1.
        unfold delayed_rejection_call in E1. destruct (c_RDR (r_cov st)) as [| |l] eqn:ER; try discriminate.
        destruct acc'; [|congruence]. unfold run_delayed_rejection in E1. eapply dr_evaluated; [exact S1| | |exact E1|reflexivity]; [|reflexivity].
        apply (ck_RDR _ I3), ER.
      - inv H1. destruct acc; [|congruence]. eapply metropolis_evaluated; [exact S1|apply (ck_R _ I3)|exact E0]. }
    destruct HEv as (_ & (v & Hv) & _). exists v. auto. }
  set (cur := if negb (stage =? 0)%nat then new else r_old st) in *.
  assert (HC : set_ok cur). { unfold cur. destruct (Nat.eqb_spec stage 0); simpl; auto. eapply sampled_ok; eauto. }
  assert (HC2 : exists v, p_ss cur = e_sos E v).
  { unfold cur. destruct (Nat.eqb_spec stage 0); simpl; auto. destruct HA as [v Hv]. eauto. }
  assert (G : r_old st1 = cur /\ r_cov st1 = r_cov st /\ every number (r_chain st1) /\ every not_negative (r_ss st1) /\
              r_s2 st1 = r_s2 st /\ r_index st1 = S (r_index st) /\ r_sigma2 st1 = r_sigma2 st /\ r_S20 st1 = r_S20 st).
  { unfold update_chain in H2. fold cur in H2. peel H2. peel H2. peel H2. peel H2.
    inv H2. cbn [r_old r_cov r_chain r_ss r_s2 r_index r_sigma2 r_S20].
    destruct HC as (C1 & C2 & _). 
    apply write_ok in E1 as [_ E1]. apply write_ok in E3 as [_ E3]. repeat (split; auto).
    - rewrite E1. apply Forall_set_nth; auto. eapply fit_row_ok; eauto.
    - rewrite E3. apply Forall_set_nth; auto. eapply fit_row_ok; eauto. }
  destruct G as (G1 & G2 & G3 & G4 & G5 & G6 & G7 & G8).
  pose proof (adapt_cov_ok _ _ _ _ _ HK ltac:(rewrite G2; exact I3) G3 H3) as HC3.
  apply adapt_frame in H3. decompose [and] H3. clear H3.
  assert (J : num_inv st3).
  { unfold sigma_step in H4. destruct (o_updatesigma (k_opts K)) eqn:HU.
    - peel H4. destruct a as [[sg s20] s']. peel H4. peel H4. peel H4. inv H4. apply write_ok in E3 as [_ ->].
      destruct (kk_est HK HU) as (N1 & N2 & N3).
      replace (r_old st2) with cur in * by congruence. replace (r_sigma2 st2) with (r_sigma2 st) in * by congruence.
      replace (r_S20 st2) with (r_S20 st) in * by congruence.
      destruct HC as (C1 & C2 & C3 & C4 & C5). pose proof E0 as EL. apply update_error_variance_io in EL as (_ & _ & L & _).
      eapply update_positive in E0 as [P1 P2]; auto.
      2:{ destruct N3 as [N3|N3]; [auto|right]. destruct HC2 as [v Hv]. apply Forall_forall. intros x Hx. rewrite Hv in Hx.
          destruct (N3 v x Hx) as [Hb|]; auto. exfalso. rewrite Forall_forall in C2. rewrite Hv in C2. destruct (C2 x Hx) as (y & -> & _).
          destruct Hb; discriminate. }
      2: apply I7.
      assert (Hne : sg <> []). { destruct I7 as [_ I7]. destruct sg; [|congruence]. destruct (r_sigma2 st); simpl in L; congruence. }
      constructor; cbn [r_old r_cov r_chain r_ss r_s2 r_index r_sigma2 r_S20].
      + exact (conj C1 (conj C2 (conj C3 (conj P1 Hne)))).
      + exact HC2.
      + auto.
      + replace (r_chain st2) with (r_chain st1) by congruence. auto.
      + replace (r_ss st2) with (r_ss st1) by congruence. auto.
      + intros _ l Hl. inv Hl. apply firstn_set_nth; [|eapply fit_row_ok; eauto].
        replace (r_index st2) with (S (r_index st)) by congruence. apply (I6 eq_refl).
        replace (r_s2 st) with (r_s2 st2) by congruence. destruct (r_s2 st2); inv E2. reflexivity.
      + congruence.
      + auto.
      + auto.
    - inv H4. constructor.
      + replace (r_old st3) with cur by congruence. auto.
      + replace (r_old st3) with cur by congruence. auto.
      + auto.
      + replace (r_chain st3) with (r_chain st1) by congruence. auto.
      + replace (r_ss st3) with (r_ss st1) by congruence. auto.
      + rewrite HU. discriminate.
      + replace (r_s2 st3) with (r_s2 st) by congruence. auto.
      + replace (r_sigma2 st3) with (r_sigma2 st) by congruence. auto.
      + replace (r_S20 st3) with (r_S20 st) by congruence. auto. }
  clear HC3 HC HC2 I1 I2 I3 I4 I5 I6 I7 I8 H1 H2 H4.
  apply save_frame in H5. destruct J as [J1 J2 J3 J4 J5 J6 J6' J7 J8]. decompose [and] H5. clear H5.
  constructor; try congruence; try (repeat match goal with H : _ st' = _ st3 |- _ => rewrite H; clear H end; assumption).
Qed.
End Loop.
