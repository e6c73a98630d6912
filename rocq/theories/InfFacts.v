(** Candidates with an infinite sum of squares or prior: proofs for C09 and C13. *)

From Coq Require Import ZArith QArith Bool Lia List Reals Lra.
From Verif Require Import Base Num Samplers SamplerFacts RVec BalanceSpec BalanceFacts DRFacts.
Import ListNotations.
Close Scope Q_scope.
Open Scope list_scope.
Open Scope R_scope.

(** The log of the posterior at the point is undefined or -inf. *)
Definition hopeless (p : pset XR) : Prop :=
  (forall l, loglik (p_ss p) (p_sigma2 p) = Ok l -> l = NaN \/ l = NInf) \/ bad (p_prior p).

Lemma hopeless_bad p : (forall x, In x (p_sigma2 p) -> exists v, x = Fin v /\ 0 < v) -> p_sigma2 p <> [] ->
  (exists x, In x (p_ss p) /\ bad x) -> hopeless p.
Proof. intros H1 H2 H3. left. intros l Hl. eapply bad_loglik; eauto. Qed.

(** A return from a hopeless point is accepted with probability one. *)
Lemma alpha_from_hopeless f invR p q a : hopeless p -> alphafun (S f) invR [p; q] = Ok a -> a = n1.
Proof.
  intros HP H. cbn [alphafun length Nat.sub range seq alpha_loop bind] in H. peel H.
  unfold alpha_exponent in E. cbn [nth_error length Nat.sub of_option bind] in E. peel E. peel E.
  cbn [range seq fold_left bind] in E. unfold nth_stage_log_proposal_ratio in E.
  cbn [length Nat.sub Nat.eqb bind] in E.
  assert (Hr : a = pymin n1 (nmul (nmul (nexp a0) n1) (ninv n1))) by congruence. rewrite Hr. clear H Hr.
  assert (HY : a0 = NaN \/ a0 = PInf).
  { assert (HL : nadd a2 (nmul mhalf (p_prior p)) = NaN \/ nadd a2 (nmul mhalf (p_prior p)) = NInf).
    { destruct HP as [HP|HP].
      - destruct (HP _ E1) as [->| ->]; destruct (nmul mhalf (p_prior p)); auto.
      - assert (HM : nmul mhalf (p_prior p) = NaN \/ nmul mhalf (p_prior p) = NInf).
        { destruct HP as [->| ->]; [left; reflexivity|right; exact PInf_mhalf]. }
        destruct HM as [->| ->]; destruct a2; auto. }
    assert (Ha : nadd (calculate_log_posterior_ratio a1 a2 (nmul mhalf (p_prior q)) (nmul mhalf (p_prior p))) n0 = a0)
      by congruence.
    rewrite <- Ha. unfold calculate_log_posterior_ratio.
    destruct HL as [->| ->]; destruct (nadd a1 _); auto. }
  destruct HY as [->| ->].
  - reflexivity.
  - assert (H1 : nmul (nexp PInf) n1 = PInf :> XR).
    { rewrite XR_n1. xs. unfold Rltb. destruct (Rlt_dec 0 1); [auto|lra]. }
    rewrite H1. unfold ninv. rewrite XR_n1, XR_ndiv by lra.
    assert (H2 : nmul PInf (Fin (1 / 1)) = PInf :> XR).
    { xs. unfold Rltb. destruct (Rlt_dec 0 (1/1)); [auto|lra]. }
    rewrite H2. reflexivity.
Qed.

Lemma alpha_to_hopeless f invR path p a : hopeless p -> (2 <= length path)%nat ->
  alphafun (S (S f)) invR (path ++ [p]) = Ok a -> a = n0.
Proof.
  intros HP HL H. remember (S f) as g. cbn [alphafun] in H. subst g.
  destruct path as [|x path] using rev_ind; [simpl in HL; lia|]. clear IHpath.
  replace (range (length ((path ++ [x]) ++ [p]) - 1 - 1)) with (O :: seq 1 (length ((path ++ [x]) ++ [p]) - 3)) in H.
  2:{ unfold range. rewrite !app_length in *. simpl in *. 
      replace (length path + 1 + 1 - 1 - 1)%nat with (S (length path + 1 + 1 - 3)) by lia. reflexivity. }
  cbn [alpha_loop] in H. peel H. peel E. peel E.
  rewrite !rev_app_distr in E1. cbn [rev app Nat.add firstn] in E1.
  apply alpha_from_hopeless in E1; auto. subst a2.
  replace (neq (nmul n1 (nsub n1 n1)) (@n0 XR _)) with true in E.
  - inversion E; subst. inversion H; subst. reflexivity.
  - symmetry. rewrite XR_n1, XR_n0. xs. unfold Reqb. destruct (Req_EM_T _ 0) as [|Hn]; auto. exfalso; apply Hn; lra.
Qed.

Section DR.
Variable E : env XR.
Hypothesis Hu : forall k, nlt (s_unif (e_str E) k) (@n0 XR _) = false.

Lemma zero_rejects s : fst (posterior_ratio_acceptance_test E (@n0 XR _) s) = false.
Proof.
  unfold posterior_ratio_acceptance_test. replace (nle n1 (@n0 XR _)) with false.
  - unfold rand. cbn [fst]. apply Hu.
  - symmetry. rewrite XR_n1, XR_n0. cbn [nle Num_X xle ale Arith_R]. apply Rleb_false. lra.
Qed.

Lemma dr_loop_hopeless V RDR invR old new n :
  forall itry path iacce cur s acc out outb iacce' path' s1,
  cur = (false, old, snd cur) -> (2 <= length path)%nat ->
  dr_loop E V RDR invR old new n itry path iacce cur s = Ok (acc, out, outb, iacce', path', s1) ->
  acc = true -> ~ hopeless out /\ p_sigma2 out = p_sigma2 new.
Proof.
  induction n as [|n IH]; intros itry path iacce cur s acc out outb iacce' path' s1 Hc HL H Ha.
  - cbn [dr_loop] in H. rewrite Hc in H. inversion H; subst. discriminate.
  - cbn [dr_loop] in H. peel H. peel H. destruct a0 as [[theta z] s2].
    destruct (is_sample_outside_bounds theta (v_lower V) (v_upper V)) eqn:Hb.
    + apply IH in H; auto. rewrite app_length; lia.
    + destruct (evaluate_sos_function E V theta s2) as [ss s3]. peel H.
      destruct (posterior_ratio_acceptance_test E a0 s3) as [ac s4] eqn:HT. peel H.
      destruct ac.
      * inversion H; subst. cbn [update_set_based_on_acceptance p_sigma2]. split; auto. intros HP.
        rewrite app_length in E2. replace (length path + length [_])%nat with (S (S (length path - 1))) in E2
          by (simpl; lia).
        apply alpha_to_hopeless in E2; auto. subst a0.
        pose proof (zero_rejects s3) as HZ. rewrite HT in HZ. discriminate.
      * apply IH in H; auto. rewrite app_length; lia.
Qed.

Lemma dr_hopeless V RDR invR ntry old new iacce s out outb iacce' path' s1 :
  run_delayed_rejection E V RDR invR ntry old new iacce s = Ok (true, out, outb, iacce', path', s1) ->
  ~ hopeless out /\ p_sigma2 out = p_sigma2 new.
Proof. intros H. unfold run_delayed_rejection in H. eapply dr_loop_hopeless in H; eauto. Qed.

Lemma metropolis_hopeless V R old s new outb z s1 :
  run_metropolis_step E V R old s = Ok (true, new, outb, z, s1) -> ~ hopeless new /\ p_sigma2 new = p_sigma2 old.
Proof.
  intros H.
  destruct (metropolis_unfold _ _ _ _ _ _ _ _ _ _ H) as (A & B & C & D).
  assert (HS : p_sigma2 new = p_sigma2 old).
  { unfold run_metropolis_step in H. peel H. destruct a as [[a1 a2] a3]. destruct (is_sample_outside_bounds _ _ _).
    - inversion H; reflexivity.
    - destruct (evaluate_sos_function _ _ _ _). peel H. peel H.
      destruct (log_posterior_ratio_acceptance_test _ _ _). inversion H; reflexivity. }
  split; auto. intros HP.
  destruct outb; [now specialize (C eq_refl)|].
  destruct (D eq_refl) as (D1 & D2 & l1 & l2 & D3 & D4 & D5 & D6).
  destruct HP as [HP|HP].
  - rewrite HS in HP. specialize (HP _ D3). rewrite (proj1 (low_never _ _ _ _ _ HP)) in D6. discriminate.
  - assert (HM : nmul mhalf (p_prior new) = NaN \/ nmul mhalf (p_prior new) = NInf).
    { destruct HP as [->| ->]; [left; reflexivity|right; exact PInf_mhalf]. }
    rewrite (proj2 (low_never _ _ _ _ _ HM)) in D6. discriminate.
Qed.
End DR.
