(** The covariance object a run starts with when the user gives no covariance (C23). *)

From Coq Require Import ZArith QArith Bool Lia List Reals Lra.
From Verif Require Import Base Num Samplers SamplerFacts Adapt Settings RunSpec RunFacts RunLift RVec RMat StatSpec AdaptFacts InitFacts.
Import ListNotations.
Close Scope Q_scope.
Open Scope list_scope.
Open Scope R_scope.

(** Variance a parameter starts with: that of its prior if the declared standard deviation is a positive number,
    else (5% of its value)^2, else 1. *)
Definition start_variance (sigma : XR) (v : R) : R :=
  let small := if Req_EM_T v 0 then 1 else (v * (5 / 100)) * (v * (5 / 100)) in
  match sigma with Fin s => if Rlt_dec 0 s then s * s else small | _ => small end.

Lemma start_variance_pos sigma v : 0 < start_variance sigma v.
Proof.
  unfold start_variance.
  assert (H : 0 < if Req_EM_T v 0 then 1 else (v * (5 / 100)) * (v * (5 / 100))).
  { destruct (Req_EM_T v 0); [lra|]. apply (Rsqr_pos_lt (v * (5 / 100))). lra. }
  destruct sigma as [s| | |]; auto. destruct (Rlt_dec 0 s); auto. apply (Rsqr_pos_lt s). lra.
Qed.

Lemma start_variance_default sigma v :
  default_var (if nle (setup_prior_sigma sigma) n0 then ninf else setup_prior_sigma sigma) v = start_variance sigma v.
Proof.
  assert (A : Rabs v * (5 / 100) * (Rabs v * (5 / 100)) = v * (5 / 100) * (v * (5 / 100))).
  { replace (Rabs v * (5 / 100) * (Rabs v * (5 / 100))) with ((Rabs v * Rabs v) * (5 / 100 * (5 / 100))) by ring.
    replace (Rabs v * Rabs v) with (v * v); [ring|]. symmetry. apply (eq_sym (Rsqr_abs v)). }
  assert (B : forall s, match s with Fin _ => False | _ => True end -> default_var s v =
     if Req_EM_T v 0 then 1 else v * (5 / 100) * (v * (5 / 100))).
  { intros s Hs. unfold default_var. destruct s as [s| | |]; [contradiction|..]; rewrite A;
    (destruct (Req_EM_T v 0) as [->|Hv]; [destruct (Req_EM_T _ 0); [auto|lra]|]);
    (destruct (Req_EM_T _ 0) as [H|]; [|auto]; apply Rsqr_0_uniq in H; lra). }
  unfold setup_prior_sigma, start_variance. destruct sigma as [s| | |].
  - rewrite XR_n0. cbn [neq Num_X xeq aeq Arith_R]. unfold Reqb. destruct (Req_EM_T s 0) as [->|Hs].
    + cbn [nle ninf Num_X xle]. destruct (Rlt_dec 0 0); [lra|]. apply B. exact Coq.Init.Logic.I.
    + cbn [nle ninf Num_X xle ale Arith_R]. unfold Rleb. destruct (Rle_dec s 0).
      * destruct (Rlt_dec 0 s); [lra|]. apply B. exact Coq.Init.Logic.I.
      * destruct (Rlt_dec 0 s); [|lra]. unfold default_var. destruct (Req_EM_T (s * s) 0) as [H|]; [|auto].
        apply Rsqr_0_uniq in H. lra.
  - apply B. exact Coq.Init.Logic.I.
  - apply B. exact Coq.Init.Logic.I.
  - apply B. exact Coq.Init.Logic.I.
Qed.

Section Start.
Variable E : env XR.
Hypothesis HC : factorises (e_chol E).

Lemma table_ext n m f g : (forall i j, (i < n)%nat -> (j < m)%nat -> f i j = g i j) -> table n m f = table n m g.
Proof.
  intros H. unfold table. apply map_ext_in. intros i Hi. apply in_seq in Hi. apply map_ext_in. intros j Hj. apply in_seq in Hj.
  apply H; lia.
Qed.
Lemma scaled_factor_ext n fac s C D : (forall i j, (i < n)%nat -> (j < n)%nat -> C i j = D i j) ->
  scaled_factor n fac s C -> scaled_factor n fac s D.
Proof. intros H (P & A & B & G). exists P. repeat split; auto. intros i j Hi Hj. rewrite G by auto. now rewrite H. Qed.

Lemma start_R n d ix fac sub : (0 < n)%nat -> ix <> [] -> NoDup ix -> (forall i, In i ix -> (i < n)%nat) ->
  (forall i, 0 <= d i) ->
  setup_R_matrix E (finm (table n n (diagonal d))) ix = Ok (fac, sub) ->
  let D := diagonal (fun a => d (nth a ix 0%nat)) in
  sub = finm (table (length ix) (length ix) D) /\ scaled_factor (length ix) fac 1 D.
Proof.
  intros Hn Hne Hnd Hix Hd H D.
  assert (HR : forall a b, (a < length ix)%nat -> (b < length ix)%nat -> restricted ix (diagonal d) a b = D a b).
  { intros a b Ha Hb. unfold restricted, D, diagonal. destruct (Nat.eqb_spec a b) as [->|Hab]; [now rewrite Nat.eqb_refl|].
    destruct (Nat.eqb_spec (nth a ix 0%nat) (nth b ix 0%nat)) as [He|]; auto.
    exfalso. apply Hab. eapply (proj1 (NoDup_nth ix 0%nat)); eauto. }
  assert (X : sub = finm (table (length ix) (length ix) (restricted ix (diagonal d))) /\
              scaled_factor (length ix) fac 1 (restricted ix (diagonal d))).
  { destruct (Nat.eq_dec n 1) as [->|].
    - apply (setup_R_row E 1%nat); auto.
    - apply (setup_R_square E HC n); auto; [lia| |].
      + intros i _. unfold diagonal. rewrite Nat.eqb_refl. apply Hd.
      + intros i j _ _. unfold diagonal. rewrite (Nat.eqb_sym j i). destruct (Nat.eqb_spec i j); congruence. }
  destruct X as [-> X]. split; [f_equal; now apply table_ext|]. eapply scaled_factor_ext; eauto.
Qed.

Lemma default_start ps meth ntry drscale ada iq na ordr th c vals :
  map (@a_theta0 XR) ps = fin vals -> sampled_params ps <> [] ->
  let op := check_prior_sigma (openparameterstructure ps) in
  initialize_covariance E meth ntry drscale None None ada iq (op_sigma op) (op_initial op) (op_parind op) na ordr th = Ok c ->
  let k := length (sampled_params ps) in
  exists var, (forall a p, nth_error (sampled_params ps) a = Some p ->
                 exists v, a_theta0 p = Fin v /\ var a = start_variance (a_sigma p) v) /\
    c_qcov c = finm (table k k (diagonal var)) /\ scaled_factor k (c_R c) 1 (diagonal var).
Proof.
  intros Hv Hne op H k. set (n := length ps).
  assert (Hix : op_parind op = flatnonzero (map (@a_sample XR) ps)) by reflexivity.
  assert (Hk : length (op_parind op) = k) by apply parind_length.
  set (d := fun i => start_variance (nth i (map (@a_sigma XR) ps) NaN) (nth i vals 0)).
  assert (Hlen : length vals = n).
  { unfold n. rewrite <- (map_length (@a_theta0 XR) ps), Hv. unfold fin. now rewrite map_length. }
  assert (Hcov : setup_covariance_matrix None (op_sigma op) (op_initial op) = finm (table n n (diagonal d))).
  { change (op_initial op) with (map (@a_theta0 XR) ps). rewrite Hv.
    assert (Hs : op_sigma op = map (fun p => if nle (setup_prior_sigma (a_sigma p)) n0 then ninf else setup_prior_sigma (a_sigma p)) ps).
    { unfold op, check_prior_sigma, openparameterstructure. cbn [op_sigma setup_adaptation_indices]. now rewrite map_map. }
    rewrite (default_covariance n) by (auto; rewrite Hs, map_length; reflexivity).
    f_equal. apply table_ext. intros i j Hi Hj. unfold diagonal. destruct (Nat.eqb_spec i j); auto. unfold d.
    rewrite Hs. destruct (nth_error ps i) as [p|] eqn:Hp; [|apply nth_error_None in Hp; unfold n in Hi; lia].
    rewrite !(nth_error_nth _ _ _ (map_nth_error _ _ _ Hp)). apply start_variance_default. }
  assert (Hpi : forall i, In i (op_parind op) -> (i < n)%nat).
  { intros i Hi. rewrite Hix in Hi. apply flatnonzero_spec in Hi. unfold n.
    rewrite <- (map_length (@a_sample XR)). apply nth_error_Some. congruence. }
  assert (Hnd : NoDup (op_parind op)) by (rewrite Hix; apply flatnonzero_NoDup).
  assert (Hn : (0 < n)%nat) by (unfold n; destruct ps; [contradiction|cbn; lia]).
  assert (Hpne : op_parind op <> []).
  { intros X. rewrite X in Hk. cbn in Hk. destruct (sampled_params ps); [congruence|discriminate]. }
  exists (fun a => d (nth a (op_parind op) 0%nat)).
  split.
  - intros a p Hp.
    assert (Hval : nth a (sel (map (@a_theta0 XR) ps) (op_parind op)) NaN = a_theta0 p).
    { rewrite Hix, sel_filter. apply nth_error_nth. now apply map_nth_error. }
    assert (Hsig : nth a (sel (map (@a_sigma XR) ps) (op_parind op)) NaN = a_sigma p).
    { rewrite Hix, sel_filter. apply nth_error_nth. now apply map_nth_error. }
    assert (Ha : (a < length (op_parind op))%nat) by (rewrite Hk; apply nth_error_Some; congruence).
    unfold sel in Hval, Hsig.
    rewrite (nth_indep _ NaN n0) in Hval by (rewrite map_length; auto). rewrite (nth_indep _ NaN n0) in Hsig by (rewrite map_length; auto).
    assert (Hb : (nth a (op_parind op) 0 < n)%nat) by (apply Hpi; now apply nth_In).
    assert (M : forall l, nth a (map (fun i => nth i l n0) (op_parind op)) n0 = nth (nth a (op_parind op) 0%nat) l (@n0 XR _)).
    { intros l. rewrite (nth_indep _ n0 (nth 0%nat l n0)) by (rewrite map_length; auto).
      apply (map_nth (fun i => nth i l n0)). }
    rewrite M in Hval, Hsig. rewrite Hv in Hval.
    rewrite (nth_indep _ n0 (Fin 0)) in Hval by (unfold fin; rewrite map_length, Hlen; auto). unfold fin in Hval. rewrite map_nth in Hval.
    eexists. split; [symmetry; exact Hval|]. unfold d. rewrite (nth_indep _ NaN n0), Hsig by (rewrite map_length; auto). reflexivity.
  - unfold initialize_covariance in H. rewrite Hcov in H. peel H. destruct a as [R sub].
    apply (start_R n d) in E0; auto. 2:{ intros i. apply Rlt_le, start_variance_pos. }
    cbv zeta in E0. rewrite Hk in E0. destruct E0 as [-> HF]. peel H. destruct a as [[R' rdr] iv].
    assert (R' = R) as ->.
    { destruct (uses_dr_setup meth); [|inv E0; auto]. peel E0. destruct a as [[R1 l1] i1]. inv E0.
      unfold setup_RDR_matrix in E1. peel E1. peel E1. destruct a0. inv E1. auto. }
    inv H. auto.
Qed.
End Start.
