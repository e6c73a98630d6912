(** Numerical facts about the adaptation over the extended reals (C17, C19, C22, C23). *)

From Coq Require Import ZArith QArith Bool Lia List Reals Lra Qreals.
From Verif Require Import Base Num Samplers SamplerFacts Adapt RVec RMat StatSpec.
Import ListNotations.
Close Scope Q_scope.
Open Scope list_scope.
Open Scope R_scope.

(** ** Proposal factor after adaptation *)

Section Factor.
Variable E : env XR.
Hypothesis HC : factorises (e_chol E).

Lemma chol_factor n C c : (0 < n)%nat -> symmetric n C -> is_semi_pos_def_chol E (finm (table n n C)) = Some c ->
  exists P, c = finm (table n n P) /\ upper_triangular n P /\
    forall i j, (i < n)%nat -> (j < n)%nat -> gram n P i j = C i j.
Proof.
  intros Hn HSy H. unfold is_semi_pos_def_chol in H. destruct (e_chol E _) as [L|] eqn:EL; [|discriminate].
  destruct (HC n _ _ Hn (table_shape n n C) EL) as (M & -> & HS & HT & HG).
  assert (c = transpose (finm M)) as -> by congruence. rewrite (table_ent _ _ _ HS), transpose_tab by auto.
  eexists. split; [reflexivity|]. split.
  - intros i j Hi Hj. apply HT; lia.
  - assert (G : forall i j, (i < n)%nat -> (j <= i)%nat -> gram n (fun i j => ent M j i) i j = C i j).
    { intros i j Hi Hj. unfold gram. rewrite HG by auto. apply ent_table; lia. }
    intros i j Hi Hj. destruct (Nat.le_gt_cases j i); [now apply G|].
    rewrite (HSy i j) by auto. rewrite <- (G j i) by lia. unfold gram. apply Sum_ext. intros. ring.
Qed.

Lemma scaled_of n c s C : (exists P, c = finm (table n n P) /\ upper_triangular n P /\
    forall i j, (i < n)%nat -> (j < n)%nat -> gram n P i j = C i j) ->
  scaled_factor n (mscale (Fin s) c) s C.
Proof.
  intros (P & -> & HU & HG). exists (fun i j => P i j * s). rewrite mscale_tab. split; auto. split.
  - intros i j Hi Hj. rewrite HU by auto. lra.
  - intros i j Hi Hj. rewrite <- HG by auto. unfold gram. rewrite <- Sum_scal. apply Sum_ext. intros. ring.
Qed.

Definition plus_eye (a : R) (C : nat -> nat -> R) (i j : nat) : R := C i j + (if (i =? j)%nat then 1 else 0) * a.

Lemma plus_eye_sym n a C : symmetric n C -> symmetric n (plus_eye a C).
Proof. intros H i j Hi Hj. unfold plus_eye. rewrite (H i j) by auto. now rewrite (Nat.eqb_sym i j). Qed.

Lemma singular_spec n C Rold a s : (0 < n)%nat -> symmetric n C ->
  let fac := check_for_singular_cov_matrix E (finm (table n n C)) Rold n (Fin a) (Fin s) in
  (e_chol E (finm (table n n C)) <> None /\ scaled_factor n fac s C) \/
  (e_chol E (finm (table n n C)) = None /\ e_chol E (finm (table n n (plus_eye a C))) <> None /\
     scaled_factor n fac s (plus_eye a C)) \/
  (e_chol E (finm (table n n C)) = None /\ e_chol E (finm (table n n (plus_eye a C))) = None /\ fac = Rold).
Proof.
  intros Hn HSy fac. pose proof (plus_eye_sym n a C HSy). unfold fac, check_for_singular_cov_matrix, adjust_cov_matrix.
  rewrite eye_tab, mscale_tab, madd_tab. fold (plus_eye a C).
  destruct (is_semi_pos_def_chol E (finm (table n n C))) as [c|] eqn:E1.
  - left. split; [|now apply scaled_of, chol_factor].
    unfold is_semi_pos_def_chol in E1. destruct (e_chol E _); congruence.
  - assert (e_chol E (finm (table n n C)) = None).
    { unfold is_semi_pos_def_chol in E1. destruct (e_chol E _); congruence. }
    right. destruct (is_semi_pos_def_chol E (finm (table n n (plus_eye a C)))) as [c|] eqn:E2.
    + left. split; auto. split; [|now apply scaled_of, chol_factor].
      unfold is_semi_pos_def_chol in E2. destruct (e_chol E (finm (table n n (plus_eye a C)))); congruence.
    + right. split; auto. split; auto.
      unfold is_semi_pos_def_chol in E2. destruct (e_chol E (finm (table n n (plus_eye a C)))); congruence.
Qed.

(** The covariance handed to the factorisation: from the chain, except for pairs with a non-adapted parameter. *)
Definition mixed (no_adapt : list bool) (Q C : nat -> nat -> R) (i j : nat) : R :=
  if nth i no_adapt false || nth j no_adapt false then Q i j else C i j.

Lemma mixed_spec n C Q no_adapt : (0 < n)%nat ->
  update_cov_from_covchain (finm (table n n C)) (finm (table n n Q)) no_adapt = finm (table n n (mixed no_adapt Q C)).
Proof.
  intros Hn. unfold update_cov_from_covchain. rewrite ncols_fin, Rcols_table, finm_length, table_length by auto.
  rewrite (finm_table n n (mixed no_adapt Q C)). unfold range. apply map_ext_in. intros i Hi. apply in_seq in Hi.
  rewrite fin_vtab. apply map_ext_in. intros j Hj. apply in_seq in Hj.
  rewrite XR_n0, !nth_finm, !ent_table by lia. unfold mixed. destruct (_ || _); auto.
Qed.

Lemma mixed_sym n no_adapt Q C : symmetric n Q -> symmetric n C -> symmetric n (mixed no_adapt Q C).
Proof.
  intros HQ HC' i j Hi Hj. unfold mixed. rewrite (HQ i j), (HC' i j), (orb_comm (nth i no_adapt false)) by auto. reflexivity.
Qed.

Lemma adapt_factor c o isimu iiadapt rej_in chain chainind u n alpha c' C Q s a :
  run_adaptation E c o isimu iiadapt rej_in chain chainind u n alpha = Ok c' ->
  (0 < n)%nat -> (ao_burnintime o <= Z.of_nat isimu)%Z -> ao_doram o = false ->
  c_covchain c' = Some (finm (table n n C)) -> c_qcov c = finm (table n n Q) ->
  symmetric n C -> symmetric n Q ->
  c_qcov_scale c = Fin s -> ao_qcov_adjust o = Fin a ->
  let T := mixed (c_no_adapt c) Q C in
  (e_chol E (finm (table n n T)) <> None /\ scaled_factor n (c_R c') s T) \/
  (e_chol E (finm (table n n T)) = None /\ e_chol E (finm (table n n (plus_eye a T))) <> None /\
     scaled_factor n (c_R c') s (plus_eye a T)) \/
  (e_chol E (finm (table n n T)) = None /\ e_chol E (finm (table n n (plus_eye a T))) = None /\ c_R c' = c_R c).
Proof.
  intros H Hn Hb Hr Hcc HQ HSC HSQ Hs Ha T. unfold run_adaptation in H.
  destruct (Z.ltb_spec (Z.of_nat isimu) (ao_burnintime o)) as [Hlt|Hge]; [lia|]. rewrite Hr in H.
  destruct (update_covariance_mean_sum _ _ _) as [[[cv mn] ws]|] eqn:ES; cbn [bind] in H; [|discriminate].
  destruct (update_delayed_rejection _ _ _ _) as [dr|] eqn:ED; cbn [bind] in H; [|discriminate].
  assert (Hc' : c_covchain c' = Some cv /\ c_R c' = check_for_singular_cov_matrix E
     (update_cov_from_covchain cv (c_qcov c) (c_no_adapt c)) (c_R c) n (ao_qcov_adjust o) (c_qcov_scale c)).
  { injection H as <-. split; reflexivity. }
  destruct Hc' as [H1 H2]. assert (cv = finm (table n n C)) as -> by congruence.
  rewrite H2, HQ, Hs, Ha, mixed_spec by auto. fold T. apply singular_spec; auto. now apply mixed_sym.
Qed.
End Factor.

(** ** Delayed rejection factors *)

Section Stages.
Variable E : env XR.
Hypothesis HI : inverts (e_inv E).
Variables (drscale : list R).
Hypothesis Hd : forall x, In x drscale -> x <> 0.
Hypothesis Hne : drscale <> [].

Definition scale_at (k : nat) : R := nth (Nat.min k (length drscale - 1)) drscale 0.
Lemma scale_nonzero k : scale_at k <> 0.
Proof.
  apply Hd, nth_In. destruct drscale; [congruence|]. simpl. lia.
Qed.
Lemma divisor_nonzero k : stage_divisor drscale k <> 0.
Proof.
  unfold stage_divisor. induction k as [|k IH]; simpl; [lra|].
  apply Rmult_integral_contrapositive_currified; auto. apply (scale_nonzero k).
Qed.
Lemma drscale_at_spec k : drscale_at (fin drscale) (S k) = Ok (Fin (scale_at k)).
Proof.
  unfold drscale_at, of_option. rewrite fin_length.
  assert (HL : (0 < length drscale)%nat) by (destruct drscale; [congruence|simpl; lia]).
  replace (Nat.min (S k) (length drscale) - 1)%nat with (Nat.min k (length drscale - 1)) by lia.
  unfold scale_at. unfold fin. rewrite nth_error_map.
  rewrite (nth_error_nth' drscale 0) by lia. reflexivity.
Qed.

Lemma dr_factors_spec n P iP : (0 < n)%nat -> mat_inverse n P iP -> forall m k t1 t2,
  dr_factors (fin drscale) m (S k) (finm (table n n (fun a b => P a b / stage_divisor drscale k)))
     (finm (table n n (fun a b => iP a b * stage_divisor drscale k))) = Ok (t1, t2) ->
  length t1 = m /\ length t2 = m /\ forall i, (i < m)%nat ->
    nth_error t1 i = Some (finm (table n n (fun a b => P a b / stage_divisor drscale (k + 1 + i)))) /\
    nth_error t2 i = Some (finm (table n n (fun a b => iP a b * stage_divisor drscale (k + 1 + i)))).
Proof.
  intros Hn Hinv. induction m as [|m IH]; intros k t1 t2 H.
  - cbn [dr_factors] in H. injection H as <- <-. repeat split; auto; intros; lia.
  - cbn [dr_factors] in H. rewrite drscale_at_spec in H. cbn [bind] in H.
    rewrite XR_ninv in H by apply scale_nonzero. rewrite !mscale_tab in H.
    assert (EP : table n n (fun i j => P i j / stage_divisor drscale k * / scale_at k) =
                 table n n (fun a b => P a b / stage_divisor drscale (S k))).
    { apply table_ext. intros i j _ _. unfold stage_divisor at 2. cbn [Prod]. fold (stage_divisor drscale k) (scale_at k).
      pose proof (divisor_nonzero k). pose proof (scale_nonzero k). field. auto. }
    assert (EI : table n n (fun i j => iP i j * stage_divisor drscale k * scale_at k) =
                 table n n (fun a b => iP a b * stage_divisor drscale (S k))).
    { apply table_ext. intros i j _ _. unfold stage_divisor at 2. cbn [Prod]. fold (stage_divisor drscale k) (scale_at k). ring. }
    rewrite EP, EI in H.
    destruct (dr_factors _ _ _ _ _) as [[u1 u2]|] eqn:EQ; cbn [bind] in H; [|discriminate].
    apply IH in EQ as (L1 & L2 & HN). injection H as <- <-. simpl. repeat split; auto; destruct i as [|i]; simpl.
    + now replace (k + 1 + 0)%nat with (S k) by lia.
    + replace (k + 1 + S i)%nat with (S k + 1 + i)%nat by lia. apply HN. lia.
    + now replace (k + 1 + 0)%nat with (S k) by lia.
    + replace (k + 1 + S i)%nat with (S k + 1 + i)%nat by lia. apply HN. lia.
Qed.

Lemma scaled_inverse n P iP k : mat_inverse n P iP ->
  mat_inverse n (fun a b => P a b / stage_divisor drscale k) (fun a b => iP a b * stage_divisor drscale k).
Proof.
  intros H i j Hi Hj. rewrite <- (H i j) by auto. apply Sum_ext. intros l Hl. pose proof (divisor_nonzero k). field. auto.
Qed.
Lemma mat_inverse_ext n P P' iP iP' : (forall a b, (a < n)%nat -> (b < n)%nat -> P a b = P' a b) ->
  (forall a b, (a < n)%nat -> (b < n)%nat -> iP a b = iP' a b) -> mat_inverse n P iP -> mat_inverse n P' iP'.
Proof. intros H1 H2 H i j Hi Hj. rewrite <- (H i j) by auto. apply Sum_ext. intros. rewrite H1, H2; auto. Qed.

Lemma inverts_table n P c : (0 < n)%nat -> e_inv E (finm (table n n P)) = Some c ->
  exists iP, c = finm (table n n iP) /\ mat_inverse n P iP.
Proof.
  intros Hn H. destruct (HI n _ _ Hn (table_shape n n P) H) as (M & -> & HS & HM).
  exists (ent M). rewrite <- table_ent by auto. split; auto. eapply mat_inverse_ext; [| |exact HM]; auto.
  intros. now apply ent_table.
Qed.

Lemma update_dr_spec n ntry P Ps iPs : (0 < n)%nat ->
  update_delayed_rejection E (finm (table n n P)) ntry (fin drscale) = Ok (Some (Ps, iPs)) ->
  stage_factors n ntry drscale P Ps iPs.
Proof.
  intros Hn H. unfold update_delayed_rejection in H. destruct (Nat.ltb_spec 1 ntry) as [Hl|Hl]; [|discriminate].
  destruct (e_inv E _) as [c|] eqn:EI; [|discriminate]. cbn [of_option bind] in H.
  destruct (inverts_table _ _ _ Hn EI) as (iP & -> & Hinv).
  assert (D0 : stage_divisor drscale 0 = 1) by reflexivity.
  destruct (dr_factors _ _ _ _ _) as [[t1 t2]|] eqn:EQ; cbn [bind] in H; [|discriminate].
  replace (table n n P) with (table n n (fun a b => P a b / stage_divisor drscale 0)) in EQ
    by (apply table_ext; intros; rewrite D0; lra).
  replace (table n n iP) with (table n n (fun a b => iP a b * stage_divisor drscale 0)) in EQ
    by (apply table_ext; intros; rewrite D0; lra).
  apply (dr_factors_spec n P iP) in EQ as (L1 & L2 & HN); auto.
  injection H as <- <-. split; [transitivity (S (ntry - 1)); [exact (f_equal S L1)|lia]|].
  split; [transitivity (S (ntry - 1)); [exact (f_equal S L2)|lia]|]. intros [|i] Hi.
  - exists P, iP. repeat split; auto. intros. rewrite D0. lra.
  - destruct (HN i) as [H1 H2]; [lia|]. 
    do 2 eexists. split; [exact H1|]. split; [exact H2|]. split; [intros; reflexivity|]. now apply scaled_inverse.
Qed.

Lemma setup_loop_spec n P : (0 < n)%nat -> forall m k t1 t2,
  setup_RDR_loop E (fin drscale) m (S k) (finm (table n n (fun a b => P a b / stage_divisor drscale k))) = Ok (t1, t2) ->
  length t1 = m /\ length t2 = m /\ forall i, (i < m)%nat -> exists iP,
    nth_error t1 i = Some (finm (table n n (fun a b => P a b / stage_divisor drscale (k + 1 + i)))) /\
    nth_error t2 i = Some (finm (table n n iP)) /\
    mat_inverse n (fun a b => P a b / stage_divisor drscale (k + 1 + i)) iP.
Proof.
  intros Hn. induction m as [|m IH]; intros k t1 t2 H.
  - cbn [setup_RDR_loop] in H. injection H as <- <-. repeat split; auto; intros; lia.
  - cbn [setup_RDR_loop] in H. rewrite drscale_at_spec in H. cbn [bind] in H.
    rewrite XR_ninv in H by apply scale_nonzero. rewrite !mscale_tab in H.
    assert (EP : table n n (fun i j => P i j / stage_divisor drscale k * / scale_at k) =
                 table n n (fun a b => P a b / stage_divisor drscale (S k))).
    { apply table_ext. intros i j _ _. unfold stage_divisor at 2. cbn [Prod]. fold (stage_divisor drscale k) (scale_at k).
      pose proof (divisor_nonzero k). pose proof (scale_nonzero k). field. auto. }
    rewrite EP in H. destruct (e_inv E _) as [c|] eqn:EI; [|discriminate]. cbn [of_option bind] in H.
    destruct (inverts_table _ _ _ Hn EI) as (iP & -> & Hinv).
    destruct (setup_RDR_loop _ _ _ _ _) as [[u1 u2]|] eqn:EQ; cbn [bind] in H; [|discriminate].
    apply IH in EQ as (L1 & L2 & HN). injection H as <- <-. simpl. repeat split; auto. intros [|i] Hi.
    + exists iP. replace (k + 1 + 0)%nat with (S k) by lia. auto.
    + destruct (HN i) as (j & G1 & G2 & G3); [lia|]. exists j. simpl.
      replace (k + 1 + S i)%nat with (S k + 1 + i)%nat by lia. auto.
Qed.

Lemma setup_rdr_spec n ntry P R' Ps iPs : (0 < n)%nat -> (0 < ntry)%nat ->
  setup_RDR_matrix E (finm (table n n P)) ntry (fin drscale) None = Ok (R', Ps, iPs) ->
  R' = finm (table n n P) /\ stage_factors n ntry drscale P Ps iPs.
Proof.
  intros Hn Hnt H. unfold setup_RDR_matrix in H.
  destruct (e_inv E _) as [c|] eqn:EI; [|discriminate]. cbn [of_option bind] in H.
  destruct (inverts_table _ _ _ Hn EI) as (iP & -> & Hinv).
  assert (D0 : stage_divisor drscale 0 = 1) by reflexivity.
  destruct (setup_RDR_loop _ _ _ _ _) as [[t1 t2]|] eqn:EQ; cbn [bind] in H; [|discriminate].
  replace (table n n P) with (table n n (fun a b => P a b / stage_divisor drscale 0)) in EQ
    by (apply table_ext; intros; rewrite D0; lra).
  apply (setup_loop_spec n P) in EQ as (L1 & L2 & HN); auto.
  injection H as <- <- <-. split; auto. split; [transitivity (S (ntry - 1)); [exact (f_equal S L1)|lia]|].
  split; [transitivity (S (ntry - 1)); [exact (f_equal S L2)|lia]|]. intros [|i] Hi.
  - exists P, iP. repeat split; auto. intros. rewrite D0. lra.
  - destruct (HN i) as (j & H1 & H2 & H3); [lia|]. 
    do 2 eexists. split; [exact H1|]. split; [exact H2|]. split; [intros; reflexivity|]. exact H3.
Qed.

(** A user-supplied list of factors: the stored inverses are their inverses. *)
Lemma invert_all_spec n : (0 < n)%nat -> forall m l r, Forall (fun P => exists M, P = finm (table n n M)) l ->
  invert_all E m l = Ok r -> length r = m /\ forall i, (i < m)%nat -> exists M iM,
    nth_error l i = Some (finm (table n n M)) /\ nth_error r i = Some (finm (table n n iM)) /\ mat_inverse n M iM.
Proof.
  intros Hn. induction m as [|m IH]; intros l r HL H; cbn [invert_all] in H.
  - injection H as <-. split; auto. intros; lia.
  - destruct l as [|P l]; [discriminate|]. inversion HL; subst. destruct H2 as (M & ->).
    destruct (e_inv E _) as [c|] eqn:EI; [|discriminate]. cbn [of_option bind] in H.
    destruct (inverts_table _ _ _ Hn EI) as (iP & -> & Hinv).
    destruct (invert_all E m l) as [t|] eqn:EQ; cbn [bind] in H; [|discriminate]. injection H as <-.
    destruct (IH _ _ H3 EQ) as (L & HN). split; [exact (f_equal S L)|]. intros [|i] Hi; [exists M, iP; auto|].
    destruct (HN i) as (A & B & C); [lia|]. exists A, B. exact C.
Qed.
End Stages.
