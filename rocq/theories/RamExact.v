(** Exact condition for the robust adaptive Metropolis update to give a covariance (C22). *)

From Coq Require Import ZArith QArith Bool Lia List Reals Lra Qreals.
From Verif Require Import Base Num Samplers SamplerFacts Adapt RVec RMat StatSpec RamFacts.
Import ListNotations.
Close Scope Q_scope.
Open Scope list_scope.
Open Scope R_scope.

(** Back substitution. *)
Lemma triangular_solves n P z : upper_triangular n P -> (forall i, (i < n)%nat -> P i i <> 0) ->
  exists v, forall k, (k < n)%nat -> applied n P v k = z k.
Proof.
  intros HU HD.
  assert (G : forall m, (m <= n)%nat -> exists v, (forall k, (n - m <= k < n)%nat -> applied n P v k = z k) /\ (forall j, (j < n - m)%nat -> v j = 0)).
  { induction m as [|m IH]; intros Hm; [exists (fun _ => 0); split; intros; [lia|reflexivity]|].
    destruct IH as (v & H1 & H2); [lia|]. set (p := (n - S m)%nat).
    set (x := (z p - applied n P v p) / P p p).
    exists (fun j => if (j =? p)%nat then x else v j).
    assert (Hp : (p < n)%nat) by (unfold p; lia).
    assert (HA : forall k, applied n P (fun j => if (j =? p)%nat then x else v j) k = applied n P v k + P k p * x).
    { intros k. unfold applied. rewrite (Sum_ext n _ (fun j => P k j * v j + (if (j =? p)%nat then P k p * x else 0))).
      - rewrite Sum_plus. f_equal. rewrite (Sum_single n p); auto; [now rewrite Nat.eqb_refl|].
        intros j _ Hj. destruct (Nat.eqb_spec j p); [contradiction|reflexivity].
      - intros j Hj. destruct (Nat.eqb_spec j p) as [->|]; [|ring]. rewrite (H2 p) by (unfold p; lia). ring. }
    split.
    - intros k Hk. rewrite HA. destruct (Nat.eq_dec k p) as [->|N].
      + unfold x. field. now apply HD.
      + rewrite H1 by (unfold p in *; lia). rewrite (HU k p) by (unfold p in *; lia). ring.
    - intros j Hj. destruct (Nat.eqb_spec j p); [unfold p in *; lia|]. apply H2. unfold p in *; lia. }
  destruct (G n) as (v & Hv & _); [lia|]. exists v. intros k Hk. apply Hv. lia.
Qed.

Lemma ram_posdef_iff n P z t : upper_triangular n P -> (forall i, (i < n)%nat -> P i i <> 0) -> 0 < Sum n (fun k => z k * z k) ->
  (posdef n (ram_cov n P z t) <-> -1 < t).
Proof.
  intros HU HD Hz. split; [|intros; apply ram_posdef; auto; now apply triangular_nonsingular].
  intros HP. destruct (triangular_solves n P z HU HD) as (v & Hv).
  assert (NV : exists k, (k < n)%nat /\ v k <> 0).
  { assert (HX : forall m, (m <= n)%nat -> (forall k, (k < m)%nat -> v k = 0) \/ exists k, (k < n)%nat /\ v k <> 0).
    { induction m as [|m IH]; intros Hm; [left; intros; lia|]. destruct IH as [A|A]; [lia| |right; exact A].
      destruct (Req_dec (v m) 0) as [E|E]; [left|right; exists m; split; [lia|exact E]].
      intros k Hk. destruct (Nat.eq_dec k m) as [->|]; auto. apply A. lia. }
    destruct (HX n (Nat.le_refl n)) as [A|A]; auto. exfalso.
    assert (Sum n (fun k => z k * z k) = 0); [|lra]. apply Sum_0. intros k Hk. rewrite <- (Hv k Hk).
    assert (applied n P v k = 0) as ->; [|ring]. apply Sum_0. intros j Hj. rewrite (A j Hj). ring. }
  specialize (HP v NV). rewrite ram_quad in HP. set (zz := Sum n (fun k => z k * z k)) in *.
  rewrite (Sum_ext n (fun k => applied n P v k * applied n P v k) (fun k => z k * z k)) in HP by (intros k Hk; now rewrite Hv).
  rewrite (Sum_ext n (fun k => applied n P v k * z k) (fun k => z k * z k)) in HP by (intros k Hk; now rewrite Hv).
  fold zz in HP. replace (t / zz * (zz * zz)) with (t * zz) in HP by (field; lra). nra.
Qed.

Lemma norm_pos n z : (exists k, (k < n)%nat /\ z k <> 0) -> 0 < Sum n (fun k => z k * z k).
Proof.
  intros (k & Hk & Hz). assert (H0 : forall j, 0 <= z j * z j) by (intros j; apply (Rle_0_sqr (z j))).
  destruct (Sum_nonneg n (fun j => z j * z j) (fun j _ => H0 j)) as [|X]; auto.
  symmetry in X. exfalso. apply Hz. apply Rsqr_0_uniq.
  exact (Sum_nonneg_0 n (fun j => z j * z j) (fun j _ => H0 j) X k Hk).
Qed.

Lemma ram_exact n P z isimu e tg a : (0 < n)%nat -> (0 < isimu)%nat ->
  (exists k, (k < n)%nat /\ z k <> 0) -> upper_triangular n P -> (forall i, (i < n)%nat -> P i i <> 0) ->
  exists C, update_cov_via_ram (fin (vtab n z)) isimu (Fin e) n (Fin tg) (Fin a) (finm (table n n P)) = finm (table n n C) /\
    symmetric n C /\ (posdef n C <-> tg - Rmin 1 a < Rpower (INR isimu) e).
Proof.
  intros Hn Hi HZ HU HD. pose proof (norm_pos n z HZ) as HS.
  eexists. split; [apply ram_spec; auto|]. split; [apply ram_sym|]. rewrite ram_posdef_iff by auto.
  unfold ram_t. assert (HP : 0 < Rpower (INR isimu) e) by apply exp_pos. set (p := Rpower (INR isimu) e) in *. set (x := Rmin 1 a - tg).
  replace (tg - Rmin 1 a) with (- x) by (unfold x; ring). split; intros H.
  - apply (Rmult_lt_compat_l p) in H; auto. rewrite <- Rmult_assoc, Rinv_r in H by lra. lra.
  - apply (Rmult_lt_reg_l p); auto. rewrite <- Rmult_assoc, Rinv_r by lra. lra.
Qed.

Lemma ram_exact_log n P z isimu e tg r : (0 < n)%nat -> (0 < isimu)%nat ->
  (exists k, (k < n)%nat /\ z k <> 0) -> upper_triangular n P -> (forall i, (i < n)%nat -> P i i <> 0) -> tg < 1 -> 0 < r ->
  exists C, update_cov_via_ram (fin (vtab n z)) isimu (Fin e) n (Fin tg) (Fin (ln r)) (finm (table n n P)) = finm (table n n C) /\
    symmetric n C /\ (posdef n C <-> exp (tg - Rpower (INR isimu) e) < r).
Proof.
  intros Hn Hi HZ HU HD Ht Hr. destruct (ram_exact n P z isimu e tg (ln r) Hn Hi HZ HU HD) as (C & C1 & C2 & C3).
  exists C. split; auto. split; auto. rewrite C3. set (p := Rpower (INR isimu) e).
  assert (HP : 0 < p) by apply exp_pos.
  assert (HL : exp (tg - p) < r <-> tg - p < ln r).
  { split; intros H; [|rewrite <- (exp_ln r Hr); now apply exp_increasing].
    apply ln_increasing in H; [|apply exp_pos]. now rewrite ln_exp in H. }
  rewrite HL. unfold Rmin. destruct (Rle_dec 1 (ln r)); split; intros; lra.
Qed.
