(** Robust adaptive Metropolis update (C22). *)

From Coq Require Import ZArith QArith Bool Lia List Reals Lra Qreals.
From Verif Require Import Base Num Samplers SamplerFacts Adapt RVec RMat StatSpec BalanceSpec BalanceFacts DemoReal.
Import ListNotations.
Close Scope Q_scope.
Open Scope list_scope.
Open Scope R_scope.

Lemma cauchy_schwarz n a b : Sum n (fun k => a k * b k) * Sum n (fun k => a k * b k) <=
  Sum n (fun k => a k * a k) * Sum n (fun k => b k * b k).
Proof.
  set (C := Sum n (fun k => a k * b k)). set (A := Sum n (fun k => a k * a k)). set (B := Sum n (fun k => b k * b k)).
  assert (HB : 0 <= B) by (apply Sum_nonneg; intros; apply Rle_0_sqr).
  assert (H : 0 <= Sum n (fun k => (a k * B - b k * C) * (a k * B - b k * C))) by (apply Sum_nonneg; intros; apply Rle_0_sqr).
  assert (HE : Sum n (fun k => (a k * B - b k * C) * (a k * B - b k * C)) = B * (A * B - C * C)).
  { rewrite (Sum_ext n _ (fun k => (B * B) * (a k * a k) + ((- 2 * B * C) * (a k * b k) + (C * C) * (b k * b k))))
      by (intros; ring).
    rewrite !Sum_plus, !Sum_scal. fold A B C. ring. }
  rewrite HE in H. destruct (Rle_lt_or_eq_dec _ _ HB) as [Hp|Hz].
  { assert (0 <= A * B - C * C); [|lra]. apply (Rmult_le_reg_l B); lra. }
  assert (HC : C = 0).
  { apply Sum_0. intros k Hk.
    assert (Hk0 : b k * b k = 0).
    { apply (Sum_nonneg_0 n (fun k => b k * b k)); [intros; apply Rle_0_sqr|exact (eq_sym Hz)|exact Hk]. }
    assert (b k = 0) as -> by nra. ring. }
  rewrite HC. nra.
Qed.

(** Step size of the update: t = eta (min(1,alpha) - target), eta = isimu^(-etaparam). *)
Definition ram_t (isimu : nat) (etaparam target a : R) : R :=
  / Rpower (INR isimu) etaparam * (Rmin 1 a - target).

(** The updated covariance. *)
Definition ram_cov (n : nat) (P : nat -> nat -> R) (z : nat -> R) (t : R) (i j : nat) : R :=
  gram n P i j + t / Sum n (fun k => z k * z k) * (Sum n (fun k => P k i * z k) * Sum n (fun k => P k j * z k)).

Lemma ram_spec n P z isimu e tg a : (0 < n)%nat -> (0 < isimu)%nat -> 0 < Sum n (fun k => z k * z k) ->
  update_cov_via_ram (fin (vtab n z)) isimu (Fin e) n (Fin tg) (Fin a) (finm (table n n P))
  = finm (table n n (ram_cov n P z (ram_t isimu e tg a))).
Proof.
  intros Hn Hi Hz. set (zz := Sum n (fun k => z k * z k)) in *.
  assert (Hs : 0 < sqrt zz) by now apply sqrt_lt_R0.
  assert (HI : 0 < INR isimu) by (apply lt_0_INR; auto).
  unfold update_cov_via_ram. rewrite vdot_tab. fold zz. rewrite XR_nsqrt, XR_ninv, vscale_tab, outer_tab by lra.
  rewrite XR_nnat. assert (EP : npow (Fin (INR isimu)) (Fin e) = @Fin R (Rpower (INR isimu) e)).
  { cbn [npow Num_X xpow]. unfold a0. cbn [alt Arith_R aQ apow]. rewrite Q2R_0.
    replace (Rltb 0 (INR isimu)) with true by (symmetry; now apply Rltb_true). reflexivity. }
  rewrite EP. assert (HPp : 0 < Rpower (INR isimu) e) by apply exp_pos.
  rewrite XR_ninv by lra.
  assert (EM : pymin n1 (Fin a) = @Fin R (Rmin 1 a)).
  { unfold pymin. rewrite XR_n1. cbn [nlt Num_X xlt alt Arith_R]. destruct (Rltb a 1) eqn:Ha.
    - apply Rltb_true in Ha. rewrite Rmin_right by lra. reflexivity.
    - apply Rltb_false in Ha. rewrite Rmin_left by lra. reflexivity. }
  rewrite EM. replace (nmul (Fin (/ Rpower (INR isimu) e)) (nsub (Fin (Rmin 1 a)) (Fin tg)))
    with (@Fin R (ram_t isimu e tg a)) by reflexivity.
  set (t := ram_t isimu e tg a).
  rewrite mscale_tab, eye_tab, madd_tab, transpose_tab, matmul_tab, matmul_tab by auto.
  f_equal. apply table_ext. intros i j Hii Hjj. unfold ram_cov, gram.
  rewrite (Sum_ext n _ (fun l => P l i * P l j + (t / zz * Sum n (fun k => P k i * z k)) * (P l j * z l))).
  - rewrite Sum_plus, Sum_scal. fold zz. ring.
  - intros l Hl. assert (E1 : Sum n (fun k => P k i * ((if (k =? l)%nat then 1 else 0) + z k * / sqrt zz * (z l * / sqrt zz) * t))
      = P l i + t / zz * z l * Sum n (fun k => P k i * z k)).
    { rewrite (Sum_ext n _ (fun k => P k i * (if (k =? l)%nat then 1 else 0) + (t / zz * z l) * (P k i * z k))).
      - rewrite Sum_plus, Sum_scal. f_equal. rewrite (Sum_single n l).
        + rewrite Nat.eqb_refl. ring.
        + auto.
        + intros k _ Hk. destruct (Nat.eqb_spec k l); [contradiction|ring].
      - intros k Hk. assert (/ sqrt zz * / sqrt zz = / zz).
        { rewrite <- Rinv_mult, sqrt_sqrt by lra. reflexivity. }
        replace (z k * / sqrt zz * (z l * / sqrt zz) * t) with (z k * z l * t * (/ sqrt zz * / sqrt zz)) by ring.
        rewrite H. unfold Rdiv. ring. }
    rewrite E1. ring.
Qed.

Lemma ram_sym n P z t : symmetric n (ram_cov n P z t).
Proof.
  intros i j _ _. unfold ram_cov, gram. rewrite (Sum_ext n (fun k => P k i * P k j) (fun k => P k j * P k i)) by (intros; ring).
  ring.
Qed.

Definition applied (n : nat) (P : nat -> nat -> R) (v : nat -> R) (k : nat) : R := Sum n (fun j => P k j * v j).

Lemma quad_rank1 n f v : quad n (fun i j => f i * f j) v = Sum n (fun i => f i * v i) * Sum n (fun i => f i * v i).
Proof.
  unfold quad. rewrite <- Sum_scal_r. apply Sum_ext. intros i Hi. rewrite <- Sum_scal. apply Sum_ext. intros. ring.
Qed.
Lemma quad_plus n C D v : quad n (fun i j => C i j + D i j) v = quad n C v + quad n D v.
Proof.
  unfold quad. rewrite <- Sum_plus. apply Sum_ext. intros. rewrite <- Sum_plus. apply Sum_ext. intros. ring.
Qed.
Lemma quad_cscal n C c v : quad n (fun i j => c * C i j) v = c * quad n C v.
Proof.
  unfold quad. rewrite <- Sum_scal. apply Sum_ext. intros. rewrite <- Sum_scal. apply Sum_ext. intros. ring.
Qed.
Lemma quad_gram n P v : quad n (gram n P) v = Sum n (fun k => applied n P v k * applied n P v k).
Proof.
  transitivity (Sum n (fun k => quad n (fun i j => P k i * P k j) v)).
  - unfold quad. rewrite Sum_swap.
    transitivity (Sum n (fun j => Sum n (fun i => Sum n (fun k => v i * (P k i * P k j) * v j)))).
    + apply Sum_ext. intros j Hj. apply Sum_ext. intros i Hi. unfold gram. rewrite <- Sum_scal, <- Sum_scal_r. reflexivity.
    + rewrite (Sum_ext n _ (fun j => Sum n (fun k => Sum n (fun i => v i * (P k i * P k j) * v j)))) by (intros; apply Sum_swap).
      rewrite Sum_swap. apply Sum_ext. intros k Hk. apply Sum_swap.
  - apply Sum_ext. intros k Hk. rewrite quad_rank1. reflexivity.
Qed.

Lemma ram_quad n P z t v : quad n (ram_cov n P z t) v =
  Sum n (fun k => applied n P v k * applied n P v k) +
  t / Sum n (fun k => z k * z k) * (Sum n (fun k => applied n P v k * z k) * Sum n (fun k => applied n P v k * z k)).
Proof.
  unfold ram_cov. rewrite (quad_plus n (gram n P)), quad_gram, quad_cscal, (quad_rank1 n (fun i => Sum n (fun k => P k i * z k))).
  assert (HX : Sum n (fun i => Sum n (fun k => P k i * z k) * v i) = Sum n (fun k => applied n P v k * z k)).
  { unfold applied. rewrite (Sum_ext n (fun i => Sum n (fun k => P k i * z k) * v i) (fun i => Sum n (fun k => P k i * v i * z k))).
    - rewrite Sum_swap. apply Sum_ext. intros k Hk. now rewrite <- Sum_scal_r.
    - intros i Hi. rewrite <- Sum_scal_r. apply Sum_ext. intros. ring. }
  rewrite HX. reflexivity.
Qed.

Definition nonsingular (n : nat) (P : nat -> nat -> R) : Prop :=
  forall v, (forall k, (k < n)%nat -> applied n P v k = 0) -> forall k, (k < n)%nat -> v k = 0.

Lemma triangular_nonsingular n P : upper_triangular n P -> (forall i, (i < n)%nat -> P i i <> 0) -> nonsingular n P.
Proof.
  intros HU HD v H.
  assert (G : forall m k, (k < n)%nat -> (n - k <= m)%nat -> v k = 0).
  { induction m as [|m IH]; intros k Hk Hm; [lia|].
    specialize (H k Hk). unfold applied in H.
    rewrite (Sum_single n k) in H; auto.
    - destruct (Rmult_integral _ _ H) as [H0|H0]; auto. now specialize (HD k Hk).
    - intros j Hj Hjk. destruct (Nat.lt_ge_cases j k).
      + rewrite HU by auto. ring.
      + rewrite (IH j) by lia. ring. }
  intros k Hk. apply (G n); auto. lia.
Qed.

Lemma ram_posdef n P z t : nonsingular n P -> 0 < Sum n (fun k => z k * z k) -> -1 < t -> posdef n (ram_cov n P z t).
Proof.
  intros HN Hz Ht v (k & Hk & Hv). rewrite ram_quad.
  set (w := applied n P v). set (A := Sum n (fun k => w k * w k)). set (zz := Sum n (fun k => z k * z k)) in *.
  set (C := Sum n (fun k => w k * z k)).
  assert (HA0 : 0 <= A) by (apply Sum_nonneg; intros; apply Rle_0_sqr).
  assert (HA : 0 < A).
  { destruct (Rle_lt_or_eq_dec _ _ HA0) as [|HA]; auto. exfalso. apply Hv. apply HN; auto. intros j Hj. fold (w j).
    assert (w j * w j = 0); [|nra]. apply (Sum_nonneg_0 n (fun k => w k * w k)); auto. intros; apply Rle_0_sqr. }
  pose proof (cauchy_schwarz n w z) as HCS. fold A zz C in HCS.
  assert (HQ : C * C / zz <= A).
  { apply (Rmult_le_reg_r zz); auto. unfold Rdiv. rewrite Rmult_assoc, Rinv_l by lra. lra. }
  assert (HQ0 : 0 <= C * C / zz) by (apply Rmult_le_pos; [apply Rle_0_sqr|left; now apply Rinv_0_lt_compat]).
  replace (t / zz * (C * C)) with (t * (C * C / zz)) by (unfold Rdiv; ring).
  set (q := C * C / zz) in *. clearbody q. destruct (Rle_lt_dec 0 t).
  - assert (0 <= t * q) by now apply Rmult_le_pos. lra.
  - assert (0 <= (- t) * (A - q)) by (apply Rmult_le_pos; lra). nra.
Qed.

Lemma ram_t_ok isimu e tg a : (0 < isimu)%nat -> 0 <= e -> 0 <= tg < 1 -> 0 <= a -> -1 < ram_t isimu e tg a.
Proof.
  intros Hi He Ht Ha. unfold ram_t.
  assert (H1 : 1 <= INR isimu) by (replace 1 with (INR 1) by reflexivity; apply le_INR; lia).
  assert (HP : 1 <= Rpower (INR isimu) e).
  { unfold Rpower. rewrite <- exp_0. assert (0 <= ln (INR isimu)).
    { rewrite <- ln_1. destruct (Rle_lt_or_eq_dec _ _ H1) as [Hl| <-]; [left; apply ln_increasing; lra|lra]. }
    assert (0 <= e * ln (INR isimu)) by nra.
    destruct (Rle_lt_or_eq_dec _ _ H0) as [Hl| <-]; [left; now apply exp_increasing|lra]. }
  assert (HI : 0 < / Rpower (INR isimu) e <= 1).
  { split; [apply Rinv_0_lt_compat; lra|]. rewrite <- Rinv_1. apply Rinv_le_contravar; lra. }
  assert (0 <= Rmin 1 a) by (apply Rmin_glb; lra). nra.
Qed.

(** The Metropolis step stores the logarithm of the posterior ratio; the update then may fail to be a covariance. *)
Lemma ram_refuted : exists (E : env XR) V P old s acc new outb z s1 alpha C,
  run_metropolis_step E V (finm (table 1 1 P)) old s = Ok (acc, new, outb, z, s1) /\
  p_alpha new = Some alpha /\ nonsingular 1 P /\
  update_cov_via_ram z 1 (Fin (7 / 10)) 1 (Fin (234 / 1000)) alpha (finm (table 1 1 P)) = finm (table 1 1 C) /\
  ~ psd 1 C.
Proof.
  destruct (real_run (1 / 200) ltac:(lra)) as (acc & new & s1 & H1 & _ & _ & _ & _ & H2).
  exists real_env, real_view, (fun _ _ => 1), (real_set_s (1 / 200) 0), real_io, acc, new, false, [Fin 1], s1.
  eexists. eexists. split; [exact H1|]. split; [exact H2|]. split.
  - intros v Hv k Hk. assert (k = O) as -> by lia. specialize (Hv O ltac:(lia)). unfold applied in Hv. simpl in Hv. lra.
  - change [Fin 1] with (fin (vtab 1 (fun _ => 1))). rewrite ram_spec; [|lia|lia|simpl; lra]. split; [reflexivity|].
    intros HP. specialize (HP (fun _ => 1)). unfold quad, ram_cov, gram, ram_t in HP. simpl in HP.
    unfold Rpower in HP. rewrite ln_1, Rmult_0_r, exp_0, Rinv_1 in HP.
    rewrite (Rmin_right 1 _) in HP by lra. lra.
Qed.
