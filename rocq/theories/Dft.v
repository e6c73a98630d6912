(** The discrete Fourier transform of a real sequence and its power spectrum.  Plain mathematics. *)

From Coq Require Import ZArith Lia List Reals Lra Arith.
From Verif Require Import RVec.
Import ListNotations.
Open Scope R_scope.

(** Real and imaginary part of the transform of [x 0 .. x (n-1)] (what scipy.fftpack.fft computes for
    chain/ChainStatistics.py 319, 348). *)
Definition dft_re (n : nat) (x : nat -> R) (k : nat) : R := Sum n (fun t => x t * cos (2 * PI * INR k * INR t / INR n)).
Definition dft_im (n : nat) (x : nat -> R) (k : nat) : R := Sum n (fun t => x t * - sin (2 * PI * INR k * INR t / INR n)).

Lemma cos_sin_2PI_Z z : cos (2 * PI * IZR z) = 1 /\ sin (2 * PI * IZR z) = 0.
Proof.
  assert (P : forall k, cos (2 * PI * INR k) = 1 /\ sin (2 * PI * INR k) = 0).
  { intros k. replace (2 * PI * INR k) with (0 + 2 * INR k * PI) by ring. rewrite cos_period, sin_period. split; [apply cos_0|apply sin_0]. }
  destruct (Z_le_gt_dec 0 z) as [H|H].
  - rewrite <- (Z2Nat.id z H), <- INR_IZR_INZ. apply P.
  - assert (E : IZR z = - INR (Z.to_nat (- z))) by (rewrite INR_IZR_INZ, Z2Nat.id, opp_IZR by lia; ring).
    rewrite E. replace (2 * PI * - INR (Z.to_nat (- z))) with (- (2 * PI * INR (Z.to_nat (- z)))) by ring.
    rewrite cos_neg, sin_neg. destruct (P (Z.to_nat (- z))) as (-> & ->). split; ring.
Qed.

Lemma cos_telescope th n : 2 * sin (th / 2) * Sum n (fun k => cos (INR k * th)) = sin ((INR n - / 2) * th) + sin (th / 2).
Proof.
  induction n as [|n IH]; cbn [Sum].
  - rewrite Rmult_0_r. cbn [INR]. replace ((0 - / 2) * th) with (- (th / 2)) by field. rewrite sin_neg. ring.
  - rewrite Rmult_plus_distr_l, IH, S_INR.
    replace ((INR n + 1 - / 2) * th) with (INR n * th + th / 2) by field. replace ((INR n - / 2) * th) with (INR n * th - th / 2) by field.
    rewrite sin_plus, sin_minus. ring.
Qed.

(** The cosines at all multiples of a frequency add up to 0, unless the frequency is a whole one. *)
Definition multiple (n : nat) (m : Z) : bool := (m mod Z.of_nat n =? 0)%Z.
Lemma cos_sum n m : (0 < n)%nat -> Sum n (fun k => cos (2 * PI * INR k * IZR m / INR n)) = if multiple n m then INR n else 0.
Proof.
  intros N. assert (NZ : INR n <> 0) by (apply not_0_INR; lia). set (th := 2 * PI * IZR m / INR n).
  rewrite (Sum_ext n _ (fun k => cos (INR k * th))) by (intros k _; f_equal; unfold th; field; auto).
  unfold multiple. destruct (Z.eqb_spec (m mod Z.of_nat n) 0) as [H|H].
  - rewrite (Sum_ext n _ (fun _ => 1)), Sum_const; [ring|]. intros k _.
    assert (E : INR k * th = 2 * PI * IZR (m / Z.of_nat n * Z.of_nat k)).
    { assert (D : IZR m = IZR (Z.of_nat n * (m / Z.of_nat n))) by (f_equal; rewrite (Z.div_mod m (Z.of_nat n)) at 1 by lia; lia).
      unfold th. rewrite D, !mult_IZR, <- !INR_IZR_INZ. field. auto. }
    rewrite E. apply cos_sin_2PI_Z.
  - pose proof (cos_telescope th n) as T. assert (E : (INR n - / 2) * th = 2 * PI * IZR m - th / 2) by (unfold th; field; auto).
    rewrite E, sin_minus in T. destruct (cos_sin_2PI_Z m) as (C & S). rewrite C, S in T.
    destruct (Req_dec (sin (th / 2)) 0) as [Z|Z].
    + exfalso. apply sin_eq_0_0 in Z. destruct Z as (q & Q). apply H.
      assert (M : IZR m = IZR (q * Z.of_nat n)).
      { rewrite mult_IZR, <- INR_IZR_INZ. unfold th in Q. pose proof PI_RGT_0. apply (Rmult_eq_reg_l (PI / INR n)).
        - transitivity (2 * PI * IZR m / INR n / 2); [field; auto|]. rewrite Q. field. auto.
        - apply Rgt_not_eq. apply Rdiv_lt_0_compat; auto. apply lt_0_INR; lia. }
      apply eq_IZR in M. rewrite M. apply Z.mod_mul. lia.
    + apply (Rmult_eq_reg_l (2 * sin (th / 2))); [|apply Rmult_integral_contrapositive_currified; [lra|auto]]. rewrite T. ring.
Qed.

Lemma Sum_mult n m f g : Sum n f * Sum m g = Sum n (fun s => Sum m (fun t => f s * g t)).
Proof. rewrite <- Sum_scal_r. apply Sum_ext. intros k _. now rewrite <- Sum_scal. Qed.

Definition power (n : nat) (x : nat -> R) (k : nat) : R := dft_re n x k * dft_re n x k + dft_im n x k * dft_im n x k.
Lemma power_sum n x k : power n x k = Sum n (fun s => Sum n (fun t => x s * x t * cos (2 * PI * INR k * (INR s - INR t) / INR n))).
Proof.
  unfold power, dft_re, dft_im. rewrite !Sum_mult, <- Sum_plus. apply Sum_ext. intros s _. rewrite <- Sum_plus. apply Sum_ext. intros t _.
  replace (2 * PI * INR k * (INR s - INR t) / INR n) with (2 * PI * INR k * INR s / INR n - 2 * PI * INR k * INR t / INR n) by (unfold Rdiv; ring).
  rewrite cos_minus. ring.
Qed.

Lemma cos_prod a b : cos a * cos b = / 2 * (cos (a + b) + cos (a - b)).
Proof. rewrite cos_plus, cos_minus. field. Qed.

Lemma multiple_pos n s t j : (s < n)%nat -> (t < n)%nat -> (j < n)%nat ->
  multiple n (Z.of_nat s - Z.of_nat t - Z.of_nat j) = (s =? (t + j) mod n)%nat.
Proof.
  intros S T J. unfold multiple. apply Bool.eq_true_iff_eq. rewrite Z.eqb_eq, Nat.eqb_eq.
  rewrite <- Nat2Z.inj_iff, Nat2Z.inj_mod, Nat2Z.inj_add. set (N := Z.of_nat n). assert (N0 : (N <> 0)%Z) by (unfold N; lia). split; intros H.
  - apply Z.mod_divide in H; auto. destruct H as (q & Q). replace (Z.of_nat t + Z.of_nat j)%Z with (Z.of_nat s + (- q) * N)%Z by lia.
    rewrite Z.mod_add, Z.mod_small by (unfold N; lia). reflexivity.
  - pose proof (Z.div_mod (Z.of_nat t + Z.of_nat j) N N0) as D. apply Z.mod_divide; auto.
    exists (- ((Z.of_nat t + Z.of_nat j) / N))%Z. lia.
Qed.

(** The power spectrum transformed again: circular products (Wiener-Khinchin). *)
Theorem power_transform n x j : (j < n)%nat ->
  dft_re n (power n x) j = INR n * Sum n (fun t => x t * x ((t + j) mod n)%nat).
Proof.
  intros J. assert (NZ : INR n <> 0) by (apply not_0_INR; lia).
  set (g := fun s t => x s * x t * (if multiple n (Z.of_nat s - Z.of_nat t - Z.of_nat j) then INR n else 0)).
  assert (G : forall t, (t < n)%nat -> Sum n (fun s => g s t) = INR n * (x t * x ((t + j) mod n)%nat)).
  { intros t T. rewrite (Sum_single n ((t + j) mod n)).
    - unfold g. rewrite multiple_pos by (auto; apply Nat.mod_upper_bound; lia). rewrite Nat.eqb_refl. ring.
    - apply Nat.mod_upper_bound; lia.
    - intros s S D. unfold g. rewrite multiple_pos by auto. apply Nat.eqb_neq in D. rewrite D. ring. }
  assert (E : dft_re n (power n x) j = / 2 * (Sum n (fun s => Sum n (fun t => g t s)) + Sum n (fun s => Sum n (fun t => g s t)))).
  { unfold dft_re. rewrite (Sum_ext n _ (fun k => Sum n (fun s => Sum n (fun t => / 2 * (x s * x t * cos (2 * PI * INR k * IZR (Z.of_nat t - Z.of_nat s - Z.of_nat j) / INR n)) +
        / 2 * (x s * x t * cos (2 * PI * INR k * IZR (Z.of_nat s - Z.of_nat t - Z.of_nat j) / INR n)))))).
    - rewrite Sum_swap, <- Sum_plus, <- Sum_scal. apply Sum_ext. intros s _. rewrite Sum_swap, <- Sum_plus, <- Sum_scal. apply Sum_ext. intros t _.
      rewrite Sum_plus, !Sum_scal, !cos_sum by lia. unfold g. ring.
    - intros k _. rewrite power_sum, <- Sum_scal_r. apply Sum_ext. intros s _. rewrite <- Sum_scal_r. apply Sum_ext. intros t _.
      rewrite !minus_IZR, <- !INR_IZR_INZ. rewrite Rmult_assoc, cos_prod.
      replace (2 * PI * INR k * (INR s - INR t) / INR n + 2 * PI * INR j * INR k / INR n) with (- (2 * PI * INR k * (INR t - INR s - INR j) / INR n)) by (unfold Rdiv; ring).
      replace (2 * PI * INR k * (INR s - INR t) / INR n - 2 * PI * INR j * INR k / INR n) with (2 * PI * INR k * (INR s - INR t - INR j) / INR n) by (unfold Rdiv; ring).
      rewrite cos_neg. ring. }
  rewrite E. rewrite (Sum_swap n n (fun s t => g s t)). rewrite (Sum_ext n (fun s => Sum n (fun t => g t s)) (fun t => INR n * (x t * x ((t + j) mod n)%nat))) by (intros; now apply G).
  rewrite Sum_scal. field.
Qed.

Lemma Sum_rotate n f j : (j < n)%nat -> Sum n (fun t => f ((t + j) mod n)%nat) = Sum n f.
Proof.
  intros J. replace n with ((n - j) + j)%nat at 1 by lia. rewrite Sum_split.
  rewrite (Sum_ext (n - j) _ (fun k => f (j + k)%nat)) by (intros k K; f_equal; rewrite Nat.mod_small; lia).
  rewrite (Sum_ext j _ f).
  - replace n with (j + (n - j))%nat at 2 by lia. rewrite Sum_split. apply Rplus_comm.
  - intros k K. f_equal. replace (n - j + k + j)%nat with (k + 1 * n)%nat by lia. rewrite Nat.mod_add, Nat.mod_small; lia.
Qed.

(** Without the entry of frequency 0: circular products of the centred values. *)
Theorem power_transform_centred n x j : (j < n)%nat -> let mu := Sum n x / INR n in
  dft_re n (fun k => if (k =? 0)%nat then 0 else power n x k) j = INR n * Sum n (fun t => (x t - mu) * (x ((t + j) mod n)%nat - mu)).
Proof.
  intros J mu. assert (NZ : INR n <> 0) by (apply not_0_INR; lia).
  assert (E : dft_re n (fun k => if (k =? 0)%nat then 0 else power n x k) j = dft_re n (power n x) j - Sum n x * Sum n x).
  { unfold dft_re. assert (Z : Sum n x * Sum n x = Sum n (fun k => if (k =? 0)%nat then power n x 0 else 0)).
    { rewrite (Sum_single n 0 (fun k => if (k =? 0)%nat then power n x 0 else 0)); [|lia|].
      - cbn [Nat.eqb]. rewrite power_sum, Sum_mult. apply Sum_ext. intros s _. apply Sum_ext. intros t _. cbn [INR].
        replace (2 * PI * 0 * (INR s - INR t) / INR n) with 0 by (unfold Rdiv; ring). rewrite cos_0. ring.
      - intros k K D. apply Nat.eqb_neq in D. now rewrite D. }
    rewrite Z, <- Sum_minus. apply Sum_ext. intros k K. destruct (Nat.eqb_spec k 0) as [->|D]; [|ring].
    cbn [INR]. replace (2 * PI * INR j * 0 / INR n) with 0 by (unfold Rdiv; ring). rewrite cos_0. ring. }
  rewrite E, power_transform by auto.
  rewrite (Sum_ext n (fun t => (x t - mu) * (x ((t + j) mod n)%nat - mu)) (fun t => (x t * x ((t + j) mod n)%nat - mu * x t) - (mu * x ((t + j) mod n)%nat - mu * mu))) by (intros; ring).
  rewrite !Sum_minus, !Sum_scal, Sum_rotate, Sum_const by auto. unfold mu. field. auto.
Qed.
