(** Numbers multiplied by a positive constant, or with a constant added. *)

From Coq Require Import ZArith QArith Bool Lia List Reals Lra Qreals.
From Verif Require Import Base Num.
Import ListNotations.
Close Scope Q_scope.
Close Scope R_scope.
Open Scope nat_scope.

(** Infinities and NaN stay what they are. *)
Definition sc (k : R) (x : XR) : XR := match x with Fin a => Fin (k * a)%R | y => y end.
Definition sh (b : R) (x : XR) : XR := match x with Fin a => Fin (a + b)%R | y => y end.

Section Laws.
Variable k : R.
Hypothesis Hk : (0 < k)%R.

Lemma ltb_scale a b : Rltb (k * a) (k * b) = Rltb a b.
Proof. unfold Rltb. destruct (Rlt_dec (k * a) (k * b)), (Rlt_dec a b); try reflexivity; exfalso; nra. Qed.
Lemma ltb_scale0 a : Rltb (k * a) 0 = Rltb a 0.
Proof. rewrite <- (Rmult_0_r k) at 1. apply ltb_scale. Qed.
Lemma ltb_0scale a : Rltb 0 (k * a) = Rltb 0 a.
Proof. rewrite <- (Rmult_0_r k) at 1. apply ltb_scale. Qed.
Lemma eqb_scale0 a : Reqb (k * a) 0 = Reqb a 0.
Proof. unfold Reqb. destruct (Req_EM_T (k * a) 0), (Req_EM_T a 0); try reflexivity; exfalso; nra. Qed.
Lemma Q2R0 : Q2R 0 = 0%R.
Proof. unfold Q2R. cbn. lra. Qed.
Lemma Q2R1 : Q2R 1 = 1%R.
Proof. unfold Q2R. cbn. lra. Qed.
Lemma a0_0 : @a0 R _ = 0%R.
Proof. apply Q2R0. Qed.

Lemma sgn_scale a : xsgninf (k * a)%R = xsgninf a.
Proof. unfold xsgninf. cbn [alt Arith_R]. rewrite a0_0, ltb_scale0, ltb_0scale. reflexivity. Qed.
Lemma sgn_sc a : sc k (xsgninf a) = xsgninf a.
Proof. unfold xsgninf. destruct (alt a0 a); [reflexivity|]. destruct (alt a a0); reflexivity. Qed.
Lemma neg_sgn_sc a : sc k (xneg (xsgninf a)) = xneg (xsgninf a).
Proof. unfold xsgninf. destruct (alt a0 a); [reflexivity|]. destruct (alt a a0); reflexivity. Qed.

Lemma sc_0 : sc k n0 = n0.
Proof. unfold n0. cbn [nQ Num_X sc aQ Arith_R]. rewrite Q2R0. f_equal. lra. Qed.
Lemma sc_add x y : nadd (sc k x) (sc k y) = sc k (nadd x y).
Proof. destruct x, y; cbn [nadd Num_X xadd sc aadd Arith_R]; try reflexivity. f_equal. ring. Qed.
Lemma sc_mul_r x y : nmul x (sc k y) = sc k (nmul x y).
Proof.
  destruct x as [a| | |], y as [c| | |]; cbn [nmul Num_X xmul sc amul Arith_R]; try reflexivity.
  - f_equal. ring.
  - now rewrite sgn_sc.
  - now rewrite neg_sgn_sc.
  - now rewrite sgn_scale, sgn_sc.
  - now rewrite sgn_scale, neg_sgn_sc.
Qed.
Lemma sc_mul_l x y : nmul (sc k x) y = sc k (nmul x y).
Proof.
  destruct x as [a| | |], y as [c| | |]; cbn [nmul Num_X xmul sc amul Arith_R]; try reflexivity.
  - f_equal. ring.
  - now rewrite sgn_scale, sgn_sc.
  - now rewrite sgn_scale, neg_sgn_sc.
  - now rewrite sgn_sc.
  - now rewrite neg_sgn_sc.
Qed.
Lemma sc_div x y : ndiv (sc k x) (sc k y) = ndiv x y.
Proof.
  destruct x as [a| | |], y as [c| | |]; cbn [ndiv Num_X xdiv sc adiv aeq alt Arith_R]; try reflexivity.
  - rewrite a0_0, eqb_scale0. destruct (Reqb c 0) eqn:E; [now rewrite sgn_scale|]. f_equal.
    assert (c <> 0%R) by (unfold Reqb in E; destruct (Req_EM_T c 0); [discriminate|assumption]). field. split; [assumption|lra].
  - now rewrite a0_0, ltb_scale0.
  - now rewrite a0_0, ltb_scale0.
Qed.
Lemma sc_sum_acc v : forall x, fold_left nadd (map (sc k) v) (sc k x) = sc k (fold_left nadd v x).
Proof. induction v as [|y v IH]; intros x; cbn [map fold_left]; [reflexivity|]. now rewrite sc_add, IH. Qed.
End Laws.

Lemma sc_inv k x : (0 < k)%R -> ninv (sc k x) = sc (/ k) (ninv x).
Proof.
  intros Hk. assert (Hi : (0 < / k)%R) by now apply Rinv_0_lt_compat.
  unfold ninv. destruct x as [a| | |]; unfold n1; cbn [ndiv nQ Num_X xdiv sc adiv aeq aQ Arith_R]; try reflexivity.
  - rewrite a0_0, eqb_scale0 by exact Hk. destruct (Reqb a 0) eqn:E; [symmetry; now apply sgn_sc|]. cbn [sc]. f_equal.
    assert (a <> 0%R) by (unfold Reqb in E; destruct (Req_EM_T a 0); [discriminate|assumption]). field. split; [assumption|lra].
  - f_equal. rewrite a0_0. ring.
  - f_equal. rewrite a0_0. ring.
Qed.
Lemma sc_inv_back k x : (0 < k)%R -> ninv (sc (/ k) x) = sc k (ninv x).
Proof. intros Hk. rewrite sc_inv by now apply Rinv_0_lt_compat. now rewrite Rinv_inv. Qed.

(** Sums that are not finite swallow finite terms. *)
Definition unbounded (x : XR) : Prop := match x with Fin _ => False | _ => True end.
Lemma mhalf_val : Q2R (-1 # 2) = (-1 / 2)%R.
Proof. unfold Q2R. cbn. lra. Qed.
Lemma mhalf_sgn : xsgninf (-1 / 2)%R = NInf.
Proof. unfold xsgninf. cbn [alt Arith_R]. rewrite a0_0. unfold Rltb. destruct (Rlt_dec 0 (-1 / 2)), (Rlt_dec (-1 / 2) 0); try lra. reflexivity. Qed.
Lemma half_shift b x : nmul (nQ (-1 # 2)) (sh b x) = sh (-1 / 2 * b) (nmul (nQ (-1 # 2)) x).
Proof.
  destruct x as [a| | |]; cbn [nmul nQ Num_X xmul sh amul aQ Arith_R]; rewrite ?mhalf_val, ?mhalf_sgn; try reflexivity. cbn [sh]. f_equal. ring.
Qed.
Lemma add_shift c x y : nadd x (sh c y) = sh c (nadd x y).
Proof. destruct x, y; cbn [nadd Num_X xadd sh aadd Arith_R]; try reflexivity. f_equal. ring. Qed.
Lemma sub_shift c x y : nsub (sh c x) (sh c y) = nsub x y.
Proof. destruct x, y; cbn [nsub Num_X xsub sh asub Arith_R xadd xneg]; try reflexivity. f_equal. ring. Qed.
Lemma add_unbounded x y : unbounded x -> unbounded (nadd x y).
Proof. destruct x, y; cbn; auto. Qed.
Lemma unbounded_shift c x : unbounded x -> sh c x = x.
Proof. destruct x; cbn; tauto. Qed.
Lemma inf_div x : unbounded (ndiv PInf x).
Proof. destruct x as [a| | |]; cbn [ndiv Num_X xdiv]; try exact I. destruct (alt a a0); exact I. Qed.
Lemma half_unbounded x : unbounded x -> unbounded (nmul (nQ (-1 # 2)) x).
Proof. destruct x as [a| | |]; cbn [nmul nQ Num_X xmul amul aQ Arith_R unbounded]; rewrite ?mhalf_val, ?mhalf_sgn; cbn; tauto. Qed.
Lemma add_unbounded_r x y : unbounded y -> unbounded (nadd x y).
Proof. destruct x, y; cbn; auto. Qed.
Lemma sum_unbounded_acc v : forall x, unbounded x -> unbounded (fold_left nadd v x).
Proof. induction v as [|y v IH]; intros x H; cbn [fold_left]; [exact H|]. apply IH, add_unbounded, H. Qed.
Lemma sum_unbounded v : Forall unbounded v -> v <> [] -> unbounded (vsum v).
Proof.
  intros H N. destruct v as [|x v]; [congruence|]. inversion H; subst. unfold vsum. cbn [fold_left]. apply sum_unbounded_acc.
  now apply add_unbounded_r.
Qed.
