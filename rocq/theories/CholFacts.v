(** Rank-one Cholesky update (C18). *)

From Coq Require Import ZArith QArith Bool Lia List Reals Lra.
From Verif Require Import Base Num Samplers Adapt RVec RMat StatSpec.
Import ListNotations.
Close Scope Q_scope.
Open Scope list_scope.
Open Scope R_scope.

Lemma Sum_upd n k f g : (k < n)%nat ->
  Sum n (fun r => if (r =? k)%nat then g else f r) = Sum n f - f k + g.
Proof.
  induction n as [|n IH]; intros Hk; [lia|]. cbn [Sum]. destruct (Nat.eqb_spec n k) as [->|Hn].
  - rewrite (Sum_ext k _ f); [lra|]. intros j Hj. destruct (Nat.eqb_spec j k); [lia|auto].
  - rewrite IH by lia. lra.
Qed.

Lemma nth_set_nth {A} k (v d : A) l i : (k < length l)%nat -> nth i (set_nth k v l) d = if (i =? k)%nat then v else nth i l d.
Proof.
  revert k i; induction l as [|a l IH]; intros k i H; simpl in H; [lia|].
  destruct k as [|k], i as [|i]; simpl; auto. apply IH. lia.
Qed.
Lemma len_set_nth {A} k (v : A) l : length (set_nth k v l) = length l.
Proof. revert k; induction l as [|a l IH]; intros [|k]; simpl; auto. Qed.

Lemma set_nth_table n m k P v : (k < n)%nat ->
  set_nth k (fin (vtab m v)) (finm (table n m P)) = finm (table n m (fun i j => if (i =? k)%nat then v j else P i j)).
Proof.
  intros Hk. apply (list_ext []).
  - rewrite len_set_nth, !finm_length, !table_length. reflexivity.
  - intros i Hi. rewrite len_set_nth, finm_length, table_length in Hi.
    rewrite nth_set_nth by (rewrite finm_length, table_length; auto).
    unfold finm. change (@nil XR) with (fin []). rewrite !map_nth, !nth_table by auto.
    destruct (i =? k)%nat; f_equal; apply vtab_ext; auto.
Qed.

Section Step.
Variables (P : nat -> nat -> R) (x : nat -> R) (k : nat).
Let r := sqrt (P k k * P k k + x k * x k).
Let c := r * / P k k.
Let s := x k * / P k k.
Definition cu_row (j : nat) : R :=
  if (j <? k)%nat then P k j else if (j =? k)%nat then r else (P k j + s * x j) * / c.
Definition cu_P (i j : nat) : R := if (i =? k)%nat then cu_row j else P i j.
Definition cu_x (j : nat) : R := if (j <=? k)%nat then x j else c * x j - s * cu_row j.

Lemma cu_r : P k k <> 0 -> 0 < r.
Proof. intros H. apply sqrt_lt_R0. nra. Qed.
Lemma cu_r2 : r * r = P k k * P k k + x k * x k.
Proof. apply sqrt_sqrt. nra. Qed.
Lemma cu_c : P k k <> 0 -> c <> 0.
Proof. intros H. pose proof (cu_r H). unfold c. apply Rmult_integral_contrapositive_currified; [lra|now apply Rinv_neq_0_compat]. Qed.

Lemma cu_step n : (k < n)%nat -> P k k <> 0 ->
  cholupdate_row n (finm (table n n P), fin (vtab n x)) k = (finm (table n n cu_P), fin (vtab n cu_x)).
Proof.
  intros Hk HP. pose proof (cu_r HP) as Hr. pose proof (cu_c HP) as Hc.
  unfold cholupdate_row.
  assert (E1 : nth k (finm (table n n P)) [] = fin (vtab n (P k))).
  { unfold finm. change (@nil XR) with (fin []). rewrite map_nth, nth_table by auto. reflexivity. }
  rewrite !E1, XR_n0.
  assert (EV : forall f j, (j < n)%nat -> nth j (fin (vtab n f)) (Fin 0) = Fin (f j)).
  { intros f j Hj. now rewrite nth_fin, nth_vtab. }
  rewrite !(EV _ k Hk). rewrite (XR_ninv _ HP).
  assert (ER : nsqrt (nadd (nsqr (Fin (P k k))) (nsqr (Fin (x k)))) = Fin r).
  { transitivity (@nsqrt XR _ (Fin (P k k * P k k + x k * x k))); [reflexivity|]. apply XR_nsqrt. nra. }
  rewrite !ER.
  assert (EC : @nmul XR _ (Fin r) (Fin (/ P k k)) = Fin c) by reflexivity. rewrite !EC.
  assert (ES : @nmul XR _ (Fin (x k)) (Fin (/ P k k)) = Fin s) by reflexivity. rewrite !ES.
  rewrite (XR_ninv _ Hc).
  assert (EW : map (fun j : nat => if (j <? k)%nat then nth j (fin (vtab n (P k))) (Fin 0) else
      if (j =? k)%nat then Fin r else nmul (nadd (nth j (fin (vtab n (P k))) (Fin 0)) (nmul (Fin s) (nth j (fin (vtab n x)) (Fin 0)))) (Fin (/ c)))
      (range n) = fin (vtab n cu_row)).
  { rewrite (fin_vtab n cu_row). apply map_ext_in. intros j Hj. unfold range in Hj. apply in_seq in Hj.
    rewrite !EV by lia. unfold cu_row. destruct (j <? k)%nat; auto. destruct (j =? k)%nat; auto. }
  rewrite !EW. f_equal.
  - rewrite set_nth_table by auto. reflexivity.
  - rewrite (fin_vtab n cu_x). apply map_ext_in. intros j Hj. unfold range in Hj. apply in_seq in Hj.
    rewrite !EV by lia. unfold cu_x. destruct (j <=? k)%nat; reflexivity.
Qed.

(** Two rows are rotated into each other. *)
Lemma cu_rotate i j : P k k <> 0 -> (k < i)%nat -> (k < j)%nat ->
  cu_row i * cu_row j + cu_x i * cu_x j = P k i * P k j + x i * x j.
Proof.
  intros HP Hi Hj. pose proof (cu_c HP) as Hc. pose proof (cu_r HP) as Hr.
  assert (HC2 : c * c = 1 + s * s).
  { unfold c, s. transitivity ((r * r) * / P k k * / P k k); [ring|]. rewrite cu_r2. field. auto. }
  unfold cu_x, cu_row.
  destruct (Nat.ltb_spec i k); [lia|]. destruct (Nat.eqb_spec i k); [lia|]. destruct (Nat.leb_spec i k); [lia|].
  destruct (Nat.ltb_spec j k); [lia|]. destruct (Nat.eqb_spec j k); [lia|]. destruct (Nat.leb_spec j k); [lia|].
  assert (HX : forall a y, c * y - s * ((a + s * y) * / c) = (y - s * a) * / c).
  { intros a y. apply (Rmult_eq_reg_r c); auto. transitivity ((c * c) * y - s * (a + s * y) * (/ c * c)); [ring|].
    rewrite HC2. replace ((y - s * a) * / c * c) with ((y - s * a) * (/ c * c)) by ring. rewrite Rinv_l by auto. ring. }
  rewrite !HX.
  transitivity ((c * c) * (/ c * / c) * (P k i * P k j + x i * x j)); [rewrite HC2; ring|].
  field. auto.
Qed.
Lemma cu_diag j : P k k <> 0 -> (k < j)%nat -> cu_row k * cu_row j = P k k * P k j + x k * x j.
Proof.
  intros HP Hj. pose proof (cu_c HP) as Hc. pose proof (cu_r HP) as Hr. unfold cu_row.
  destruct (Nat.ltb_spec k k); [lia|]. rewrite Nat.eqb_refl.
  destruct (Nat.ltb_spec j k); [lia|]. destruct (Nat.eqb_spec j k); [lia|].
  unfold s, c. field. split; [auto|]. lra.
Qed.
Lemma cu_corner : cu_row k * cu_row k = P k k * P k k + x k * x k.
Proof. unfold cu_row. destruct (Nat.ltb_spec k k); [lia|]. rewrite Nat.eqb_refl. apply cu_r2. Qed.
End Step.

(** Entries before [k] are done. *)
Definition rest (k : nat) (x : nat -> R) (i : nat) : R := if (i <? k)%nat then 0 else x i.

Definition cu_inv (n : nat) (R0 : nat -> nat -> R) (x0 : nat -> R) (k : nat) (P : nat -> nat -> R) (x : nat -> R) : Prop :=
  (forall i j, (k <= i)%nat -> P i j = R0 i j) /\
  upper_triangular n P /\
  (forall i, (i < k)%nat -> 0 < P i i) /\
  (forall i j, (i < n)%nat -> (j < n)%nat ->
     gram n P i j + rest k x i * rest k x j = gram n R0 i j + x0 i * x0 j).

Lemma cu_inv_step n R0 x0 k P x : (k < n)%nat -> R0 k k <> 0 -> cu_inv n R0 x0 k P x ->
  cu_inv n R0 x0 (S k) (cu_P P x k) (cu_x P x k).
Proof.
  intros Hk HR (I1 & I2 & I3 & I4). assert (HP : P k k <> 0) by (rewrite I1 by auto; auto).
  assert (Hz : forall j, (j < k)%nat -> cu_row P x k j = 0).
  { intros j Hj. unfold cu_row. destruct (Nat.ltb_spec j k); [|lia]. apply I2; auto. }
  repeat apply conj.
  - intros i j Hi. unfold cu_P. destruct (Nat.eqb_spec i k); [lia|]. apply I1. lia.
  - intros i j Hi Hj. unfold cu_P. destruct (Nat.eqb_spec i k) as [->|]; auto.
  - intros i Hi. unfold cu_P. destruct (Nat.eqb_spec i k) as [->|]; [|apply I3; lia].
    unfold cu_row. destruct (Nat.ltb_spec k k); [lia|]. rewrite Nat.eqb_refl. now apply cu_r.
  - intros i j Hi Hj. rewrite <- I4 by auto.
    assert (HG : gram n (cu_P P x k) i j = gram n P i j - P k i * P k j + cu_row P x k i * cu_row P x k j).
    { unfold gram. rewrite <- (Sum_upd n k (fun r => P r i * P r j)) by auto. apply Sum_ext. intros r Hr.
      unfold cu_P. destruct (r =? k)%nat; auto. }
    rewrite HG. clear HG.
    assert (HL : forall j, (j < k)%nat -> P k j = 0) by (intros; apply I2; auto).
    unfold rest.
    destruct (Nat.lt_trichotomy i k) as [Hik|[->|Hik]].
    + destruct (Nat.ltb_spec i (S k)); [|lia]. destruct (Nat.ltb_spec i k); [|lia]. rewrite Hz, HL by auto. lra.
    + destruct (Nat.ltb_spec k (S k)); [|lia]. destruct (Nat.ltb_spec k k); [lia|].
      destruct (Nat.lt_trichotomy j k) as [Hjk|[->|Hjk]].
      * destruct (Nat.ltb_spec j k); [|lia]. rewrite (Hz j), (HL j) by auto. lra.
      * destruct (Nat.ltb_spec k k); [lia|]. rewrite cu_corner. lra.
      * destruct (Nat.ltb_spec j k); [lia|]. rewrite cu_diag by auto. lra.
    + destruct (Nat.ltb_spec i (S k)); [lia|]. destruct (Nat.ltb_spec i k); [lia|].
      destruct (Nat.lt_trichotomy j k) as [Hjk|[->|Hjk]].
      * destruct (Nat.ltb_spec j (S k)); [|lia]. destruct (Nat.ltb_spec j k); [|lia]. rewrite (Hz j), (HL j) by auto. lra.
      * destruct (Nat.ltb_spec k (S k)); [|lia]. destruct (Nat.ltb_spec k k); [lia|].
        rewrite (Rmult_comm (cu_row P x k i)), cu_diag by auto. lra.
      * destruct (Nat.ltb_spec j (S k)); [lia|]. destruct (Nat.ltb_spec j k); [lia|].
        pose proof (cu_rotate P x k i j HP Hik Hjk). lra.
Qed.

Lemma cu_fold n R0 x0 : (forall i, (i < n)%nat -> R0 i i <> 0) -> forall m k P x, (k + m = n)%nat ->
  cu_inv n R0 x0 k P x -> exists P' x',
  fold_left (cholupdate_row n) (seq k m) (finm (table n n P), fin (vtab n x)) = (finm (table n n P'), fin (vtab n x')) /\
  cu_inv n R0 x0 n P' x'.
Proof.
  intros HD. induction m as [|m IH]; intros k P x Hk HI.
  - exists P, x. split; auto. now replace k with n in HI by lia.
  - cbn [seq fold_left]. assert (HP : P k k <> 0) by (destruct HI as [I1 _]; rewrite I1 by auto; apply HD; lia).
    rewrite cu_step by (auto; lia). apply IH; [lia|]. apply cu_inv_step; auto; [lia|apply HD; lia].
Qed.

Lemma cholupdate_spec n R0 x0 : upper_triangular n R0 -> (forall i, (i < n)%nat -> R0 i i <> 0) ->
  exists R1, cholupdate (finm (table n n R0)) (fin (vtab n x0)) = finm (table n n R1) /\
    upper_triangular n R1 /\ (forall i, (i < n)%nat -> 0 < R1 i i) /\
    (forall i j, (i < n)%nat -> (j < n)%nat -> gram n R1 i j = gram n R0 i j + x0 i * x0 j).
Proof.
  intros HU HD. unfold cholupdate. rewrite fin_length, vtab_length. unfold range.
  destruct (cu_fold n R0 x0 HD n 0 R0 x0) as (P' & x' & H1 & I1 & I2 & I3 & I4); [lia| |].
  - repeat apply conj; auto. intros; lia.
  - exists P'. split; [apply (f_equal fst) in H1; exact H1|]. split; auto. split; auto. intros i j Hi Hj. rewrite <- I4 by auto.
    unfold rest. destruct (Nat.ltb_spec i n); [|lia]. lra.
Qed.
