(** Real vectors and matrices, and their embedding into the extended numbers of the model.
    This is plain mathematics: no definition here models code. *)

From Coq Require Import ZArith QArith Bool Lia List Reals Lra Qreals.
From Verif Require Import Base Num.
Import ListNotations.
Close Scope Q_scope.
Open Scope list_scope.
Open Scope R_scope.

(** ** Finite sums *)

Fixpoint Sum (n : nat) (f : nat -> R) : R :=
  match n with O => 0 | S m => Sum m f + f m end.

Fixpoint Prod (n : nat) (f : nat -> R) : R :=
  match n with O => 1 | S m => Prod m f * f m end.

Definition Rsum (l : list R) : R := fold_right Rplus 0 l.
Definition Rdot (u v : list R) : R := Rsum (map2 Rmult u v).
(** column j; a missing entry reads as 0 *)
Definition Rcol (j : nat) (m : list (list R)) : list R := map (fun r => nth j r 0) m.
Definition Rcols (m : list (list R)) : nat := match m with [] => O | r :: _ => length r end.
Definition Rvm (z : list R) (m : list (list R)) : list R := map (fun j => Rdot z (Rcol j m)) (seq 0 (Rcols m)).
Definition Rsq (u : list R) : R := Rdot u u.
Definition Rvadd : list R -> list R -> list R := map2 Rplus.
Definition Rvsub : list R -> list R -> list R := map2 Rminus.
(** entry of a matrix *)
Definition ent (m : list (list R)) (i j : nat) : R := nth j (nth i m []) 0.
Definition shape (r c : nat) (m : list (list R)) : Prop :=
  length m = r /\ forall row, In row m -> length row = c.

Lemma Sum_ext n f g : (forall k, (k < n)%nat -> f k = g k) -> Sum n f = Sum n g.
Proof.
  induction n as [|n IH]; simpl; intros H; auto.
  rewrite (H n) by lia. rewrite IH; auto.
Qed.
Lemma Prod_ext n f g : (forall k, (k < n)%nat -> f k = g k) -> Prod n f = Prod n g.
Proof.
  induction n as [|n IH]; simpl; intros H; auto.
  rewrite (H n) by lia. rewrite IH; auto.
Qed.
Lemma Sum_plus n f g : Sum n (fun k => f k + g k) = Sum n f + Sum n g.
Proof. induction n as [|n IH]; simpl; [lra|rewrite IH; lra]. Qed.
Lemma Sum_minus n f g : Sum n (fun k => f k - g k) = Sum n f - Sum n g.
Proof. induction n as [|n IH]; simpl; [lra|rewrite IH; lra]. Qed.
Lemma Sum_scal n c f : Sum n (fun k => c * f k) = c * Sum n f.
Proof. induction n as [|n IH]; simpl; [lra|rewrite IH; lra]. Qed.
Lemma Sum_scal_r n c f : Sum n (fun k => f k * c) = Sum n f * c.
Proof. induction n as [|n IH]; simpl; [lra|rewrite IH; lra]. Qed.
Lemma Sum_const n c : Sum n (fun _ => c) = INR n * c.
Proof. induction n as [|n IH]; [simpl; lra|]. cbn [Sum]. rewrite IH, S_INR. lra. Qed.
Lemma Sum_0 n f : (forall k, (k < n)%nat -> f k = 0) -> Sum n f = 0.
Proof. intros H. rewrite (Sum_ext n f (fun _ => 0)) by auto. rewrite Sum_const. lra. Qed.
Lemma Sum_nonneg n f : (forall k, (k < n)%nat -> 0 <= f k) -> 0 <= Sum n f.
Proof.
  induction n as [|n IH]; simpl; intros H; [lra|].
  specialize (IH ltac:(intros; apply H; lia)). specialize (H n ltac:(lia)). lra.
Qed.
Lemma Sum_le n f g : (forall k, (k < n)%nat -> f k <= g k) -> Sum n f <= Sum n g.
Proof.
  induction n as [|n IH]; simpl; intros H; [lra|].
  specialize (IH ltac:(intros; apply H; lia)). specialize (H n ltac:(lia)). lra.
Qed.
Lemma Sum_nonneg_0 n f : (forall k, (k < n)%nat -> 0 <= f k) -> Sum n f = 0 ->
  forall k, (k < n)%nat -> f k = 0.
Proof.
  induction n as [|n IH]; simpl; intros H H0 k Hk; [lia|].
  assert (0 <= Sum n f) by (apply Sum_nonneg; intros; apply H; lia).
  assert (0 <= f n) by (apply H; lia).
  destruct (Nat.eq_dec k n) as [->|Hn]; [lra|].
  apply IH; [intros; apply H; lia|lra|lia].
Qed.
Lemma Sum_split n m f : Sum (n + m) f = Sum n f + Sum m (fun k => f (n + k)%nat).
Proof.
  induction m as [|m IH]; [rewrite Nat.add_0_r; simpl; lra|].
  rewrite Nat.add_succ_r. cbn [Sum]. rewrite IH. lra.
Qed.
Lemma Sum_S_first n f : Sum (S n) f = f O + Sum n (fun k => f (S k)).
Proof. change (S n) with (1 + n)%nat. rewrite Sum_split. simpl. lra. Qed.
Lemma Sum_swap n m f : Sum n (fun i => Sum m (fun j => f i j)) = Sum m (fun j => Sum n (fun i => f i j)).
Proof.
  induction n as [|n IH]; simpl.
  - symmetry. apply Sum_0. auto.
  - rewrite IH, <- Sum_plus. reflexivity.
Qed.
Lemma Sum_single n i f : (i < n)%nat -> (forall k, (k < n)%nat -> k <> i -> f k = 0) -> Sum n f = f i.
Proof.
  induction n as [|n IH]; intros Hi H; [lia|]. cbn [Sum].
  destruct (Nat.eq_dec i n) as [->|Hn].
  - rewrite Sum_0; [lra|]. intros k Hk. apply H; lia.
  - rewrite IH by (auto; lia). rewrite (H n) by lia. lra.
Qed.
Lemma Sum_rev n f : Sum n f = Sum n (fun k => f (n - 1 - k)%nat).
Proof.
  induction n as [|n IH]; auto.
  rewrite Sum_S_first. rewrite Sum_S_first in IH || idtac.
  cbn [Sum]. replace (S n - 1 - n)%nat with O by lia.
  assert (Sum n (fun k => f (S k)) = Sum n (fun k => f (S n - 1 - k)%nat)).
  { clear IH. revert f. induction n as [|n IH]; intros f; auto.
    rewrite (Sum_S_first n (fun k => f (S (S n) - 1 - k)%nat)). cbn [Sum].
    rewrite (IH f). replace (S (S n) - 1 - 0)%nat with (S n) by lia.
    rewrite (Sum_ext n (fun k => f (S n - 1 - k)%nat) (fun k => f (S (S n) - 1 - S k)%nat)); [lra|].
    intros; f_equal; lia. }
  lra.
Qed.
Lemma Prod_mult n f g : Prod n (fun k => f k * g k) = Prod n f * Prod n g.
Proof. induction n as [|n IH]; simpl; [lra|rewrite IH; lra]. Qed.
Lemma Prod_pos n f : (forall k, (k < n)%nat -> 0 < f k) -> 0 < Prod n f.
Proof.
  induction n as [|n IH]; simpl; intros H; [lra|].
  apply Rmult_lt_0_compat; auto.
Qed.
Lemma Prod_nonneg n f : (forall k, (k < n)%nat -> 0 <= f k) -> 0 <= Prod n f.
Proof.
  induction n as [|n IH]; simpl; intros H; [lra|].
  apply Rmult_le_pos; auto.
Qed.
Lemma exp_Sum n f : exp (Sum n f) = Prod n (fun k => exp (f k)).
Proof. induction n as [|n IH]; simpl; [apply exp_0|]. rewrite exp_plus, IH. auto. Qed.

Lemma Rsum_app u v : Rsum (u ++ v) = Rsum u + Rsum v.
Proof. induction u as [|a u IH]; simpl; [lra|rewrite IH; lra]. Qed.
Lemma Rsum_Sum l : Rsum l = Sum (length l) (fun k => nth k l 0).
Proof.
  induction l as [|a l IH]; auto. cbn [length]. rewrite Sum_S_first. simpl. rewrite IH. reflexivity.
Qed.
Lemma Rsum_map_Sum {A} (d : A) (f : A -> R) l : Rsum (map f l) = Sum (length l) (fun k => f (nth k l d)).
Proof.
  induction l as [|a l IH]; auto. cbn [length]. rewrite Sum_S_first. simpl. rewrite IH. reflexivity.
Qed.
Lemma Rsum_nonneg l : (forall x, In x l -> 0 <= x) -> 0 <= Rsum l.
Proof.
  induction l as [|a l IH]; simpl; intros H; [lra|].
  specialize (IH ltac:(auto)). specialize (H a ltac:(auto)). lra.
Qed.
Lemma Rdot_Sum u v : length u = length v -> Rdot u v = Sum (length u) (fun k => nth k u 0 * nth k v 0).
Proof.
  unfold Rdot. revert v; induction u as [|a u IH]; intros [|b v] H; simpl in H; try lia; auto.
  cbn [length]. rewrite Sum_S_first. simpl. rewrite IH by lia. reflexivity.
Qed.
Lemma Rsq_nonneg u : 0 <= Rsq u.
Proof.
  unfold Rsq. rewrite Rdot_Sum by auto. apply Sum_nonneg. intros. nra.
Qed.
Lemma Rcol_length j m : length (Rcol j m) = length m.
Proof. apply map_length. Qed.
Lemma Rvm_length z m : length (Rvm z m) = Rcols m.
Proof. unfold Rvm. now rewrite map_length, seq_length. Qed.

Lemma nth_map2 {A B C} (f : A -> B -> C) u v k a b c :
  (k < length u)%nat -> (k < length v)%nat -> nth k (map2 f u v) c = f (nth k u a) (nth k v b).
Proof.
  revert v k; induction u as [|x u IH]; intros [|y v] k; simpl; intros; try lia.
  destruct k as [|k]; auto. apply IH; lia.
Qed.
Lemma nth_map_seq {A} (f : nat -> A) n k d : (k < n)%nat -> nth k (map f (seq 0 n)) d = f k.
Proof.
  intros H. rewrite (nth_indep _ d (f O)) by (now rewrite map_length, seq_length).
  rewrite map_nth. rewrite seq_nth; auto.
Qed.
Lemma nth_Rcol i j m : (i < length m)%nat -> nth i (Rcol j m) 0 = ent m i j.
Proof.
  intros H. unfold Rcol, ent.
  rewrite (nth_indep _ 0 (nth j [] 0)) by (now rewrite map_length).
  rewrite (map_nth (fun r => nth j r 0)). reflexivity.
Qed.
Lemma list_ext {A} (d : A) (u v : list A) :
  length u = length v -> (forall k, (k < length u)%nat -> nth k u d = nth k v d) -> u = v.
Proof.
  revert v; induction u as [|a u IH]; intros [|b v] HL H; simpl in *; try lia; auto.
  f_equal. - apply (H O). lia.
  - apply IH; [lia|]. intros k Hk. apply (H (S k)). lia.
Qed.
Lemma mat_ext n k A B : shape n k A -> shape n k B ->
  (forall i j, (i < n)%nat -> (j < k)%nat -> ent A i j = ent B i j) -> A = B.
Proof.
  intros [LA RA] [LB RB] H. apply (list_ext []); [lia|].
  intros i Hi. apply (list_ext 0).
  - rewrite RA, RB; auto; apply nth_In; lia.
  - intros j Hj. rewrite RA in Hj by (apply nth_In; lia). apply H; lia.
Qed.
Lemma shape_cols n k M : shape n k M -> (0 < n)%nat -> Rcols M = k.
Proof. intros [HL HR] Hn. destruct M as [|r M]; simpl in *; [lia|]. apply HR; auto. Qed.

(** ** The embedding [Fin] *)

Definition fin (l : list R) : list XR := map Fin l.
Definition finm (m : list (list R)) : list (list XR) := map fin m.

Lemma Q2R_1 : Q2R 1 = 1. Proof. unfold Q2R; simpl; lra. Qed.
Lemma Q2R_0 : Q2R 0 = 0. Proof. unfold Q2R; simpl; lra. Qed.
Lemma XR_n1 : @n1 XR _ = Fin 1. Proof. unfold n1. simpl. now rewrite Q2R_1. Qed.
Lemma XR_n0 : @n0 XR _ = Fin 0. Proof. unfold n0. simpl. now rewrite Q2R_0. Qed.
Lemma XR_a0 : @a0 R _ = 0. Proof. unfold a0. simpl. apply Q2R_0. Qed.

Lemma Reqb_true x y : Reqb x y = true <-> x = y.
Proof. unfold Reqb. destruct (Req_EM_T x y); split; intros; auto; congruence. Qed.
Lemma Rltb_true x y : Rltb x y = true <-> x < y.
Proof. unfold Rltb. destruct (Rlt_dec x y); split; intros; auto; congruence. Qed.
Lemma Rleb_true x y : Rleb x y = true <-> x <= y.
Proof. unfold Rleb. destruct (Rle_dec x y); split; intros; auto; congruence. Qed.
Lemma Reqb_false x y : Reqb x y = false <-> x <> y.
Proof. unfold Reqb. destruct (Req_EM_T x y); split; intros; auto; congruence. Qed.
Lemma Rltb_false x y : Rltb x y = false <-> y <= x.
Proof. unfold Rltb. destruct (Rlt_dec x y); split; intros; auto; try congruence; lra. Qed.
Lemma Rleb_false x y : Rleb x y = false <-> y < x.
Proof. unfold Rleb. destruct (Rle_dec x y); split; intros; auto; try congruence; lra. Qed.

Ltac xs := simpl; unfold xsgninf, a0 in *; simpl; rewrite ?Q2R_0, ?Q2R_1.

Lemma XR_ninv x : x <> 0 -> @ninv XR _ (Fin x) = Fin (/ x).
Proof.
  intros H. unfold ninv. rewrite XR_n1. xs. unfold Reqb.
  destruct (Req_EM_T x 0); [contradiction|]. f_equal. unfold Rdiv. lra.
Qed.
Lemma XR_ninv_0 : @ninv XR _ (Fin 0) = PInf.
Proof.
  unfold ninv. rewrite XR_n1. xs. unfold Reqb.
  destruct (Req_EM_T 0 0); [|contradiction].
  unfold Rltb. destruct (Rlt_dec 0 1); [auto|lra].
Qed.
Lemma XR_ndiv x y : y <> 0 -> @ndiv XR _ (Fin x) (Fin y) = Fin (x / y).
Proof.
  intros H. xs. unfold Reqb. destruct (Req_EM_T y 0); [contradiction|]. auto.
Qed.
Lemma XR_nsqrt x : 0 <= x -> @nsqrt XR _ (Fin x) = Fin (sqrt x).
Proof.
  intros H. xs. unfold Rltb. destruct (Rlt_dec x 0); [lra|]. auto.
Qed.
Lemma XR_nnat n : @nnat XR _ n = Fin (INR n).
Proof.
  unfold nnat. simpl. f_equal. unfold Q2R. simpl. rewrite Rinv_1, Rmult_1_r. symmetry. apply INR_IZR_INZ.
Qed.

Lemma fin_length l : length (fin l) = length l. Proof. apply map_length. Qed.
Lemma fin_inj u v : fin u = fin v -> u = v.
Proof.
  revert v; induction u as [|a u IH]; intros [|b v] H; inversion H; auto. f_equal; auto.
Qed.
Lemma nth_fin k l : nth k (fin l) (Fin 0) = Fin (nth k l 0).
Proof. unfold fin. apply map_nth. Qed.
Lemma map2_fin (f : XR -> XR -> XR) g u v :
  (forall a b, f (Fin a) (Fin b) = Fin (g a b)) -> map2 f (fin u) (fin v) = fin (map2 g u v).
Proof.
  intros H. revert v; induction u as [|a u IH]; intros [|b v]; simpl; auto. rewrite H. f_equal; auto.
Qed.
Lemma vadd_fin u v : vadd (fin u) (fin v) = fin (Rvadd u v).
Proof. apply map2_fin. auto. Qed.
Lemma vsub_fin u v : vsub (fin u) (fin v) = fin (Rvsub u v).
Proof. apply map2_fin. auto. Qed.
Lemma vmul_fin u v : vmul (fin u) (fin v) = fin (map2 Rmult u v).
Proof. apply map2_fin. auto. Qed.
Lemma vscale_fin c v : vscale (Fin c) (fin v) = fin (map (fun x => x * c) v).
Proof. unfold vscale, fin. rewrite !map_map. reflexivity. Qed.
Lemma vsum_fin l : vsum (fin l) = Fin (Rsum l).
Proof.
  unfold vsum. rewrite XR_n0.
  assert (H : forall l a, fold_left nadd (fin l) (Fin a) = Fin (a + Rsum l)).
  { induction l0 as [|b t IH]; intros a; simpl; [f_equal; lra|].
    change (map Fin t) with (fin t). rewrite IH. f_equal. lra. }
  rewrite H. f_equal. lra.
Qed.
Lemma vdot_fin u v : vdot (fin u) (fin v) = Fin (Rdot u v).
Proof. unfold vdot. rewrite vmul_fin. apply vsum_fin. Qed.
Lemma col_fin j m : col j (finm m) = fin (Rcol j m).
Proof.
  unfold col, finm, Rcol, fin. rewrite !map_map. apply map_ext. intros r.
  rewrite XR_n0. apply (map_nth Fin).
Qed.
Lemma ncols_fin m : ncols (finm m) = Rcols m.
Proof. destruct m; simpl; auto. apply fin_length. Qed.
Lemma vecmat_fin z m : vecmat (fin z) (finm m) = fin (Rvm z m).
Proof.
  unfold vecmat, Rvm, fin, range. rewrite ncols_fin, map_map. apply map_ext. intros j.
  rewrite col_fin. change (map Fin z) with (fin z). apply vdot_fin.
Qed.
Lemma finm_length m : length (finm m) = length m. Proof. apply map_length. Qed.
