(** Vectors and matrices in other units: entries multiplied by positive constants. *)

From Coq Require Import ZArith QArith Bool Lia List String Reals Lra.
From Verif Require Import Base Num Samplers Adapt Settings Simulator ScaleNum UnitSpec.
Import ListNotations.
Close Scope Q_scope.
Close Scope R_scope.
Open Scope list_scope.
Open Scope nat_scope.
Open Scope res_scope.

Definition posl (c : list R) : Prop := Forall (fun r => (0 < r)%R) c.

(** ** Numbers *)
Lemma sc_1 x : sc 1 x = x.
Proof. destruct x; cbn; auto. f_equal. lra. Qed.
Lemma sc_sc a b x : sc a (sc b x) = sc (a * b) x.
Proof. destruct x; cbn; auto. f_equal. ring. Qed.
Lemma sc_zero r : sc r (n0 : XR) = n0.
Proof. unfold n0. cbn [nQ Num_X sc aQ Arith_R]. rewrite Q2R0. f_equal. lra. Qed.
Lemma sc_back r x : (0 < r)%R -> sc (/ r) (sc r x) = x.
Proof. intros H. rewrite sc_sc, Rinv_l, sc_1 by lra. reflexivity. Qed.
Lemma sc_sub r x y : nsub (sc r x) (sc r y) = sc r (nsub x y).
Proof. destruct x, y; cbn [nsub Num_X xsub sc asub Arith_R xadd xneg]; try reflexivity. f_equal. ring. Qed.
Lemma sc_lt r x y : (0 < r)%R -> nlt (sc r x) (sc r y) = nlt x y.
Proof. intros H. destruct x, y; cbn [nlt Num_X xlt sc alt Arith_R]; try reflexivity. now apply ltb_scale. Qed.
Lemma leb_scale k a b : (0 < k)%R -> Rleb (k * a) (k * b) = Rleb a b.
Proof. intros Hk. unfold Rleb. destruct (Rle_dec (k * a) (k * b)), (Rle_dec a b); try reflexivity; exfalso; nra. Qed.
Lemma sc_le r x y : (0 < r)%R -> nle (sc r x) (sc r y) = nle x y.
Proof. intros H. destruct x, y; cbn [nle Num_X xle sc ale Arith_R]; try reflexivity. now apply leb_scale. Qed.
Lemma sc_cancel r x y : (0 < r)%R -> nmul (sc r x) (sc (/ r) y) = nmul x y.
Proof. intros H. assert (Hi : (0 < / r)%R) by now apply Rinv_0_lt_compat. rewrite sc_mul_l, sc_mul_r, sc_sc, Rinv_r, sc_1 by (auto; lra). reflexivity. Qed.

(** ** Vectors *)
Lemma us_length c : forall v, List.length (us c v) = List.length v.
Proof. induction c as [|r c IH]; intros [|x v]; cbn; auto. Qed.
Lemma us_nil v : us [] v = v.
Proof. now destruct v. Qed.
Lemma us_empty c : us c [] = [].
Proof. now destruct c. Qed.
Lemma inv_nth c i : nth i (map Rinv c) 1%R = (/ nth i c 1)%R.
Proof. rewrite <- Rinv_1 at 1. apply map_nth. Qed.
Lemma pos_nth c i : posl c -> (0 < nth i c 1)%R.
Proof. intros H. revert i. induction H as [|r c Hr _ IH]; intros [|i]; cbn; auto; lra. Qed.
Lemma pos_inv c : posl c -> posl (map Rinv c).
Proof. intros H. induction H; cbn; constructor; auto. now apply Rinv_0_lt_compat. Qed.
Lemma us_back c : posl c -> forall v, us (map Rinv c) (us c v) = v.
Proof. induction 1 as [|r c Hr _ IH]; intros [|x v]; cbn [us map]; auto. now rewrite sc_back, IH. Qed.
Lemma us_nth c : forall v i, nth i (us c v) n0 = sc (nth i c 1%R) (nth i v n0).
Proof.
  induction c as [|r c IH]; intros v i.
  - rewrite us_nil. destruct i; cbn [nth]; now rewrite sc_1.
  - destruct v as [|x v]; [destruct i; cbn [us nth]; now rewrite sc_zero|]. destruct i; cbn [us nth]; auto.
Qed.
Lemma us_nth_error c v i : nth_error (us c v) i = option_map (sc (nth i c 1%R)) (nth_error v i).
Proof.
  revert v i. induction c as [|r c IH]; intros v i.
  - rewrite us_nil. replace (nth i [] 1%R) with 1%R by now destruct i. destruct (nth_error v i); cbn [option_map]; now rewrite ?sc_1.
  - destruct v as [|x v]; [destruct i; reflexivity|]. destruct i; cbn [us nth nth_error]; auto.
Qed.
Lemma us_map_seq c (f : nat -> XR) : forall n k, us c (map f (seq k n)) = map (fun j => sc (nth (j - k) c 1%R) (f j)) (seq k n).
Proof.
  revert f. induction c as [|r c IH]; intros f n k.
  - rewrite us_nil. apply map_ext. intros j. destruct (j - k); cbn [nth]; now rewrite sc_1.
  - destruct n as [|n]; [reflexivity|]. cbn [seq map us]. rewrite Nat.sub_diag. cbn [nth]. f_equal. rewrite IH. apply map_ext_in. intros j Hj. apply in_seq in Hj.
    replace (j - k) with (S (j - S k)) by lia. reflexivity.
Qed.
Lemma us_range c (f : nat -> XR) n : us c (map f (range n)) = map (fun j => sc (nth j c 1%R) (f j)) (range n).
Proof. unfold range. rewrite us_map_seq. apply map_ext. intros j. now rewrite Nat.sub_0_r. Qed.
Lemma us_vadd c : posl c -> forall v w, vadd (us c v) (us c w) = us c (vadd v w).
Proof. induction 1 as [|r c Hr _ IH]; intros [|x v] [|y w]; try reflexivity; try (rewrite !us_nil; reflexivity). cbn [us vadd map2]. rewrite sc_add. f_equal. apply IH. Qed.
Lemma us_vsub c : forall v w, vsub (us c v) (us c w) = us c (vsub v w).
Proof. induction c as [|r c IH]; intros [|x v] [|y w]; try reflexivity; try (rewrite !us_nil; reflexivity). cbn [us vsub map2]. rewrite sc_sub. f_equal. apply IH. Qed.
Lemma us_vscale c k : posl c -> forall v, vscale k (us c v) = us c (vscale k v).
Proof. induction 1 as [|r c Hr _ IH]; intros [|x v]; try reflexivity. cbn [us vscale map]. rewrite sc_mul_l by exact Hr. f_equal. apply IH. Qed.
Lemma us_lt c : posl c -> forall v w, map2 nlt (us c v) (us c w) = map2 nlt v w.
Proof. induction 1 as [|r c Hr _ IH]; intros [|x v] [|y w]; try reflexivity. cbn [us map2]. rewrite sc_lt by exact Hr. f_equal. apply IH. Qed.
Lemma us_le c : posl c -> forall v w, map2 nle (us c v) (us c w) = map2 nle v w.
Proof. induction 1 as [|r c Hr _ IH]; intros [|x v] [|y w]; try reflexivity. cbn [us map2]. rewrite sc_le by exact Hr. f_equal. apply IH. Qed.
Lemma us_cancel c : posl c -> forall v w, vmul (us c v) (us (map Rinv c) w) = vmul v w.
Proof. induction 1 as [|r c Hr _ IH]; intros [|x v] [|y w]; try reflexivity. cbn [us map vmul map2]. rewrite sc_cancel by exact Hr. f_equal. apply IH. Qed.
Lemma us_set c : forall v i x, set_nth i (sc (nth i c 1%R) x) (us c v) = us c (set_nth i x v).
Proof.
  induction c as [|r c IH]; intros v i x.
  - rewrite !us_nil. replace (nth i [] 1%R) with 1%R by now destruct i. now rewrite sc_1.
  - destruct v as [|y v]; [now destruct i|]. destruct i; cbn [us set_nth nth]; auto. now rewrite IH.
Qed.
Lemma us_scatter c : forall ix v t, scatter (us c v) ix (us (map (fun i => nth i c 1%R) ix) t) = us c (scatter v ix t).
Proof. induction ix as [|i ix IH]; intros v [|x t]; cbn [scatter map us]; auto. now rewrite us_set, IH. Qed.
Lemma us_sel c v ix : sel (us c v) ix = us (map (fun i => nth i c 1%R) ix) (sel v ix).
Proof. unfold sel. induction ix as [|i ix IH]; cbn [map us]; auto. rewrite us_nth. f_equal. apply IH. Qed.
Lemma us_outside c t lo up : posl c -> is_sample_outside_bounds (us c t) (us c lo) (us c up) = is_sample_outside_bounds t lo up.
Proof. intros P. unfold is_sample_outside_bounds. now rewrite !us_lt. Qed.
Lemma sc_vsum k v : (0 < k)%R -> vsum (map (sc k) v) = sc k (vsum v).
Proof. intros H. unfold vsum. rewrite <- (sc_zero k) at 1. apply sc_sum_acc. Qed.
Lemma sc_vmul_r k v w : (0 < k)%R -> vmul v (map (sc k) w) = map (sc k) (vmul v w).
Proof. intros H. revert w. induction v as [|x v IH]; intros [|y w]; try reflexivity. cbn [map vmul map2]. rewrite sc_mul_r by exact H. f_equal. apply IH. Qed.
Lemma sc_vmul_l k v w : (0 < k)%R -> vmul (map (sc k) v) w = map (sc k) (vmul v w).
Proof. intros H. revert w. induction v as [|x v IH]; intros [|y w]; try reflexivity. cbn [map vmul map2]. rewrite sc_mul_l by exact H. f_equal. apply IH. Qed.
Lemma sc_vdot_r k v w : (0 < k)%R -> vdot v (map (sc k) w) = sc k (vdot v w).
Proof. intros H. unfold vdot. now rewrite sc_vmul_r, sc_vsum. Qed.
Lemma sc_vdot_l k v w : (0 < k)%R -> vdot (map (sc k) v) w = sc k (vdot v w).
Proof. intros H. unfold vdot. now rewrite sc_vmul_l, sc_vsum. Qed.
Lemma sc_vscale k a v : (0 < k)%R -> vscale a (map (sc k) v) = map (sc k) (vscale a v).
Proof. intros H. unfold vscale. rewrite !map_map. apply map_ext. intros x. now apply sc_mul_l. Qed.

(** ** Matrices *)
Lemma rws_length c : forall M, List.length (rws c M) = List.length M.
Proof. induction c as [|r c IH]; intros [|x M]; cbn; auto. Qed.
Lemma rws_nil M : rws [] M = M.
Proof. now destruct M. Qed.
Lemma rws_ncols c M : ncols (rws c M) = ncols M.
Proof. destruct c, M; cbn; auto. apply map_length. Qed.
Lemma us_ncols c M : ncols (map (us c) M) = ncols M.
Proof. destruct M; cbn; auto. apply us_length. Qed.
Lemma both_ncols c M : ncols (both c M) = ncols M.
Proof. unfold both. now rewrite rws_ncols, us_ncols. Qed.
Lemma both_length c M : List.length (both c M) = List.length M.
Proof. unfold both. now rewrite rws_length, map_length. Qed.
Lemma rws_nth c : forall M i, nth i (rws c M) [] = map (sc (nth i c 1%R)) (nth i M []).
Proof.
  induction c as [|r c IH]; intros M i.
  - rewrite rws_nil. replace (nth i [] 1%R) with 1%R by now destruct i. rewrite (map_ext _ (fun x => x)) by apply sc_1. now rewrite map_id.
  - destruct M as [|x M]; [now destruct i|]. destruct i; cbn [rws nth]; auto.
Qed.
Lemma rws_nth_error c : forall M i, nth_error (rws c M) i = option_map (map (sc (nth i c 1%R))) (nth_error M i).
Proof.
  induction c as [|r c IH]; intros M i.
  - rewrite rws_nil. replace (nth i [] 1%R) with 1%R by now destruct i. destruct (nth_error M i) as [x|]; cbn [option_map]; [|reflexivity].
    rewrite (map_ext _ (fun x => x)) by apply sc_1. now rewrite map_id.
  - destruct M as [|x M]; [now destruct i|]. destruct i; cbn [rws nth nth_error]; auto.
Qed.
Lemma nth_map_nil {A B} (f : list A -> list B) M i : f [] = [] -> nth i (map f M) [] = f (nth i M []).
Proof. intros H. rewrite <- H at 1. apply map_nth. Qed.
Lemma both_entry c M i j : nth j (nth i (both c M) []) n0 = sc (nth i c 1%R) (sc (nth j c 1%R) (nth j (nth i M []) n0)).
Proof.
  unfold both. rewrite rws_nth, nth_map_nil by apply us_empty. rewrite <- (sc_zero (nth i c 1%R)) at 1. rewrite map_nth. now rewrite us_nth.
Qed.
Lemma rws_map_seq c (f : nat -> list XR) : forall n k, rws c (map f (seq k n)) = map (fun j => map (sc (nth (j - k) c 1%R)) (f j)) (seq k n).
Proof.
  revert f. induction c as [|r c IH]; intros f n k.
  - rewrite rws_nil. apply map_ext. intros j. rewrite (map_ext _ (fun x => x)); [now rewrite map_id|]. intros x. destruct (j - k); cbn [nth]; now rewrite sc_1.
  - destruct n as [|n]; [reflexivity|]. cbn [seq map rws]. rewrite Nat.sub_diag. cbn [nth]. f_equal. rewrite IH. apply map_ext_in. intros j Hj. apply in_seq in Hj.
    replace (j - k) with (S (j - S k)) by lia. reflexivity.
Qed.
Lemma rws_range c (f : nat -> list XR) n : rws c (map f (range n)) = map (fun j => map (sc (nth j c 1%R)) (f j)) (range n).
Proof. unfold range. rewrite rws_map_seq. apply map_ext. intros j. now rewrite Nat.sub_0_r. Qed.
Lemma both_table c (f : nat -> nat -> XR) n m : both c (map (fun i => map (f i) (range m)) (range n)) =
  map (fun i => map (fun j => sc (nth i c 1%R) (sc (nth j c 1%R) (f i j))) (range m)) (range n).
Proof. unfold both. rewrite map_map, rws_range. apply map_ext. intros i. rewrite us_range, map_map. reflexivity. Qed.

Lemma col_us c M j : col j (map (us c) M) = map (sc (nth j c 1%R)) (col j M).
Proof. unfold col. rewrite !map_map. apply map_ext. intros r. apply us_nth. Qed.
Lemma col_rws c : forall M j, col j (rws c M) = us c (col j M).
Proof.
  induction c as [|r c IH]; intros M j; [now rewrite rws_nil, us_nil|]. destruct M as [|x M]; [reflexivity|]. cbn [rws col map us]. f_equal; [|apply IH].
  rewrite <- (sc_zero r) at 1. apply map_nth.
Qed.
Section Pos.
Variable c : list R.
Hypothesis Hc : posl c.

Lemma vecmat_us z M : vecmat z (map (us c) M) = us c (vecmat z M).
Proof. unfold vecmat. rewrite us_ncols, us_range. apply map_ext. intros j. rewrite col_us. apply sc_vdot_r. now apply pos_nth. Qed.
Lemma vecmat_cancel v M : vecmat (us c v) (rws (map Rinv c) M) = vecmat v M.
Proof. unfold vecmat. rewrite rws_ncols. apply map_ext. intros j. rewrite col_rws. unfold vdot. now rewrite us_cancel. Qed.
Lemma vecmat_sc k r M : (0 < k)%R -> vecmat (map (sc k) r) M = map (sc k) (vecmat r M).
Proof. intros H. unfold vecmat. rewrite map_map. apply map_ext. intros j. now apply sc_vdot_l. Qed.
Lemma transpose_rws M : transpose (rws c M) = map (us c) (transpose M).
Proof. unfold transpose. rewrite rws_ncols, map_map. apply map_ext. intros j. apply col_rws. Qed.
Lemma transpose_us M : transpose (map (us c) M) = rws c (transpose M).
Proof. unfold transpose. rewrite us_ncols, rws_range. apply map_ext. intros j. apply col_us. Qed.
Lemma matmul_us A B : matmul A (map (us c) B) = map (us c) (matmul A B).
Proof. unfold matmul. rewrite map_map. apply map_ext. intros r. apply vecmat_us. Qed.
Lemma mscale_us k M : mscale k (map (us c) M) = map (us c) (mscale k M).
Proof. unfold mscale. rewrite !map_map. apply map_ext. intros r. now apply us_vscale. Qed.
Lemma is_square_us n M : is_square n (map (us c) M) = is_square n M.
Proof.
  unfold is_square. rewrite map_length. f_equal. induction M as [|r M IH]; cbn [map forallb]; [reflexivity|]. rewrite us_length. f_equal. exact IH.
Qed.
End Pos.
Lemma matmul_rws c A B : posl c -> matmul (rws c A) B = rws c (matmul A B).
Proof.
  intros H. revert A. induction H as [|r c Hr _ IH]; intros A; [now rewrite !rws_nil|]. destruct A as [|x A]; [reflexivity|]. cbn [rws matmul map]. f_equal; [|apply IH].
  now apply vecmat_sc.
Qed.
Lemma mscale_rws c k M : posl c -> mscale k (rws c M) = rws c (mscale k M).
Proof.
  intros H. revert M. induction H as [|r c Hr _ IH]; intros M; [now rewrite !rws_nil|]. destruct M as [|x M]; [reflexivity|]. cbn [rws mscale map]. f_equal; [|apply IH].
  now apply sc_vscale.
Qed.
Lemma mscale_both c k M : posl c -> mscale k (both c M) = both c (mscale k M).
Proof. intros H. unfold both. now rewrite mscale_rws, mscale_us. Qed.
Lemma map_sc_vadd r u v : (0 < r)%R -> vadd (map (sc r) u) (map (sc r) v) = map (sc r) (vadd u v).
Proof. intros H. revert v. induction u as [|x u IH]; intros [|y v]; try reflexivity. cbn [map vadd map2]. rewrite sc_add. f_equal. apply IH. Qed.
Lemma madd_rws c : posl c -> forall A B, madd (rws c A) (rws c B) = rws c (madd A B).
Proof.
  induction 1 as [|r c Hr _ IH]; intros A B; [now rewrite !rws_nil|]. destruct A as [|x A], B as [|y B]; try reflexivity. cbn [rws madd map2]. f_equal; [|apply IH].
  now apply map_sc_vadd.
Qed.
Lemma madd_us c : posl c -> forall A B, madd (map (us c) A) (map (us c) B) = map (us c) (madd A B).
Proof. intros H. induction A as [|x A IH]; intros [|y B]; try reflexivity. cbn [map madd map2]. f_equal; [now apply us_vadd|apply IH]. Qed.
Lemma madd_both c A B : posl c -> madd (both c A) (both c B) = both c (madd A B).
Proof. intros H. unfold both. now rewrite madd_rws, madd_us. Qed.
Lemma outer_rws c w : posl c -> forall u, outer (us c u) w = rws c (outer u w).
Proof.
  induction 1 as [|r c Hr _ IH]; intros [|x u]; try reflexivity. cbn [us outer map rws]. f_equal; [|apply IH]. rewrite map_map. apply map_ext. intros y. now apply sc_mul_l.
Qed.
Lemma map_nmul_us c x : posl c -> forall w, map (fun y => nmul x y) (us c w) = us c (map (fun y => nmul x y) w).
Proof. induction 1 as [|r c Hr _ IH]; intros [|y w]; try reflexivity. cbn [us map]. rewrite sc_mul_r by exact Hr. f_equal. apply IH. Qed.
Lemma outer_both c u w : posl c -> outer (us c u) (us c w) = both c (outer u w).
Proof.
  intros H. rewrite outer_rws by exact H. unfold both. f_equal. unfold outer. rewrite map_map. apply map_ext. intros x. now apply map_nmul_us.
Qed.
Lemma gram_both c R : posl c -> matmul (transpose (map (us c) R)) (map (us c) R) = both c (matmul (transpose R) R).
Proof.
  intros H. rewrite transpose_us, matmul_rws by exact H. unfold both. f_equal. now apply matmul_us.
Qed.
Lemma us_sc e r : forall x, map (sc r) (us e x) = us e (map (sc r) x).
Proof.
  induction e as [|a e IH]; intros x; [now rewrite !us_nil|]. destruct x as [|y x]; [reflexivity|]. cbn [us map]. f_equal; [|apply IH]. rewrite !sc_sc. f_equal. ring.
Qed.
Lemma rws_comm c e M : rws c (map (us e) M) = map (us e) (rws c M).
Proof.
  revert M. induction c as [|r c IH]; intros M; [now rewrite !rws_nil|]. destruct M as [|x M]; [reflexivity|]. cbn [rws map]. f_equal; [|apply IH]. apply us_sc.
Qed.
