(** Facts about grids, densities, bandwidths and ellipses over the reals. *)

From Coq Require Import ZArith QArith Bool Lia List Reals Lra Qreals Permutation.
From Verif Require Import Base Num RVec RMat StatSpec ChainStats PlotUtil PlotCurves StatsSpec StatsFacts UtilFacts QuantSpec CurveSpec.
Import ListNotations.
Close Scope Q_scope.
Open Scope list_scope.
Open Scope R_scope.

(** ** Grids *)

Lemma evenly_ends a b n g : evenly a b n g -> (2 <= n)%nat -> nth 0 g 0 = a /\ nth (n - 1) g 0 = b.
Proof.
  intros [L H] N. assert (P : 0 < INR (n - 1)) by (apply lt_0_INR; lia).
  rewrite !H by lia. split; [simpl INR; ring|field; lra].
Qed.

Lemma linspace_real a b n : exists g, linspace (Fin a) (Fin b) n = fin g /\ evenly a b n g.
Proof.
  destruct n as [|[|k]].
  - exists []. split; [reflexivity|]. split; [reflexivity|]. intros; lia.
  - exists [a]. split; [reflexivity|]. split; [reflexivity|]. intros i Hi. assert (i = O) as -> by lia. simpl. ring.
  - set (m := S k). exists (vtab m (fun i => INR i * ((b - a) / INR m) + a) ++ [b]).
    assert (P : 0 < INR m) by (apply lt_0_INR; unfold m; lia). split.
    + transitivity (map (fun i => nadd (nmul (nnat i) (ndiv (nsub (Fin b) (Fin a)) (nnat m))) (Fin a)) (range m) ++ [Fin b]).
      { reflexivity. }
      rewrite XR_nnat, XR_nsub, XR_ndiv by lra. unfold fin. rewrite map_app. cbn [map]. f_equal.
      unfold vtab, range. rewrite map_map. apply map_ext. intros i. now rewrite XR_nnat, XR_nmul, XR_nadd.
    + split; [rewrite app_length, vtab_length; cbn; unfold m; lia|]. intros i Hi.
      replace (S m - 1)%nat with m by lia. destruct (Nat.eq_dec i m) as [->|Hn].
      * rewrite app_nth2 by (rewrite vtab_length; lia). rewrite vtab_length, Nat.sub_diag. cbn [nth]. field. lra.
      * rewrite app_nth1 by (rewrite vtab_length; unfold m in *; lia). rewrite nth_vtab by (unfold m in *; lia). ring.
Qed.

Lemma fold_pymin l a : exists v, fold_left pymin (fin l) (Fin a) = Fin v /\ least (a :: l) v.
Proof.
  revert a; induction l as [|b l IH]; intros a.
  - exists a. split; [reflexivity|]. split; [now left|]. intros x [<-|[]]. lra.
  - change (fin (b :: l)) with (Fin b :: fin l). cbn [fold_left]. unfold pymin at 2. rewrite XR_nlt.
    destruct (Rltb b a) eqn:C.
    + apply Rltb_true in C. destruct (IH b) as (v & -> & I & M). exists v. split; [reflexivity|]. split; [now right|].
      intros x [<-|X]; auto. specialize (M b (or_introl eq_refl)). lra.
    + apply Rltb_false in C. destruct (IH a) as (v & -> & I & M). exists v. split; [reflexivity|].
      split; [destruct I; [now left|now right; right]|].
      intros x [<-|[<-|X]]; [apply M; now left| |apply M; now right]. specialize (M a (or_introl eq_refl)). lra.
Qed.
Lemma fold_pymax l a : exists v, fold_left pymax (fin l) (Fin a) = Fin v /\ greatest (a :: l) v.
Proof.
  revert a; induction l as [|b l IH]; intros a.
  - exists a. split; [reflexivity|]. split; [now left|]. intros x [<-|[]]. lra.
  - change (fin (b :: l)) with (Fin b :: fin l). cbn [fold_left]. unfold pymax at 2. rewrite XR_nlt.
    destruct (Rltb a b) eqn:C.
    + apply Rltb_true in C. destruct (IH b) as (v & -> & I & M). exists v. split; [reflexivity|]. split; [now right|].
      intros x [<-|X]; auto. specialize (M b (or_introl eq_refl)). lra.
    + apply Rltb_false in C. destruct (IH a) as (v & -> & I & M). exists v. split; [reflexivity|].
      split; [destruct I; [now left|now right; right]|].
      intros x [<-|[<-|X]]; [apply M; now left| |apply M; now right]. specialize (M a (or_introl eq_refl)). lra.
Qed.
Lemma pymin_of_real l : l <> [] -> exists v, pymin_of (fin l) = Ok (Fin v) /\ least l v.
Proof.
  destruct l as [|a l]; [congruence|]. intros _. destruct (fold_pymin l a) as (v & H & M). exists v. split; auto.
  unfold pymin_of. cbn [fin map]. change (map Fin l) with (fin l). now rewrite H.
Qed.
Lemma pymax_of_real l : l <> [] -> exists v, pymax_of (fin l) = Ok (Fin v) /\ greatest l v.
Proof.
  destruct l as [|a l]; [congruence|]. intros _. destruct (fold_pymax l a) as (v & H & M). exists v. split; auto.
  unfold pymax_of. cbn [fin map]. change (map Fin l) with (fin l). now rewrite H.
Qed.

Lemma std1_real l : (2 <= List.length l)%nat -> std1 (fin l) = Fin (sd l).
Proof. intros L. unfold std1. rewrite var1_fin by auto. apply XR_nsqrt, Rvar_nonneg. Qed.

Lemma sd_nonneg l : 0 <= sd l. Proof. apply sqrt_pos. Qed.
Lemma sd_sq l : sd l * sd l = Rvar l. Proof. apply sqrt_sqrt, Rvar_nonneg. Qed.

Lemma XR_nQ q v : Q2R q = v -> @nQ XR _ q = Fin v.
Proof. intros <-. reflexivity. Qed.
Lemma Q8 : @nQ XR _ (8 # 100) = Fin (8 / 100).
Proof. apply XR_nQ. unfold Q2R. cbn [Qnum Qden]. lra. Qed.
Lemma Q4 : @nQ XR _ 4 = Fin 4.
Proof. apply XR_nQ. unfold Q2R. cbn [Qnum Qden]. lra. Qed.

Theorem grid_many l npts : (200 < List.length l)%nat ->
  exists lo hi g, least l lo /\ greatest l hi /\ make_x_grid (fin l) npts = Ok (fin g) /\
    evenly (lo - 8 / 100 * (hi - lo)) (hi + 8 / 100 * (hi - lo)) npts g.
Proof.
  intros L. assert (N : l <> []) by (destruct l; [cbn in L; lia|discriminate]).
  destruct (pymin_of_real l N) as (lo & E1 & M1), (pymax_of_real l N) as (hi & E2 & M2).
  destruct (linspace_real (lo - 8 / 100 * (hi - lo)) (hi + 8 / 100 * (hi - lo)) npts) as (g & E & G).
  exists lo, hi, g. split; auto. split; auto. split; auto. unfold make_x_grid. rewrite E1, E2. cbn [bind].
  rewrite fin_length. apply Nat.ltb_lt in L. rewrite L, Q8, XR_nsub, XR_nmul, XR_nadd, XR_nsub. now rewrite E.
Qed.

Theorem grid_few l npts : (2 <= List.length l <= 200)%nat ->
  exists g, make_x_grid (fin l) npts = Ok (fin g) /\ evenly (Rmean l - 4 * sd l) (Rmean l + 4 * sd l) npts g.
Proof.
  intros L. assert (N : l <> []) by (destruct l; [cbn in L; lia|discriminate]).
  destruct (pymin_of_real l N) as (lo & E1 & M1), (pymax_of_real l N) as (hi & E2 & M2).
  destruct (linspace_real (Rmean l - 4 * sd l) (Rmean l + 4 * sd l) npts) as (g & E & G).
  exists g. split; auto. unfold make_x_grid. rewrite E1, E2. cbn [bind].
  rewrite fin_length. replace (200 <? List.length l)%nat with false by (symmetry; apply Nat.ltb_ge; lia).
  rewrite mean_fin, std1_real, Q4, XR_nmul, XR_nsub, XR_nadd by (auto; lia). now rewrite E.
Qed.

Lemma cauchy_step n s q a : 0 <= n -> 0 <= q -> s * s <= n * q -> (a + s) * (a + s) <= (n + 1) * (a * a + q).
Proof.
  intros Hn Hq H. destruct (Req_dec n 0) as [Z|Z].
  - subst n. assert (s = 0) as -> by (apply Rsqr_0_uniq; pose proof (Rle_0_sqr s); unfold Rsqr in *; lra). lra.
  - assert (P : 0 < n) by lra. pose proof (Rle_0_sqr (n * a - s)) as Q. unfold Rsqr in Q.
    assert (K : 2 * a * s * n <= (n * a * a + q) * n) by nra.
    apply Rmult_le_reg_r in K; auto. nra.
Qed.
Lemma Cauchy_sum l : Rsum l * Rsum l <= INR (List.length l) * Rsum (map Rsqr l).
Proof.
  induction l as [|a l IH]; [simpl; lra|]. cbn [Rsum map fold_right List.length]. rewrite S_INR.
  change (fold_right Rplus 0 l) with (Rsum l). change (fold_right Rplus 0 (map Rsqr l)) with (Rsum (map Rsqr l)).
  apply cauchy_step; auto; [apply pos_INR|].
  apply Rsum_nonneg. intros x X. apply in_map_iff in X as (y & <- & _). apply Rle_0_sqr.
Qed.

Lemma Rsum_map_sub c l : Rsum (map (fun x => x - c) l) = Rsum l - INR (List.length l) * c.
Proof.
  induction l as [|a l IH]; [simpl; lra|]. cbn [List.length map]. rewrite S_INR. cbn [Rsum fold_right].
  change (fold_right Rplus 0 (map (fun x => x - c) l)) with (Rsum (map (fun x => x - c) l)).
  change (fold_right Rplus 0 l) with (Rsum l). rewrite IH. ring.
Qed.

(** Samuelson's inequality *)
Lemma samuelson l x : (2 <= List.length l)%nat -> In x l ->
  INR (List.length l) * (x - Rmean l)² <= INR (List.length l - 1) * INR (List.length l - 1) * Rvar l.
Proof.
  intros L X. apply in_split in X as (l1 & l2 & E). set (m := Rmean l). set (n := List.length l) in *.
  assert (PN : 0 < INR n) by (apply lt_0_INR; lia). assert (PM : 0 < INR (n - 1)) by (apply lt_0_INR; lia).
  set (d := map (fun y => y - m) (l1 ++ l2)).
  assert (Ln : n = S (List.length (l1 ++ l2))) by (unfold n; rewrite E, !app_length; cbn; lia).
  assert (Ld : List.length d = (n - 1)%nat) by (unfold d; rewrite map_length; lia).
  assert (S0 : Rsum (map (fun y => y - m) l) = 0).
  { rewrite Rsum_map_sub. fold n. unfold m, Rmean. fold n. field. lra. }
  assert (P : Permutation l (x :: l1 ++ l2)) by (rewrite E; symmetry; apply Permutation_middle).
  assert (S1 : Rsum d = - (x - m)).
  { rewrite (Rsum_perm _ _ (Permutation_map _ P)) in S0. cbn [map Rsum fold_right] in S0. fold d in S0.
    change (fold_right Rplus 0 d) with (Rsum d) in S0. lra. }
  assert (S2 : Rsum (map Rsqr d) + (x - m)² = INR (n - 1) * Rvar l).
  { unfold Rvar. fold m. fold n.
    rewrite (Rsum_perm _ _ (Permutation_map (fun y => (y - m)²) P)). cbn [map Rsum fold_right].
    unfold d. rewrite map_map. change (fold_right Rplus 0 ?q) with (Rsum q). field. lra. }
  pose proof (Cauchy_sum d) as C. rewrite S1, Ld in C.
  assert (I : INR n = INR (n - 1) + 1) by (rewrite <- S_INR; f_equal; lia). unfold Rsqr in *. nra.
Qed.

Theorem few_points_covered l x : (2 <= List.length l <= 17)%nat -> In x l ->
  Rmean l - 4 * sd l <= x <= Rmean l + 4 * sd l.
Proof.
  intros L X. pose proof (samuelson l x ltac:(lia) X) as H. set (n := List.length l) in *.
  assert (PN : 2 <= INR n <= 17) by (split; [change 2 with (INR 2)|replace 17 with (INR 17) by (simpl; lra)]; apply le_INR; lia).
  assert (I : INR (n - 1) = INR n - 1) by (rewrite minus_INR by lia; reflexivity). rewrite I in H.
  pose proof (sd_nonneg l) as P. pose proof (sd_sq l) as Q. pose proof (Rvar_nonneg l) as V.
  assert (B : (x - Rmean l)² <= (4 * sd l)²).
  { unfold Rsqr in *. replace (4 * sd l * (4 * sd l)) with (16 * Rvar l) by (rewrite <- Q; ring).
    apply Rmult_le_reg_l with (INR n); [lra|]. eapply Rle_trans; [exact H|].
    replace (INR n * (16 * Rvar l)) with (16 * INR n * Rvar l) by ring. apply Rmult_le_compat_r; auto.
    assert (0 <= (INR n - 2) * (17 - INR n)) by (apply Rmult_le_pos; lra). lra. }
  apply Rsqr_le_abs_0 in B. rewrite (Rabs_right (4 * sd l)) in B by lra.
  assert (C := Rle_abs (x - Rmean l)). assert (D := Rle_abs (- (x - Rmean l))). rewrite Rabs_Ropp in D. lra.
Qed.

(** a one and otherwise zeros *)
Definition spike (n : nat) : list R := 1 :: repeat 0 (n - 1).
Lemma map_repeat {A B} (f : A -> B) x n : map f (repeat x n) = repeat (f x) n.
Proof. induction n as [|n IH]; [reflexivity|]. cbn. now rewrite IH. Qed.
Lemma Rsum_repeat c n : Rsum (repeat c n) = INR n * c.
Proof.
  induction n as [|n IH]; [simpl; lra|]. rewrite S_INR. cbn [repeat Rsum fold_right].
  change (fold_right Rplus 0 (repeat c n)) with (Rsum (repeat c n)). rewrite IH. ring.
Qed.
Theorem spike_outside n : (18 <= n)%nat -> List.length (spike n) = n /\ Rmean (spike n) + 4 * sd (spike n) < 1.
Proof.
  intros N. assert (L : List.length (spike n) = n) by (unfold spike; cbn [List.length]; rewrite repeat_length; lia).
  split; auto. assert (PN : 18 <= INR n) by (replace 18 with (INR 18) by (simpl; lra); apply le_INR; lia).
  assert (I : INR (n - 1) = INR n - 1) by (rewrite minus_INR by lia; reflexivity).
  assert (M : Rmean (spike n) = / INR n).
  { unfold Rmean. rewrite L. unfold spike. cbn [Rsum fold_right]. change (fold_right Rplus 0 ?q) with (Rsum q).
    rewrite Rsum_repeat. field. lra. }
  assert (V : Rvar (spike n) = / INR n).
  { unfold Rvar. rewrite M, L. unfold spike. cbn [map Rsum fold_right]. change (fold_right Rplus 0 ?q) with (Rsum q).
    rewrite map_repeat, Rsum_repeat, I. unfold Rsqr. field. lra. }
  rewrite M. unfold sd. rewrite V. set (r := INR n) in *.
  assert (0 < / r) by (apply Rinv_0_lt_compat; lra).
  assert (K : 4 * sqrt (/ r) < 1 - / r).
  { assert (U : / r <= / 18) by (apply Rinv_le_contravar; lra).
    apply Rsqr_incrst_0; [|pose proof (sqrt_pos (/ r)); lra|lra].
    unfold Rsqr. replace (4 * sqrt (/ r) * (4 * sqrt (/ r))) with (16 * (sqrt (/ r) * sqrt (/ r))) by ring.
    rewrite sqrt_sqrt by lra. nra. }
  lra.
Qed.

(** ** Single values and none *)
Theorem grid_empty npts : make_x_grid (@nil XR) npts = Err ValueError.
Proof. reflexivity. Qed.
Theorem grid_single x npts : (2 <= npts)%nat ->
  exists g, make_x_grid (fin [x]) npts = Ok g /\ List.length g = npts /\ forall v, In v g -> v = NaN.
Proof.
  intros N. destruct npts as [|[|k]]; try lia. unfold make_x_grid. cbn [fin map pymin_of pymax_of fold_left bind List.length].
  change (200 <? 1)%nat with false. cbv iota.
  assert (SN : std1 [Fin x] = NaN).
  { assert (M : mean [Fin x] = (Fin x : XR)).
    { change [Fin x] with (fin [x]). rewrite mean_fin by discriminate. f_equal. unfold Rmean. simpl. field. }
    unfold std1, var1. cbn [map List.length Nat.sub]. rewrite M, XR_nnat, XR_nsub, XR_nsqr.
    change ([Fin ?a] : list XR) with (fin [a]). rewrite vsum_fin. replace (Rsum [(x - x) * (x - x)]) with 0 by (simpl; ring).
    change (INR 0) with 0.
    assert (Z : @ndiv XR _ (Fin 0) (Fin 0) = NaN).
    { xs. unfold Reqb. destruct (Req_EM_T 0 0); [|lra]. unfold Rltb. destruct (Rlt_dec 0 0); [lra|]. reflexivity. }
    rewrite Z. reflexivity. }
  rewrite SN, Q4. set (a := nsub _ _). set (b := nadd _ _). exists (linspace a b (S (S k))). split; [reflexivity|].
  assert (A : a = NaN) by (unfold a; destruct (mean [Fin x]); reflexivity).
  assert (B : b = NaN) by (unfold b; destruct (mean [Fin x]); reflexivity).
  rewrite A, B. clear. split.
  - transitivity (List.length (map (fun i => nadd (nmul (nnat i) (ndiv (nsub NaN NaN) (nnat (S k)))) NaN) (range (S k)) ++ [NaN : XR])).
    { reflexivity. }
    rewrite app_length, map_length. unfold range. rewrite seq_length. cbn. lia.
  - intros v V.
    assert (I : In v (map (fun i => nadd (nmul (nnat i) (ndiv (nsub NaN NaN) (nnat (S k)))) NaN) (range (S k)) ++ [NaN : XR])) by exact V.
    apply in_app_or in I as [I|[<-|[]]]; [|reflexivity]. apply in_map_iff in I as (i & <- & _).
    destruct (nmul _ _); reflexivity.
Qed.

(** ** Density *)
Theorem density_value x mu v : 0 < v ->
  gaussian_density_function (Fin PI : XR) (Fin x) (Fin mu) (Fin v) = Ok (Fin (normal_density x mu v)).
Proof.
  intros V. unfold gaussian_density_function.
  rewrite (XR_nQ 2 2) by (unfold Q2R; cbn [Qnum Qden]; lra). rewrite !XR_nmul, XR_n0, XR_nlt.
  pose proof PI_RGT_0 as P. assert (W : 0 < 2 * PI * v) by (apply Rmult_lt_0_compat; lra).
  replace (Rltb (2 * PI * v) 0) with false by (symmetry; apply Rltb_false; lra).
  rewrite XR_nsqrt by lra. pose proof (sqrt_lt_R0 _ W) as Q.
  change (@neq XR _ (Fin ?a) (Fin ?b)) with (Reqb a b).
  replace (Reqb (sqrt (2 * PI * v)) 0) with false by (symmetry; apply Reqb_false; lra).
  replace (Reqb v 0) with false by (symmetry; apply Reqb_false; lra).
  rewrite XR_n1, XR_ndiv by lra. rewrite XR_nsub, XR_nsqr.
  rewrite (XR_nQ (-1 # 2) (- (1 / 2))) by (unfold Q2R; cbn [Qnum Qden]; lra). rewrite XR_nmul, XR_ndiv by lra.
  change (@nexp XR _ (Fin ?a)) with (Fin (exp a) : XR). rewrite XR_nmul. do 2 f_equal. unfold normal_density. f_equal.
  - unfold Rdiv. ring.
  - f_equal. unfold Rsqr. field. lra.
Qed.
Theorem density_refused x mu v : v <= 0 -> exists e, gaussian_density_function (Fin PI : XR) (Fin x) (Fin mu) (Fin v) = Err e.
Proof.
  intros V. unfold gaussian_density_function.
  rewrite (XR_nQ 2 2) by (unfold Q2R; cbn [Qnum Qden]; lra). rewrite !XR_nmul, XR_n0, XR_nlt.
  pose proof PI_RGT_0 as P. destruct (Rltb (2 * PI * v) 0) eqn:C; [eauto|]. apply Rltb_false in C.
  assert (v = 0) as -> by nra. rewrite XR_nsqrt by lra. change (@neq XR _ (Fin ?a) (Fin ?b)) with (Reqb a b).
  replace (2 * PI * 0) with 0 by ring. rewrite sqrt_0. replace (Reqb 0 0) with true by (symmetry; now apply Reqb_true). eauto.
Qed.
Lemma density_shape x y mu v : 0 < v ->
  0 < normal_density x mu v /\ normal_density (mu + x) mu v = normal_density (mu - x) mu v /\
  (Rabs (x - mu) < Rabs (y - mu) -> normal_density y mu v < normal_density x mu v).
Proof.
  intros V. pose proof PI_RGT_0 as P. assert (W : 0 < 2 * PI * v) by (apply Rmult_lt_0_compat; lra).
  pose proof (Rinv_0_lt_compat _ (sqrt_lt_R0 _ W)) as Q. unfold normal_density. split; [|split].
  - apply Rmult_lt_0_compat; auto. apply exp_pos.
  - do 2 f_equal. unfold Rsqr. field. lra.
  - intros H. apply Rmult_lt_compat_l; auto. apply exp_increasing. apply Rsqr_lt_abs_1 in H.
    unfold Rdiv. apply Rmult_lt_compat_r; [apply Rinv_0_lt_compat; lra|lra].
Qed.

(** ** Bandwidth *)
Definition iqr (l : list R) : R :=
  interp l (3 * (INR (List.length l) + 1) / 4) - interp l ((INR (List.length l) + 1) / 4).
Lemma iqr_value l : (8 <= List.length l)%nat -> snd (iqrange 1 (column (fin l))) = Ok [Fin (iqr l)].
Proof.
  intros L. rewrite iqrange_column, fin_length, !quartile_real by lia. cbn [snd bind map2]. rewrite XR_nsub.
  unfold iqr. rewrite !mult_INR, !plus_INR. change (INR 1) with 1. replace (INR 3) with 3 by (simpl; lra).
  now rewrite Rmult_1_l.
Qed.
Definition bandwidth (l : list R) : R :=
  (106 / 100) * ((if Rle_dec (iqr l) 0 then sd l else Rmin (sd l) (iqr l / (134 / 100))) * Rpower (INR (List.length l)) (- (1 / 5))).
Lemma pymin_real a b : @pymin XR _ (Fin a) (Fin b) = Fin (Rmin a b).
Proof.
  unfold pymin. rewrite XR_nlt. destruct (Rltb b a) eqn:C; [apply Rltb_true in C|apply Rltb_false in C]; f_equal; unfold Rmin;
    destruct (Rle_dec a b); auto; lra.
Qed.
Lemma npow_real a b : 0 < a -> @npow XR _ (Fin a) (Fin b) = Fin (Rpower a b).
Proof. intros H. xs. unfold Rltb. destruct (Rlt_dec 0 a); [reflexivity|lra]. Qed.

Theorem bandwidth_value l : (8 <= List.length l)%nat -> scale_bandwidth (fin l) = Ok (Fin (bandwidth l)).
Proof.
  intros L. unfold scale_bandwidth. fold (column (fin l)). rewrite iqr_value by auto. cbn [bind nth]. rewrite fin_length, XR_nnat.
  rewrite (XR_nQ (-1 # 5) (- (1 / 5))) by (unfold Q2R; cbn [Qnum Qden]; lra).
  rewrite npow_real by (apply lt_0_INR; lia). rewrite XR_n0, XR_nle, std1_real by lia.
  rewrite (XR_nQ (106 # 100) (106 / 100)) by (unfold Q2R; cbn [Qnum Qden]; lra).
  rewrite (XR_nQ (134 # 100) (134 / 100)) by (unfold Q2R; cbn [Qnum Qden]; lra).
  rewrite XR_ndiv by lra. rewrite pymin_real, !XR_nmul. unfold bandwidth, Rleb. now destruct (Rle_dec (iqr l) 0).
Qed.
Theorem bandwidth_short (x : list XR) : (List.length x < 8)%nat -> scale_bandwidth x = Err IndexError.
Proof. intros L. unfold scale_bandwidth. fold (column x). now rewrite iqrange_short. Qed.

Lemma bandwidth_bounds l : 0 <= bandwidth l <= 106 / 100 * sd l * Rpower (INR (List.length l)) (- (1 / 5)).
Proof.
  unfold bandwidth. assert (P : 0 < Rpower (INR (List.length l)) (- (1 / 5))) by apply exp_pos. pose proof (sd_nonneg l) as S.
  set (r := Rpower _ _) in *. destruct (Rle_dec (iqr l) 0) as [H|H].
  - split; [|lra]. apply Rmult_le_pos; [lra|]. apply Rmult_le_pos; lra.
  - assert (0 <= Rmin (sd l) (iqr l / (134 / 100)) <= sd l).
    { split; [|apply Rmin_l]. apply Rmin_glb; auto. apply Rmult_le_pos; [lra|]. left. apply Rinv_0_lt_compat. lra. }
    split.
    + apply Rmult_le_pos; [lra|]. apply Rmult_le_pos; lra.
    + rewrite Rmult_assoc. apply Rmult_le_compat_l; [lra|]. apply Rmult_le_compat_r; lra.
Qed.
Lemma bandwidth_0 l : (2 <= List.length l)%nat -> bandwidth l = 0 <-> (forall x y, In x l -> In y l -> x = y).
Proof.
  intros L. rewrite <- Rvar_0 by auto. unfold bandwidth. set (r := Rpower _ _). assert (P : 0 < r) by apply exp_pos.
  assert (Z : Rvar l = 0 <-> sd l = 0).
  { split; intros H; [unfold sd; rewrite H; apply sqrt_0|]. rewrite <- sd_sq, H. ring. }
  rewrite Z. pose proof (sd_nonneg l) as S. split; intros H.
  - destruct (Req_dec (sd l) 0) as [|N]; auto. exfalso. revert H. apply Rgt_not_eq.
    assert (0 < sd l) by lra. apply Rmult_lt_0_compat; [lra|]. apply Rmult_lt_0_compat; auto.
    destruct (Rle_dec (iqr l) 0); auto. apply Rmin_glb_lt; auto. apply Rmult_lt_0_compat; [lra|]. apply Rinv_0_lt_compat. lra.
  - rewrite H. destruct (Rle_dec (iqr l) 0) as [I|I]; [ring|].
    rewrite Rmin_left; [ring|]. apply Rmult_le_pos; [lra|]. left. apply Rinv_0_lt_compat. lra.
Qed.

Lemma interp_affine a b l : l <> [] -> forall v, interp (affine a b l) v = a * interp l v + b.
Proof.
  induction l as [|x l IH]; [congruence|]. intros _ v. destruct l as [|y l]; [reflexivity|].
  change (affine a b (x :: y :: l)) with ((a * x + b) :: (a * y + b) :: affine a b l). rewrite !QuantFacts.interp_two.
  destruct (Rle_dec v 1); [ring|]. change ((a * y + b) :: affine a b l) with (affine a b (y :: l)). apply IH. discriminate.
Qed.
Lemma iqr_affine a b l : l <> [] -> iqr (affine a b l) = a * iqr l.
Proof.
  intros N. unfold iqr. rewrite !interp_affine by auto. unfold affine. rewrite map_length. ring.
Qed.
Lemma sd_affine a b l : l <> [] -> 0 <= a -> sd (affine a b l) = a * sd l.
Proof.
  intros N A. unfold sd. rewrite Rvar_affine by auto. rewrite sqrt_mult by (try apply Rvar_nonneg; nra). now rewrite sqrt_square.
Qed.
Lemma bandwidth_affine a b l : l <> [] -> 0 < a -> bandwidth (affine a b l) = a * bandwidth l.
Proof.
  intros N A. unfold bandwidth. rewrite iqr_affine, sd_affine by (auto; lra).
  replace (List.length (affine a b l)) with (List.length l) by (unfold affine; now rewrite map_length).
  destruct (Rle_dec (a * iqr l) 0) as [H|H]; destruct (Rle_dec (iqr l) 0) as [K|K]; try nra; try ring.
  replace (a * iqr l / (134 / 100)) with (a * (iqr l / (134 / 100))) by (field).
  rewrite <- RmaxRmult || idtac. unfold Rmin.
  destruct (Rle_dec (a * sd l) (a * (iqr l / (134 / 100)))) as [U|U], (Rle_dec (sd l) (iqr l / (134 / 100))) as [V|V]; try ring.
  - apply Rmult_le_reg_l in U; auto. lra.
  - exfalso. apply U. apply Rmult_le_compat_l; lra.
Qed.

(** the same eight values in two orders *)
Definition order1 : list R := [100; 0; 0; 0; 1; 1; 1; 1].
Definition order2 : list R := [100; 1; 1; 1; 1; 0; 0; 0].
Theorem bandwidth_order : exists x y, Permutation x y /\ (8 <= List.length x)%nat /\ bandwidth x < bandwidth y.
Proof.
  exists order1, order2. split; [|split; [cbn; lia|]].
  - unfold order1, order2. constructor. change [0; 0; 0; 1; 1; 1; 1] with ([0; 0; 0] ++ [1; 1; 1; 1]). apply Permutation_app_comm.
  - assert (T : forall l, List.length l = 8%nat -> iqr l = nth 6 l 0 + 3 / 4 * (nth 7 l 0 - nth 6 l 0) - (nth 2 l 0 + 1 / 4 * (nth 3 l 0 - nth 2 l 0))).
    { intros l L. unfold iqr. rewrite L. replace (INR 8) with 8 by (simpl; lra).
      rewrite (interp_demo l 6 _ (3 / 4)), (interp_demo l 2 _ (1 / 4)) by (try lia; simpl; lra). reflexivity. }
    unfold bandwidth. rewrite !T by reflexivity. cbn [nth order1 order2].
    destruct (Rle_dec (1 + 3 / 4 * (1 - 1) - (0 + 1 / 4 * (0 - 0))) 0) as [H|H]; [lra|].
    destruct (Rle_dec (0 + 3 / 4 * (0 - 0) - (1 + 1 / 4 * (1 - 1))) 0) as [K|K]; [|lra].
    change (List.length order1) with 8%nat. change (List.length order2) with 8%nat. set (r := Rpower _ _). assert (P : 0 < r) by apply exp_pos.
    apply Rmult_lt_compat_l; [lra|]. apply Rmult_lt_compat_r; auto. eapply Rle_lt_trans; [apply Rmin_r|].
    assert (V : Rvar order2 = 1236).
    { unfold Rvar, Rmean, order2. cbn [map Rsum fold_right List.length Nat.sub]. unfold Rsqr. simpl INR. lra. }
    unfold sd. rewrite V. apply Rsqr_incrst_0; [|lra|apply sqrt_pos]. rewrite Rsqr_sqrt by lra. unfold Rsqr. lra.
Qed.
