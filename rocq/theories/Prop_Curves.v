(** Property theorems C66-C69: ellipses, grids, bandwidths and densities of plots. *)

From Coq Require Import ZArith QArith Bool Lia List Reals Lra Permutation.
From Verif Require Import Base Num RVec RMat StatSpec ChainStats PlotUtil PlotCurves StatsSpec StatsFacts CurveSpec CurveFacts EllipseFacts DemoRealRun.
Import ListNotations.
Close Scope Q_scope.
Open Scope list_scope.
Open Scope R_scope.

(** ** C66 *)

Theorem C66_ellipse :
  forall (xcos xsin : XR -> XR) (chol : list (list XR) -> option (list (list XR))),
  (forall t, xcos (Fin t) = Fin (cos t)) -> (forall t, xsin (Fin t) = Fin (sin t)) -> factorises chol ->
  forall m0 m1 a b c d ndp x y,
  generate_ellipse xcos xsin (Fin PI) chol (fin [m0; m1]) (finm [[a; b]; [c; d]]) ndp = Ok (x, y) ->
  exists px py, x = fin px /\ y = fin py /\ List.length px = ndp /\ List.length py = ndp /\
  (forall k, (k < ndp)%nat -> let dx := nth k px 0 - m0 in let dy := nth k py 0 - m1 in
     d * dx² - 2 * c * dx * dy + a * dy² = a * d - c² /\ dx² <= a /\ dy² <= d) /\
  ((2 <= ndp)%nat -> nth (ndp - 1) px 0 = nth 0 px 0 /\ nth (ndp - 1) py 0 = nth 0 py 0).
Proof. exact ellipse_curve. Qed.
Print Assumptions C66_ellipse.

(** The points are equally spaced in angle once the contour is mapped to a circle. *)
Theorem C66_equal_angles :
  forall (xcos xsin : XR -> XR) (chol : list (list XR) -> option (list (list XR))),
  (forall t, xcos (Fin t) = Fin (cos t)) -> (forall t, xsin (Fin t) = Fin (sin t)) -> factorises chol ->
  forall m0 m1 a b c d ndp x y,
  generate_ellipse xcos xsin (Fin PI) chol (fin [m0; m1]) (finm [[a; b]; [c; d]]) ndp = Ok (x, y) ->
  exists px py, x = fin px /\ y = fin py /\ List.length px = ndp /\ List.length py = ndp /\
  exists p q r, p * p = a /\ p * q = c /\ q * q + r * r = d /\
  forall k, (k < ndp)%nat -> let t := INR k * (2 * PI / INR (ndp - 1)) in
    nth k px 0 = m0 + p * cos t /\ nth k py 0 = m1 + q * cos t + r * sin t.
Proof. exact ellipse_points. Qed.
Print Assumptions C66_equal_angles.

Theorem C66_refused :
  forall (xcos xsin : XR -> XR) (chol : list (list XR) -> option (list (list XR))) mu ndp, (2 <= List.length mu)%nat ->
  (forall m, ~ (exists a b c d, m = [[a; b]; [c; d]]) -> generate_ellipse xcos xsin (Fin PI) chol mu m ndp = Err SysExit) /\
  (forall a b c d, (exists e, generate_ellipse xcos xsin (Fin PI) chol mu (finm [[a; b]; [c; d]]) ndp = Err e) <->
     ~ nearly_equal b c \/ chol (finm [[a; b]; [c; d]]) = None) /\
  (forall m e, generate_ellipse xcos xsin (Fin PI) chol mu m ndp = Err e -> e = SysExit).
Proof.
  exact (fun xcos xsin chol mu ndp L =>
    conj (fun m => ellipse_shape_refused xcos xsin chol mu m ndp)
   (conj (fun a b c d => ellipse_refused xcos xsin chol mu a b c d ndp L)
         (fun m e => ellipse_errors xcos xsin chol mu m ndp e L))).
Qed.
Print Assumptions C66_refused.

Definition on_reals (f : R -> R) (v : XR) : XR := match v with Fin t => Fin (f t) | _ => NaN end.
Example C66_case : factorises real_chol /\
  (exists x y, generate_ellipse (on_reals cos) (on_reals sin) (Fin PI) real_chol (fin [1; 2]) (finm [[4; 2]; [2; 5]]) 100 = Ok (x, y)) /\
  (exists e, generate_ellipse (on_reals cos) (on_reals sin) (Fin PI) real_chol (fin [1; 2]) (finm [[4; 5]; [5; 5]]) 100 = Err e).
Proof.
  assert (S : forall b, nearly_equal b b).
  { intros b. unfold nearly_equal. replace (b - b) with 0 by ring. rewrite Rabs_R0. pose proof (Rabs_pos b). split; lra. }
  split; [exact real_chol_ok|]. split.
  - destruct (generate_ellipse (on_reals cos) (on_reals sin) (Fin PI) real_chol (fin [1; 2]) (finm [[4; 2]; [2; 5]]) 100) as [[x y]|e] eqn:E; [eauto|].
    exfalso. assert (X : exists e, generate_ellipse (on_reals cos) (on_reals sin) (Fin PI) real_chol (fin [1; 2]) (finm [[4; 2]; [2; 5]]) 100 = Err e) by eauto.
    apply (ellipse_refused _ _ _ (fin [1; 2])) in X; [|cbn; lia]. destruct X as [X|X]; [now apply X|].
    cbn [finm fin map real_chol] in X. unfold Rltb in X. destruct (Rlt_dec 0 4); [|lra]. destruct (Rlt_dec 0 (5 - 2 * 2 / 4)); [discriminate|lra].
  - apply ellipse_refused; [cbn; lia|]. right. cbn [finm fin map real_chol]. unfold Rltb. destruct (Rlt_dec 0 4); [|lra].
    destruct (Rlt_dec 0 (5 - 5 * 5 / 4)); [lra|reflexivity].
Qed.

(** ** C67 *)

Theorem C67_many_points :
  forall l npts, (200 < List.length l)%nat ->
  exists lo hi g, least l lo /\ greatest l hi /\ make_x_grid (fin l) npts = Ok (fin g) /\
    evenly (lo - 8 / 100 * (hi - lo)) (hi + 8 / 100 * (hi - lo)) npts g.
Proof. exact grid_many. Qed.
Print Assumptions C67_many_points.

Theorem C67_few_points :
  forall l npts, (2 <= List.length l <= 200)%nat ->
  exists g, make_x_grid (fin l) npts = Ok (fin g) /\ evenly (Rmean l - 4 * sd l) (Rmean l + 4 * sd l) npts g.
Proof. exact grid_few. Qed.
Print Assumptions C67_few_points.

(** All values lie within the grid if there are no more than 17 or more than 200 of them ... *)
Theorem C67_values_covered_partial :
  forall l npts, (2 <= npts)%nat -> (2 <= List.length l <= 17 \/ 200 < List.length l)%nat ->
  exists g, make_x_grid (fin l) npts = Ok (fin g) /\ List.length g = npts /\
    forall x, In x l -> nth 0 g 0 <= x <= nth (npts - 1) g 0.
Proof.
  intros l npts N [L|L].
  - destruct (grid_few l npts) as (g & E & G); [lia|]. exists g. split; auto. split; [apply G|]. intros x X.
    destruct (evenly_ends _ _ _ _ G N) as [-> ->]. now apply few_points_covered.
  - destruct (grid_many l npts L) as (lo & hi & g & [M1 M2] & [M3 M4] & E & G). exists g. split; auto. split; [apply G|].
    intros x X. destruct (evenly_ends _ _ _ _ G N) as [-> ->]. specialize (M2 x X). specialize (M4 x X). lra.
Qed.
Print Assumptions C67_values_covered_partial.

(** ... and not in general for any number from 18 to 200. *)
Theorem C67_refuted_values_covered :
  forall n npts, (18 <= n <= 200)%nat -> (2 <= npts)%nat ->
  exists l x g, List.length l = n /\ In x l /\ make_x_grid (fin l) npts = Ok (fin g) /\ nth (npts - 1) g 0 < x.
Proof.
  intros n npts N NP. destruct (spike_outside n) as [L H]; [lia|]. destruct (grid_few (spike n) npts) as (g & E & G); [lia|].
  exists (spike n), 1, g. split; auto. split; [now left|]. split; auto. destruct (evenly_ends _ _ _ _ G NP) as [_ ->]. exact H.
Qed.
Print Assumptions C67_refuted_values_covered.

Theorem C67_single_value_and_none :
  (forall npts, make_x_grid (@nil XR) npts = Err ValueError) /\
  (forall x npts, (2 <= npts)%nat ->
   exists g, make_x_grid (fin [x]) npts = Ok g /\ List.length g = npts /\ forall v, In v g -> v = NaN).
Proof. exact (conj grid_empty grid_single). Qed.
Print Assumptions C67_single_value_and_none.

Example C67_case : (2 <= List.length [1; 2; 4] <= 17)%nat /\ (200 < List.length (spike 201))%nat /\
  exists g, make_x_grid (fin (spike 201)) 100 = Ok (fin g) /\ nth 0 g 0 = - (8 / 100) /\ nth 99 g 0 = 1 + 8 / 100.
Proof.
  assert (L : List.length (spike 201) = 201%nat) by (vm_compute; reflexivity).
  split; [cbn; lia|]. split; [rewrite L; lia|]. destruct (grid_many (spike 201) 100) as (lo & hi & g & [M1 M2] & [M3 M4] & E & G); [rewrite L; lia|].
  exists g. split; auto. destruct (evenly_ends _ _ _ _ G) as [A B]; [lia|]. change (100 - 1)%nat with 99%nat in B. rewrite A, B.
  assert (V : forall v, In v (spike 201) -> v = 1 \/ v = 0).
  { intros v [<-|I]; auto. apply repeat_spec in I. auto. }
  assert (O : In 1 (spike 201)) by (now left). assert (Z : In 0 (spike 201)) by (right; now left).
  assert (hi = 1) by (pose proof (M4 _ O); destruct (V _ M3); lra). assert (lo = 0) by (pose proof (M2 _ Z); destruct (V _ M1); lra).
  subst. split; lra.
Qed.

(** ** C68 *)

Theorem C68_bandwidth_partial :
  forall l, (8 <= List.length l)%nat ->
  exists s, scale_bandwidth (fin l) = Ok (Fin s) /\
    (let n := INR (List.length l) in let q := QuantSpec.interp l (3 * (n + 1) / 4) - QuantSpec.interp l ((n + 1) / 4) in
     s = 106 / 100 * ((if Rle_dec q 0 then sd l else Rmin (sd l) (q / (134 / 100))) * Rpower n (- (1 / 5)))) /\
    0 <= s <= 106 / 100 * sd l * Rpower (INR (List.length l)) (- (1 / 5)) /\
    (s = 0 <-> (forall x y, In x l -> In y l -> x = y)) /\
    forall a b, 0 < a -> scale_bandwidth (fin (affine a b l)) = Ok (Fin (a * s)).
Proof.
  intros l L. exists (bandwidth l). split; [now apply bandwidth_value|]. split; [reflexivity|]. split; [apply bandwidth_bounds|].
  split; [apply bandwidth_0; lia|]. intros a b A. rewrite bandwidth_value by (unfold affine; rewrite map_length; auto).
  rewrite bandwidth_affine; auto. intros ->. cbn in L. lia.
Qed.
Print Assumptions C68_bandwidth_partial.

Theorem C68_refuted_short : forall x : list XR, (List.length x < 8)%nat -> scale_bandwidth x = Err IndexError.
Proof. exact bandwidth_short. Qed.
Print Assumptions C68_refuted_short.

Theorem C68_refuted_order :
  exists x y s t, Permutation x y /\ scale_bandwidth (fin x) = Ok (Fin s) /\ scale_bandwidth (fin y) = Ok (Fin t) /\ s < t.
Proof.
  destruct bandwidth_order as (x & y & P & L & H). exists x, y, (bandwidth x), (bandwidth y). split; auto.
  split; [now apply bandwidth_value|]. split; [|auto]. apply bandwidth_value. now rewrite <- (Permutation_length P).
Qed.
Print Assumptions C68_refuted_order.

Example C68_case : (8 <= List.length order1)%nat /\ exists s, scale_bandwidth (fin order1) = Ok (Fin s) /\ 0 < s.
Proof.
  split; [cbn; lia|]. destruct (C68_bandwidth_partial order1) as (s & E & _ & B & Z & _); [cbn; lia|]. exists s. split; auto.
  destruct (Req_dec s 0) as [H|H]; [|lra]. assert (K : 100 = 1); [|lra]. apply (proj1 Z H); cbn; tauto.
Qed.

(** ** C69 *)

Theorem C69_density :
  forall x mu v, 0 < v ->
  gaussian_density_function (Fin PI : XR) (Fin x) (Fin mu) (Fin v) = Ok (Fin (normal_density x mu v)) /\
  0 < normal_density x mu v /\ normal_density (mu + x) mu v = normal_density (mu - x) mu v /\
  (forall y, Rabs (x - mu) < Rabs (y - mu) -> normal_density y mu v < normal_density x mu v).
Proof.
  intros x mu v V. split; [now apply density_value|]. destruct (density_shape x x mu v V) as (A & B & _).
  split; auto. split; auto. intros y. now apply density_shape.
Qed.
Print Assumptions C69_density.

Theorem C69_refused : forall x mu v, v <= 0 ->
  exists e, gaussian_density_function (Fin PI : XR) (Fin x) (Fin mu) (Fin v) = Err e.
Proof. exact density_refused. Qed.
Print Assumptions C69_refused.

Example C69_case : gaussian_density_function (Fin PI : XR) (Fin 3) (Fin 3) (Fin (/ (2 * PI))) = Ok (Fin 1).
Proof.
  pose proof PI_RGT_0. assert (V : 0 < / (2 * PI)) by (apply Rinv_0_lt_compat; lra).
  destruct (C69_density 3 3 (/ (2 * PI)) V) as [-> _]. do 2 f_equal. unfold normal_density.
  replace (2 * PI * / (2 * PI)) with 1 by (field; lra). rewrite sqrt_1. replace (3 - 3) with 0 by ring. unfold Rsqr.
  replace (- (0 * 0) / (2 * / (2 * PI))) with 0 by (field; lra). rewrite exp_0. lra.
Qed.
