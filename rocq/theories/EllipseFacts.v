(** Facts about the contour ellipse of plotting/utilities.py. *)

From Coq Require Import ZArith QArith Bool Lia List Reals Lra Qreals.
From Verif Require Import Base Num RVec RMat StatSpec PlotUtil PlotCurves StatsFacts CurveSpec CurveFacts.
Import ListNotations.
Close Scope Q_scope.
Open Scope list_scope.
Open Scope R_scope.

Lemma two_by_two_shape (m : list (list XR)) : two_by_two m = true <-> exists a b c d, m = [[a; b]; [c; d]].
Proof.
  unfold two_by_two. split.
  - destruct m as [|r1 [|r2 [|]]]; cbn [List.length Nat.eqb andb]; try discriminate. cbn [forallb]. intros H.
    apply andb_true_iff in H as [H1 H2]. apply andb_true_iff in H2 as [H2 _]. apply Nat.eqb_eq in H1, H2.
    destruct r1 as [|a [|b [|]]]; try discriminate. destruct r2 as [|c [|d [|]]]; try discriminate. now exists a, b, c, d.
  - intros (a & b & c & d & ->). reflexivity.
Qed.

Lemma isclose_real tol a b : isclose (Fin tol : XR) (Fin a) (Fin b) = Rleb (Rabs (a - b)) (tol + / 10 ^ 5 * Rabs b).
Proof.
  unfold isclose. cbn [nisnan nisinf Num_X xisnan xisinf negb andb].
  rewrite (XR_nQ (1 # 100000) (/ 10 ^ 5)) by (unfold Q2R; cbn [Qnum Qden]; lra).
  now rewrite XR_nsub, !XR_nabs, XR_nmul, XR_nadd, XR_nle.
Qed.

Lemma check_symmetric_real a b c d :
  check_symmetric (finm [[a; b]; [c; d]]) (nQ (1 # 100000000)) = true <-> nearly_equal b c.
Proof.
  unfold check_symmetric. rewrite XR_n0. rewrite (XR_nQ (1 # 100000000) (/ 10 ^ 8)) by (unfold Q2R; cbn [Qnum Qden]; lra).
  cbn [finm fin map List.length range seq forallb nth]. rewrite !isclose_real, !andb_true_r.
  assert (Z : forall x, Rleb (Rabs (x - x)) (/ 10 ^ 8 + / 10 ^ 5 * Rabs x) = true).
  { intros x. apply Rleb_true. replace (x - x) with 0 by ring. rewrite Rabs_R0. pose proof (Rabs_pos x). lra. }
  rewrite !Z, andb_true_r. cbn [andb]. rewrite andb_true_iff, !Rleb_true. unfold nearly_equal.
  rewrite (Rabs_minus_sym c b). tauto.
Qed.

Section Ellipse.
Variables (xcos xsin : XR -> XR) (chol : list (list XR) -> option (list (list XR))).
Hypothesis Hcos : forall t, xcos (Fin t) = Fin (cos t).
Hypothesis Hsin : forall t, xsin (Fin t) = Fin (sin t).
Hypothesis Hchol : factorises chol.
Notation ellipse := (generate_ellipse xcos xsin (Fin PI) chol).

Theorem ellipse_refused mu a b c d ndp : (2 <= List.length mu)%nat ->
  (exists e, ellipse mu (finm [[a; b]; [c; d]]) ndp = Err e) <->
  ~ nearly_equal b c \/ chol (finm [[a; b]; [c; d]]) = None.
Proof.
  intros L. unfold generate_ellipse. set (m := finm [[a; b]; [c; d]]).
  assert (T : two_by_two m = true) by reflexivity. rewrite T. cbn [negb].
  pose proof (check_symmetric_real a b c d) as S. fold m in S.
  destruct (check_symmetric m (nQ (1 # 100000000))); cbn [negb].
  - unfold is_semi_pos_def_chol. destruct (chol m) as [ch|].
    + destruct mu as [|m0 [|m1 mu]]; cbn in L; try lia. cbn [nth_error of_option bind].
      split; [intros (e & H); discriminate|]. intros [H|H]; [tauto|discriminate].
    + split; eauto.
  - split; [|eauto]. intros _. left. intros H. apply S in H. discriminate.
Qed.
Theorem ellipse_shape_refused mu (m : list (list XR)) ndp : ~ (exists a b c d, m = [[a; b]; [c; d]]) -> ellipse mu m ndp = Err SysExit.
Proof.
  intros H. unfold generate_ellipse. destruct (two_by_two m) eqn:T; [|reflexivity]. apply two_by_two_shape in T. contradiction.
Qed.
Theorem ellipse_errors mu (m : list (list XR)) ndp e : (2 <= List.length mu)%nat -> ellipse mu m ndp = Err e -> e = SysExit.
Proof.
  intros L. unfold generate_ellipse. destruct (two_by_two m); cbn [negb]; [|congruence].
  destruct (check_symmetric m _); cbn [negb]; [|congruence]. destruct (is_semi_pos_def_chol chol m); [|congruence].
  destruct mu as [|m0 [|m1 mu]]; cbn in L; try lia. cbn [nth_error of_option bind]. discriminate.
Qed.

Theorem ellipse_points m0 m1 a b c d ndp x y :
  ellipse (fin [m0; m1]) (finm [[a; b]; [c; d]]) ndp = Ok (x, y) ->
  exists px py, x = fin px /\ y = fin py /\ List.length px = ndp /\ List.length py = ndp /\
  exists p q r, p * p = a /\ p * q = c /\ q * q + r * r = d /\
  forall k, (k < ndp)%nat -> let t := INR k * (2 * PI / INR (ndp - 1)) in
    nth k px 0 = m0 + p * cos t /\ nth k py 0 = m1 + q * cos t + r * sin t.
Proof.
  unfold generate_ellipse. set (m := finm [[a; b]; [c; d]]).
  assert (T : two_by_two m = true) by reflexivity. rewrite T. cbn [negb].
  destruct (check_symmetric m (nQ (1 # 100000000))); cbn [negb]; [|discriminate].
  unfold is_semi_pos_def_chol. destruct (chol m) as [ch|] eqn:EC; [|discriminate].
  assert (HS : shape 2 2 [[a; b]; [c; d]]).
  { split; [reflexivity|]. intros ? [<-|[<-|[]]]; reflexivity. }
  destruct (Hchol 2%nat _ _ ltac:(lia) HS EC) as (L & -> & SL & U & G).
  rewrite XR_n0. rewrite (XR_nQ 2 2) by (unfold Q2R; cbn [Qnum Qden]; lra). rewrite XR_nmul.
  destruct (linspace_real 0 (2 * PI) ndp) as (ts & -> & LT & HT).
  rewrite (table_ent _ _ _ SL), transpose_tab by lia. rewrite !nth_finm, !ent_table by lia.
  cbn [nth_error of_option bind fin map]. intros H.
  assert (X : x = fin (map (fun t => m0 + ent L 0 0 * cos t) ts) /\
              y = fin (map (fun t => m1 + ent L 1 0 * cos t + ent L 1 1 * sin t) ts)).
  { injection H as <- <-. unfold fin. rewrite !map_map. split; apply map_ext; intros t; now rewrite Hcos, ?Hsin. }
  clear H. destruct X as [-> ->]. eexists _, _. split; [reflexivity|]. split; [reflexivity|]. rewrite !map_length.
  split; [auto|]. split; [auto|]. exists (ent L 0 0), (ent L 1 0), (ent L 1 1).
  assert (Z : ent L 0 1 = 0) by (apply U; lia).
  assert (G00 := G 0%nat 0%nat ltac:(lia) ltac:(lia)). assert (G10 := G 1%nat 0%nat ltac:(lia) ltac:(lia)).
  assert (G11 := G 1%nat 1%nat ltac:(lia) ltac:(lia)). cbn [Sum] in G00, G10, G11. rewrite Z in G00, G10.
  change (ent [[a; b]; [c; d]] 0 0) with a in G00. change (ent [[a; b]; [c; d]] 1 0) with c in G10. change (ent [[a; b]; [c; d]] 1 1) with d in G11.
  split; [lra|]. split; [lra|]. split; [lra|].
  intros k Hk. set (t := INR k * (2 * PI / INR (ndp - 1))). assert (E : nth k ts 0 = t).
  { rewrite HT by auto. unfold t. unfold Rdiv. ring. }
  rewrite (nth_indep _ 0 ((fun t => m0 + ent L 0 0 * cos t) 0)) by (rewrite map_length; lia).
  rewrite (map_nth (fun t => m0 + ent L 0 0 * cos t)), E. split; [reflexivity|].
  rewrite (nth_indep _ 0 ((fun t => m1 + ent L 1 0 * cos t + ent L 1 1 * sin t) 0)) by (rewrite map_length; lia).
  rewrite (map_nth (fun t => m1 + ent L 1 0 * cos t + ent L 1 1 * sin t)), E. reflexivity.
Qed.

(** Every point satisfies the equation of the ellipse and stays within one standard deviation in each coordinate;
    the curve is closed. *)
Theorem ellipse_curve m0 m1 a b c d ndp x y :
  ellipse (fin [m0; m1]) (finm [[a; b]; [c; d]]) ndp = Ok (x, y) ->
  exists px py, x = fin px /\ y = fin py /\ List.length px = ndp /\ List.length py = ndp /\
  (forall k, (k < ndp)%nat -> let dx := nth k px 0 - m0 in let dy := nth k py 0 - m1 in
     d * dx² - 2 * c * dx * dy + a * dy² = a * d - c² /\ dx² <= a /\ dy² <= d) /\
  ((2 <= ndp)%nat -> nth (ndp - 1) px 0 = nth 0 px 0 /\ nth (ndp - 1) py 0 = nth 0 py 0).
Proof.
  intros H. apply ellipse_points in H as (px & py & -> & -> & L1 & L2 & p & q & r & A & C & D & P).
  exists px, py. do 4 (split; auto). split.
  - intros k Hk. destruct (P k Hk) as [-> ->]. set (t := INR k * _). pose proof (sin2_cos2 t) as S. unfold Rsqr in *.
    set (u := cos t) in *. set (v := sin t) in *. clearbody u v. subst a c d. cbv zeta.
    replace (m0 + p * u - m0) with (p * u) by ring. replace (m1 + q * u + r * v - m1) with (q * u + r * v) by ring.
    split; [|split].
    + transitivity (p * p * (r * r) * (v * v + u * u)); [ring|]. rewrite S. ring.
    + assert (0 <= p * p) by nra. assert (u * u <= 1) by nra. nra.
    + pose proof (Rle_0_sqr (q * v - r * u)) as Q. unfold Rsqr in Q.
      assert (K : (q * u + r * v) * (q * u + r * v) + (q * v - r * u) * (q * v - r * u) = (q * q + r * r) * (v * v + u * u)) by ring.
      rewrite S in K. lra.
  - intros N. destruct (P 0%nat ltac:(lia)) as [-> ->]. destruct (P (ndp - 1)%nat ltac:(lia)) as [-> ->].
    assert (Pn : 0 < INR (ndp - 1)) by (apply lt_0_INR; lia).
    replace (INR (ndp - 1) * (2 * PI / INR (ndp - 1))) with (2 * PI) by (field; lra).
    change (INR 0) with 0. rewrite Rmult_0_l, cos_0, sin_0, cos_2PI, sin_2PI. auto.
Qed.
End Ellipse.
