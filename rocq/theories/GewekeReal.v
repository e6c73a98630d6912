(** Geweke's diagnostic on real chains, with the Hanning window. *)

From Coq Require Import ZArith QArith Qround Bool Lia List Reals Lra Arith Qreals.
From Verif Require Import Base Num ChainFiles ChainStats RVec StatsSpec StatsFacts BatchFacts BatchReal GewekeFacts.
Import ListNotations.
Close Scope Q_scope.
Open Scope list_scope.
Open Scope R_scope.

(** line 305: [0.5*(1-np.cos(2*np.pi*np.arange(1, nw+1)/(nw+1)))] *)
Definition hann (nw : nat) : list R := map (fun i => / 2 * (1 - cos (2 * PI * INR i / INR (nw + 1)))) (seq 1 nw).

Lemma hann_pos nw x : In x (hann nw) -> 0 < x.
Proof.
  intros I. apply in_map_iff in I as (i & <- & I). apply in_seq in I.
  assert (P := PI_RGT_0). assert (0 < INR i) by (apply lt_0_INR; lia). assert (INR i < INR (nw + 1)) by (apply lt_INR; lia).
  set (t := 2 * PI * INR i / INR (nw + 1)).
  assert (T : 0 < t < 2 * PI).
  { unfold t. split.
    - apply Rdiv_lt_0_compat; [|lra]. apply Rmult_lt_0_compat; lra.
    - apply Rmult_lt_reg_r with (INR (nw + 1)); [lra|]. unfold Rdiv. rewrite Rmult_assoc, Rinv_l by lra. rewrite Rmult_1_r.
      apply Rmult_lt_compat_l; lra. }
  assert (cos t < 1); [|lra].
  assert (E : t = 2 * (t / 2)) by field. rewrite E, cos_2a_sin. assert (0 < sin (t / 2)) by (apply sin_gt_0; lra). nra.
Qed.

Lemma hann_length nw : length (hann nw) = nw. Proof. unfold hann. now rewrite map_length, seq_length. Qed.

(** real counterpart of the spectral estimate at frequency zero *)
Definition spec0 (x : list R) : R :=
  let n := length x in let nw := (n / 4)%nat in let st := (nw - nw / 2)%nat in let k := ((n - nw / 2) / st)%nat in
  Rsum (map (fun i => (Rdot (hann nw) (slice (i * st) (i * st + nw) x))²) (seq 0 k)) / (INR k * Rsum (map Rsqr (hann nw))).

Lemma fold_add_fin {A} (f : A -> R) l : forall a, fold_left (fun y i => @nadd XR _ y (Fin (f i))) l (Fin a) = Fin (a + Rsum (map f l)).
Proof.
  induction l as [|x l IH]; intros a; cbn [fold_left map Rsum fold_right]; [f_equal; lra|].
  rewrite XR_nadd, IH. f_equal. unfold Rsum. lra.
Qed.

Lemma windows_pos n : (4 <= n)%nat -> (1 <= n / 4 /\ n / 4 / 2 < n / 4 /\ 1 <= (n - n / 4 / 2) / (n / 4 - n / 4 / 2))%nat.
Proof.
  intros L. assert (A : (1 <= n / 4)%nat) by (apply Nat.div_le_lower_bound; lia).
  assert (B : (n / 4 / 2 < n / 4)%nat) by (apply Nat.div_lt; lia).
  assert (n / 4 < n)%nat by (apply Nat.div_lt; lia). repeat split; auto. apply Nat.div_le_lower_bound; lia.
Qed.

Lemma kmu_pos n : (4 <= n)%nat -> 0 < INR ((n - n / 4 / 2) / (n / 4 - n / 4 / 2)) * Rsum (map Rsqr (hann (n / 4))).
Proof.
  intros L. destruct (windows_pos n L) as (A & B & C). apply Rmult_lt_0_compat; [apply lt_0_INR; exact C|].
  assert (P := hann_pos (n / 4)). assert (Ln := hann_length (n / 4)).
  destruct (hann (n / 4)) as [|w ws]; [cbn [length] in Ln; lia|]. cbn [map Rsum fold_right].
  assert (0 < w) by (apply P; now left). assert (0 <= Rsum (map Rsqr ws)).
  { apply Rsum_nonneg. intros x I. apply in_map_iff in I as (y & <- & _). apply Rle_0_sqr. }
  unfold Rsum in *. assert (0 < w²) by (unfold Rsqr; nra). lra.
Qed.

Lemma spec0_nonneg x : 0 <= spec0 x.
Proof.
  unfold spec0. cbv zeta. destruct (Nat.lt_ge_cases (length x) 4) as [H|H].
  - rewrite (Nat.div_small _ 4) by auto. unfold hann. cbn [seq map Rsum fold_right]. unfold Rdiv. rewrite Rmult_0_r, Rinv_0. lra.
  - unfold Rdiv. apply Rmult_le_pos.
    + apply Rsum_nonneg. intros y I. apply in_map_iff in I as (i & <- & _). apply Rle_0_sqr.
    + apply Rlt_le, Rinv_0_lt_compat, kmu_pos, H.
Qed.

Lemma slice_fin a e x : slice a e (fin x) = fin (slice a e x).
Proof. unfold slice, fin. now rewrite skipn_map, firstn_map. Qed.

Lemma psd0_fin x : (4 <= length x)%nat -> psd0 (fun nw => fin (hann nw)) (fin x) = Ok (Fin (spec0 x)).
Proof.
  intros L. destruct (windows_pos _ L) as (A & B & C). assert (K := kmu_pos _ L). unfold psd0. rewrite fin_length.
  replace (_ - _ =? 0)%nat with false by (symmetry; apply Nat.eqb_neq; lia).
  unfold spec0. cbv zeta. set (nw := (length x / 4)%nat) in *. set (st := (nw - nw / 2)%nat) in *. set (k := ((length x - nw / 2) / st)%nat) in *.
  f_equal.
  assert (EW : vsum (map nsqr (fin (hann nw))) = Fin (Rsum (map Rsqr (hann nw)))).
  { rewrite <- vsum_fin. f_equal. unfold fin. rewrite !map_map. reflexivity. }
  assert (NW : 0 <= Rsum (map Rsqr (hann nw))).
  { apply Rsum_nonneg. intros y I. apply in_map_iff in I as (z & <- & _). apply Rle_0_sqr. }
  rewrite EW, XR_nnat, XR_nsqrt, XR_nsqr, XR_nmul, sqrt_sqrt by auto. rewrite XR_n1, XR_n0, XR_ndiv by lra.
  assert (EF : forall l a, fold_left (fun y i => nadd y (nsqr (nabs (vsum (vmul (fin (hann nw)) (slice (i * st) (i * st + nw) (fin x))))))) l (Fin a) =
               fold_left (fun y i => @nadd XR _ y (Fin (Rdot (hann nw) (slice (i * st) (i * st + nw) x))²)) l (Fin a)).
  { induction l as [|i l IH]; intros a; cbn [fold_left]; auto.
    rewrite slice_fin. change (vsum (vmul ?u ?v)) with (vdot u v). rewrite vdot_fin, XR_nabs, XR_nsqr.
    change (Rabs ?r * Rabs ?r) with (Rabs r)². rewrite <- Rsqr_abs, XR_nadd. apply IH. }
  unfold range. rewrite EF, fold_add_fin, XR_nmul. f_equal. unfold Rdiv. ring.
Qed.

Lemma spectral_fin npar x : (4 <= length x)%nat ->
  spectral_estimate_for_variance (fun nw => fin (hann nw)) npar (finm x) = Ok (fin (map (fun j => spec0 (Rcol j x)) (seq 0 npar))).
Proof.
  intros L. unfold spectral_estimate_for_variance.
  rewrite (mapM_ok (fun j => psd0 (fun nw => fin (hann nw)) (col j (finm x))) (fun j => Fin (spec0 (Rcol j x)))).
  - unfold fin, range. now rewrite map_map.
  - intros j _. rewrite col_fin. apply psd0_fin. now rewrite Rcol_length.
Qed.

(** variance of the difference of the means, for column [j] *)
Definition gvar (j : nat) (first last : list (list R)) : R :=
  spec0 (Rcol j first) / INR (length first) + spec0 (Rcol j last) / INR (length last).

Definition zscore (j : nat) (first last : list (list R)) : XR :=
  ndiv (Fin (Rmean (Rcol j first) - Rmean (Rcol j last))) (Fin (sqrt (gvar j first last))).

Lemma map2_map_seq {A B C} (f : A -> B -> C) g h n s : map2 f (map g (seq s n)) (map h (seq s n)) = map (fun j => f (g j) (h j)) (seq s n).
Proof. revert s. induction n; intros s; cbn [seq map map2]; [reflexivity|]. f_equal. apply IHn. Qed.

Theorem geweke_real cdf npar first mid last a b :
  let chain := first ++ mid ++ last in
  (0 <= a)%Q -> (0 <= b)%Q -> (b <= 1)%Q ->
  portion a (length chain) = length first -> portion b (length chain) = length last ->
  (4 <= length first < length last)%nat ->
  geweke (fun nw => fin (hann nw)) cdf npar (finm chain) a b =
  let z := map (fun j => zscore j first last) (seq 0 npar) in
  Ok (z, map (fun v => nmul (nnat 2) (nsub n1 (cdf (nabs v)))) z).
Proof.
  intros chain A B B1 Pa Pb L. unfold geweke. rewrite finm_length, Pa, Pb.
  assert (Ec : finm chain = finm first ++ finm mid ++ finm last) by (unfold chain, finm; now rewrite !map_app).
  assert (El : length chain = (length first + (length mid + length last))%nat) by (unfold chain; now rewrite !app_length).
  destruct (slice_segments (finm first) (finm mid) (finm last)) as [S1 S2]. cbv zeta in S1, S2.
  rewrite <- Ec in S1, S2. rewrite (finm_length first) in S1. rewrite (finm_length chain), (finm_length last) in S2.
  replace (length chain <=? _)%nat with false by (symmetry; apply Nat.leb_gt; lia).
  rewrite S1, S2. cbv zeta. rewrite !spectral_fin by lia. cbn [bind].
  replace (length chain - (length chain - length last))%nat with (length last) by lia.
  match goal with |- Ok (?x, map ?f ?x) = Ok (?y, map ?f ?y) => assert (E : x = y); [|now rewrite E] end.
  unfold range, fin. rewrite !map_map, !map2_map_seq.
  apply map_ext. intros j. rewrite !col_fin. unfold zscore, gvar.
  assert (first <> []) by (intros ->; cbn in L; lia). assert (last <> []) by (intros ->; cbn in L; lia).
  rewrite !mean_fin by (now apply Rcol_nonempty). rewrite !XR_nnat.
  assert (0 < INR (length first)) by (apply lt_0_INR; lia). assert (0 < INR (length last)) by (apply lt_0_INR; lia).
  rewrite !XR_ndiv by lra. rewrite XR_nadd, XR_nsub, XR_nsqrt; auto.
  assert (0 <= spec0 (Rcol j first)) by apply spec0_nonneg. assert (0 <= spec0 (Rcol j last)) by apply spec0_nonneg.
  apply Rplus_le_le_0_compat; apply Rmult_le_pos; auto; apply Rlt_le, Rinv_0_lt_compat; auto.
Qed.

(** ** Units *)

Lemma Rdot_scal_r c : forall u v, Rdot u (map (fun x => c * x) v) = c * Rdot u v.
Proof.
  unfold Rdot. induction u as [|a u IH]; intros [|b v]; simpl; try lra. specialize (IH v). unfold Rsum in *. rewrite IH. ring.
Qed.

Lemma slice_map {A B} (f : A -> B) a e l : slice a e (map f l) = map f (slice a e l).
Proof. unfold slice. now rewrite skipn_map, firstn_map. Qed.

Lemma spec0_scal c x : spec0 (map (fun v => c * v) x) = c * c * spec0 x.
Proof.
  unfold spec0. cbv zeta. rewrite map_length.
  rewrite (map_ext (fun i => (Rdot _ (slice _ _ (map _ x)))²)
    (fun i => c * c * (Rdot (hann (length x / 4)) (slice (i * (length x / 4 - length x / 4 / 2)) (i * (length x / 4 - length x / 4 / 2) + length x / 4) x))²)).
  - rewrite Rsum_map_scal. unfold Rdiv. ring.
  - intros i. rewrite slice_map, Rdot_scal_r. unfold Rsqr. ring.
Qed.

Lemma zscore_scal c j first last : 0 < c -> 0 < gvar j first last -> zscore j (mscal c first) (mscal c last) = zscore j first last.
Proof.
  intros C V. unfold zscore.
  assert (EV : gvar j (mscal c first) (mscal c last) = c * c * gvar j first last).
  { unfold gvar. rewrite !Rcol_mscal, !spec0_scal. unfold mscal. rewrite !map_length. unfold Rdiv. ring. }
  rewrite EV, !Rcol_mscal, !Rmean_scal.
  assert (0 < c * c) by nra. rewrite sqrt_mult by lra. rewrite (sqrt_square c) by lra.
  assert (0 < sqrt (gvar j first last)) by (now apply sqrt_lt_R0).
  rewrite !XR_ndiv by nra. f_equal. field. split; lra.
Qed.

(** Multiplying the chain by a positive constant does not change the diagnostic. *)
Theorem geweke_scale cdf npar first mid last a b c :
  let chain := first ++ mid ++ last in
  (0 <= a)%Q -> (0 <= b)%Q -> (b <= 1)%Q ->
  portion a (length chain) = length first -> portion b (length chain) = length last ->
  (4 <= length first < length last)%nat -> 0 < c -> (forall j, (j < npar)%nat -> 0 < gvar j first last) ->
  geweke (fun nw => fin (hann nw)) cdf npar (finm (mscal c chain)) a b =
  geweke (fun nw => fin (hann nw)) cdf npar (finm chain) a b.
Proof.
  intros chain A B B1 Pa Pb L C V.
  assert (Em : mscal c chain = mscal c first ++ mscal c mid ++ mscal c last) by (unfold chain, mscal; now rewrite !map_app).
  rewrite Em. unfold chain. rewrite (geweke_real cdf npar first mid last a b) by auto.
  assert (LL : forall m, length (mscal c m) = length m) by (intros; apply map_length).
  rewrite (geweke_real cdf npar (mscal c first) (mscal c mid) (mscal c last) a b); auto.
  - cbv zeta. assert (E : map (fun j => zscore j (mscal c first) (mscal c last)) (seq 0 npar) = map (fun j => zscore j first last) (seq 0 npar)).
    { apply map_ext_in. intros j I. apply in_seq in I. apply zscore_scal; auto. apply V. lia. }
    now rewrite E.
  - rewrite <- Em. now rewrite !LL.
  - rewrite <- Em. now rewrite !LL.
  - rewrite !LL. auto.
Qed.

(** ** The origin matters: a chain and the same chain shifted by -1 *)

Definition g_first := repeat [1] 4.
Definition g_mid := repeat [0] 3.
Definition g_last := repeat [0] 5.

Lemma hann_1 : hann 1 = [1].
Proof. unfold hann. cbn [seq map]. f_equal. replace (2 * PI * INR 1 / INR (1 + 1)) with PI by (simpl; field). rewrite cos_PI. lra. Qed.

Lemma spec0_4 a b c d : spec0 [a; b; c; d] = (a * a + b * b + c * c + d * d) / 4.
Proof.
  unfold spec0. cbn [length]. change (4 / 4)%nat with 1%nat. change (1 - 1 / 2)%nat with 1%nat. change ((4 - 1 / 2) / 1)%nat with 4%nat.
  rewrite hann_1. cbn. unfold Rdot, Rsum, Rsqr; cbn. field.
Qed.
Lemma spec0_5 a b c d e : spec0 [a; b; c; d; e] = (a * a + b * b + c * c + d * d + e * e) / 5.
Proof.
  unfold spec0. cbn [length]. change (5 / 4)%nat with 1%nat. change (1 - 1 / 2)%nat with 1%nat. change ((5 - 1 / 2) / 1)%nat with 5%nat.
  rewrite hann_1. cbn. unfold Rdot, Rsum, Rsqr; cbn. field.
Qed.

Lemma zscore_demo : zscore 0 g_first g_last = Fin 2.
Proof.
  unfold zscore, gvar, g_first, g_last, Rcol, Rmean. cbn [repeat map nth length Rsum fold_right].
  rewrite spec0_4, spec0_5.
  replace ((1 * 1 + 1 * 1 + 1 * 1 + 1 * 1) / 4 / INR 4 + (0 * 0 + 0 * 0 + 0 * 0 + 0 * 0 + 0 * 0) / 5 / INR 5) with (/ 2 * / 2) by (simpl; field).
  rewrite sqrt_square by lra. rewrite XR_ndiv by lra. f_equal. simpl. field.
Qed.

Lemma zscore_demo_shift : zscore 0 (map (map (fun x => x + -1)) g_first) (map (map (fun x => x + -1)) g_last) = Fin (sqrt 5).
Proof.
  unfold zscore, gvar, g_first, g_last, Rcol, Rmean. cbn [repeat map nth length Rsum fold_right].
  rewrite spec0_4, spec0_5.
  replace (((1 + -1) * (1 + -1) + (1 + -1) * (1 + -1) + (1 + -1) * (1 + -1) + (1 + -1) * (1 + -1)) / 4 / INR 4 +
     ((0 + -1) * (0 + -1) + (0 + -1) * (0 + -1) + (0 + -1) * (0 + -1) + (0 + -1) * (0 + -1) + (0 + -1) * (0 + -1)) / 5 / INR 5) with (/ 5) by (simpl; field).
  assert (S : sqrt (/ 5) = / sqrt 5) by apply sqrt_inv.
  assert (0 < sqrt 5) by (apply sqrt_lt_R0; lra). rewrite S, XR_ndiv by (apply Rinv_neq_0_compat; lra). f_equal. simpl. field. lra.
Qed.

Theorem geweke_shift_differs cdf :
  exists chain a b d z z' p p',
    geweke (fun nw => fin (hann nw)) cdf 1 (finm chain) a b = Ok ([Fin z], p) /\
    geweke (fun nw => fin (hann nw)) cdf 1 (finm (map (map (fun x => x + d)) chain)) a b = Ok ([Fin z'], p') /\ z <> z'.
Proof.
  exists (g_first ++ g_mid ++ g_last), (1 # 3)%Q, (5 # 12)%Q, (-1), 2, (sqrt 5).
  rewrite (geweke_real cdf 1 g_first g_mid g_last); try reflexivity; try (cbn; lia); try discriminate.
  rewrite !map_app.
  rewrite (geweke_real cdf 1 (map (map (fun x => x + -1)) g_first) (map (map (fun x => x + -1)) g_mid) (map (map (fun x => x + -1)) g_last));
    try reflexivity; try (cbn; lia); try discriminate.
  cbn [seq map]. rewrite zscore_demo, zscore_demo_shift. do 2 eexists. split; [reflexivity|]. split; [reflexivity|].
  intros E. assert (H : 2 * 2 = 5); [|lra]. rewrite E at 1 2. apply sqrt_sqrt. lra.
Qed.
