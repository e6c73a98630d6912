(** The recursive mean and covariance of points measured from another origin, and the adaptation made from them. *)

From Coq Require Import ZArith QArith Bool Lia List String Reals Lra Qreals.
From Verif Require Import Base Num Samplers Adapt Settings Simulator SamplerFacts RunSpec ScaleNum ScaleSpec ScaleFacts OriginSpec OriginFacts.
Import ListNotations.
Close Scope Q_scope.
Close Scope R_scope.
Open Scope list_scope.
Open Scope nat_scope.
Open Scope res_scope.

Definition one : XR := nmul n1 n1.
Lemma one_val : one = Fin 1%R.
Proof. unfold one, n1. cbn [nmul nQ Num_X xmul amul aQ Arith_R]. rewrite Q2R1. f_equal. lra. Qed.
Lemma mul_one x : nmul x one = x.
Proof.
  rewrite one_val. assert (S1 : xsgninf 1%R = (PInf : XR)).
  { unfold xsgninf. cbn [alt Arith_R]. rewrite a0_0. unfold Rltb. destruct (Rlt_dec 0 1); [reflexivity|lra]. }
  destruct x; cbn [nmul Num_X xmul amul Arith_R]; rewrite ?S1; try reflexivity. f_equal. lra.
Qed.
Lemma fold_shift v : forall c x, fold_left nadd v (sh c x) = sh c (fold_left nadd v x).
Proof. induction v as [|y v IH]; intros c x; cbn [fold_left]; [reflexivity|]. now rewrite add_shift_l, IH. Qed.
Lemma sh_sh a b x : sh a (sh b x) = sh (b + a) x.
Proof. destruct x; cbn; auto. f_equal. lra. Qed.
Lemma vsum_shift c v : vsum (map (sh c) v) = sh (INR (List.length v) * c) (vsum v).
Proof.
  unfold vsum. generalize (n0 : XR). induction v as [|y v IH]; intros x; cbn [map fold_left List.length].
  - cbn [INR]. now rewrite Rmult_0_l, sh_0.
  - rewrite add_shift, fold_shift, IH, sh_sh, S_INR. f_equal. ring.
Qed.
Lemma vmul_ones v : vmul v (repeat one (List.length v)) = v.
Proof. induction v as [|x v IH]; cbn [List.length repeat vmul map2]; [reflexivity|]. rewrite mul_one. f_equal. exact IH. Qed.
Lemma vsum_ones n : vsum (repeat one n) = Fin (INR n).
Proof.
  assert (H : forall n a, fold_left nadd (repeat one n) (Fin a) = Fin (a + INR n)%R).
  { induction n0 as [|m IH]; intros a.
    - cbn [repeat fold_left INR]. now rewrite Rplus_0_r.
    - cbn [repeat fold_left]. rewrite one_val at 2. cbn [nadd Num_X xadd aadd Arith_R]. rewrite IH, S_INR. f_equal. ring. }
  unfold vsum, n0. cbn [nQ Num_X aQ Arith_R]. rewrite Q2R0, H. f_equal. ring.
Qed.
Lemma mean_shift n c s : n <> 0 -> nmul (sh (INR n * c) s) (ninv (Fin (INR n))) = sh c (nmul s (ninv (Fin (INR n)))).
Proof.
  intros N. assert (P : (0 < INR n)%R) by (apply lt_0_INR; lia).
  assert (I : ninv (Fin (INR n)) = Fin (/ INR n)%R).
  { unfold ninv, n1. cbn [ndiv nQ Num_X xdiv adiv aeq aQ Arith_R]. rewrite a0_0. unfold Reqb. destruct (Req_EM_T (INR n) 0); [lra|].
    rewrite Q2R1. f_equal. field. lra. }
  rewrite I. assert (Pi : (0 < / INR n)%R) by now apply Rinv_0_lt_compat.
  assert (S1 : xsgninf (/ INR n)%R = (PInf : XR)).
  { unfold xsgninf. cbn [alt Arith_R]. rewrite a0_0. unfold Rltb. destruct (Rlt_dec 0 (/ INR n)); [reflexivity|lra]. }
  destruct s; cbn [sh nmul Num_X xmul amul Arith_R]; rewrite ?S1; try reflexivity. cbn [sh]. f_equal. field. lra.
Qed.

Section Mean.
Variable ds : list R.
Notation npar := (List.length ds).
Definition wide (x : list (list XR)) : Prop := Forall (fun r => List.length r = npar) x.
Definition mstat (t : list (list XR) * list XR * XR) : list (list XR) * list XR * XR := let '(c, m, w) := t in (c, mv ds m, w).

Lemma ncols_mv x : ncols (map (mv ds) x) = ncols x.
Proof. destruct x; cbn; auto. apply mv_length. Qed.
Lemma col_mv x i : wide x -> i < npar -> col i (map (mv ds) x) = map (sh (nth i ds 0%R)) (col i x).
Proof.
  intros W I. unfold col. rewrite !map_map. apply map_ext_in. intros r Hr. apply mv_nth.
  unfold wide in W. rewrite Forall_forall in W. rewrite (W r Hr). exact I.
Qed.
Lemma col_len (x : list (list XR)) i : List.length (col i x) = List.length x.
Proof. apply map_length. Qed.
Lemma map_seq_mv (f : nat -> XR) d k : mv d (map f (seq k (List.length d))) = map (fun i => sh (nth (i - k) d 0%R) (f i)) (seq k (List.length d)).
Proof.
  revert k. induction d as [|r d IH]; intros k; cbn [List.length seq map mv]; [reflexivity|]. rewrite Nat.sub_diag. cbn [nth]. f_equal.
  rewrite IH. apply map_ext_in. intros i Hi. apply in_seq in Hi. replace (i - k) with (S (i - S k)) by lia. reflexivity.
Qed.
Lemma wmean_mv x : wide x -> x <> [] ->
  wmean (map (mv ds) x) (repeat one (List.length x)) (vsum (repeat one (List.length x))) npar =
  mv ds (wmean x (repeat one (List.length x)) (vsum (repeat one (List.length x))) npar).
Proof.
  intros W N. unfold wmean, range. rewrite map_seq_mv. apply map_ext_in. intros i Hi. apply in_seq in Hi. rewrite Nat.sub_0_r.
  rewrite col_mv by (auto; lia). rewrite <- (col_len x i) at 1. rewrite <- (map_length (sh (nth i ds 0%R)) (col i x)), vmul_ones.
  rewrite <- (col_len x i) at 2. rewrite vmul_ones, vsum_shift, col_len, vsum_ones. apply mean_shift. destruct x; [congruence|discriminate].
Qed.
Lemma entry_mv x w m ws i j : wide x -> List.length m = npar -> i < npar -> j < npar ->
  cov_entry (map (mv ds) x) w (mv ds m) ws i j = cov_entry x w m ws i j.
Proof.
  intros W L I J. unfold cov_entry. rewrite !col_mv by auto. rewrite !mv_nth by lia. rewrite !map_map.
  assert (Q : forall k l, map (fun x0 : XR => nsub (sh (nth k ds 0%R) x0) (sh (nth k ds 0%R) (nth k m n0))) l = map (fun a => nsub a (nth k m n0)) l)
    by (intros; apply map_ext; intros; apply sub_shift).
  now rewrite !Q.
Qed.
Lemma initialize_mv x : wide x -> x <> [] ->
  initialize_covariance_mean_sum (map (mv ds) x) (repeat one (List.length x)) = mstat (initialize_covariance_mean_sum x (repeat one (List.length x))).
Proof.
  intros W N. unfold initialize_covariance_mean_sum. rewrite ncols_mv. assert (NC : ncols x = npar).
  { destruct x as [|r x]; [congruence|]. cbn. now inversion W. }
  rewrite NC, (wmean_mv x W N). cbn [mstat]. f_equal. f_equal. destruct (nlt n1 _); [|reflexivity].
  apply map_ext_in. intros i Hi. apply in_seq in Hi. apply map_ext_in. intros j Hj. apply in_seq in Hj.
  apply entry_mv; auto; try lia. unfold wmean, range. now rewrite map_length, seq_length.
Qed.
Lemma row_mv st xi w : cov_row (mstat st) (mv ds xi, w) = mstat (cov_row st (xi, w)).
Proof. destruct st as [[c m] ws]. cbn [mstat cov_row]. now rewrite vsub_mv, vadd_mv. Qed.
Lemma fold_mv x : forall w st, fold_left cov_row (combine (map (mv ds) x) w) (mstat st) = mstat (fold_left cov_row (combine x w) st).
Proof. induction x as [|r x IH]; intros [|a w] st; cbn [map combine fold_left]; auto. rewrite row_mv. apply IH. Qed.
Lemma update_mv x old : wide x ->
  update_covariance_mean_sum (map (mv ds) x) [n1] (option_map mstat old) = option_map mstat (update_covariance_mean_sum x [n1] old).
Proof.
  intros W. unfold update_covariance_mean_sum. rewrite map_length, ncols_mv. destruct (_ || _)%bool eqn:Z; [reflexivity|].
  assert (N : x <> []) by (intros ->; discriminate). unfold setup_w. change (nmul n1 n1) with one.
  destruct old as [st|]; cbn [option_map]; [now rewrite fold_mv|now rewrite (initialize_mv x W N)].
Qed.

Lemma adaptation_mv (E E' : env XR) c o isimu iiad rej chain chain' ci u np al :
  e_chol E' = e_chol E -> e_inv E' = e_inv E ->
  slice (c_last c) ci chain' = map (mv ds) (slice (c_last c) ci chain) -> wide (slice (c_last c) ci chain) ->
  run_adaptation E' (moved_cov ds c) o isimu iiad rej chain' ci u np al =
  rmap (moved_cov ds) (run_adaptation E c o isimu iiad rej chain ci u np al).
Proof.
  intros EC EI S W.
  assert (ST : cov_stats (moved_cov ds c) = option_map mstat (cov_stats c)).
  { unfold cov_stats. cbn [moved_cov c_covchain c_meanchain c_wsum]. destruct (c_covchain c), (c_meanchain c), (c_wsum c); reflexivity. }
  unfold run_adaptation. rewrite ST.
  cbn [moved_cov c_R c_qcov c_qcov_scale c_no_adapt c_covchain c_meanchain c_wsum c_last].
  destruct (_ <? _)%Z; [reflexivity|]. rewrite S, (update_mv _ _ W).
  set (stats := update_covariance_mean_sum (slice (c_last c) ci chain) [n1] (cov_stats c)).
  assert (UP : forall {A} (f : _ -> A) (g : A), match option_map mstat stats with Some (cv, _, _) => f cv | None => g end = match stats with Some (cv, _, _) => f cv | None => g end)
    by (intros; destruct stats as [[[? ?] ?]|]; reflexivity).
  rewrite rmap_bind. rewrite (UP _ (fun cv => Ok (update_cov_from_covchain cv (c_qcov c) (c_no_adapt c))) (Err AttributeError)).
  apply bind_ext. intros up _. unfold check_for_singular_cov_matrix, adjust_cov_matrix, is_semi_pos_def_chol, update_delayed_rejection. rewrite EC, EI.
  rewrite rmap_bind. apply bind_ext. intros dr _. cbn [rmap]. f_equal. unfold moved_cov. cbn [c_R c_qcov c_qcov_scale c_no_adapt c_covchain c_meanchain c_wsum c_last c_RDR c_invR].
  destruct stats as [[[? ?] ?]|]; reflexivity.
Qed.
End Mean.
