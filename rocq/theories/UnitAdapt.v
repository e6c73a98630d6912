(** The recursive mean and covariance of points measured in other units, and the adaptation made from them. *)

From Coq Require Import ZArith QArith Bool Lia List String Reals Lra Qreals.
From Verif Require Import Base Num Samplers Adapt Settings Simulator SamplerFacts RunSpec ScaleNum ScaleSpec ScaleFacts OriginFacts UnitSpec UnitNum UnitFacts.
Import ListNotations.
Close Scope Q_scope.
Close Scope R_scope.
Open Scope list_scope.
Open Scope nat_scope.
Open Scope res_scope.

Section Mean.
Variable cs : list R.
Hypothesis Hc : posl cs.
Definition ustat (t : list (list XR) * list XR * XR) : list (list XR) * list XR * XR := let '(c, m, w) := t in (both cs c, us cs m, w).

Lemma wmean_us x w ws n : wmean (map (us cs) x) w ws n = us cs (wmean x w ws n).
Proof.
  unfold wmean. rewrite us_range. apply map_ext. intros i. pose proof (pos_nth cs i Hc) as P.
  rewrite col_us, sc_vmul_l, sc_vsum, sc_mul_l by exact P. reflexivity.
Qed.
Lemma map_sub_sc r a l : map (fun y => nsub y (sc r a)) (map (sc r) l) = map (sc r) (map (fun y => nsub y a) l).
Proof. rewrite !map_map. apply map_ext. intros y. apply sc_sub. Qed.
Lemma entry_us x w m ws i j : cov_entry (map (us cs) x) w (us cs m) ws i j = sc (nth i cs 1%R) (sc (nth j cs 1%R) (cov_entry x w m ws i j)).
Proof.
  unfold cov_entry. pose proof (pos_nth cs i Hc) as P. pose proof (pos_nth cs j Hc) as Q.
  rewrite !col_us, !us_nth, !map_sub_sc. rewrite sc_vdot_l by exact P. f_equal. rewrite sc_vmul_l, sc_vscale, sc_vdot_r by exact Q. reflexivity.
Qed.
Lemma initialize_us x w : initialize_covariance_mean_sum (map (us cs) x) w = ustat (initialize_covariance_mean_sum x w).
Proof.
  unfold initialize_covariance_mean_sum. rewrite us_ncols, wmean_us. cbn [ustat]. f_equal. f_equal. destruct (nlt n1 _).
  - rewrite both_table. apply map_ext. intros i. apply map_ext. intros j. rewrite entry_us, !sc_sc. f_equal.
    destruct (Nat.le_gt_cases i j) as [H|H]; [rewrite Nat.max_r, Nat.min_l by exact H|rewrite Nat.max_l, Nat.min_r by lia]; ring.
  - rewrite both_table. apply map_ext. intros i. apply map_ext. intros j. now rewrite !sc_zero.
Qed.
Lemma row_us st xi w : cov_row (ustat st) (us cs xi, w) = ustat (cov_row st (xi, w)).
Proof.
  destruct st as [[c m] ws]. cbn [ustat cov_row]. rewrite us_vsub, us_vscale, us_vadd, outer_both, !mscale_both, madd_both by exact Hc. reflexivity.
Qed.
Lemma fold_us x : forall w st, fold_left cov_row (combine (map (us cs) x) w) (ustat st) = ustat (fold_left cov_row (combine x w) st).
Proof. induction x as [|r x IH]; intros [|a w] st; cbn [map combine fold_left]; auto. rewrite row_us. apply IH. Qed.
Lemma update_us x w old : update_covariance_mean_sum (map (us cs) x) w (option_map ustat old) = option_map ustat (update_covariance_mean_sum x w old).
Proof.
  unfold update_covariance_mean_sum. rewrite map_length, us_ncols. destruct (_ || _)%bool; [reflexivity|].
  destruct old as [st|]; cbn [option_map]; [now rewrite fold_us|now rewrite initialize_us].
Qed.
Lemma ram_us u i eta n at_ al R : update_cov_via_ram u i eta n at_ al (map (us cs) R) = both cs (update_cov_via_ram u i eta n at_ al R).
Proof. unfold update_cov_via_ram. rewrite transpose_us, !matmul_rws, matmul_us by exact Hc. unfold both. reflexivity. Qed.
Lemma covchain_us cv q na : update_cov_from_covchain (both cs cv) (both cs q) na = both cs (update_cov_from_covchain cv q na).
Proof.
  unfold update_cov_from_covchain. rewrite both_ncols, both_length, both_table. apply map_ext. intros i. apply map_ext. intros j.
  destruct (_ || _)%bool; apply both_entry.
Qed.
Lemma adjust_both k a n : (0 < k)%R -> a = Fin 0%R \/ Forall (fun r => r = k) cs /\ n = List.length cs ->
  both cs (mscale a (eye n)) = mscale (sc (k * k) a) (eye n).
Proof.
  intros Hk H.
  assert (T : forall x : XR, mscale x (eye n) = map (fun i => map (fun j => nmul (if i =? j then n1 else n0) x) (range n)) (range n)).
  { intros x. unfold mscale, eye. rewrite map_map. apply map_ext. intros i. unfold vscale. now rewrite map_map. }
  rewrite !T, both_table. apply map_ext_in. intros i Hi. apply map_ext_in. intros j Hj. apply in_seq in Hi, Hj.
  destruct H as [->|[H ->]].
  - assert (Z : forall x, (x = n0 \/ x = n1) -> nmul x (Fin 0%R : XR) = Fin 0%R) by (intros x [->| ->]; unfold n0, n1; cbn [nmul nQ Num_X xmul amul aQ Arith_R]; f_equal; ring).
    assert (S0 : forall r, sc r (Fin 0%R) = Fin 0%R) by (intros r; cbn; f_equal; ring).
    rewrite S0. rewrite !Z by (destruct (i =? j); auto). now rewrite !S0.
  - rewrite Forall_forall in H. rewrite !(H (nth _ cs 1%R)) by (apply nth_In; lia). rewrite sc_mul_r by nra. now rewrite sc_sc.
Qed.

Variables E E' : env XR.
Hypothesis HE : unit_free cs E.
Hypothesis EC : e_chol E' = e_chol E.
Hypothesis EI : e_inv E' = e_inv E.
Notation inv := (rws (map Rinv cs)).

Lemma chol_us A : is_semi_pos_def_chol E' (both cs A) = option_map (map (us cs)) (is_semi_pos_def_chol E A).
Proof.
  unfold is_semi_pos_def_chol. rewrite EC, (uf_chol cs E HE). destruct (e_chol E A) as [L|]; cbn [option_map]; [|reflexivity]. now rewrite transpose_rws.
Qed.
Lemma singular_us k a n A R s : (0 < k)%R -> a = Fin 0%R \/ Forall (fun r => r = k) cs /\ n = List.length cs ->
  check_for_singular_cov_matrix E' (both cs A) (map (us cs) R) n (sc (k * k) a) s = map (us cs) (check_for_singular_cov_matrix E A R n a s).
Proof.
  intros Hk H. unfold check_for_singular_cov_matrix, adjust_cov_matrix. rewrite chol_us. destruct (is_semi_pos_def_chol E A) as [L|]; cbn [option_map]; [now apply mscale_us|].
  rewrite <- (adjust_both k a n Hk H), madd_both, chol_us by exact Hc. destruct (is_semi_pos_def_chol E _) as [L|]; cbn [option_map]; [now apply mscale_us|reflexivity].
Qed.
Definition pmap (x : list (list (list XR)) * list (list (list XR))) := (map (map (us cs)) (fst x), map inv (snd x)).
Lemma inv_mscale d M : mscale d (inv M) = inv (mscale d M).
Proof. apply mscale_rws. now apply pos_inv. Qed.
Lemma factors_us ds n : forall i P iP, dr_factors ds n i (map (us cs) P) (inv iP) = rmap pmap (dr_factors ds n i P iP).
Proof.
  induction n as [|n IH]; intros i P iP; cbn [dr_factors]; [reflexivity|]. rewrite rmap_bind. apply bind_ext. intros d _.
  rewrite mscale_us, inv_mscale, IH by exact Hc. destruct (dr_factors ds n (S i) _ _) as [[t1 t2]|]; reflexivity.
Qed.
Lemma delayed_us R ntry ds : update_delayed_rejection E' (map (us cs) R) ntry ds = rmap (option_map pmap) (update_delayed_rejection E R ntry ds).
Proof.
  unfold update_delayed_rejection. destruct (1 <? ntry); [|reflexivity]. rewrite EI, (uf_inv cs E HE). destruct (e_inv E R) as [iR|]; [|reflexivity]. cbn [option_map of_option bind].
  rewrite factors_us. destruct (dr_factors ds _ 1 R iR) as [[t1 t2]|]; reflexivity.
Qed.
Definition unit_ado (k : R) (o : adopts XR) : adopts XR :=
  mkado (ao_burnintime o) (ao_burnin_scale o) (ao_ntry o) (ao_drscale o) (ao_alphatarget o) (ao_etaparam o) (sc (k * k) (ao_qcov_adjust o)) (ao_doram o).
Lemma threshold_us a i R s : below_burnin_threshold a i (map (us cs) R) s = map (us cs) (below_burnin_threshold a i R s).
Proof. unfold below_burnin_threshold. destruct (nlt _ _); [now apply mscale_us|]. destruct (nlt _ _); [now apply mscale_us|reflexivity]. Qed.
Lemma slice_map {A B} (f : A -> B) i j l : slice i j (map f l) = map f (slice i j l).
Proof. unfold slice. now rewrite skipn_map, firstn_map. Qed.
Lemma adaptation_us k c o isimu iiad rej chain ci u np al :
  (0 < k)%R -> ao_qcov_adjust o = Fin 0%R \/ Forall (fun r => r = k) cs /\ np = List.length cs ->
  run_adaptation E' (unit_cov cs c) (unit_ado k o) isimu iiad rej (map (us cs) chain) ci u np al =
  rmap (unit_cov cs) (run_adaptation E c o isimu iiad rej chain ci u np al).
Proof.
  intros Hk Ha.
  assert (ST : cov_stats (unit_cov cs c) = option_map ustat (cov_stats c)).
  { unfold cov_stats. cbn [unit_cov c_covchain c_meanchain c_wsum]. destruct (c_covchain c), (c_meanchain c), (c_wsum c); reflexivity. }
  unfold run_adaptation. rewrite ST.
  cbn [unit_cov c_R c_qcov c_qcov_scale c_no_adapt c_covchain c_meanchain c_wsum c_last unit_ado ao_burnintime ao_burnin_scale ao_ntry ao_drscale ao_alphatarget ao_etaparam ao_qcov_adjust ao_doram].
  destruct (_ <? _)%Z; [now rewrite threshold_us|]. rewrite slice_map, update_us.
  set (stats := update_covariance_mean_sum (slice (c_last c) ci chain) [n1] (cov_stats c)).
  match goal with |- bind ?x _ = rmap _ (bind ?y _) => assert (UP : x = rmap (both cs) y) end.
  { destruct (ao_doram o).
    - destruct al as [al|]; [|reflexivity]. cbn [of_option bind rmap]. now rewrite ram_us.
    - destruct stats as [[[cv mm] ww]|]; [|reflexivity]. cbn [option_map ustat rmap]. now rewrite covchain_us. }
  rewrite UP, bind_rmap, rmap_bind. apply bind_ext. intros up _. rewrite (singular_us k) by assumption. rewrite delayed_us, bind_rmap, rmap_bind. apply bind_ext. intros dr _. cbn [rmap].
  f_equal. unfold unit_cov. cbn [c_R c_qcov c_qcov_scale c_no_adapt c_covchain c_meanchain c_wsum c_last c_RDR c_invR].
  destruct stats as [[[? ?] ?]|], dr as [[? ?]|]; reflexivity.
Qed.
End Mean.
