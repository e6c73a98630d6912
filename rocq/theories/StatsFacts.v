(** Facts about batch means and the Gelman-Rubin diagnostic (ChainStats.v). *)

From Coq Require Import ZArith QArith Bool Lia List Reals Lra String Arith Permutation Qreals.
From Verif Require Import Base Num Names ChainFiles ChainStats RVec StatsSpec.
Import ListNotations.
Close Scope Q_scope.
Open Scope list_scope.
Open Scope nat_scope.

(** ** Real statistics *)

Local Open Scope R_scope.

Lemma INR_pos n : (0 < n)%nat -> 0 < INR n. Proof. apply lt_0_INR. Qed.

Lemma Rsum_map_affine c d l : Rsum (map (fun x => c * x + d) l) = c * Rsum l + INR (List.length l) * d.
Proof. induction l as [|a l IH]; [simpl; lra|]. cbn [map Rsum fold_right List.length]. fold (Rsum l). fold (Rsum (map (fun x => c * x + d) l)). rewrite IH, S_INR. ring. Qed.

Lemma Rsum_map_scal {A} c (f : A -> R) l : Rsum (map (fun x => c * f x) l) = c * Rsum (map f l).
Proof. induction l as [|a l IH]; simpl; [lra|]. fold (Rsum (map (fun x => c * f x) l)) (Rsum (map f l)). rewrite IH. ring. Qed.

Lemma Rmean_affine c d l : l <> [] -> Rmean (affine c d l) = c * Rmean l + d.
Proof.
  intros H. unfold Rmean, affine. rewrite Rsum_map_affine, map_length.
  assert (0 < INR (List.length l)) by (apply INR_pos; destruct l; [congruence|cbn; lia]). field. lra.
Qed.

Lemma Rvar_affine c d l : l <> [] -> Rvar (affine c d l) = c * c * Rvar l.
Proof.
  intros H. unfold Rvar. rewrite Rmean_affine by auto. unfold affine. rewrite map_map, map_length.
  rewrite (map_ext _ (fun x => c * c * (x - Rmean l)²)) by (intros; unfold Rsqr; ring).
  rewrite Rsum_map_scal. unfold Rdiv. ring.
Qed.

Lemma Rsum_perm l l' : Permutation l l' -> Rsum l = Rsum l'.
Proof. induction 1; simpl in *; lra. Qed.
Lemma Rmean_perm l l' : Permutation l l' -> Rmean l = Rmean l'.
Proof. intros H. unfold Rmean. now rewrite (Rsum_perm _ _ H), (Permutation_length H). Qed.
Lemma Rvar_perm l l' : Permutation l l' -> Rvar l = Rvar l'.
Proof.
  intros H. unfold Rvar. rewrite (Rmean_perm _ _ H), (Permutation_length H). f_equal.
  apply Rsum_perm, Permutation_map, H.
Qed.

Lemma Rvar_nonneg l : 0 <= Rvar l.
Proof.
  unfold Rvar. destruct (List.length l - 1)%nat eqn:E.
  - simpl. unfold Rdiv. destruct l as [|a [|b l]]; [simpl; rewrite Rmult_0_l; lra| |cbn in E; lia].
    unfold Rmean. simpl. replace (a - (a + 0) / 1) with 0 by field. unfold Rsqr. rewrite Rmult_0_l, Rplus_0_l, Rmult_0_l. lra.
  - apply Rmult_le_pos.
    + apply Rsum_nonneg. intros x H. apply in_map_iff in H as (y & <- & _). apply Rle_0_sqr.
    + apply Rlt_le, Rinv_0_lt_compat, lt_0_INR. lia.
Qed.

Lemma Rsum_nonneg_0 l : (forall x, In x l -> 0 <= x) -> Rsum l = 0 -> forall x, In x l -> x = 0.
Proof.
  induction l as [|a l IH]; intros N E x I; [contradiction|]. cbn [Rsum fold_right] in E. fold (Rsum l) in E.
  assert (0 <= Rsum l) by (apply Rsum_nonneg; intros; apply N; now right).
  assert (0 <= a) by (apply N; now left). destruct I as [->|I]; [lra|]. apply IH; auto; [intros; apply N; now right|lra].
Qed.

Lemma Rmean_const c l : l <> [] -> (forall x, In x l -> x = c) -> Rmean l = c.
Proof.
  intros N H. unfold Rmean.
  assert (E : Rsum l = INR (List.length l) * c).
  { clear N. induction l as [|a l IH]; [simpl; lra|]. cbn [Rsum fold_right List.length]. fold (Rsum l).
    rewrite IH by (intros; apply H; now right). rewrite S_INR, (H a) by now left. ring. }
  rewrite E. assert (0 < INR (List.length l)) by (apply INR_pos; destruct l; [congruence|cbn; lia]). field. lra.
Qed.

(** The variance vanishes exactly when all values agree. *)
Lemma Rvar_0 l : (2 <= List.length l)%nat -> Rvar l = 0 <-> (forall x y, In x l -> In y l -> x = y).
Proof.
  intros L. assert (0 < INR (List.length l - 1)) by (apply INR_pos; lia). split.
  - intros E. assert (E' : Rsum (map (fun x => (x - Rmean l)²) l) = 0).
    { unfold Rvar in E. apply Rmult_integral in E as [E|E]; auto. apply Rinv_neq_0_compat in E; [contradiction|lra]. }
    assert (A : forall x, In x l -> x = Rmean l).
    { intros x I. assert (Z : (x - Rmean l)² = 0).
      { apply (Rsum_nonneg_0 _) with (2 := E'); [|apply in_map_iff; eauto].
        intros y I'. apply in_map_iff in I' as (z & <- & _). apply Rle_0_sqr. }
      apply Rsqr_0_uniq in Z. lra. }
    intros x y I J. rewrite (A x I), (A y J). auto.
  - intros A. destruct l as [|c l]; [cbn in L; lia|].
    unfold Rvar. rewrite (Rmean_const c) by (try discriminate; intros; apply A; auto; now left).
    rewrite (map_ext_in _ (fun _ => 0)).
    + assert (Z : forall k : list R, Rsum (map (fun _ => 0) k) = 0) by (induction k; simpl; [auto|unfold Rsum in *; lra]).
      rewrite Z. unfold Rdiv. ring.
    + intros x I. rewrite (A x c) by (auto; now left). unfold Rsqr. ring.
Qed.

(** ** Means and variances of the model on finite data *)

Lemma XR_nadd x y : @nadd XR _ (Fin x) (Fin y) = Fin (x + y). Proof. reflexivity. Qed.
Lemma XR_nsub x y : @nsub XR _ (Fin x) (Fin y) = Fin (x - y). Proof. reflexivity. Qed.
Lemma XR_nmul x y : @nmul XR _ (Fin x) (Fin y) = Fin (x * y). Proof. reflexivity. Qed.
Lemma XR_nlt x y : @nlt XR _ (Fin x) (Fin y) = Rltb x y. Proof. reflexivity. Qed.
Lemma XR_nle x y : @nle XR _ (Fin x) (Fin y) = Rleb x y. Proof. reflexivity. Qed.
Lemma XR_nabs x : @nabs XR _ (Fin x) = Fin (Rabs x). Proof. reflexivity. Qed.
Lemma XR_nsqr x : @nsqr XR _ (Fin x) = Fin (x * x). Proof. reflexivity. Qed.

Lemma mean_fin l : l <> [] -> mean (fin l) = Fin (Rmean l).
Proof.
  intros N. unfold mean. rewrite vsum_fin, fin_length, XR_nnat, XR_ndiv; auto.
  apply not_0_INR. destruct l; [congruence|discriminate].
Qed.

Lemma var1_fin l : (2 <= List.length l)%nat -> var1 (fin l) = Fin (Rvar l).
Proof.
  intros L. unfold var1. rewrite mean_fin by (destruct l; [cbn in L; lia|discriminate]).
  unfold fin at 1. rewrite map_map.
  replace (map (fun x => nsqr (nsub (Fin x) (Fin (Rmean l)))) l) with (fin (map (fun x => (x - Rmean l)²) l)).
  - rewrite vsum_fin, fin_length, XR_nnat, XR_ndiv; auto. apply not_0_INR. lia.
  - unfold fin. rewrite map_map. reflexivity.
Qed.

Lemma map_mean_fin cols n : (0 < n)%nat -> equal_length n cols -> map mean (finm cols) = fin (map Rmean cols).
Proof.
  intros P E. unfold finm, fin. rewrite !map_map. apply map_ext_in. intros c I.
  change (map Fin c) with (fin c). apply mean_fin. unfold equal_length in E. rewrite Forall_forall in E. specialize (E c I).
  destruct c; [cbn in E; lia|discriminate].
Qed.

Lemma map_var_fin cols n : (2 <= n)%nat -> equal_length n cols -> map var1 (finm cols) = fin (map Rvar cols).
Proof.
  intros P E. unfold finm, fin. rewrite !map_map. apply map_ext_in. intros c I.
  change (map Fin c) with (fin c). apply var1_fin. unfold equal_length in E. rewrite Forall_forall in E. rewrite (E c I). auto.
Qed.

Lemma XR_div0 x : 0 < x -> @ndiv XR _ (Fin x) (Fin 0) = PInf.
Proof.
  intros H. xs. unfold Reqb. destruct (Req_EM_T 0 0); [|contradiction].
  unfold Rltb. destruct (Rlt_dec 0 x); [auto|lra].
Qed.

(** ** Gelman-Rubin *)

(** squared scale reduction factor, in the textbook form *)
Definition psrf2 (n m : nat) (cols : list (list R)) : R :=
  (INR n - 1) / INR n + (INR m + 1) / INR m * (between cols / within cols).

(** effective number of draws *)
Definition neff_of (n m : nat) (cols : list (list R)) : R :=
  if Req_EM_T (between cols) 0 then INR (m * n)
  else Rmin (INR (m * n) * (psrf2 n m cols * within cols) / (between cols * INR n)) (INR (m * n)).

Lemma psrf2_pos n m cols : (2 <= n)%nat -> (2 <= m)%nat -> 0 < within cols -> 0 < psrf2 n m cols.
Proof.
  intros N M W. unfold psrf2.
  assert (1 < INR n) by (change 1 with (INR 1); apply lt_INR; lia). assert (0 < INR m) by (apply INR_pos; lia).
  assert (0 <= between cols) by apply Rvar_nonneg.
  assert (0 < (INR n - 1) / INR n) by (apply Rdiv_lt_0_compat; lra).
  assert (0 <= (INR m + 1) / INR m) by (apply Rlt_le, Rdiv_lt_0_compat; lra).
  assert (0 <= between cols / within cols).
  { unfold Rdiv. apply Rmult_le_pos; auto. apply Rlt_le, Rinv_0_lt_compat; auto. }
  assert (0 <= (INR m + 1) / INR m * (between cols / within cols)) by (apply Rmult_le_pos; auto). lra.
Qed.

Theorem psrf_value cols n m : List.length cols = m -> (2 <= m)%nat -> (2 <= n)%nat -> equal_length n cols ->
  0 < within cols ->
  calculate_psrf (finm cols) n m =
  Ok (mkpsrf (Fin (sqrt (psrf2 n m cols))) (Fin (between cols * INR n)) (Fin (within cols))
             (Fin (psrf2 n m cols * within cols)) (Fin (neff_of n m cols))).
Proof.
  intros HL M N E W. unfold calculate_psrf.
  replace ((n =? 0)%nat) with false by (symmetry; apply Nat.eqb_neq; lia).
  replace ((m =? 0)%nat) with false by (symmetry; apply Nat.eqb_neq; lia). cbn [orb].
  rewrite (map_mean_fin cols n), (map_var_fin cols n) by (auto; lia).
  rewrite var1_fin by (rewrite map_length; lia).
  rewrite mean_fin by (destruct cols; [cbn in HL; lia|discriminate]).
  fold (within cols) (between cols). rewrite !XR_nnat.
  assert (0 < INR n) by (apply INR_pos; lia). assert (0 < INR m) by (apply INR_pos; lia).
  repeat (rewrite XR_nmul || rewrite XR_nadd || rewrite XR_nsub || (rewrite XR_ndiv by lra)).
  set (R2 := INR (m + 1) / INR m * (INR (n - 1) / INR n * within cols + between cols) / within cols - INR (n - 1) / INR m / INR n).
  assert (ER : R2 = psrf2 n m cols).
  { unfold R2, psrf2. rewrite plus_INR, minus_INR by lia. change (INR 1) with 1. field. repeat split; lra. }
  rewrite ER. assert (P := psrf2_pos n m cols N M W). rewrite XR_nsqrt by lra.
  f_equal. f_equal. unfold neff_of. assert (0 < INR (m * n)) by (apply INR_pos; nia).
  assert (0 <= between cols) by apply Rvar_nonneg.
  assert (0 < INR (m * n) * (psrf2 n m cols * within cols)) by (apply Rmult_lt_0_compat; [auto|apply Rmult_lt_0_compat; auto]).
  destruct (Req_EM_T (between cols) 0) as [Z|Z].
  - rewrite Z, Rmult_0_l, XR_div0 by auto. unfold pymin. reflexivity.
  - rewrite XR_ndiv by (apply Rgt_not_eq, Rmult_lt_0_compat; lra). unfold pymin. rewrite XR_nlt.
    unfold Rltb, Rmin. destruct (Rlt_dec _ _), (Rle_dec _ _); auto; f_equal; lra.
Qed.

Theorem psrf_bounds cols n m : List.length cols = m -> (2 <= m)%nat -> (2 <= n)%nat -> 0 < within cols ->
  (INR n - 1) / INR n <= psrf2 n m cols /\
  (psrf2 n m cols = (INR n - 1) / INR n <-> (forall c c', In c cols -> In c' cols -> Rmean c = Rmean c')) /\
  neff_of n m cols <= INR (m * n) /\ 0 < neff_of n m cols.
Proof.
  intros HL M N W. assert (0 < INR n) by (apply INR_pos; lia). assert (0 < INR m) by (apply INR_pos; lia).
  assert (B := Rvar_nonneg (map Rmean cols)). fold (between cols) in B.
  assert (0 < (INR m + 1) / INR m) by (apply Rdiv_lt_0_compat; lra).
  assert (0 < / within cols) by (apply Rinv_0_lt_compat; auto).
  assert (P := psrf2_pos n m cols N M W). assert (0 < INR (m * n)) by (apply INR_pos; nia).
  split; [|split].
  - unfold psrf2. assert (0 <= (INR m + 1) / INR m * (between cols / within cols)); [|lra].
    apply Rmult_le_pos; [lra|]. unfold Rdiv. apply Rmult_le_pos; lra.
  - assert (X : psrf2 n m cols = (INR n - 1) / INR n <-> between cols = 0).
    { unfold psrf2. split; intros E; [|rewrite E; unfold Rdiv; ring].
      assert (Z : (INR m + 1) / INR m * (between cols / within cols) = 0) by lra.
      apply Rmult_integral in Z as [Z|Z]; [lra|]. unfold Rdiv in Z. apply Rmult_integral in Z as [Z|Z]; lra. }
    rewrite X. unfold between. rewrite Rvar_0 by (rewrite map_length; lia). split.
    + intros A c c' I I'. apply A; now apply in_map.
    + intros A x y I J. apply in_map_iff in I as (c & <- & I). apply in_map_iff in J as (c' & <- & J). auto.
  - unfold neff_of. destruct (Req_EM_T (between cols) 0); [lra|]. split; [apply Rmin_r|].
    apply Rmin_glb_lt; auto. apply Rdiv_lt_0_compat; [apply Rmult_lt_0_compat; [auto|apply Rmult_lt_0_compat; auto]|apply Rmult_lt_0_compat; lra].
Qed.

Lemma affine_nonempty c d l : l <> [] -> affine c d l <> [].
Proof. destruct l; [congruence|discriminate]. Qed.

Lemma equal_length_nonempty n cols c : (0 < n)%nat -> equal_length n cols -> In c cols -> c <> [].
Proof. intros P E I. unfold equal_length in E. rewrite Forall_forall in E. specialize (E c I). destruct c; [cbn in E; lia|discriminate]. Qed.

Lemma within_affine c d n cols : (0 < n)%nat -> equal_length n cols -> within (map (affine c d) cols) = c * c * within cols.
Proof.
  intros P E. unfold within. rewrite map_map.
  rewrite (map_ext_in _ (fun l => c * c * Rvar l)).
  - unfold Rmean. rewrite Rsum_map_scal, !map_length. unfold Rdiv. ring.
  - intros l I. apply Rvar_affine. eapply equal_length_nonempty; eauto.
Qed.

Lemma between_affine c d n cols : (0 < n)%nat -> equal_length n cols -> between (map (affine c d) cols) = c * c * between cols.
Proof.
  intros P E. unfold between. rewrite map_map.
  rewrite (map_ext_in _ (fun l => c * Rmean l + d)).
  - destruct cols as [|a cols]; [unfold Rvar; simpl; unfold Rdiv; ring|].
    rewrite <- (Rvar_affine c d) by discriminate. unfold affine. now rewrite map_map.
  - intros l I. apply Rmean_affine. eapply equal_length_nonempty; eauto.
Qed.

Lemma psrf2_affine c d n m cols : c <> 0 -> (0 < n)%nat -> equal_length n cols -> within cols <> 0 ->
  psrf2 n m (map (affine c d) cols) = psrf2 n m cols.
Proof.
  intros C P E W. unfold psrf2. rewrite (within_affine c d n), (between_affine c d n) by auto. f_equal. f_equal. field. auto.
Qed.

Lemma neff_affine c d n m cols : c <> 0 -> (0 < n)%nat -> equal_length n cols -> within cols <> 0 ->
  neff_of n m (map (affine c d) cols) = neff_of n m cols.
Proof.
  intros C P E W. assert (0 < INR n) by (apply INR_pos; lia). unfold neff_of. rewrite psrf2_affine by auto.
  rewrite (within_affine c d n), (between_affine c d n) by auto. assert (0 < c * c) by nra.
  destruct (Req_EM_T (c * c * between cols) 0) as [Z|Z], (Req_EM_T (between cols) 0) as [Y|Y]; auto.
  - exfalso. apply Rmult_integral in Z as [Z|Z]; [lra|auto].
  - exfalso. apply Z. rewrite Y. ring.
  - f_equal. field. repeat split; auto. lra.
Qed.

Lemma equal_length_affine c d n cols : equal_length n cols -> equal_length n (map (affine c d) cols).
Proof. intros E. unfold equal_length in *. rewrite Forall_map. eapply Forall_impl; [|exact E]. intros l. unfold affine. now rewrite map_length. Qed.

(** Other units change neither the factor nor the effective number of draws; the variances scale. *)
Theorem psrf_affine cols n m c d : List.length cols = m -> (2 <= m)%nat -> (2 <= n)%nat -> equal_length n cols ->
  0 < within cols -> c <> 0 ->
  exists R B W V e,
    calculate_psrf (finm cols) n m = Ok (mkpsrf R (Fin B) (Fin W) (Fin V) e) /\
    calculate_psrf (finm (map (affine c d) cols)) n m = Ok (mkpsrf R (Fin (c * c * B)) (Fin (c * c * W)) (Fin (c * c * V)) e).
Proof.
  intros HL M N E W C. rewrite (psrf_value cols n m) by auto.
  assert (Wn : within cols <> 0) by lra.
  rewrite (psrf_value (map (affine c d) cols) n m); rewrite ?map_length; auto using equal_length_affine.
  - rewrite psrf2_affine, neff_affine, (within_affine c d n), (between_affine c d n) by (auto; lia).
    do 5 eexists. split; [reflexivity|]. f_equal. f_equal; f_equal; ring.
  - rewrite (within_affine c d n) by (auto; lia). assert (0 < c * c) by nra. now apply Rmult_lt_0_compat.
Qed.

Theorem psrf_perm cols cols' n m : Permutation cols cols' -> List.length cols = m -> (2 <= m)%nat -> (2 <= n)%nat ->
  equal_length n cols -> 0 < within cols ->
  calculate_psrf (finm cols') n m = calculate_psrf (finm cols) n m.
Proof.
  intros P HL M N E W.
  assert (EW : within cols' = within cols) by (unfold within; symmetry; apply Rmean_perm, Permutation_map, P).
  assert (EB : between cols' = between cols) by (unfold between; symmetry; apply Rvar_perm, Permutation_map, P).
  rewrite (psrf_value cols n m), (psrf_value cols' n m); auto.
  - unfold neff_of, psrf2. now rewrite EW, EB.
  - now rewrite <- (Permutation_length P).
  - unfold equal_length in *. rewrite Forall_forall in *. intros x I. apply E. eapply Permutation_in; [symmetry; exact P|exact I].
  - now rewrite EW.
Qed.
