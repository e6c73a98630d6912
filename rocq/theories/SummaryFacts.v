(** Facts about the integrated autocorrelation time and the summary of a chain (Summary.v). *)

From Coq Require Import ZArith QArith Bool Lia List Reals Lra String Arith Qreals Permutation Sorted.
From Verif Require Import Base Num ChainFiles Results ChainStats PlotUtil Summary RVec RMat StatsSpec StatsFacts QuantSpec QuantFacts Dft.
Import ListNotations.
Close Scope Q_scope.
Open Scope list_scope.
Open Scope R_scope.

(** ** Reference notions *)

(** Circular autocovariance and autocorrelation of a list at lag [k]. *)
Definition autocov (x : list R) (k : nat) : R :=
  Sum (List.length x) (fun t => (nth t x 0 - Rmean x) * (nth ((t + k) mod List.length x) x 0 - Rmean x)).
Definition autocor (x : list R) (k : nat) : R := autocov x k / autocov x 0.
(** Estimate of the autocorrelation time from the lags below [m]. *)
Definition act (x : list R) (m : nat) : R := 2 * Sum m (autocor x) - 1.
(** The window is long enough: more than three times the estimate, plus one. *)
Definition enough (x : list R) (m : nat) : Prop := 3 * act x m + 1 < INR m.

Definition is_dft (fft : list XR -> list (XR * XR)) : Prop :=
  forall x, fft (fin x) = map (fun k => (Fin (dft_re (List.length x) (fun t => nth t x 0) k), Fin (dft_im (List.length x) (fun t => nth t x 0) k))) (seq 0 (List.length x)).
Definition unfin (v : XR) : R := match v with Fin r => r | _ => 0 end.
Definition dft (l : list XR) : list (XR * XR) :=
  let x := map unfin l in
  map (fun k => (Fin (dft_re (List.length x) (fun t => nth t x 0) k), Fin (dft_im (List.length x) (fun t => nth t x 0) k))) (seq 0 (List.length x)).
Lemma dft_is_dft : is_dft dft.
Proof. intros x. unfold dft. replace (map unfin (fin x)) with x; [reflexivity|]. unfold fin. rewrite map_map. symmetry. apply map_id. Qed.

(** ** Autocovariances *)

Lemma Rmean_Sum x : Rmean x = Sum (List.length x) (fun t => nth t x 0) / INR (List.length x).
Proof. unfold Rmean. now rewrite Rsum_Sum. Qed.
Lemma centred_sum x : (0 < List.length x)%nat -> Sum (List.length x) (fun t => nth t x 0 - Rmean x) = 0.
Proof. intros N. rewrite Sum_minus, Sum_const, Rmean_Sum. field. apply not_0_INR. lia. Qed.
Lemma autocov_0 x : autocov x 0 = Sum (List.length x) (fun t => (nth t x 0 - Rmean x)²).
Proof. apply Sum_ext. intros t T. rewrite Nat.add_0_r, Nat.mod_small by auto. reflexivity. Qed.
Lemma autocov_0_nonneg x : 0 <= autocov x 0.
Proof. rewrite autocov_0. apply Sum_nonneg. intros. apply Rle_0_sqr. Qed.
Lemma autocov_0_iff x : 0 < autocov x 0 <-> exists s t, (s < List.length x)%nat /\ (t < List.length x)%nat /\ nth s x 0 <> nth t x 0.
Proof.
  pose proof (autocov_0_nonneg x) as P. split.
  - intros H. destruct (Nat.eq_dec (List.length x) 0) as [Z|Z].
    { rewrite autocov_0, Z in H. cbn in H. lra. }
    destruct (List.Exists_dec (fun v => v <> nth 0 x 0) x) as [X|X].
    + intros v. destruct (Req_EM_T v (nth 0 x 0)); [right|left]; auto.
    + apply Exists_exists in X. destruct X as (v & I & D). apply (In_nth _ _ 0) in I. destruct I as (s & S & <-). exists s, O. repeat split; auto. lia.
    + exfalso. rewrite <- Forall_Exists_neg, Forall_forall in X. rewrite autocov_0 in H. rewrite Sum_0 in H; [lra|].
      assert (C : forall t, (t < List.length x)%nat -> nth t x 0 = nth 0 x 0).
      { intros t T. destruct (Req_dec (nth t x 0) (nth 0 x 0)) as [E|E]; auto. exfalso. apply (X (nth t x 0)); auto. now apply nth_In. }
      assert (M : Rmean x = nth 0 x 0).
      { rewrite Rmean_Sum, (Sum_ext _ _ (fun _ => nth 0 x 0)), Sum_const by auto. field. apply not_0_INR. lia. }
      intros t T. rewrite C, M by auto. unfold Rsqr. ring.
  - intros (s & t & S & T & D). destruct P as [P|P]; auto. exfalso. symmetry in P. rewrite autocov_0 in P.
    assert (C : forall k, (k < List.length x)%nat -> nth k x 0 = Rmean x).
    { intros k K. assert (E : (nth k x 0 - Rmean x)² = 0) by (apply (Sum_nonneg_0 (List.length x) (fun t => (nth t x 0 - Rmean x)²)); auto; intros; apply Rle_0_sqr).
      apply Rsqr_0_uniq in E. lra. }
    apply D. now rewrite !C.
Qed.
Lemma autocov_total x : (0 < List.length x)%nat -> Sum (List.length x) (autocov x) = 0.
Proof.
  intros N. unfold autocov. rewrite Sum_swap. apply Sum_0. intros t T. rewrite Sum_scal.
  pose proof (Sum_rotate (List.length x) (fun s => nth s x 0 - Rmean x) t T) as E. cbn beta in E. rewrite centred_sum in E by auto.
  rewrite (Sum_ext _ _ (fun k => nth ((k + t) mod List.length x) x 0 - Rmean x)) by (intros k _; now rewrite (Nat.add_comm t k)).
  rewrite E. ring.
Qed.
Lemma enough_length x : (0 < List.length x)%nat -> enough x (List.length x).
Proof.
  intros N. unfold enough, act. rewrite (Sum_ext _ _ (fun k => / autocov x 0 * autocov x k)) by (intros; unfold autocor, Rdiv; ring).
  rewrite Sum_scal, autocov_total by auto. pose proof (pos_INR (List.length x)). lra.
Qed.

(** ** The spectrum *)

Lemma spectrum_real fft x : is_dft fft -> (0 < List.length x)%nat ->
  spectrum fft (fin x) = map (fun j => Fin (INR (List.length x) * autocov x j)) (seq 0 (List.length x)).
Proof.
  intros D N. unfold spectrum. rewrite D, map_map. set (n := List.length x). set (f := fun t => nth t x 0).
  assert (E : match map (fun k => nadd (nsqr (fst (@Fin R (dft_re n f k), @Fin R (dft_im n f k)))) (nsqr (snd (@Fin R (dft_re n f k), @Fin R (dft_im n f k))))) (seq 0 n) with [] => [] | _ :: t => n0 :: t end
              = fin (vtab n (fun k => if (k =? 0)%nat then 0 else power n f k))).
  { unfold n. destruct (List.length x) as [|m]; [lia|]. unfold fin, vtab. rewrite map_map. cbn [seq map]. rewrite XR_n0. f_equal.
    apply map_ext_in. intros k K. apply in_seq in K. destruct (Nat.eqb_spec k 0) as [Z|Z]; [lia|]. cbn [fst snd]. rewrite !XR_nsqr, XR_nadd. reflexivity. }
  rewrite E, D, map_map, vtab_length. apply map_ext_in. intros j J. apply in_seq in J. cbn [fst]. f_equal.
  transitivity (dft_re n (fun k => if (k =? 0)%nat then 0 else power n f k) j).
  - unfold dft_re. apply Sum_ext. intros t T. now rewrite nth_vtab.
  - rewrite power_transform_centred by lia. f_equal. unfold autocov. fold n. rewrite Rmean_Sum. reflexivity.
Qed.

(** ** The window *)

Lemma Q2R_third : Q2R (-1 # 3) = - (1 / 3). Proof. unfold Q2R. cbn. lra. Qed.
Lemma Q2R_sixth : Q2R (1 # 6) = 1 / 6. Proof. unfold Q2R. cbn. lra. Qed.
Lemma windowed_real x : forall len ii s, s = Sum ii (autocor x) - 1 / 3 - INR ii / 6 -> (exists m, (ii < m <= ii + len)%nat /\ enough x m) ->
  exists m, (ii < m <= ii + len)%nat /\ enough x m /\ (forall j, (ii < j < m)%nat -> ~ enough x j) /\
    windowed ii (Fin s) (map (fun k => Fin (autocor x k)) (seq ii len)) = (Fin (act x m), m).
Proof.
  induction len as [|len IH]; intros ii s HS (m & M & W); [lia|]. cbn [seq map windowed].
  set (s' := s + autocor x ii - 1 / 6).
  assert (E : @nsub XR _ (nadd (Fin s) (Fin (autocor x ii))) (nQ (1 # 6)) = Fin s').
  { rewrite XR_nadd. change (@nQ XR _ (1 # 6)) with (@Fin R (Q2R (1 # 6))). rewrite Q2R_sixth. reflexivity. }
  rewrite E. assert (S' : s' = Sum (S ii) (autocor x) - 1 / 3 - INR (S ii) / 6) by (unfold s'; rewrite HS, S_INR; cbn [Sum]; lra).
  assert (A : act x (S ii) = 2 * (s' + INR ii / 6)) by (unfold act; rewrite S', S_INR; lra).
  assert (B : enough x (S ii) <-> s' < 0) by (unfold enough; rewrite A, S_INR; lra).
  rewrite XR_n0, XR_nlt. destruct (Rltb s' 0) eqn:L.
  - apply Rltb_true in L. exists (S ii). split; [lia|]. split; [now apply B|]. split; [intros j J; lia|].
    rewrite !XR_nnat. rewrite XR_ndiv by (cbn; lra). rewrite XR_nadd, XR_nmul. f_equal. f_equal. rewrite A. cbn [INR]. lra.
  - apply Rltb_false in L. assert (NB : ~ enough x (S ii)) by (rewrite B; lra).
    destruct (IH (S ii) s' S') as (m' & M' & W' & J' & E').
    + exists m. split; auto. assert (m <> S ii) by (intros ->; contradiction). lia.
    + exists m'. split; [lia|]. split; auto. split; auto. intros j J. destruct (Nat.eq_dec j (S ii)) as [->|D]; auto. apply J'. lia.
Qed.

Theorem iact_value fft x : is_dft fft -> (2 <= List.length x)%nat -> 0 < autocov x 0 ->
  exists m, (1 <= m <= List.length x)%nat /\ enough x m /\ (forall j, (1 <= j < m)%nat -> ~ enough x j) /\
    iact_column fft (List.length x) (fin x) = (Fin (act x m), m).
Proof.
  intros D N C. unfold iact_column. rewrite spectrum_real by (auto; lia). set (n := List.length x) in *. assert (P : 0 < INR n) by (apply INR_pos; lia).
  rewrite map_map. assert (F0 : nth 0 (map (fun j => @Fin R (INR n * autocov x j)) (seq 0 n)) n0 = Fin (INR n * autocov x 0)).
  { destruct n as [|k]; [lia|]. reflexivity. }
  rewrite F0. assert (P1 : 0 < INR (n - 1)) by (apply INR_pos; lia).
  rewrite !XR_nnat, !XR_ndiv by lra. rewrite XR_n0. change (@neq XR _ (Fin (INR n * autocov x 0 / INR n / INR (n - 1))) (Fin 0)) with (Reqb (INR n * autocov x 0 / INR n / INR (n - 1)) 0).
  assert (V : 0 < INR n * autocov x 0 / INR n / INR (n - 1)).
  { apply Rdiv_lt_0_compat; auto. apply Rdiv_lt_0_compat; auto. now apply Rmult_lt_0_compat. }
  assert (Z : Reqb (INR n * autocov x 0 / INR n / INR (n - 1)) 0 = false) by (apply Reqb_false; lra). rewrite Z.
  rewrite (map_ext_in _ (fun k => Fin (autocor x k))).
  - change (@nQ XR _ (-1 # 3)) with (@Fin R (Q2R (-1 # 3))). rewrite Q2R_third.
    destruct (windowed_real x n 0 (- (1 / 3))) as (m & M & W & J & E).
    + cbn [Sum INR]. lra.
    + exists n. split; [lia|]. apply enough_length. fold n. lia.
    + exists m. split; [lia|]. split; auto.
  - intros k _. rewrite XR_ndiv; [|apply Rgt_not_eq; now apply Rmult_lt_0_compat]. f_equal. unfold autocor. field. lra.
Qed.

Theorem iact_constant fft x : is_dft fft -> (2 <= List.length x)%nat -> autocov x 0 = 0 -> iact_column fft (List.length x) (fin x) = (Fin 0, O).
Proof.
  intros D N C. unfold iact_column. rewrite spectrum_real by (auto; lia). set (n := List.length x) in *. assert (P : 0 < INR n) by (apply INR_pos; lia).
  assert (F0 : nth 0 (map (fun j => @Fin R (INR n * autocov x j)) (seq 0 n)) n0 = Fin (INR n * autocov x 0)) by (destruct n as [|k]; [lia|reflexivity]).
  rewrite F0. assert (P1 : 0 < INR (n - 1)) by (apply INR_pos; lia).
  rewrite !XR_nnat, !XR_ndiv by lra. rewrite C, XR_n0. unfold Rdiv. rewrite Rmult_0_r, !Rmult_0_l.
  change (@neq XR _ (Fin 0) (Fin 0)) with (Reqb 0 0). assert (Z : Reqb 0 0 = true) by (now apply Reqb_true). now rewrite Z.
Qed.

Lemma nth_affine c d x t : (t < List.length x)%nat -> nth t (affine c d x) 0 = c * nth t x 0 + d.
Proof. intros T. unfold affine. rewrite (nth_indep _ 0 (c * 0 + d)) by (now rewrite map_length). apply (map_nth (fun v => c * v + d)). Qed.
Lemma autocov_affine c d x k : (0 < List.length x)%nat -> autocov (affine c d x) k = c * c * autocov x k.
Proof.
  intros N. assert (L : List.length (affine c d x) = List.length x) by apply map_length.
  assert (M : Rmean (affine c d x) = c * Rmean x + d).
  { rewrite !Rmean_Sum, L, (Sum_ext _ _ (fun t => c * nth t x 0 + d)) by (intros; now apply nth_affine). rewrite Sum_plus, Sum_scal, Sum_const. field. apply not_0_INR. lia. }
  unfold autocov. rewrite L, M, <- Sum_scal. apply Sum_ext. intros t T. rewrite !nth_affine by (auto; apply Nat.mod_upper_bound; lia). ring.
Qed.

Theorem iact_affine fft x c d : is_dft fft -> (2 <= List.length x)%nat -> c <> 0 ->
  iact_column fft (List.length x) (fin (affine c d x)) = iact_column fft (List.length x) (fin x).
Proof.
  intros D N C. assert (L : List.length (affine c d x) = List.length x) by apply map_length. destruct (autocov_0_nonneg x) as [P|P].
  - assert (A : forall k, autocor (affine c d x) k = autocor x k) by (intros k; unfold autocor; rewrite !autocov_affine by lia; field; split; lra).
    assert (T : forall m, act (affine c d x) m = act x m) by (intros m; unfold act; f_equal; f_equal; apply Sum_ext; intros; apply A).
    assert (P' : 0 < autocov (affine c d x) 0) by (rewrite autocov_affine by lia; apply Rmult_lt_0_compat; auto; nra).
    destruct (iact_value fft x D N P) as (m & M & W & J & E).
    destruct (iact_value fft (affine c d x) D ltac:(lia) P') as (m' & M' & W' & J' & E'). rewrite L in *. rewrite E, E', T.
    assert (Q : forall m, enough (affine c d x) m <-> enough x m) by (intros q; unfold enough; now rewrite T).
    assert (m' = m) as ->; auto. destruct (lt_eq_lt_dec m m') as [[H|H]|H]; auto.
    + exfalso. apply (J' m ltac:(lia)). now apply Q.
    + exfalso. apply (J m' ltac:(lia)). now apply Q.
  - rewrite iact_constant by auto. rewrite <- L. apply iact_constant; auto; [lia|]. rewrite autocov_affine by lia. rewrite <- P. ring.
Qed.
