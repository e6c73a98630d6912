(** The factor carried along with the covariance recursion is its Cholesky factor (C70). *)

From Coq Require Import ZArith QArith Bool Lia List Reals Lra.
From Verif Require Import Base Num Samplers Adapt CholLoop RVec RMat StatSpec CovFacts CholFacts.
Import ListNotations.
Close Scope Q_scope.
Open Scope list_scope.
Open Scope R_scope.

(** [R] is an upper triangular factor, without zeros on the diagonal, of the covariance of [l] *)
Definition factor_of (n : nat) (l : sample) (R : list (list XR)) : Prop :=
  exists P, R = finm (table n n P) /\ upper_triangular n P /\ (forall i, (i < n)%nat -> P i i <> 0) /\
    forall i j, (i < n)%nat -> (j < n)%nat -> gram n P i j = covariance l i j.

Lemma cov_step n l x w i j : heavy l -> l <> [] -> 1 <= w -> (i < n)%nat -> (j < n)%nat ->
  covariance (l ++ [(x, w)]) i j =
  (total l - 1) * / (w + total l - 1) * covariance l i j +
  w * total l * / (w + total l - 1) * / (w + total l) * ((nth i x 0 - mean l i) * (nth j x 0 - mean l j)).
Proof.
  intros HH Hn Hw Hi Hj. pose proof (heavy_total _ HH Hn) as HT.
  replace ((total l - 1) * / (w + total l - 1) * covariance l i j) with
    (((total l - 1) * covariance l i j) / (w + total l - 1)) by (unfold Rdiv; ring).
  rewrite cov_back by auto. unfold covariance. rewrite !scatter_acc by (rewrite ?total_app; lra).
  rewrite total_app, !S1_app, S2_app. unfold mean. fold (S1 l i) (S1 l j). field. lra.
Qed.

Lemma gram_scale n P s i j : gram n (fun a b => P a b * s) i j = s * s * gram n P i j.
Proof. unfold gram. rewrite <- Sum_scal. apply Sum_ext. intros. ring. Qed.

Lemma row_R n l x w R : heavy l -> l <> [] -> 1 < total l -> length x = n -> 1 <= w -> factor_of n l R ->
  exists R', cov_row_R (stats_of n l, R) (fin x, Fin w) = (stats_of n (l ++ [(x, w)]), R') /\ factor_of n (l ++ [(x, w)]) R' /\
    exists P, R' = finm (table n n P) /\ forall i, (i < n)%nat -> 0 < P i i.
Proof.
  intros HH Hn HT HL Hw (P & -> & HU & HD & HG).
  assert (Q : setup_cholupdate (finm (table n n P)) (Fin (total l)) (Fin w) (fin (vtab n (mean l))) (fin x) =
    (finm (table n n (fun i j => P i j * sqrt ((total l - 1) * / (w + total l - 1)))),
     fin (vtab n (fun k => (nth k x 0 - mean l k) * sqrt (w * total l * / (w + total l - 1) * / (w + total l)))))).
  { unfold setup_cholupdate.
    assert (ED : vsub (fin x) (fin (vtab n (mean l))) = fin (vtab n (fun k => nth k x 0 - mean l k))).
    { rewrite (vtab_nth x) at 1. rewrite HL. apply vsub_tab. }
    rewrite ED.
    assert (E1 : nadd (Fin w) (Fin (total l)) = @Fin R (w + total l)) by reflexivity. rewrite E1.
    assert (E2 : @ninv XR _ (Fin (w + total l)) = Fin (/ (w + total l))) by (apply XR_ninv; lra). rewrite E2.
    assert (E3 : nsub (Fin (w + total l)) (@n1 XR _) = Fin (w + total l - 1)) by (rewrite XR_n1; reflexivity). rewrite E3.
    assert (E4 : @ninv XR _ (Fin (w + total l - 1)) = Fin (/ (w + total l - 1))) by (apply XR_ninv; lra). rewrite E4.
    assert (E5 : nsub (Fin (total l)) (@n1 XR _) = Fin (total l - 1)) by (rewrite XR_n1; reflexivity). rewrite E5.
    assert (EM : forall a b, nmul (Fin a) (Fin b) = @Fin R (a * b)) by reflexivity. rewrite !EM.
    assert (0 < / (w + total l - 1)) by (apply Rinv_0_lt_compat; lra). assert (0 < / (w + total l)) by (apply Rinv_0_lt_compat; lra).
    rewrite !XR_nsqrt.
    - now rewrite mscale_tab, vscale_tab.
    - repeat apply Rmult_le_pos; lra.
    - apply Rmult_le_pos; lra. }
  assert (I1 : 0 < / (w + total l - 1)) by (apply Rinv_0_lt_compat; lra). assert (I2 : 0 < / (w + total l)) by (apply Rinv_0_lt_compat; lra).
  set (s := (total l - 1) * / (w + total l - 1)) in *. set (t := w * total l * / (w + total l - 1) * / (w + total l)) in *.
  assert (Ps : 0 < s) by (apply Rmult_lt_0_compat; lra).
  assert (Pt : 0 <= t) by (unfold t; repeat apply Rmult_le_pos; lra).
  pose proof (sqrt_lt_R0 s Ps) as Pq.
  destruct (cholupdate_spec n (fun i j => P i j * sqrt s) (fun k => (nth k x 0 - mean l k) * sqrt t)) as (R1 & E1 & U1 & D1 & G1).
  - intros i j Hi Hj. rewrite HU by auto. ring.
  - intros i Hi. apply Rmult_integral_contrapositive_currified; [auto|lra].
  - exists (finm (table n n R1)). split; [|split].
    + unfold cov_row_R, stats_of at 1. cbn [fst snd]. rewrite Q, E1.
      change (finm (table n n (covariance l)), fin (vtab n (mean l)), Fin (total l)) with (stats_of n l).
      rewrite cov_row_spec by auto. reflexivity.
    + exists R1. split; [reflexivity|]. split; [auto|]. split; [intros i Hi; specialize (D1 i Hi); lra|].
      intros i j Hi Hj. rewrite G1, gram_scale, sqrt_sqrt, HG, (cov_step n) by (auto; lra). fold s t.
      transitivity (s * covariance l i j + sqrt t * sqrt t * ((nth i x 0 - mean l i) * (nth j x 0 - mean l j))); [ring|].
      now rewrite sqrt_sqrt.
    + exists R1. auto.
Qed.

Lemma fold_R n : forall seg l R, heavy l -> l <> [] -> 1 < total l -> heavy seg -> Forall (fun p => length (fst p) = n) seg ->
  factor_of n l R ->
  exists R', fold_left cov_row_R (combine (finm (map fst seg)) (fin (map snd seg))) (stats_of n l, R) = (stats_of n (l ++ seg), R') /\
    factor_of n (l ++ seg) R'.
Proof.
  induction seg as [|[x w] seg IH]; intros l R HH Hn HT HS HL HF; [rewrite app_nil_r; eexists; split; [reflexivity|auto]|].
  inversion HS; inversion HL; subst. cbn [map finm fin combine fold_left fst snd] in *.
  destruct (row_R (length x) l x w R HH Hn HT eq_refl H1 HF) as (R1 & E1 & F1 & _). change (map Fin x) with (fin x). rewrite E1.
  replace (l ++ (x, w) :: seg) with ((l ++ [(x, w)]) ++ seg) by now rewrite <- app_assoc.
  apply IH; auto.
  - apply Forall_app. split; auto.
  - destruct l; discriminate.
  - rewrite total_app. lra.
Qed.

Theorem update_R n s (l : sample) R : (0 < n)%nat -> good_seg n s -> heavy l -> l <> [] -> 1 < total l -> factor_of n l R ->
  exists R', update_covariance_mean_sum_R (finm (fst s)) (fin (snd s)) (stats_of n l) R = (stats_of n (l ++ seg_sample s), R') /\
    factor_of n (l ++ seg_sample s) R'.
Proof.
  intros Hn HG HH Hl HT HF. unfold update_covariance_mean_sum_R. rewrite finm_length.
  destruct (fst s) as [|r rows] eqn:Es.
  - cbn [finm map length Nat.eqb orb]. unfold seg_sample. rewrite Es. cbn [length combine]. rewrite app_nil_r. eauto.
  - rewrite <- Es in *. destruct HG as (H1 & H2 & H3).
    assert (N : ncols (finm (fst s)) = n).
    { rewrite ncols_fin, Es. cbn [Rcols]. apply H1. rewrite Es. now left. }
    rewrite N. replace ((length (fst s) =? 0) || (n =? 0))%bool with false.
    2:{ symmetry. apply orb_false_iff. split; apply Nat.eqb_neq; [rewrite Es; cbn; lia|lia]. }
    pose proof (setup_w_spec n s (conj H1 (conj H2 H3))) as (W1 & W2 & W3 & W4).
    rewrite W1. replace (finm (fst s)) with (finm (map fst (seg_sample s))) by now rewrite W2. apply fold_R; auto.
Qed.
