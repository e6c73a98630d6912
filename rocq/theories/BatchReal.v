(** The batch-means estimate on real chains. *)

From Coq Require Import ZArith QArith Bool Lia List Reals Lra Arith.
From Verif Require Import Base Num ChainFiles ChainStats RVec StatsSpec StatsFacts BatchFacts.
Import ListNotations.
Close Scope Q_scope.
Open Scope list_scope.
Open Scope R_scope.

Lemma cut_finm b chain parts rest : cut b (finm chain) parts rest ->
  exists parts' rest', cut b chain parts' rest' /\ parts = map finm parts' /\ rest = finm rest'.
Proof.
  revert chain. induction parts as [|p parts IH]; intros chain (E & L & S).
  - exists [], chain. cbn in E. subst rest. repeat split; auto. rewrite finm_length in S. auto.
  - cbn [concat] in E. rewrite <- app_assoc in E. unfold finm in E.
    apply map_eq_app in E as (q & r & -> & <- & E). apply Forall_cons_iff in L as [L1 L2].
    destruct (IH r) as (ps & rs & (C1 & C2 & C3) & -> & ->).
    { split; [exact E|split; auto]. }
    exists (q :: ps), rs. rewrite map_length in L1. repeat split; auto.
    + cbn [concat]. rewrite <- app_assoc. now f_equal.
Qed.

Lemma Rcol_nonempty j m : m <> [] -> Rcol j m <> [].
Proof. destruct m; [congruence|discriminate]. Qed.

Lemma column_error_fin j b parts chain : (0 < b)%nat -> (2 <= length parts)%nat -> chain <> [] -> Forall (fun p => length p = b) parts ->
  column_error j b (map finm parts) (finm chain) =
  Fin (batch_error (map (fun p => Rmean (Rcol j p)) parts) (Rmean (Rcol j chain)) b).
Proof.
  intros B P C L. unfold column_error, batch_error. rewrite !map_length, map_map, col_fin, mean_fin by (now apply Rcol_nonempty).
  rewrite (map_ext_in _ (fun p => Fin ((Rmean (Rcol j p) - Rmean (Rcol j chain))²))).
  - replace (map (fun p => Fin ((Rmean (Rcol j p) - Rmean (Rcol j chain))²)) parts)
      with (fin (map (fun v => (v - Rmean (Rcol j chain))²) (map (fun p => Rmean (Rcol j p)) parts)))
      by (unfold fin; rewrite !map_map; reflexivity).
    rewrite vsum_fin, !XR_nnat. assert (0 < INR (length parts - 1)) by (apply lt_0_INR; lia).
    rewrite XR_ndiv by lra. rewrite XR_nmul, XR_nsqrt; auto.
    apply Rmult_le_pos; [|apply pos_INR]. unfold Rdiv. apply Rmult_le_pos; [|now apply Rlt_le, Rinv_0_lt_compat].
    apply Rsum_nonneg. intros x I. apply in_map_iff in I as (y & <- & _). apply Rle_0_sqr.
  - intros p I. rewrite Forall_forall in L. rewrite col_fin, mean_fin; [reflexivity|].
    apply Rcol_nonempty. specialize (L p I). destruct p; [cbn in L; lia|discriminate].
Qed.

(** The value returned for a real chain. *)
Theorem batch_value npar chain b : (0 < b)%nat -> (2 <= length chain / b)%nat ->
  exists parts rest, cut b chain parts rest /\ length parts = (length chain / b)%nat /\
    batch_mean_standard_deviation npar (finm chain) (Some b) =
    Ok (fin (map (fun j => batch_error (map (fun p => Rmean (Rcol j p)) parts) (Rmean (Rcol j chain)) b) (seq 0 npar))).
Proof.
  intros B H. destruct (batches npar (finm chain) (Some b) B) as (ps & rs & C & L & E).
  apply cut_finm in C as (parts & rest & C & -> & ->). rewrite finm_length, map_length in L.
  exists parts, rest. split; [auto|]. split; [auto|]. rewrite E, map_length, L.
  replace (length chain / b <? 2)%nat with false by (symmetry; apply Nat.ltb_ge; auto).
  f_equal. unfold fin. rewrite map_map. apply map_ext. intros j. apply column_error_fin; auto; try lia.
  - intros ->. cbn in H. rewrite Nat.div_0_l in H; lia.
  - apply C.
Qed.

(** Cutting is unique. *)
Lemma cut_unique {A} b (chain : list A) : forall p r p' r', cut b chain p r -> cut b chain p' r' -> p = p' /\ r = r'.
Proof.
  intros p. revert chain. induction p as [|x p IH]; intros chain r p' r' (E & L & S) (E' & L' & S').
  - cbn in E. subst r. destruct p' as [|x' p']; [cbn in E'; now subst|]. exfalso.
    apply Forall_cons_iff in L' as [L1 _]. revert S. rewrite E'. cbn [concat]. rewrite !app_length. lia.
  - apply Forall_cons_iff in L as [L1 L2]. rewrite E in E'. clear E. destruct p' as [|x' p'].
    + exfalso. cbn [concat app] in E'. revert S'. rewrite <- E'. rewrite !app_length. lia.
    + apply Forall_cons_iff in L' as [L3 L4]. cbn [concat] in E'. rewrite <- !app_assoc in E'.
      assert (H1 : length x = length x') by lia.
      assert (x = x' /\ concat p ++ r = concat p' ++ r') as [-> E2].
      { clear - E' H1. revert x' H1 E'. induction x as [|a x IH]; intros [|a' x'] L E'; cbn in L; try lia; auto.
        cbn in E'. injection E' as <- E'. destruct (IH x') as [-> ?]; auto. }
      destruct (IH (concat p ++ r) r p' r') as [-> ->]; auto; split; auto.
Qed.

Lemma in_concat_cut {A} b (chain : list A) parts rest p x : cut b chain parts rest -> In p parts -> In x p -> In x chain.
Proof. intros (-> & _ & _) I J. apply in_or_app. left. apply in_concat. eauto. Qed.

(** A chain with equal rows has estimate 0. *)
Theorem batch_constant npar chain row b : (0 < b)%nat -> (2 <= length chain / b)%nat -> (forall r, In r chain -> r = row) ->
  batch_mean_standard_deviation npar (finm chain) (Some b) = Ok (fin (repeat 0 npar)).
Proof.
  intros B H K. destruct (batch_value npar chain b B H) as (parts & rest & C & L & ->). do 2 f_equal.
  assert (NE : chain <> []) by (intros ->; cbn in H; rewrite Nat.div_0_l in H; lia).
  apply (list_ext 0); [now rewrite map_length, seq_length, repeat_length|].
  intros j Hj. rewrite map_length, seq_length in Hj. rewrite nth_map_seq by auto. rewrite nth_repeat.
  assert (MC : forall q, q <> [] -> (forall r, In r q -> r = row) -> Rmean (Rcol j q) = nth j row 0).
  { intros q N Kq. apply Rmean_const; [now apply Rcol_nonempty|]. intros x I. apply in_map_iff in I as (r & <- & I). now rewrite (Kq r I). }
  unfold batch_error. rewrite (MC chain) by auto.
  rewrite map_map, (map_ext_in _ (fun _ => 0)).
  - assert (Z : forall k : list (list (list R)), Rsum (map (fun _ => 0) k) = 0) by (induction k; simpl; [auto|unfold Rsum in *; lra]).
    rewrite Z. unfold Rdiv. rewrite Rmult_0_l, Rmult_0_l. apply sqrt_0.
  - intros p I. rewrite (MC p); [unfold Rsqr; ring| |].
    + destruct C as (_ & L2 & _). rewrite Forall_forall in L2. specialize (L2 p I). intros ->. cbn in L2. lia.
    + intros r J. apply K. eapply in_concat_cut; eauto.
Qed.

Definition mscal (c : R) (m : list (list R)) : list (list R) := map (map (fun x => c * x)) m.

Lemma Rcol_mscal c j m : Rcol j (mscal c m) = map (fun x => c * x) (Rcol j m).
Proof.
  unfold Rcol, mscal. rewrite !map_map. apply map_ext. intros r.
  rewrite <- (map_nth (fun x => c * x)). rewrite Rmult_0_r. reflexivity.
Qed.

Lemma Rmean_scal c l : Rmean (map (fun x => c * x) l) = c * Rmean l.
Proof. unfold Rmean. rewrite (Rsum_map_scal c (fun x => x)), map_id, map_length. unfold Rdiv. ring. Qed.

Lemma cut_map {A B} (f : A -> B) b chain parts rest : cut b chain parts rest -> cut b (map f chain) (map (map f) parts) (map f rest).
Proof.
  intros (-> & L & S). split; [now rewrite map_app, concat_map|]. split; [|now rewrite map_length].
  rewrite Forall_map. eapply Forall_impl; [|exact L]. intros; now rewrite map_length.
Qed.

Lemma batch_error_scal c y mu b : batch_error (map (fun x => c * x) y) (c * mu) b = Rabs c * batch_error y mu b.
Proof.
  unfold batch_error. rewrite !map_length, map_map.
  rewrite (map_ext _ (fun v => c * c * (v - mu)²)) by (intros; unfold Rsqr; ring).
  rewrite Rsum_map_scal, <- sqrt_Rsqr_abs, <- sqrt_mult_alt by apply Rle_0_sqr. f_equal. unfold Rsqr, Rdiv. ring.
Qed.

Theorem batch_scaling npar chain b c : (0 < b)%nat -> (2 <= length chain / b)%nat ->
  exists s, batch_mean_standard_deviation npar (finm chain) (Some b) = Ok (fin s) /\ length s = npar /\
    (forall x, In x s -> 0 <= x) /\
    batch_mean_standard_deviation npar (finm (mscal c chain)) (Some b) = Ok (fin (map (fun x => Rabs c * x) s)).
Proof.
  intros B H. destruct (batch_value npar chain b B H) as (parts & rest & C & L & E).
  destruct (batch_value npar (mscal c chain) b B) as (parts' & rest' & C' & L' & E').
  { unfold mscal. now rewrite map_length. }
  eexists. split; [exact E|]. split; [now rewrite map_length, seq_length|]. split.
  - intros x I. apply in_map_iff in I as (j & <- & _). apply sqrt_pos.
  - rewrite E'. do 2 f_equal. rewrite map_map. apply map_ext. intros j.
    destruct (cut_unique b _ _ _ _ _ C' (cut_map (map (fun x => c * x)) b chain parts rest C)) as [-> _].
    rewrite Rcol_mscal, Rmean_scal, map_map.
    rewrite (map_ext _ (fun p => c * Rmean (Rcol j p))).
    + rewrite <- (map_map (fun p => Rmean (Rcol j p)) (fun x => c * x)). apply batch_error_scal.
    + intros p. change (map (map (fun x => c * x)) p) with (mscal c p). now rewrite Rcol_mscal, Rmean_scal.
Qed.
