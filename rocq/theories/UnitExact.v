(** Exact factorisations and inverses follow a change of units. *)

From Coq Require Import ZArith QArith Bool Lia List String Reals Lra.
From Verif Require Import Base Num Samplers Adapt Settings Simulator ScaleNum UnitSpec UnitNum RVec RMat StatSpec DemoRealRun.
Import ListNotations.
Close Scope Q_scope.
Open Scope list_scope.
Open Scope R_scope.

(** [L] is the lower triangular factor with positive diagonal of [A], whose lower triangle is read. *)
Definition factor_of (n : nat) (A L : list (list XR)) : Prop :=
  exists M P, A = finm (table n n M) /\ L = finm (table n n P) /\
    (forall i j, (i < j)%nat -> (j < n)%nat -> P i j = 0) /\ (forall i, (i < n)%nat -> 0 < P i i) /\
    forall i j, (i < n)%nat -> (j <= i)%nat -> Sum n (fun k => P i k * P j k) = M i j.
Definition inverse_of (n : nat) (A B : list (list XR)) : Prop :=
  exists M P, A = finm (table n n M) /\ B = finm (table n n P) /\ mat_inverse n M P.
(** A function that finds factors or inverses exactly when they exist, for matrices up to some size. *)
Definition exact (rel : nat -> list (list XR) -> list (list XR) -> Prop) (bound : nat) (f : list (list XR) -> option (list (list XR))) : Prop :=
  forall A B, f A = Some B <-> exists n, (0 < n <= bound)%nat /\ rel n A B.

Lemma vtab_us c n f : us c (fin (vtab n f)) = fin (vtab n (fun j => nth j c 1 * f j)).
Proof. unfold fin, vtab. rewrite !map_map, us_map_seq. apply map_ext. intros j. cbn [sc]. now rewrite Nat.sub_0_r. Qed.
Lemma table_us c n m f : map (us c) (finm (table n m f)) = finm (table n m (fun i j => nth j c 1 * f i j)).
Proof. rewrite !finm_table, map_map. apply map_ext. intros i. apply vtab_us. Qed.
Lemma table_rws c n m f : rws c (finm (table n m f)) = finm (table n m (fun i j => nth i c 1 * f i j)).
Proof.
  rewrite !finm_table, rws_map_seq. apply map_ext. intros i. rewrite Nat.sub_0_r. unfold fin, vtab. rewrite !map_map. reflexivity.
Qed.

Lemma factor_units c n A L : posl c -> factor_of n A L -> factor_of n (both c A) (rws c L).
Proof.
  intros Hc (M & P & -> & -> & T & D & G). unfold both. rewrite table_us, !table_rws. do 2 eexists. split; [reflexivity|]. split; [reflexivity|].
  split; [|split].
  - intros i j Hi Hj. rewrite T by assumption. ring.
  - intros i Hi. apply Rmult_lt_0_compat; [now apply pos_nth|now apply D].
  - intros i j Hi Hj. rewrite <- G by assumption. rewrite (Sum_ext n _ (fun k => nth i c 1 * nth j c 1 * (P i k * P j k))) by (intros; ring).
    rewrite Sum_scal. ring.
Qed.
Lemma inverse_units c n A B : posl c -> inverse_of n A B -> inverse_of n (map (us c) A) (rws (map Rinv c) B).
Proof.
  intros Hc (M & P & -> & -> & G). rewrite table_us, !table_rws. do 2 eexists. split; [reflexivity|]. split; [reflexivity|].
  intros i j Hi Hj. rewrite <- (G i j Hi Hj). apply Sum_ext. intros k _. rewrite inv_nth. pose proof (pos_nth c k Hc). field. lra.
Qed.

Lemma inv_inv c : posl c -> map Rinv (map Rinv c) = c.
Proof. induction 1 as [|r c Hr _ IH]; cbn [map]; [reflexivity|]. rewrite IH, Rinv_inv. reflexivity. Qed.
Lemma us_forth c v : posl c -> us c (us (map Rinv c) v) = v.
Proof. intros H. rewrite <- (inv_inv c H) at 1. apply us_back. now apply pos_inv. Qed.
Lemma rws_back c : posl c -> forall M, rws (map Rinv c) (rws c M) = M.
Proof.
  induction 1 as [|r c Hr _ IH]; intros [|row M]; cbn [rws map]; auto. rewrite IH, map_map. f_equal. transitivity (map (fun x : XR => x) row); [|apply map_id].
  apply map_ext. intros x. now apply sc_back.
Qed.
Lemma map_us_back c M : posl c -> map (us (map Rinv c)) (map (us c) M) = M.
Proof. intros H. rewrite map_map. transitivity (map (fun x : list XR => x) M); [|apply map_id]. apply map_ext. intros x. now apply us_back. Qed.
Lemma both_back c M : posl c -> both (map Rinv c) (both c M) = M.
Proof. intros H. unfold both. rewrite <- rws_comm, rws_back, map_us_back by assumption. reflexivity. Qed.

Lemma follows (rel : nat -> list (list XR) -> list (list XR) -> Prop) bound f (a a' b b' : list (list XR) -> list (list XR)) :
  exact rel bound f -> (forall A, a' (a A) = A) -> (forall n A B, rel n A B -> rel n (a A) (b B)) -> (forall n A B, rel n A B -> rel n (a' A) (b' B)) ->
  forall A, f (a A) = option_map b (f A).
Proof.
  intros X K F F' A. destruct (f A) as [B|] eqn:H; cbn [option_map].
  - apply X in H. destruct H as (n & Hn & H). apply X. exists n. auto.
  - destruct (f (a A)) as [B|] eqn:H'; [|reflexivity]. apply X in H'. destruct H' as (n & Hn & H'). apply F' in H'. rewrite K in H'.
    assert (Y : f A = Some (b' B)) by (apply X; exists n; auto). congruence.
Qed.

Theorem exact_unit_free c E bound : posl c -> exact factor_of bound (e_chol E) -> exact inverse_of bound (e_inv E) -> unit_free c E.
Proof.
  intros Hc X Y. pose proof (pos_inv c Hc) as Hi. constructor.
  - apply (follows factor_of bound (e_chol E) (both c) (both (map Rinv c)) (rws c) (rws (map Rinv c)) X).
    + intros A. now apply both_back.
    + intros n A B. now apply factor_units.
    + intros n A B. now apply factor_units.
  - apply (follows inverse_of bound (e_inv E) (map (us c)) (map (us (map Rinv c))) (rws (map Rinv c)) (rws (map Rinv (map Rinv c))) Y).
    + intros A. now apply map_us_back.
    + intros n A B. now apply inverse_units.
    + intros n A B. now apply inverse_units.
Qed.

(** ** The functions of DemoRealRun.v *)
Definition get2 (a b c d : R) (i j : nat) : R := match i, j with O, O => a | O, _ => b | _, O => c | _, _ => d end.
Ltac cases H := repeat match type of H with context [match ?x with _ => _ end] => is_var x; destruct x; try discriminate end.
Lemma real_chol_exact : exact factor_of 2 real_chol.
Proof.
  intros A B. split.
  - intros H. unfold real_chol in H.
    cases H.
    + unfold Rltb in H. destruct (Rlt_dec 0 a) as [Ha|]; [|discriminate]. inversion H; subst B. exists 1%nat. split; [lia|].
      exists (fun _ _ => a), (fun _ _ => sqrt a). split; [reflexivity|]. split; [reflexivity|]. split; [intros; lia|]. split; [intros; now apply sqrt_lt_R0|].
      intros i j _ _. cbn [Sum]. rewrite sqrt_sqrt by lra. lra.
    + rename a0 into x, a1 into b, a2 into d. unfold Rltb in H.
      destruct (Rlt_dec 0 a) as [Ha|]; [|discriminate]. destruct (Rlt_dec 0 (d - b * b / a)) as [Hd|]; [|discriminate]. cbn [andb] in H. inversion H; subst B.
      exists 2%nat. split; [lia|]. exists (get2 a x b d), (get2 (sqrt a) 0 (b / sqrt a) (sqrt (d - b * b / a))). split; [reflexivity|]. split; [reflexivity|].
      pose proof (sqrt_lt_R0 _ Ha) as Sa. pose proof (sqrt_lt_R0 _ Hd) as Sd. pose proof (sqrt_sqrt a ltac:(lra)) as Qa. pose proof (sqrt_sqrt _ (Rlt_le _ _ Hd)) as Qd.
      split; [|split].
      * intros i j Hi Hj. assert (i = 0%nat) by lia. assert (j = 1%nat) by lia. subst. reflexivity.
      * intros [|[|i]] Hi; cbn; auto; lia.
      * intros [|[|i]] [|[|j]] Hi Hj; try lia; cbn [Sum get2]; rewrite ?Qd.
        -- lra.
        -- field_simplify; [lra|lra].
        -- replace (b / sqrt a * (b / sqrt a)) with (b * b / (sqrt a * sqrt a)) by (field; lra). rewrite Qa. lra.
  - intros (n & Hn & M & P & -> & -> & T & D & G). assert (n = 1 \/ n = 2)%nat as [-> | ->] by lia; cbn [table vtab map seq finm fin]; unfold table, vtab; cbn [map seq finm fin].
    + specialize (G 0%nat 0%nat ltac:(lia) ltac:(lia)). specialize (D 0%nat ltac:(lia)). cbn [Sum] in G. cbn. assert (0 < M 0%nat 0%nat) by nra. rewrite Rltb_true by assumption.
      do 3 f_equal. f_equal. replace (M 0%nat 0%nat) with (P 0%nat 0%nat * P 0%nat 0%nat) by lra. apply sqrt_square. lra.
    + pose proof (G 0%nat 0%nat ltac:(lia) ltac:(lia)) as G00. pose proof (G 1%nat 0%nat ltac:(lia) ltac:(lia)) as G10. pose proof (G 1%nat 1%nat ltac:(lia) ltac:(lia)) as G11. cbn [Sum] in G00, G10, G11.
      pose proof (D 0%nat ltac:(lia)) as D0. pose proof (D 1%nat ltac:(lia)) as D1. pose proof (T 0%nat 1%nat ltac:(lia) ltac:(lia)) as T0. rewrite T0 in *.
      set (p := P 0%nat 0%nat) in *. set (q := P 1%nat 0%nat) in *. set (s := P 1%nat 1%nat) in *. cbn.
      replace (M 0%nat 0%nat) with (p * p) by lra. replace (M 1%nat 0%nat) with (q * p) by lra. replace (M 1%nat 1%nat) with (q * q + s * s) by lra.
      replace (q * q + s * s - q * p * (q * p) / (p * p)) with (s * s) by (field; lra).
      rewrite !Rltb_true by nra. cbn [andb]. rewrite !sqrt_square by lra. replace (q * p / p) with q by (field; lra). reflexivity.
Qed.
Lemma real_inv_exact : exact inverse_of 2 real_inv.
Proof.
  intros A B. split.
  - intros H. unfold real_inv in H.
    cases H.
    + unfold Reqb in H. destruct (Req_EM_T a 0) as [|Ha]; [discriminate|]. inversion H; subst B. exists 1%nat. split; [lia|].
      exists (fun _ _ => a), (fun _ _ => / a). split; [reflexivity|]. split; [reflexivity|]. intros i j Hi Hj. assert (i = 0%nat) by lia. assert (j = 0%nat) by lia. subst. cbn. field. exact Ha.
    + rename a0 into b, a1 into c, a2 into d. unfold Reqb in H.
      destruct (Req_EM_T (a * d - b * c) 0) as [|Hd]; [discriminate|]. inversion H; subst B.
      exists 2%nat. split; [lia|]. exists (get2 a b c d), (get2 (d / (a * d - b * c)) (- b / (a * d - b * c)) (- c / (a * d - b * c)) (a / (a * d - b * c))). split; [reflexivity|]. split; [reflexivity|].
      intros [|[|i]] [|[|j]] Hi Hj; try lia; cbn; field; exact Hd.
  - intros (n & Hn & M & P & -> & -> & G). assert (n = 1 \/ n = 2)%nat as [-> | ->] by lia; unfold table, vtab; cbn [map seq finm fin].
    + specialize (G 0%nat 0%nat ltac:(lia) ltac:(lia)). cbn in G. cbn. assert (M 0%nat 0%nat <> 0) by (intros Z; rewrite Z in G; lra). rewrite Reqb_false by assumption.
      do 3 f_equal. f_equal. apply Rmult_eq_reg_l with (M 0%nat 0%nat); [|assumption]. rewrite Rinv_r by assumption. lra.
    + pose proof (G 0%nat 0%nat ltac:(lia) ltac:(lia)) as G00. pose proof (G 1%nat 0%nat ltac:(lia) ltac:(lia)) as G10. pose proof (G 1%nat 1%nat ltac:(lia) ltac:(lia)) as G11. pose proof (G 0%nat 1%nat ltac:(lia) ltac:(lia)) as G01.
      cbn in G00, G10, G11, G01. cbn.
      set (a := M 0%nat 0%nat) in *. set (b := M 0%nat 1%nat) in *. set (c := M 1%nat 0%nat) in *. set (d := M 1%nat 1%nat) in *.
      set (p := P 0%nat 0%nat) in *. set (q := P 0%nat 1%nat) in *. set (r := P 1%nat 0%nat) in *. set (s := P 1%nat 1%nat) in *.
      assert (K : (a * d - b * c) * (p * s - q * r) = 1).
      { transitivity ((0 + a * p + b * r) * (0 + c * q + d * s) - (0 + a * q + b * s) * (0 + c * p + d * r)); [ring|]. rewrite G00, G01, G10, G11. ring. }
      assert (N : a * d - b * c <> 0) by (intros Z; rewrite Z in K; lra). rewrite Reqb_false by exact N.
      assert (E : forall x y, (a * d - b * c) * x = y -> y / (a * d - b * c) = x) by (intros x y <-; field; exact N).
      rewrite (E p), (E q), (E r), (E s); [reflexivity| | | |].
      * transitivity (a * (0 + c * q + d * s) - c * (0 + a * q + b * s)); [ring|]. rewrite G11, G01. ring.
      * transitivity (a * (0 + c * p + d * r) - c * (0 + a * p + b * r)); [ring|]. rewrite G10, G00. ring.
      * transitivity (d * (0 + a * q + b * s) - b * (0 + c * q + d * s)); [ring|]. rewrite G11, G01. ring.
      * transitivity (d * (0 + a * p + b * r) - b * (0 + c * p + d * r)); [ring|]. rewrite G10, G00. ring.
Qed.
