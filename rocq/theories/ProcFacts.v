(** Facts about the default sum of squares and the default prior (C52, C53). *)

From Coq Require Import ZArith QArith Bool Lia List Reals Lra.
From Verif Require Import Base Num Samplers SamplerFacts Adapt Settings Procedures RVec VarFacts.
Import ListNotations.
Close Scope Q_scope.
Open Scope list_scope.
Open Scope R_scope.

(** Weighted residual sum of squares of two columns. *)
Definition weighted_ss (w : R) (y f : list R) : R := Sum (length y) (fun j => w * (nth j y 0 - nth j f 0) ^ 2).

Lemma weighted_ss_nonneg w y f : 0 <= w -> 0 <= weighted_ss w y f.
Proof. intros H. apply Sum_nonneg. intros k _. apply Rmult_le_pos; auto. apply pow2_ge_0. Qed.
Lemma weighted_ss_zero w y f : 0 <= w ->
  (weighted_ss w y f = 0 <-> forall j, (j < length y)%nat -> w * (nth j y 0 - nth j f 0) = 0).
Proof.
  intros H. unfold weighted_ss. split.
  - intros HZ j Hj. pose proof (Sum_nonneg_0 _ _ (fun k _ => Rmult_le_pos _ _ H (pow2_ge_0 (nth k y 0 - nth k f 0))) HZ j Hj) as HJ.
    cbv beta in HJ. apply Rmult_integral in HJ as [->|HJ]; [ring|]. simpl in HJ. rewrite Rmult_1_r in HJ.
    apply Rmult_integral in HJ as [-> | ->]; ring.
  - intros HA. apply Sum_0. intros k Hk. specialize (HA k Hk). replace (w * (nth k y 0 - nth k f 0) ^ 2) with
      (w * (nth k y 0 - nth k f 0) * (nth k y 0 - nth k f 0)) by ring. rewrite HA. ring.
Qed.

(** The column [l] as an n x 1 array. *)
Definition column (l : list R) : arr XR := mkarr (length l) 1 (fin l).

Lemma fold_nadd_fin (g : nat -> R) : forall l a, fold_left nadd (map (fun i => @Fin R (g i)) l) (Fin a) = Fin (a + Rsum (map g l)).
Proof.
  induction l as [|x l IH]; intros a; cbn [map fold_left Rsum].
  - f_equal. cbn [Rsum fold_right]. lra.
  - rewrite XR_add, IH. f_equal. unfold Rsum. cbn [fold_right]. lra.
Qed.

Lemma bent_column l i : (i < length l)%nat -> bent (column l) i 0 = Fin (nth i l 0).
Proof.
  intros H. unfold bent, column. cbn [ar_rows ar_cols ar_ent]. rewrite XR_n0.
  replace ((if length l =? 1 then 0 else i) * 1 + (if 1 =? 1 then 0 else 0))%nat with i.
  - apply nth_fin.
  - destruct (Nat.eqb_spec (length l) 1); cbn; lia.
Qed.

Lemma batch_column w y f : length f = length y -> batch_ss (Fin w) (column y) (column f) = Ok (Fin (weighted_ss w y f)).
Proof.
  intros H. unfold batch_ss. cbn [column ar_rows ar_cols]. unfold bdim. rewrite H, !Nat.eqb_refl.
  destruct (Nat.eqb_spec (length y) 0) as [E|E].
  - rewrite XR_n0. unfold weighted_ss. rewrite E. reflexivity.
  - f_equal. unfold column_sum. fold (column y). fold (column f).
    replace (mkarr (length y) 1 (fin f)) with (column f) by (unfold column; now rewrite H).
    rewrite XR_n0.
    rewrite (map_ext_in _ (fun i => @Fin R (w * (nth i y 0 - nth i f 0) ^ 2))).
    + rewrite fold_nadd_fin, Rplus_0_l, (Rsum_map_Sum 0%nat). rewrite seq_length. f_equal. unfold weighted_ss.
      apply Sum_ext. intros k Hk. now rewrite seq_nth by auto.
    + intros i Hi. apply in_seq in Hi. rewrite !bent_column by lia. unfold nsqr. rewrite XR_sub, !XR_mul. f_equal. ring.
Qed.

(** A flat model output against a column with at least two rows is not accepted. *)
Lemma batch_flat (w : XR) y (f : list XR) : (2 <= length y)%nat -> (2 <= length f)%nat ->
  batch_ss w (column y) (mkarr 1 (length f) f) = Err ValueError.
Proof.
  intros Hy Hf. unfold batch_ss. cbn [column ar_rows ar_cols]. unfold bdim.
  destruct (Nat.eqb_spec (length y) 1); [lia|]. destruct (Nat.eqb_spec 1 (length f)); [lia|]. cbn [Nat.eqb].
  destruct (Nat.eqb_spec (length y) 0); [lia|]. destruct (Nat.eqb_spec (length f) 1); [lia|]. reflexivity.
Qed.

(** A data set whose observations are the column [y]. *)
Definition column_set (d : data XR) (i : nat) (x : list XR) (w : R) (y : list R) : Prop :=
  nth_error (dt_sets d) i = Some (mkds x (fin y) (Fin w)) /\ nth_error (dt_shape d) i = Some [length y; 1%nat].

Lemma sos_loop_ok (model : list XR -> list XR -> arr XR) theta d (f : list XR -> list R) xs ws ys : forall n ib,
  (forall i, (ib <= i < ib + n)%nat -> column_set d i (xs i) (ws i) (ys i) /\
     model (xs i) theta = column (f (xs i)) /\ length (f (xs i)) = length (ys i)) ->
  sos_loop model theta d ib n = Ok (map (fun i => Fin (weighted_ss (ws i) (ys i) (f (xs i)))) (seq ib n)).
Proof.
  induction n as [|n IH]; intros ib H; [reflexivity|]. cbn [sos_loop seq map].
  destruct (H ib) as ([H1 H2] & H3 & H4); [lia|]. rewrite H1, H2. cbn [of_option bind nth d_weight d_ys d_xs].
  rewrite H3. fold (column (ys ib)).
  change (mkarr (length (ys ib)) 1 (fin (ys ib))) with (column (ys ib)). rewrite batch_column by auto. cbn [bind].
  rewrite IH by (intros i Hi; apply H; lia). cbn [bind]. rewrite XR_n0, XR_add, Rplus_0_l. reflexivity.
Qed.

Lemma default_sos (model : list XR -> list XR -> arr XR) theta d nbatch (f : list XR -> list R) xs ws ys :
  (forall i, (i < nbatch)%nat -> column_set d i (xs i) (ws i) (ys i) /\
     model (xs i) theta = column (f (xs i)) /\ length (f (xs i)) = length (ys i)) ->
  mcmc_sos_function model theta d nbatch = Ok (map (fun i => Fin (weighted_ss (ws i) (ys i) (f (xs i)))) (seq 0 nbatch)).
Proof. intros H. apply sos_loop_ok. intros i Hi. apply H. lia. Qed.

Lemma weighted_ss_facts w y f : 0 <= w -> 0 <= weighted_ss w y f /\
  (weighted_ss w y f = 0 <-> forall j, (j < length y)%nat -> w * (nth j y 0 - nth j f 0) = 0).
Proof. intros H. split; [now apply weighted_ss_nonneg|now apply weighted_ss_zero]. Qed.

Lemma flat_output (model : list XR -> list XR -> arr XR) theta d nbatch x w ys out : (1 <= nbatch)%nat ->
  nth_error (dt_sets d) 0 = Some (mkds x (fin ys) w) -> nth_error (dt_shape d) 0 = Some [length ys; 1%nat] ->
  model x theta = mkarr 1 (length out) out -> (2 <= length ys)%nat -> (2 <= length out)%nat ->
  mcmc_sos_function model theta d nbatch = Err ValueError.
Proof.
  intros Hn H1 H2 H3 Hy Ho. destruct nbatch as [|n]; [lia|]. unfold mcmc_sos_function. cbn [sos_loop]. rewrite H1, H2.
  cbn [of_option bind nth d_weight d_ys d_xs]. rewrite H3.
  change (mkarr (length ys) 1 (fin ys)) with (column ys). now rewrite batch_flat.
Qed.

(** ** Prior *)

(** Contribution of one parameter to the Gaussian prior; none for infinite [sigma]. *)
Definition prior_term (theta mu : R) (sigma : XR) : R :=
  match sigma with Fin s => ((mu - theta) / s) ^ 2 | _ => 0 end.
Fixpoint gaussian_prior (theta mu : list R) (sigma : list XR) : R :=
  match theta, mu, sigma with
  | t :: theta', m :: mu', s :: sigma' => prior_term t m s + gaussian_prior theta' mu' sigma'
  | _, _, _ => 0
  end.
Definition positive_sigma (s : XR) : Prop := s = PInf \/ exists x, s = Fin x /\ 0 < x.

Lemma default_prior_ok : forall theta mu sigma, length mu = length theta -> length sigma = length theta ->
  Forall positive_sigma sigma -> default_priorfun (fin theta) (fin mu) sigma = Fin (gaussian_prior theta mu sigma).
Proof.
  intros theta mu sigma Hm Hs HP. unfold default_priorfun. rewrite vsub_fin.
  assert (HR : exists r, map2 ndiv (fin (Rvsub mu theta)) sigma = fin r /\ Rdot r r = gaussian_prior theta mu sigma).
  { revert mu sigma Hm Hs HP. induction theta as [|t theta IH]; intros [|m mu] [|s sigma] Hm Hs HP; try discriminate.
    - exists []. split; reflexivity.
    - cbn in Hm, Hs. inversion HP as [|? ? P1 P2]; subst. destruct (IH mu sigma) as (r & R1 & R2); auto.
      destruct P1 as [->|(x & -> & Hx)].
      + exists (0 :: r). split.
        * unfold Rvsub in *. cbn [map2 fin map]. fold (fin (map2 Rminus mu theta)). f_equal; [|exact R1].
          cbn. now rewrite Q2R_0.
        * unfold Rdot in *. cbn [gaussian_prior prior_term]. rewrite <- R2. unfold Rsum. cbn [map2 fold_right]. lra.
      + exists ((m - t) / x :: r). split.
        * unfold Rvsub in *. cbn [map2 fin map]. fold (fin (map2 Rminus mu theta)). f_equal; [|exact R1].
          apply XR_ndiv. lra.
        * unfold Rdot in *. cbn [gaussian_prior prior_term]. rewrite <- R2. unfold Rsum. cbn [map2 fold_right].
          set (q := (m - t) / x). simpl. lra. }
  destruct HR as (r & -> & <-). apply vdot_fin.
Qed.

Lemma gaussian_prior_nonneg : forall theta mu sigma, 0 <= gaussian_prior theta mu sigma.
Proof.
  induction theta as [|t theta IH]; intros [|m mu] [|s sigma]; cbn [gaussian_prior]; try lra.
  specialize (IH mu sigma). assert (0 <= prior_term t m s); [|lra]. destruct s; cbn [prior_term]; try lra. apply pow2_ge_0.
Qed.
Lemma gaussian_prior_centre : forall theta sigma, gaussian_prior theta theta sigma = 0.
Proof.
  induction theta as [|t theta IH]; intros [|s sigma]; cbn [gaussian_prior]; try lra. rewrite IH.
  destruct s; cbn [prior_term]; try lra.
Qed.
Lemma gaussian_prior_flat : forall theta theta' mu sigma, length theta' = length theta ->
  (forall i, nth i sigma PInf <> PInf -> nth i theta 0 = nth i theta' 0) -> 
  Forall positive_sigma sigma ->
  gaussian_prior theta mu sigma = gaussian_prior theta' mu sigma.
Proof.
  induction theta as [|t theta IH]; intros [|t' theta'] [|m mu] [|s sigma] HL H HP; cbn; try reflexivity; try discriminate.
  inversion HP as [|? ? P1 P2]; subst. f_equal.
  - destruct P1 as [->|(x & -> & Hx)]; [reflexivity|]. cbn. pose proof (H O) as H0. cbn in H0. rewrite H0 by discriminate. reflexivity.
  - apply IH; auto. intros i Hi. apply (H (S i)). exact Hi.
Qed.

(** Prior widths as they reach the sampler: never zero or negative. *)
Lemma opened_sigma (ps : list (param XR)) i p : nth_error ps i = Some p ->
  nth_error (op_sigma (check_prior_sigma (openparameterstructure ps))) i =
  Some (match a_sigma p with Fin x => if Rlt_dec 0 x then Fin x else PInf | NInf => PInf | s => s end).
Proof.
  intros H. unfold openparameterstructure, check_prior_sigma. destruct (setup_adaptation_indices _ _) as [[? ?] ?].
  cbn [op_sigma]. rewrite !nth_error_map, H. cbn [option_map]. f_equal. unfold setup_prior_sigma. rewrite XR_n0.
  destruct (a_sigma p) as [x| | |]; try reflexivity. cbn [neq Num_X xeq aeq Arith_R]. destruct (Rlt_dec 0 x) as [L|L].
  - assert (Q : Reqb x 0 = false) by (apply Reqb_false; lra). rewrite Q, XR_le.
    assert (Q1 : Rleb x 0 = false) by (apply Rleb_false; lra). now rewrite Q1.
  - destruct (Reqb x 0) eqn:Q; [reflexivity|]. rewrite XR_le. assert (Q1 : Rleb x 0 = true) by (apply Rleb_true; lra). now rewrite Q1.
Qed.
Lemma opened_mu (ps : list (param XR)) i p : nth_error ps i = Some p ->
  nth_error (op_mu (check_prior_sigma (openparameterstructure ps))) i =
  Some (match a_mu p with NaN => a_theta0 p | m => m end).
Proof.
  intros H. unfold openparameterstructure, check_prior_sigma. destruct (setup_adaptation_indices _ _) as [[? ?] ?].
  cbn [op_mu]. rewrite !nth_error_map, H. cbn [option_map]. f_equal. unfold setup_prior_mu. destruct (a_mu p); reflexivity.
Qed.

Lemma prior_facts theta mu sigma : length mu = length theta -> length sigma = length theta ->
  Forall positive_sigma sigma ->
  default_priorfun (fin theta) (fin mu) sigma = Fin (gaussian_prior theta mu sigma) /\
  0 <= gaussian_prior theta mu sigma /\ gaussian_prior theta theta sigma = 0 /\
  (forall theta', length theta' = length theta ->
     (forall i, nth i sigma PInf <> PInf -> nth i theta 0 = nth i theta' 0) ->
     gaussian_prior theta mu sigma = gaussian_prior theta' mu sigma).
Proof.
  intros H1 H2 H3. split; [now apply default_prior_ok|]. split; [apply gaussian_prior_nonneg|]. split; [apply gaussian_prior_centre|].
  intros theta' H4 H5. now apply gaussian_prior_flat.
Qed.
Lemma prior_settings (ps : list (param XR)) i p : nth_error ps i = Some p ->
  let op := check_prior_sigma (openparameterstructure ps) in
  nth_error (op_sigma op) i = Some (match a_sigma p with Fin x => if Rlt_dec 0 x then Fin x else PInf | NInf => PInf | s => s end) /\
  nth_error (op_mu op) i = Some (match a_mu p with NaN => a_theta0 p | m => m end).
Proof. intros H. split; [now apply opened_sigma|now apply opened_mu]. Qed.
