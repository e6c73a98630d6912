(** Initial proposal covariance and factor (C23). *)

From Coq Require Import ZArith QArith Bool Lia List Reals Lra Qreals.
From Verif Require Import Base Num Samplers SamplerFacts Adapt RVec RMat StatSpec AdaptFacts.
Import ListNotations.
Close Scope Q_scope.
Open Scope list_scope.
Open Scope R_scope.

(** The documented default: prior variance if finite, else (5% of the value)^2; 1 where that is 0. *)
Definition default_var (sigma : XR) (v : R) : R :=
  let q := match sigma with Fin s => s * s | _ => (Rabs v * (5 / 100)) * (Rabs v * (5 / 100)) end in
  if Req_EM_T q 0 then 1 else q.

Lemma default_var_pos sigma v : 0 < default_var sigma v.
Proof.
  unfold default_var. destruct (Req_EM_T _ 0) as [|H]; [lra|].
  pose proof (Rle_0_sqr (Rabs v * (5 / 100))).
  destruct sigma as [s| | |]; [pose proof (Rle_0_sqr s)| | |]; unfold Rsqr in *; lra.
Qed.

Lemma Q2R_5_100 : Q2R (5 # 100) = 5 / 100.
Proof. unfold Q2R. simpl. lra. Qed.

Lemma default_variance_spec sigma v : default_variance sigma (Fin v) = Fin (default_var sigma v).
Proof.
  assert (HE : forall q, (if neq (Fin q) n0 then n1 else Fin q) = @Fin R (if Req_EM_T q 0 then 1 else q)).
  { intros q. rewrite XR_n0, XR_n1. cbn [neq Num_X xeq aeq Arith_R]. unfold Reqb. destruct (Req_EM_T q 0); reflexivity. }
  assert (HV : nsqr (nmul (nabs (Fin v)) (nQ (5 # 100))) = @Fin R ((Rabs v * (5 / 100)) * (Rabs v * (5 / 100)))).
  { rewrite <- Q2R_5_100. reflexivity. }
  unfold default_variance. cbv zeta. destruct sigma as [s| | |].
  - change (nsqr (Fin s)) with (@Fin R (s * s)). cbn [nisinf nisnan Num_X xisinf xisnan orb]. apply HE.
  - change (nsqr (@PInf R)) with (@PInf R). cbn [nisinf nisnan Num_X xisinf xisnan orb]. rewrite HV. apply HE.
  - change (nsqr (@NInf R)) with (@PInf R). cbn [nisinf nisnan Num_X xisinf xisnan orb]. rewrite HV. apply HE.
  - change (nsqr (@NaN R)) with (@NaN R). cbn [nisinf nisnan Num_X xisinf xisnan orb]. rewrite HV. apply HE.
Qed.

Definition diagonal (d : nat -> R) (i j : nat) : R := if (i =? j)%nat then d i else 0.

Lemma default_covariance n sigma vals : length sigma = n -> length vals = n ->
  setup_covariance_matrix None sigma (fin vals) =
  finm (table n n (diagonal (fun i => default_var (nth i sigma NaN) (nth i vals 0)))).
Proof.
  intros H1 H2. unfold setup_covariance_matrix.
  assert (map2 default_variance sigma (fin vals) = fin (vtab n (fun i => default_var (nth i sigma NaN) (nth i vals 0)))) as ->.
  { subst n. revert vals H2. induction sigma as [|s sigma IH]; intros [|v vals] H2; simpl in H2; try lia; auto.
    cbn [fin map]. change (map2 default_variance (s :: sigma) (Fin v :: map Fin vals)) with
      (default_variance s (Fin v) :: map2 default_variance sigma (fin vals)).
    rewrite IH by lia. rewrite default_variance_spec. cbn [length]. unfold vtab. cbn [seq map nth fin]. f_equal.
    unfold fin. f_equal. rewrite <- seq_shift, map_map. reflexivity. }
  rewrite diagflat_tab. reflexivity.
Qed.

(** ** Restriction to the sampled parameters and factor *)

Lemma gather_fin l ix : (forall i, In i ix -> (i < length l)%nat) -> gather (fin l) ix = Ok (fin (map (fun i => nth i l 0) ix)).
Proof.
  induction ix as [|i ix IH]; intros H; [reflexivity|]. cbn [gather map].
  assert (HE : nth_error (fin l) i = Some (Fin (nth i l 0))).
  { unfold fin. rewrite nth_error_map, (nth_error_nth' l 0) by (apply H; left; auto). reflexivity. }
  rewrite HE. cbn [of_option bind]. rewrite IH by (intros; apply H; now right). reflexivity.
Qed.
Lemma gather_rows {A} (l : list A) d ix : (forall i, In i ix -> (i < length l)%nat) -> gather l ix = Ok (map (fun i => nth i l d) ix).
Proof.
  induction ix as [|i ix IH]; intros H; [reflexivity|]. cbn [gather map].
  rewrite (nth_error_nth' l d) by (apply H; left; auto). cbn [of_option bind].
  rewrite IH by (intros; apply H; now right). reflexivity.
Qed.

Lemma map_ix {A} (f : nat -> A) (ix : list nat) : map f ix = map (fun a => f (nth a ix 0%nat)) (seq 0 (length ix)).
Proof.
  induction ix as [|i ix IH]; [reflexivity|]. cbn [map length seq nth]. f_equal. rewrite IH, <- seq_shift, map_map. reflexivity.
Qed.

Lemma submat_tab n k Q ix : (forall i, In i ix -> (i < n)%nat) -> n = k ->
  submat (finm (table n k Q)) ix =
  Ok (finm (table (length ix) (length ix) (fun a b => Q (nth a ix 0%nat) (nth b ix 0%nat)))).
Proof.
  intros H <-. unfold submat. rewrite (gather_rows _ []) by (intros; rewrite finm_length, table_length; auto). cbn [bind].
  assert (G : forall ri, (forall i, In i ri -> (i < n)%nat) ->
    fold_right (fun r acc => let* g := gather r ix in let* t := acc in Ok (g :: t))%res (Ok []) (map (fun i => nth i (finm (table n n Q)) []) ri)
    = Ok (finm (map (fun i => map (fun j => Q i j) ix) ri))).
  { induction ri as [|r ri IH]; intros Hr; [reflexivity|]. cbn [map fold_right]. rewrite IH by (intros; apply Hr; now right).
    assert (Hn : nth r (finm (table n n Q)) [] = fin (vtab n (Q r))).
    { unfold finm. change (@nil XR) with (fin []). rewrite map_nth, nth_table by (apply Hr; left; auto). reflexivity. }
    rewrite Hn, gather_fin by (intros; rewrite vtab_length; auto). cbn [bind finm map]. do 3 f_equal.
    apply map_ext_in. intros i Hi. now apply nth_vtab, H. }
  rewrite G by auto. f_equal. f_equal. rewrite map_ix. unfold table. apply map_ext. intros a. rewrite map_ix. reflexivity.
Qed.

Definition restricted (ix : list nat) (Q : nat -> nat -> R) (a b : nat) : R := Q (nth a ix 0%nat) (nth b ix 0%nat).

Lemma concat_len {A} n m (l : list (list A)) : length l = n -> (forall r, In r l -> length r = m) -> length (concat l) = (n * m)%nat.
Proof.
  revert n; induction l as [|r l IH]; intros n H1 H2; simpl in H1; subst n; [reflexivity|].
  simpl. rewrite app_length, (IH (length l)) by (auto; intros; apply H2; now right).
  rewrite (H2 r) by (left; auto). lia.
Qed.

Section RMatrix.
Variable E : env XR.
Hypothesis HC : factorises (e_chol E).

Lemma sqrt_diag m d : (forall i, (i < m)%nat -> 0 <= d i) ->
  map (map nsqrt) (finm (table m m (diagonal d))) = finm (table m m (diagonal (fun i => sqrt (d i)))).
Proof.
  intros H. rewrite !finm_table, map_map. apply map_ext_in. intros i Hi. apply in_seq in Hi.
  rewrite !fin_vtab, map_map. apply map_ext_in. intros j Hj. apply in_seq in Hj.
  unfold diagonal. destruct (i =? j)%nat.
  - apply XR_nsqrt. apply H. lia.
  - rewrite XR_nsqrt, sqrt_0 by lra. reflexivity.
Qed.
Lemma gram_diag m d i j : (i < m)%nat -> (j < m)%nat -> (forall i, (i < m)%nat -> 0 <= d i) ->
  gram m (diagonal (fun i => sqrt (d i))) i j = diagonal d i j.
Proof.
  intros Hi Hj Hd. unfold gram, diagonal. rewrite (Sum_single m i); auto.
  - rewrite Nat.eqb_refl. destruct (i =? j)%nat; [apply sqrt_sqrt; auto|ring].
  - intros k _ Hk. destruct (Nat.eqb_spec k i); [contradiction|ring].
Qed.
Lemma diag_upper m d : upper_triangular m (diagonal d).
Proof. intros i j _ H. unfold diagonal. destruct (Nat.eqb_spec i j); [lia|auto]. Qed.

(** A square matrix, n >= 2. *)
Lemma setup_R_square n Q ix fac sub : (1 < n)%nat -> ix <> [] -> (forall i, In i ix -> (i < n)%nat) ->
  (forall i, In i ix -> 0 <= Q i i) -> (forall i j, In i ix -> In j ix -> Q i j = Q j i) ->
  setup_R_matrix E (finm (table n n Q)) ix = Ok (fac, sub) ->
  sub = finm (table (length ix) (length ix) (restricted ix Q)) /\
  scaled_factor (length ix) fac 1 (restricted ix Q).
Proof.
  intros Hn Hne Hix Hd HSy H. unfold setup_R_matrix in H.
  rewrite ncols_fin, Rcols_table, finm_length, table_length, Nat.min_id in H by lia.
  destruct (Nat.eqb_spec n 1); [lia|]. rewrite submat_tab in H by auto. cbn [bind] in H. fold (restricted ix Q) in H.
  assert (HL : (0 < length ix)%nat) by (destruct ix; [congruence|simpl; lia]).
  set (m := length ix) in *.
  rewrite (concat_len m m) in H.
  2:{ rewrite finm_length. apply table_length. }
  2:{ intros r Hr. rewrite finm_table in Hr. apply in_map_iff in Hr as (i & <- & _). now rewrite fin_length, vtab_length. }
  destruct (Nat.eqb_spec (m * m) 1) as [Hm|Hm].
  - assert (m = 1%nat) as E1 by nia. rewrite E1 in *.
    assert (HD : restricted ix Q 0 0 >= 0).
    { unfold restricted. apply Rle_ge, Hd, nth_In. fold m. lia. }
    assert (HT : table 1 1 (restricted ix Q) = table 1 1 (diagonal (fun _ => restricted ix Q 0 0))).
    { apply table_ext. intros i j Hi Hj. assert (i = O) as -> by lia. assert (j = O) as -> by lia. reflexivity. }
    assert (HF : fac = transpose (map (map nsqrt) (finm (table 1 1 (restricted ix Q))))) by congruence.
    rewrite HT, sqrt_diag, transpose_tab in HF by (auto; intros; lra). split; [congruence|].
    eexists. split; [exact HF|]. split.
    + intros i j Hi Hj. lia.
    + intros i j Hi Hj. assert (i = O) as -> by lia. assert (j = O) as -> by lia.
      unfold gram, diagonal. simpl. rewrite Rplus_0_l, sqrt_sqrt by lra. lra.
  - destruct (e_chol E _) as [c|] eqn:EC; [|discriminate]. cbn [of_option bind] in H.
    split; [congruence|]. assert (fac = transpose c) as -> by congruence.
    assert (HS : is_semi_pos_def_chol E (finm (table m m (restricted ix Q))) = Some (transpose c)).
    { unfold is_semi_pos_def_chol. now rewrite EC. }
    assert (HSr : symmetric m (restricted ix Q)) by (intros i j Hi Hj; apply HSy; apply nth_In; auto).
    destruct (chol_factor E HC m _ _ HL HSr HS) as (P & -> & HU & HG).
    exists P. split; auto. split; auto. intros i j Hi Hj. rewrite HG by auto. lra.
Qed.

(** A single row of n variances (for n = 1 this is the 1 x 1 matrix). *)
Lemma setup_R_row n q ix fac sub : (0 < n)%nat -> ix <> [] -> (forall i, In i ix -> (i < n)%nat) ->
  (forall i, (i < n)%nat -> 0 <= q i) -> NoDup ix ->
  setup_R_matrix E (finm [vtab n q]) ix = Ok (fac, sub) ->
  sub = finm (table (length ix) (length ix) (restricted ix (diagonal q))) /\
  scaled_factor (length ix) fac 1 (restricted ix (diagonal q)).
Proof.
  intros Hn Hne Hix Hd Hnd H. unfold setup_R_matrix in H.
  assert (HM : Nat.min (length (finm [vtab n q])) (ncols (finm [vtab n q])) = 1%nat).
  { rewrite ncols_fin. cbn [finm map length Rcols]. rewrite vtab_length. lia. }
  rewrite HM in H. cbn [Nat.eqb finm map concat] in H. rewrite app_nil_r, diagflat_tab in H. fold (diagonal q) in H.
  change (fun i j => if (i =? j)%nat then q i else 0) with (diagonal q) in H.
  rewrite submat_tab in H by auto. cbn [bind] in H. fold (restricted ix (diagonal q)) in H.
  set (m := length ix) in *.
  assert (HT : table m m (restricted ix (diagonal q)) = table m m (diagonal (fun a => q (nth a ix 0%nat)))).
  { apply table_ext. intros i j Hi Hj. unfold restricted, diagonal.
    destruct (Nat.eqb_spec i j) as [->|Hij]; [now rewrite Nat.eqb_refl|].
    destruct (Nat.eqb_spec (nth i ix 0%nat) (nth j ix 0%nat)) as [He|]; auto.
    exfalso. apply Hij. eapply NoDup_nth; eauto. }
  assert (Hq : forall i, (i < m)%nat -> 0 <= q (nth i ix 0%nat)) by (intros; apply Hd, Hix, nth_In; auto).
  assert (HF : fac = map (map nsqrt) (finm (table m m (restricted ix (diagonal q))))) by congruence.
  rewrite HT, sqrt_diag in HF by auto. split; [congruence|]. eexists. split; [exact HF|]. split; [apply diag_upper|].
  intros i j Hi Hj. rewrite gram_diag by auto.
  rewrite <- (ent_table m m (diagonal (fun a => q (nth a ix 0%nat))) i j), <- HT, ent_table by auto. lra.
Qed.
End RMatrix.

(** ** Scale *)
Lemma adascale_spec a n : (0 < n)%nat ->
  check_adascale (option_map (@Fin R) a) n =
  Fin (match a with Some v => if Rle_dec v 0 then 24 / 10 / sqrt (INR n) else v | None => 24 / 10 / sqrt (INR n) end).
Proof.
  intros Hn. assert (HI : 0 < INR n) by (apply lt_0_INR; auto). assert (HS : 0 < sqrt (INR n)) by now apply sqrt_lt_R0.
  assert (HD : nmul (nQ (24 # 10)) (ninv (nsqrt (nnat n))) = @Fin R (24 / 10 / sqrt (INR n))).
  { rewrite XR_nnat, XR_nsqrt, XR_ninv by lra. assert (HQ : Q2R (24 # 10) = 24 / 10) by (unfold Q2R; simpl; lra).
    rewrite <- HQ. reflexivity. }
  unfold check_adascale. destruct a as [v|]; cbn [option_map]; [|exact HD].
  rewrite XR_n0. cbn [nle Num_X xle ale Arith_R]. unfold Rleb. destruct (Rle_dec v 0); [exact HD|reflexivity].
Qed.
