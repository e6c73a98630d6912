(** Matrices of numbers: closure under what the sampler does with them. *)

From Coq Require Import ZArith QArith Bool Lia List Reals Lra Qreals.
From Verif Require Import Base Num Samplers Adapt Settings Simulator RunSpec CompleteSpec BalanceSpec NumberSpec.
From Verif Require Import SamplerFacts RVec BalanceFacts InfFacts StatsFacts NaNRun.
Import ListNotations.
Close Scope Q_scope.
Open Scope list_scope.
Open Scope R_scope.

Lemma number_fin v : number (Fin v). Proof. now exists v. Qed.
Lemma number_Q q : number (@nQ XR _ q). Proof. eexists; reflexivity. Qed.
Lemma number_0 : number (@n0 XR _). Proof. apply number_Q. Qed.
Lemma number_1 : number (@n1 XR _). Proof. apply number_Q. Qed.
Lemma number_add a b : number a -> number b -> number (nadd a b).
Proof. intros [x ->] [y ->]. eexists; reflexivity. Qed.
Lemma number_sub a b : number a -> number b -> number (nsub a b).
Proof. intros [x ->] [y ->]. eexists; reflexivity. Qed.
Lemma number_mul a b : number a -> number b -> number (nmul a b).
Proof. intros [x ->] [y ->]. eexists; reflexivity. Qed.
Lemma positive_number x : positive x -> number x. Proof. intros (v & -> & _). apply number_fin. Qed.
Lemma not_negative_number x : not_negative x -> number x. Proof. intros (v & -> & _). apply number_fin. Qed.
Lemma nonzero_number x : nonzero x -> number x. Proof. intros (v & -> & _). apply number_fin. Qed.
Lemma positive_nonzero x : positive x -> nonzero x. Proof. intros (v & -> & H). exists v. split; auto. lra. Qed.
Lemma positive_not_negative x : positive x -> not_negative x. Proof. intros (v & -> & H). exists v. split; auto. lra. Qed.
Lemma number_inv a : nonzero a -> number (ninv a).
Proof. intros (x & -> & H). unfold ninv. rewrite XR_n1, XR_ndiv by auto. apply number_fin. Qed.
Lemma not_negative_0 : not_negative (@n0 XR _). Proof. exists 0. rewrite XR_n0. split; auto. lra. Qed.
Lemma not_negative_1 : not_negative (@n1 XR _). Proof. exists 1. rewrite XR_n1. split; auto. lra. Qed.
Lemma not_negative_sqrt x : not_negative x -> not_negative (nsqrt x).
Proof.
  intros (v & -> & H). exists (sqrt v). split; [|apply sqrt_pos]. xs. unfold Rltb. destruct (Rlt_dec v 0); [lra|reflexivity].
Qed.
Lemma number_sqrt x : not_negative x -> number (nsqrt x).
Proof. intros H. apply not_negative_number, not_negative_sqrt, H. Qed.
#[local] Hint Resolve number_fin number_Q number_0 number_1 number_add number_sub number_mul positive_number not_negative_number number_inv : core.

(** ** Lists *)

Lemma Forall_nth_d {A} (P : A -> Prop) l d : Forall P l -> P d -> forall i, P (nth i l d).
Proof. intros H Hd. induction H; intros [|i]; simpl; auto. Qed.
Lemma Forall_map2 {A B C} (P : A -> Prop) (Q : B -> Prop) (S : C -> Prop) (f : A -> B -> C) :
  (forall a b, P a -> Q b -> S (f a b)) -> forall l l', Forall P l -> Forall Q l' -> Forall S (map2 f l l').
Proof. intros Hf l l' H. revert l'. induction H; intros l' H'; destruct H'; simpl; constructor; auto. Qed.
Lemma Forall_mapP {A B} (P : A -> Prop) (Q : B -> Prop) (f : A -> B) l : (forall a, P a -> Q (f a)) -> Forall P l -> Forall Q (map f l).
Proof. intros Hf H. induction H; simpl; constructor; auto. Qed.
Lemma Forall_map_all {A B} (Q : B -> Prop) (f : A -> B) l : (forall a, Q (f a)) -> Forall Q (map f l).
Proof. intros H. induction l; simpl; constructor; auto. Qed.
Lemma Forall_repeat {A} (P : A -> Prop) a n : P a -> Forall P (repeat a n).
Proof. intros H. induction n; simpl; constructor; auto. Qed.
Lemma Forall_firstn' {A} (P : A -> Prop) n (l : list A) : Forall P l -> Forall P (firstn n l).
Proof. intros H. revert n. induction H; intros [|n]; simpl; constructor; auto. Qed.
Lemma Forall_skipn' {A} (P : A -> Prop) n (l : list A) : Forall P l -> Forall P (skipn n l).
Proof. intros H. revert n. induction H; intros [|n]; simpl; auto. Qed.
Lemma Forall_slice {A} (P : A -> Prop) a b (l : list A) : Forall P l -> Forall P (slice a b l).
Proof. intros H. unfold slice. apply Forall_firstn', Forall_skipn', H. Qed.
Lemma Forall_scatter {A} (P : A -> Prop) ix : forall (x v : list A), Forall P x -> Forall P v -> Forall P (scatter x ix v).
Proof.
  induction ix as [|i ix IH]; intros x v Hx Hv; simpl; auto. destruct v; auto. inv Hv. apply IH; auto. apply Forall_set_nth; auto.
Qed.
Lemma Forall_gather {A} (P : A -> Prop) (x : list A) : Forall P x -> forall ix y, gather x ix = Ok y -> Forall P y.
Proof.
  intros Hx. induction ix as [|i ix IH]; simpl; intros y H; [inv H; constructor|].
  peel H. peel H. inv H. constructor; [|apply IH; auto]. destruct (nth_error x i) eqn:En; inv E.
  apply nth_error_In in En. rewrite Forall_forall in Hx. auto.
Qed.
Lemma nth_d {A} (P : A -> Prop) (l : list A) d i : Forall P l -> P d -> P (nth i l d). Proof. intros; now apply Forall_nth_d. Qed.

(** ** Vectors and matrices *)

Section Closed.
Variable P : XR -> Prop.
Hypothesis P0 : P n0.

Lemma every_nth M i : every P M -> Forall P (nth i M []).
Proof. intros H. apply (Forall_nth_d (Forall P)); auto. Qed.
Lemma every_entry M i j : every P M -> P (nth j (nth i M []) n0).
Proof. intros H. apply Forall_nth_d; auto. now apply every_nth. Qed.
Lemma every_col j M : every P M -> Forall P (col j M).
Proof. intros H. unfold col. eapply Forall_mapP; [|exact H]. intros r Hr. now apply Forall_nth_d. Qed.
Lemma every_transpose M : every P M -> every P (transpose M).
Proof. intros H. apply Forall_map_all. intros j. now apply every_col. Qed.
Lemma every_diagflat v : Forall P v -> every P (diagflat v).
Proof. intros H. apply Forall_map_all. intros i. apply Forall_map_all. intros j. destruct (i =? j)%nat; auto. now apply Forall_nth_d. Qed.
Lemma every_concat M : every P M -> Forall P (concat M).
Proof. intros H. induction H; simpl; [constructor|]. apply Forall_app. auto. Qed.
Lemma every_submat M ix S : every P M -> submat M ix = Ok S -> every P S.
Proof.
  intros H. unfold submat. intros HS. peel HS. apply (Forall_gather _ _ H) in E. revert S HS.
  induction E as [|r rows Hr E IH]; simpl; intros S HS; [inv HS; constructor|].
  peel HS. peel HS. inv HS. constructor; [eapply Forall_gather; eassumption|]. apply IH. assumption.
Qed.
Lemma every_zeros n k : every P (zeros n k).
Proof. unfold zeros. apply Forall_repeat, Forall_repeat, P0. Qed.
Lemma every_slice M a b : every P M -> every P (slice a b M).
Proof. apply Forall_slice. Qed.
End Closed.

Lemma every_impl (P Q : XR -> Prop) M : (forall x, P x -> Q x) -> every P M -> every Q M.
Proof. intros H. apply Forall_impl. intros r. apply Forall_impl, H. Qed.

Lemma numbers_vsum v : Forall number v -> number (vsum v).
Proof.
  intros H. unfold vsum. assert (G : forall a, number a -> number (fold_left nadd v a)); [|apply G; auto].
  induction H as [|x v Hx H IH]; intros a Ha; cbn [fold_left]; auto.
Qed.
Lemma positive_vsum v : Forall positive v -> v <> [] -> positive (vsum v).
Proof.
  intros H Hn. assert (G : forall w a, Forall positive w -> positive a -> positive (fold_left nadd w a)).
  { induction w as [|x w IH]; intros a Hw Ha; cbn [fold_left]; auto. inv Hw. apply IH; auto.
    destruct Ha as (p & -> & Hp). destruct H2 as (q & -> & Hq). exists (p + q). split; [reflexivity|lra]. }
  unfold vsum. destruct v as [|x v]; [congruence|]. inv H. cbn [fold_left]. apply G; auto.
  destruct H2 as (q & -> & Hq). exists (0 + q). rewrite XR_n0. split; [reflexivity|lra].
Qed.
Lemma numbers_vmul u v : Forall number u -> Forall number v -> Forall number (vmul u v).
Proof. apply Forall_map2. auto. Qed.
Lemma numbers_vadd u v : Forall number u -> Forall number v -> Forall number (vadd u v).
Proof. apply Forall_map2. auto. Qed.
Lemma numbers_vsub u v : Forall number u -> Forall number v -> Forall number (vsub u v).
Proof. apply Forall_map2. auto. Qed.
Lemma numbers_vscale c v : number c -> Forall number v -> Forall number (vscale c v).
Proof. intros Hc. apply Forall_mapP. auto. Qed.
Lemma numbers_vdot u v : Forall number u -> Forall number v -> number (vdot u v).
Proof. intros. now apply numbers_vsum, numbers_vmul. Qed.
Lemma numbers_vecmat z M : Forall number z -> every number M -> Forall number (vecmat z M).
Proof. intros. apply Forall_map_all. intros j. apply numbers_vdot; auto. apply every_col; auto. Qed.
Lemma numbers_matmul A B : every number A -> every number B -> every number (matmul A B).
Proof. intros HA HB. eapply Forall_mapP; [|exact HA]. intros r Hr. now apply numbers_vecmat. Qed.
Lemma numbers_mscale c M : number c -> every number M -> every number (mscale c M).
Proof. intros Hc. apply Forall_mapP. intros r Hr. now apply numbers_vscale. Qed.
Lemma numbers_madd A B : every number A -> every number B -> every number (madd A B).
Proof. apply Forall_map2. intros. now apply numbers_vadd. Qed.
Lemma numbers_eye n : every number (eye n).
Proof. apply Forall_map_all. intros i. apply Forall_map_all. intros j. destruct (i =? j)%nat; auto. Qed.
Lemma numbers_outer u v : Forall number u -> Forall number v -> every number (outer u v).
Proof. intros Hu Hv. eapply Forall_mapP; [|exact Hu]. intros x Hx. eapply Forall_mapP; [|exact Hv]. auto. Qed.
Lemma numbers_transpose M : every number M -> every number (transpose M).
Proof. apply every_transpose. auto. Qed.
#[local] Hint Resolve numbers_vadd numbers_vsub numbers_vmul numbers_vscale numbers_vdot numbers_vecmat numbers_matmul numbers_mscale numbers_madd numbers_eye
  numbers_outer numbers_transpose numbers_vsum : core.

(** ** Chain statistics *)

Definition stats_ok (t : mat * list XR * XR) : Prop := every number (fst (fst t)) /\ Forall number (snd (fst t)) /\ positive (snd t).

Lemma ones n : setup_w [@n1 XR _] n = repeat (Fin 1) n.
Proof.
  unfold setup_w. rewrite XR_n1. replace (nmul (Fin 1) (Fin 1)) with (@Fin R 1); auto. rewrite XR_nmul. f_equal. lra.
Qed.

Lemma initial_stats x n : every number x -> (n <> 0)%nat -> stats_ok (initialize_covariance_mean_sum x (repeat (Fin 1) n)).
Proof.
  intros Hx Hn. assert (Hw : Forall positive (repeat (@Fin R 1) n)). { apply Forall_repeat. exists 1. split; auto. lra. }
  assert (Hnum : Forall number (repeat (@Fin R 1) n)) by (eapply Forall_impl; [|exact Hw]; auto).
  assert (Hs : positive (vsum (repeat (@Fin R 1) n))). { apply positive_vsum; auto. destruct n; simpl; congruence. }
  unfold initialize_covariance_mean_sum. set (w := repeat (@Fin R 1) n) in *. set (W := vsum w) in *.
  assert (Hm : Forall number (wmean x w W (ncols x))).
  { apply Forall_map_all. intros i. apply number_mul; [|apply number_inv, positive_nonzero, Hs].
    apply numbers_vsum, numbers_vmul; auto. apply every_col; auto. }
  split; [|split; auto]. cbn [fst snd].
  destruct (nlt n1 W) eqn:HL; [|apply Forall_map_all; intros i; apply Forall_map_all; auto].
  assert (Hd : nonzero (nsub W n1)).
  { destruct Hs as (v & Hv & _). rewrite Hv, XR_n1 in *. rewrite XR_nlt in HL. unfold Rltb in HL. destruct (Rlt_dec 1 v); [|discriminate].
    exists (v - 1). split; [reflexivity|lra]. }
  apply Forall_map_all. intros i. apply Forall_map_all. intros j. unfold cov_entry.
  assert (G : forall k, Forall number (map (fun a => nsub a (nth k (wmean x w W (ncols x)) n0)) (col k x))).
  { intros k. eapply Forall_mapP; [|apply (every_col number number_0 k), Hx]. intros a Ha. apply number_sub; auto. apply Forall_nth_d; auto. }
  apply numbers_vdot; auto.
Qed.

Lemma row_stats t xi : stats_ok t -> Forall number xi -> stats_ok (cov_row t (xi, Fin 1)).
Proof.
  destruct t as [[cv mn] w]. intros (H1 & H2 & (v & Hv & Hp)) Hx. cbn [fst snd] in *. subst w.
  assert (Hd1 : number (ninv (nadd (Fin 1) (Fin v)))). { apply number_inv. exists (1 + v). split; [reflexivity|lra]. }
  assert (Hd2 : number (ninv (nsub (nadd (Fin 1) (Fin v)) n1))).
  { apply number_inv. exists (1 + v - 1). rewrite XR_n1. split; [reflexivity|lra]. }
  split; [|split]; cbn [fst snd cov_row].
  - apply numbers_madd; apply numbers_mscale; auto 8.
  - apply numbers_vadd; auto 8.
  - exists (1 + v). split; [reflexivity|lra].
Qed.

Lemma updated_stats x old : every number x -> (forall t, old = Some t -> stats_ok t) ->
  forall t, update_covariance_mean_sum x [n1] old = Some t -> stats_ok t.
Proof.
  intros Hx Ho t. unfold update_covariance_mean_sum. destruct (Nat.eqb_spec (length x) 0) as [|Hn]; [auto|].
  destruct (ncols x =? 0)%nat; [auto|]. cbn [orb]. rewrite ones. destruct old as [t0|]; intros H; inv H; [|apply initial_stats; auto].
  specialize (Ho _ eq_refl). clear Hn. revert t0 Ho. generalize (length x) as n. induction Hx as [|r x Hr Hx IH]; intros n t0 Ho; simpl; auto.
  destruct n; simpl; auto. apply IH. now apply row_stats.
Qed.

(** ** The covariance object *)

Definition rdr_ok (r : rdrval XR) : Prop := forall l, r = RSome l -> Forall (every number) l.
Record cov_ok (c : covst XR) : Prop := mkcok {
  ck_R : every number (c_R c);
  ck_qcov : every number (c_qcov c);
  ck_scale : number (c_qcov_scale c);
  ck_chain : optionally (every number) (c_covchain c);
  ck_mean : optionally (Forall number) (c_meanchain c);
  ck_wsum : optionally positive (c_wsum c);
  ck_RDR : rdr_ok (c_RDR c)
}.

Section Cov.
Variable E : env XR.
Hypothesis Hchol : forall A L, every number A -> e_chol E A = Some L -> every number L.

Lemma drscale_nonzero l i d : Forall nonzero l -> drscale_at l i = Ok d -> nonzero d.
Proof.
  unfold drscale_at. destruct (nth_error l _) eqn:H; [|discriminate]. intros Hl Hd. inv Hd.
  rewrite Forall_forall in Hl. apply Hl. eapply nth_error_In; eauto.
Qed.

Lemma factors_ok drs n : forall ii P iP l1 l2, Forall nonzero drs -> every number P -> dr_factors drs n ii P iP = Ok (l1, l2) -> Forall (every number) l1.
Proof.
  induction n as [|n IH]; intros ii P iP l1 l2 Hd HP H; cbn [dr_factors] in H; [inv H; constructor|].
  peel H. peel H. destruct a0 as [t1 t2]. assert (l1 = mscale (ninv a) P :: t1) as -> by congruence. apply drscale_nonzero in E0; auto.
  constructor; [apply numbers_mscale; auto|]. eapply IH; [| |exact E1]; auto.
Qed.

Lemma loop_factors_ok drs n : forall ii P l1 l2, Forall nonzero drs -> every number P -> setup_RDR_loop E drs n ii P = Ok (l1, l2) -> Forall (every number) l1.
Proof.
  induction n as [|n IH]; intros ii P l1 l2 Hd HP H; cbn [setup_RDR_loop] in H; [inv H; constructor|].
  peel H. peel H. peel H. destruct a1 as [t1 t2]. assert (l1 = mscale (ninv a) P :: t1) as -> by congruence. apply drscale_nonzero in E0; auto.
  constructor; [apply numbers_mscale; auto|]. eapply IH; [| |exact E2]; auto.
Qed.

Lemma adaptation_ok c o isimu ii rej chain idx u npar alpha c' :
  cov_ok c -> nonzero (ao_burnin_scale o) -> number (ao_qcov_adjust o) -> Forall nonzero (ao_drscale o) -> ao_doram o = false -> every number chain ->
  run_adaptation E c o isimu ii rej chain idx u npar alpha = Ok c' -> cov_ok c'.
Proof.
  intros [C1 C2 C3 C4 C5 C6 C7] Hb Ha Hd Hr Hc H. unfold run_adaptation in H. destruct (_ <? _)%Z.
  - inv H. constructor; cbn [c_R c_qcov c_qcov_scale c_covchain c_meanchain c_wsum c_RDR]; auto; [|intros l Hl; discriminate].
    unfold below_burnin_threshold. destruct (nlt _ _); [auto|]. destruct (nlt _ _); auto. apply numbers_mscale; auto. now apply nonzero_number.
  - rewrite Hr in H. cbv zeta in H.
    assert (HS : forall t, update_covariance_mean_sum (slice (c_last c) idx chain) [n1] (cov_stats c) = Some t -> stats_ok t).
    { apply updated_stats; [now apply every_slice|]. unfold cov_stats. intros t.
      destruct (c_covchain c) eqn:A1, (c_meanchain c) eqn:A2, (c_wsum c) eqn:A3; intros Ht; inv Ht. split; [|split]; simpl; auto. }
    destruct (update_covariance_mean_sum _ _ _) as [[[cv mn] w]|] eqn:Hst; [|discriminate H].
    specialize (HS _ eq_refl). destruct HS as (S1 & S2 & S3). cbn [fst snd] in *. cbn [bind] in H.
    set (up := update_cov_from_covchain cv (c_qcov c) (c_no_adapt c)) in *.
    assert (Hup : every number up).
    { apply Forall_map_all. intros i. apply Forall_map_all. intros j. destruct (_ || _); apply every_entry; auto. }
    assert (HR : every number (check_for_singular_cov_matrix E up (c_R c) npar (ao_qcov_adjust o) (c_qcov_scale c))).
    { unfold check_for_singular_cov_matrix, adjust_cov_matrix, is_semi_pos_def_chol.
      destruct (e_chol E up) eqn:Hch; [apply numbers_mscale, numbers_transpose; auto; eapply Hchol; eauto|].
      destruct (e_chol E (madd up _)) eqn:Hch2; auto.
      apply numbers_mscale, numbers_transpose; auto. eapply Hchol; [|exact Hch2]. auto. }
    peel H. inv H. constructor; cbn [c_R c_qcov c_qcov_scale c_covchain c_meanchain c_wsum c_RDR option_map fst snd]; auto.
    + intros y Hy. inv Hy. auto.
    + intros y Hy. inv Hy. auto.
    + intros y Hy. inv Hy. auto.
    + unfold update_delayed_rejection in E0. destruct (1 <? ao_ntry o)%nat.
      * peel E0. peel E0. destruct a1 as [t1 t2]. inv E0. intros l Hl. inv Hl. constructor; auto. eapply factors_ok; [exact Hd| |exact E2]; auto.
      * inv E0. intros l Hl. discriminate.
Qed.

(** ** The starting covariance *)

Lemma default_variance_ok s v : number v -> not_negative (default_variance s v).
Proof.
  intros [x ->]. unfold default_variance. 
  assert (G : forall q, not_negative q -> not_negative (if neq q n0 then n1 else q)).
  { intros q Hq. destruct (neq q n0); auto. apply not_negative_1. }
  apply G. destruct s as [y| | |].
  - rewrite XR_nsqr. cbn [nisinf nisnan Num_X xisinf xisnan orb]. exists (y * y). split; auto. nra.
  - cbn. eexists. split; [reflexivity|]. nra.
  - cbn. eexists. split; [reflexivity|]. nra.
  - cbn. eexists. split; [reflexivity|]. nra.
Qed.

Lemma numbers_map_sqrt M : every not_negative M -> every number (map (map (@nsqrt XR _)) M).
Proof. apply Forall_mapP. intros r. apply Forall_mapP. intros x. apply number_sqrt. Qed.

Lemma submat_one (q : list (list XR)) ix S : submat q ix = Ok S -> length (concat S) = 1%nat ->
  exists i row (x : XR), nth_error q i = Some row /\ nth_error row i = Some x /\ S = [[x]].
Proof.
  unfold submat. intros H HL. peel H. pose proof (gather_length _ _ _ E0) as L1.
  assert (HR : forall rows S, fold_right (fun r acc => bind (gather r ix) (fun g => bind acc (fun t => Ok (g :: t)))) (Ok []) rows = Ok S ->
     length S = length rows /\ Forall (fun r : list XR => length r = length ix) S).
  { induction rows as [|r rows IH]; simpl; intros S' H'; [inv H'; auto|]. peel H'. peel H'. inv H'. destruct (IH _ E2) as [I1 I2].
    simpl. split; [auto|]. constructor; auto. eapply gather_length; eauto. }
  destruct (HR _ _ H) as [I1 I2].
  destruct ix as [|i [|j ix]].
  - destruct a; [|discriminate]. simpl in H. inv H. discriminate.
  - cbn [gather] in E0. peel E0. inv E0. destruct (nth_error q i) eqn:Hq; inv E1. simpl in H. peel H. inv H.
    destruct (nth_error a0 i) eqn:Ha; inv E0. exists i, a0, x. auto.
  - exfalso. rewrite L1 in I1. destruct S as [|r1 [|r2 S]]; simpl in I1; try lia. inv I2. inv H3.
    simpl in HL. rewrite !app_length in HL. rewrite H2, H4 in HL. simpl in HL. lia.
Qed.

Lemma setup_R_ok q parind R0 sub : usable_cov q -> setup_R_matrix E q parind = Ok (R0, sub) -> every number R0 /\ every number sub.
Proof.
  intros (U1 & U2 & U3) H. unfold setup_R_matrix in H. destruct (Nat.eqb_spec (Nat.min (length q) (ncols q)) 1) as [Hv|Hv].
  - specialize (U3 Hv). peel H. inv H. apply every_submat with (P := not_negative) in E0.
    + split; [now apply numbers_map_sqrt|]. eapply every_impl; [|exact E0]. auto.
    + apply every_diagflat; [apply not_negative_0|]. now apply every_concat.
  - peel H. pose proof (every_submat number _ _ _ U1 E0) as HS. destruct (Nat.eqb_spec (length (concat a)) 1) as [H1|H1].
    + inv H. split; auto. apply numbers_transpose, numbers_map_sqrt.
      apply submat_one in E0 as (i & row & x & A1 & A2 & ->); auto. repeat constructor. eauto.
    + peel H. inv H. split; auto. apply numbers_transpose. destruct (e_chol E sub) eqn:Hch; inv E1. eapply Hchol; eauto.
Qed.

Lemma setup_cov_ok qcov sig val : (forall q, qcov = Some q -> usable_cov q) -> Forall number val -> usable_cov (setup_covariance_matrix qcov sig val).
Proof.
  intros Hq Hv. destruct qcov; simpl; auto.
  assert (HN : every not_negative (diagflat (map2 default_variance sig val))).
  { apply every_diagflat; [apply not_negative_0|].
    apply (Forall_map2 (fun _ => True) number not_negative) ; auto.
    - intros. now apply default_variance_ok.
    - clear. induction sig; auto. }
  split; [|split; auto]. { eapply every_impl; [|exact HN]. auto. }
  intros i row x H1 H2. apply nth_error_In in H1. apply nth_error_In in H2.
  unfold every in HN. rewrite Forall_forall in HN. specialize (HN _ H1). rewrite Forall_forall in HN. auto.
Qed.

Lemma adascale_ok a n : (0 < n)%nat -> (forall x, a = Some x -> number x) -> number (check_adascale a n).
Proof.
  intros Hn Ha. assert (Hd : number (nmul (nQ (24 # 10)) (ninv (nsqrt (@nnat XR _ n))))).
  { apply number_mul; auto. apply number_inv. unfold nnat.
    assert (Hp : 0 < Q2R (inject_Z (Z.of_nat n))). { rewrite <- RMicromega.Q2R_0. apply Qlt_Rlt. unfold Qlt. simpl. lia. }
    exists (sqrt (Q2R (inject_Z (Z.of_nat n)))). split.
    - xs. unfold Rltb. destruct (Rlt_dec _ 0); [lra|reflexivity].
    - apply Rgt_not_eq. apply sqrt_lt_R0, Hp. }
  unfold check_adascale. destruct a; auto. destruct (nle x n0); auto.
Qed.

Lemma initial_cov_ok meth ntry drs urdr qcov ada iq sig val parind noad old th c :
  Forall nonzero drs -> (forall l, urdr = Some l -> Forall (every number) l) -> (forall q, qcov = Some q -> usable_cov q) ->
  (forall x, ada = Some x -> number x) -> (forall w, iq = Some w -> positive w) -> Forall number val -> (0 < length parind)%nat ->
  rdr_ok old -> Forall number th ->
  initialize_covariance E meth ntry drs urdr qcov ada iq sig val parind noad old th = Ok c -> cov_ok c.
Proof.
  intros Hd Hu Hq Ha Hi Hv Hp Ho Ht H. unfold initialize_covariance in H. cbv zeta in H. peel H. destruct a as [R0 sub].
  apply setup_R_ok in E0 as [HR HS]; [|now apply setup_cov_ok]. peel H. destruct a as [[R1 rdr] inv]. inv H.
  assert (G : every number R1 /\ rdr_ok rdr).
  { destruct (uses_dr_setup meth); [|inv E0; auto]. peel E0. destruct a as [[R' l] i]. inv E0.
    unfold setup_RDR_matrix in E1. destruct urdr as [l0|].
    - peel E1. peel E1. inv E1. destruct l as [|M l]; [discriminate|]. specialize (Hu _ eq_refl). inv Hu. simpl in E2. inv E2. split; auto.
      intros l' Hl. inv Hl. constructor; auto.
    - peel E1. peel E1. destruct a0 as [t1 t2]. inv E1. split; auto. intros l' Hl. inv Hl. constructor; auto. eapply loop_factors_ok; [exact Hd| |exact E2]; auto. }
  destruct G as [G1 G2]. constructor; cbn [c_R c_qcov c_qcov_scale c_covchain c_meanchain c_wsum c_RDR]; auto.
  - now apply adascale_ok.
  - destruct iq; intros y Hy; inv Hy. auto.
  - destruct iq; intros y Hy; inv Hy. auto.
Qed.
End Cov.
