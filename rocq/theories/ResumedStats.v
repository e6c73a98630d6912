(** The statistics held during a resumed run: which rows they cover, counted how often. *)

From Coq Require Import ZArith QArith Bool Lia List String Reals Lra.
From Verif Require Import Base Num Samplers Adapt Settings Simulator SamplerFacts RunSpec RunFacts RunLift ResumeFacts
  AdaptRun RVec RMat StatSpec CovFacts CholFacts AdaptFacts RamFacts InitFacts AdaptThms.
Import ListNotations.
Close Scope Q_scope.
Open Scope list_scope.
Open Scope nat_scope.
Open Scope res_scope.

(** The iterations up to [k] with an adaptation due at or after burn-in, in time order. *)
Definition adaptation_times (a burnin : Z) (k : nat) : list nat :=
  filter (fun i => (0 <? a)%Z && (Z.of_nat i mod a =? 0)%Z && (burnin <=? Z.of_nat i)%Z) (seq 1 k).

(** The rows that enter the statistics, one block per adaptation: the block of the adaptation at iteration t runs from
    row number t', the iteration of the adaptation before it (0 at first), up to row [base + t] (exclusive), where
    [base] is the number of the row the run started from.  For base = 0 the blocks follow each other; otherwise
    consecutive blocks overlap in [base] rows. *)
Fixpoint blocks {A} (rows : list A) (base before : nat) (times : list nat) : list (list A) :=
  match times with
  | [] => []
  | t :: rest => slice before (base + t) rows :: blocks rows base t rest
  end.

Lemma blocks_app {A} (rows : list A) base : forall times before t,
  blocks rows base before (times ++ [t]) =
  blocks rows base before times ++ [slice (List.last times before) (base + t) rows].
Proof.
  induction times as [|u times IH]; intros before t; [reflexivity|].
  cbn [app blocks]. rewrite IH. cbn [app]. do 3 f_equal. destruct times; [reflexivity|].
  cbn [List.last]. clear. revert n u before. induction times as [|x times IH]; intros; [reflexivity|].
  cbn [List.last]. destruct times; [reflexivity|]. apply (IH n0 u before).
Qed.

Lemma times_S a b k : adaptation_times a b (S k) =
  adaptation_times a b k ++
  if (0 <? a)%Z && (Z.of_nat (S k) mod a =? 0)%Z && (b <=? Z.of_nat (S k))%Z then [S k] else [].
Proof.
  unfold adaptation_times. rewrite seq_S, filter_app. f_equal.
Qed.

(** In a fresh run the blocks make up the rows before the last adaptation. *)
Lemma blocks_fresh {A} (rows : list A) a b k :
  List.concat (blocks rows 0 0 (adaptation_times a b k)) = firstn (List.last (adaptation_times a b k) 0) rows.
Proof.
  induction k as [|k IH]; [reflexivity|]. rewrite times_S. destruct (_ && _).
  - rewrite blocks_app, concat_app, IH, last_last. cbn [List.concat Nat.add]. rewrite app_nil_r. unfold slice.
    set (j := List.last (adaptation_times a b k) 0).
    assert (Hj : j <= k).
    { unfold j. clear. assert (H : forall l d, (forall x, In x l -> x <= k) -> d <= k -> List.last l d <= k).
      { induction l as [|x [|y l] IH]; intros d H Hd; [exact Hd|apply H; now left|]. apply IH; auto. intros; apply H; now right. }
      apply H; [|lia]. intros x Hx. apply filter_In in Hx as [Hx _]. apply in_seq in Hx. lia. }
    rewrite <- (firstn_skipn j (firstn (S k) rows)) at 1. rewrite firstn_firstn, Nat.min_l by lia.
    rewrite skipn_firstn_comm. reflexivity.
  - now rewrite app_nil_r.
Qed.

Section Gen.
Context {F : Type} `{NF : Num F}.
Variable E : env F.

Lemma due_bool a j : (0 <? a)%Z && (Z.of_nat j mod a =? 0)%Z = true <-> due a j.
Proof. unfold due. rewrite andb_true_iff, Z.ltb_lt, Z.eqb_eq. tauto. Qed.

Definition unheld (c : covst F) : Prop := c_covchain c = None /\ c_meanchain c = None /\ c_wsum c = None.

Lemma blocks_of_run b m m' ps evs last r :
  proposal_course E b m m' ps evs last r ->
  forall c0, nth_error (map (@ev_cov F) evs ++ [last]) 0 = Some c0 ->
  forall k c, nth_error (map (@ev_cov F) evs ++ [last]) k = Some c ->
  let times := adaptation_times (o_adaptint (m_opts m)) (o_burnintime (m_opts m)) k in
  c_last c = List.last times 0 /\
  cov_stats c = fold_left (fun o s => update_covariance_mean_sum s [n1] o)
    (blocks (m_chain m') (if b then m_index m else 0) 0 times) (cov_stats c0) /\
  (unheld c0 -> cov_stats c = None -> unheld c).
Proof.
  intros PC c0 H0. destruct PC. induction k as [|k IH]; intros c Hc times.
  - assert (c0 = c) by congruence. subst c0.
    destruct pc_start as (c1 & S1 & S2). assert (c1 = c) by congruence. subst c1.
    apply init_cov_stats in S2 as (L & _). auto.
  - assert (Hk : S k < o_nsimu (m_opts m)).
    { assert (HH : S k < List.length (map (@ev_cov F) evs ++ [last])) by (apply nth_error_Some; congruence).
      rewrite app_length, map_length in HH. cbn in HH. lia. }
    destruct (pc_moves (S k)) as (c1 & c2 & T1 & T2 & T3 & T4); [lia|].
    assert (c2 = c) by congruence. subst c2. replace (S k - 1) with k in T1 by lia.
    specialize (IH _ T1) as (I1 & I2 & I3). subst times. rewrite times_S.
    destruct (due_dec (o_adaptint (m_opts m)) (S k)) as [Hd|Hd].
    + rewrite (proj2 (due_bool _ _) Hd). cbn [andb].
      destruct (T4 Hd) as (z & al & HR). apply adaptation_stats in HR as (_ & _ & _ & HR).
      cbn [ao_burnintime ado_of] in HR.
      destruct (Z.ltb_spec (Z.of_nat (S k)) (o_burnintime (m_opts m))) as [Hb|Hb].
      * replace (_ <=? _)%Z with false by (symmetry; apply Z.leb_gt; auto). rewrite app_nil_r.
        destruct HR as (R1 & R2 & R3 & R4 & R5 & _). unfold unheld in *. rewrite R1, R2, R3, R4, R5. auto.
      * replace (_ <=? _)%Z with true by (symmetry; apply Z.leb_le; auto).
        pose proof HR as (R1 & R2 & _). rewrite R2, last_last. split; [auto|].
        assert (HH : cov_stats c = fold_left (fun o s => update_covariance_mean_sum s [n1] o)
           (blocks (m_chain m') (if b then m_index m else 0) 0
             (adaptation_times (o_adaptint (m_opts m)) (o_burnintime (m_opts m)) k ++ [S k])) (cov_stats c0)).
        { rewrite blocks_app. etransitivity; [|symmetry; apply fold_left_app]. cbn [fold_left].
          rewrite R1, I1. f_equal. exact I2. }
        split; [exact HH|]. intros _. apply HR.
    + replace (_ && _ && _) with false; [rewrite app_nil_r; rewrite (T3 Hd); auto|].
      symmetry. apply andb_false_iff. left. apply not_true_iff_false. now rewrite due_bool.
Qed.
End Gen.

Section Exact.
Open Scope R_scope.
Variable E : env XR.

Lemma slice_In {A} a b (l : list A) x : In x (slice a b l) -> In x l.
Proof.
  unfold slice. intros H.
  assert (G : forall i (l : list A), In x (skipn i l) -> In x l).
  { intros i k Hx. rewrite <- (firstn_skipn i k). apply in_or_app. auto. }
  assert (G' : forall i (l : list A), In x (firstn i l) -> In x l).
  { intros i k Hx. rewrite <- (firstn_skipn i k). apply in_or_app. auto. }
  eauto.
Qed.

Lemma blocks_finm rows base : forall times before,
  blocks (finm rows) base before times = map finm (blocks rows base before times).
Proof. induction times as [|t rest IH]; intros before; [reflexivity|]. cbn [blocks map]. rewrite IH. f_equal. apply slice_finm. Qed.

Lemma blocks_In {A} (rows : list A) base : forall times before s x,
  In s (blocks rows base before times) -> In x s -> In x rows.
Proof.
  induction times as [|t rest IH]; intros before s x Hs Hx; [destruct Hs|].
  destruct Hs as [<-|Hs]; [eapply slice_In; eauto|eauto].
Qed.

(** What the covariance object holds after [k] iterations of any run, fresh or resumed: the statistics of the blocks. *)
Lemma run_statistics b m m' rows :
  run_simulation E b m = Ok m' -> o_initqcovn (m_opts m) = None -> m_chain m' = finm rows ->
  let n := List.length (sampled_params (m_params m)) in
  (0 < n)%nat -> (forall row, In row rows -> List.length row = n) ->
  exists evs last r, m_trace m' = rev evs ++ m_trace m /\ m_results m' = Some r /\
    rr_cov r = c_covchain last /\ rr_mean r = c_meanchain last /\
    List.length evs = (o_nsimu (m_opts m) - 1)%nat /\
    forall k c, nth_error (map (@ev_cov XR) evs ++ [last]) k = Some c ->
      statistics_are n c (List.concat (blocks rows (if b then m_index m else 0%nat) 0%nat
        (adaptation_times (o_adaptint (m_opts m)) (o_burnintime (m_opts m)) k))).
Proof.
  intros HR HI HC n Hn Hrows. destruct (run_covs E b m m' HR) as (ps & evs & last & r & PC).
  exists evs, last, r. split; [apply PC|]. split; [apply PC|]. split; [apply PC|]. split; [apply PC|]. split; [apply PC|].
  intros k c Hk.
  assert (HA : exists c0, nth_error (map (@ev_cov XR) evs ++ [last]) 0%nat = Some c0).
  { apply (covs_nth E _ _ _ _ _ _ _ 0 PC). destruct PC. lia. }
  destruct HA as [c0 Hc0].
  assert (HU : unheld c0).
  { destruct PC. destruct pc_start as (c1 & S1 & S2). assert (c1 = c0) by congruence. subst c1.
    apply init_cov_stats in S2. destruct (run_options_same b m) as (_ & _ & Q & _). rewrite Q, HI in S2.
    destruct S2 as (L & W & M & C & _). unfold unheld. auto. }
  destruct (blocks_of_run E _ _ _ _ _ _ _ PC c0 Hc0 k c Hk) as (_ & B1 & B2).
  set (times := adaptation_times _ _ k) in *. set (base := if b then m_index m else 0%nat) in *.
  apply statistics_known; [|intros X; exact (B2 HU X)]. rewrite B1.
  assert (HN : cov_stats c0 = None).
  { unfold cov_stats. destruct HU as (-> & _). reflexivity. }
  rewrite HN, HC, blocks_finm.
  assert (HG : Forall (good_seg n) (map (fun x => (x, [1])) (blocks rows base 0 times))).
  { apply Forall_map, Forall_forall. intros s Hs. repeat split; cbn [fst snd].
    - intros q Hq. apply Hrows. eapply blocks_In; eauto.
    - now left.
    - constructor; [lra|constructor]. }
  pose proof (feed_spec n _ Hn HG [] (Forall_nil _)) as HF. cbn [known app] in HF.
  rewrite map_map, unit_concat in HF. rewrite <- HF. unfold feed_from. rewrite XR_n1. change [@Fin R 1] with (fin [1]).
  assert (HX : forall (l : list (list (list R))) (o : option (list (list XR) * list XR * XR)),
    fold_left (fun o s => update_covariance_mean_sum s (fin [1]) o) (map finm l) o =
    fold_left (fun o s => update_covariance_mean_sum (finm (fst s)) (fin (snd s)) o) (map (fun x => (x, [1])) l) o).
  { induction l as [|s t IH]; intros o; [reflexivity|]. cbn [fold_left map fst snd]. apply IH. }
  apply HX.
Qed.
End Exact.
