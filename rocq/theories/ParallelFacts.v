(** Facts about parallel runs. *)

From Coq Require Import ZArith QArith Bool Lia List String Permutation.
From Verif Require Import Base Num Samplers Adapt Settings Simulator SamplerFacts RunSpec RunFacts RunLift SettingsFacts LogFacts LogThms
  Names ChainFiles Results Parallel ParallelSpec StreamLocal.
Import ListNotations.
Close Scope Q_scope.
Open Scope list_scope.
Open Scope nat_scope.
Open Scope res_scope.

(** ** Interleavings *)

Lemma nth_error_mid {A} (pre : list A) x post i :
  nth_error (pre ++ x :: post) i = if i =? List.length pre then Some x else if i <? List.length pre then nth_error pre i else nth_error post (i - S (List.length pre)).
Proof.
  destruct (Nat.eqb_spec i (List.length pre)) as [->|N].
  - rewrite nth_error_app2, Nat.sub_diag by lia. reflexivity.
  - destruct (Nat.ltb_spec i (List.length pre)) as [L|L]; [now rewrite nth_error_app1|].
    rewrite nth_error_app2 by lia. destruct (i - List.length pre) eqn:D; [lia|]. cbn. f_equal. lia.
Qed.

(** Operations that only list [i] contains come out in the order of list [i]. *)
Lemma inter_filter {A} (f : A -> bool) (ls : list (list A)) l : interleaved ls l -> forall i x, nth_error ls i = Some x ->
  (forall j y, j <> i -> nth_error ls j = Some y -> filter f y = []) -> filter f l = filter f x.
Proof.
  induction 1 as [ls H|pre a t post l H IH]; intros i x Hi Ho.
  - rewrite Forall_forall in H. rewrite (H x) by (eapply nth_error_In; eauto). reflexivity.
  - rewrite nth_error_mid in Hi. cbn [filter]. destruct (i =? List.length pre) eqn:Q.
    + apply Nat.eqb_eq in Q. injection Hi as <-. cbn [filter].
      rewrite (IH i t); [reflexivity| |].
      * rewrite nth_error_mid. now rewrite (proj2 (Nat.eqb_eq _ _) Q).
      * intros j y Hj Hy. apply (Ho j); auto. rewrite nth_error_mid in *. 
        destruct (j =? List.length pre) eqn:J; [apply Nat.eqb_eq in J; lia|exact Hy].
    + apply Nat.eqb_neq in Q. assert (filter f (a :: t) = []).
      { apply (Ho (List.length pre)); [lia|]. rewrite nth_error_mid, Nat.eqb_refl. reflexivity. }
      cbn [filter] in H0. destruct (f a) eqn:FA; [discriminate|].
      apply (IH i x).
      * rewrite nth_error_mid. now rewrite (proj2 (Nat.eqb_neq _ _) Q).
      * intros j y Hj Hy. rewrite nth_error_mid in Hy. destruct (j =? List.length pre) eqn:J.
        -- injection Hy as <-. exact H0.
        -- apply (Ho j); auto. rewrite nth_error_mid, J. exact Hy.
Qed.

Section P.
Context {F : Type} `{NF : Num F}.
Variable E : env F.

(** The content of a file depends only on the operations on it. *)
Lemma contents_on_file p (l : fs F) : txt_rows p l = txt_rows p (on_file p l) /\ h5_sets p l = h5_sets p (on_file p l) /\ log_lines p l = log_lines p (on_file p l).
Proof.
  unfold txt_rows, h5_sets, log_lines, on_file.
  induction l as [|op l (I1 & I2 & I3)]; cbn [map List.concat filter]; auto.
  destruct (path_eqb p (op_path op)) eqn:Q; cbn [map List.concat].
  - rewrite I1, I2, I3. auto.
  - rewrite I1, I2, I3. destruct op; cbn [op_path] in Q; rewrite ?Q; auto.
Qed.

Lemma path_eqb_dir p q : path_eqb p q = true -> fst (fst p) = fst (fst q).
Proof.
  destruct p as [[a b] c], q as [[a' b'] c']. unfold path_eqb. cbn [fst snd]. intros H.
  destruct (String.eqb_spec a a'); auto. discriminate.
Qed.

(** ** Where a run writes *)

Lemma run_options_dir b (m : mcmc F) : o_savedir (run_options b m) = o_savedir (m_opts m) /\ o_results_filename (run_options b m) = o_results_filename (m_opts m).
Proof. unfold run_options. destruct b; auto. destruct (o_restart (m_opts m)); auto. Qed.

Lemma run_writes b m m' : run_simulation E b m = Ok m' ->
  o_savedir (m_opts m') = o_savedir (m_opts m) /\
  exists new, m_fs m' = m_fs m ++ new /\ Forall (fun op => op_dir op = o_savedir (m_opts m)) new /\
    (forall p l, In (FJson p l) new -> p = (o_savedir (m_opts m), match o_results_filename (m_opts m) with Some f => f | None => EmptyString end, EmptyString)).
Proof.
  intros H. assert (O : o_savedir (m_opts m') = o_savedir (m_opts m) /\ o_results_filename (m_opts m') = o_results_filename (m_opts m)).
  { pose proof H as X. apply run_model in X as (ini & ms1 & st0 & st & chains & X). cbv zeta in X.
    destruct X as (_ & _ & _ & _ & X & _). rewrite X. cbn [check_dependent_simulation_options o_savedir o_results_filename]. apply run_options_dir. }
  destruct O as [O1 O2]. split; [exact O1|].
  apply run_ops in H. cbv zeta in H. destruct H as (_ & _ & _ & bs & J & evs & _ & H & HJ & _).
  exists (blks_ops (m_opts m') (log_arrays b m m') bs ++ J). split; [exact H|]. rewrite O1, O2 in HJ. split.
  - apply Forall_app. split.
    + apply Forall_concat. apply Forall_map. apply Forall_forall. intros x _. unfold blk_ops, chain_ops, cov_ops. rewrite O1.
      destruct (o_save_to_bin (m_opts m')), (o_save_to_txt (m_opts m'));
        rewrite ?Forall_app, ?Forall_cons_iff, ?Forall_map; repeat split; auto; apply Forall_forall; intros y Y; cbn in *; 
        repeat match goal with H : _ \/ _ |- _ => destruct H as [<-|H] | H : False |- _ => destruct H end; try reflexivity.
    + apply Forall_forall. intros op Hop. apply HJ in Hop. subst. reflexivity.
  - intros p l Hin. apply in_app_or in Hin as [Hin|Hin].
    + exfalso. unfold blks_ops in Hin. apply in_concat in Hin as (x & Hx & Hin). apply in_map_iff in Hx as (bb & <- & _).
      unfold blk_ops, chain_ops, cov_ops in Hin. 
      destruct (o_save_to_bin (m_opts m')), (o_save_to_txt (m_opts m')); repeat (apply in_app_or in Hin as [Hin|Hin]); cbn in Hin;
        repeat match goal with H : _ \/ _ |- _ => destruct H as [H|H] | H : False |- _ => destruct H end; try discriminate;
        try (apply in_map_iff in Hin as (? & ? & _); discriminate).
      all: rewrite ?in_app_iff in Hin; cbn in Hin; repeat match goal with H : _ \/ _ |- _ => destruct H as [H|H] | H : False |- _ => destruct H end; try discriminate;
        try (apply in_map_iff in Hin as (? & ? & _); discriminate).
    + apply HJ in Hin. congruence.
Qed.

(** ** The chains that are set up *)

Lemma chain_name_inj i j : chain_name i = chain_name j -> i = j.
Proof. unfold chain_name. intros H. apply append_inj_l in H. now apply dec_inj. Qed.

Lemma setup_objects str pos ps d ms o iv0 nc rd l objs : setup_parallel_simulation str pos ps d ms o iv0 nc rd l = Ok objs ->
  exists iv n k, check_initial_values str pos iv0 nc (List.length ps) (map low_lim ps) (map upp_lim ps) = Ok (iv, n, k) /\
    List.length objs = n /\
    forall i m, nth_error objs i = Some m ->
      i < n /\ m = new_mcmc (chain_params ps (nth i iv [])) d ms (chain_options (check_options_output o) (o_savedir o) (rd i) i) 0 l.
Proof.
  unfold setup_parallel_simulation. intros H. peel H. destruct a as [[iv n] k]. inv H. exists iv, n, k. split; auto.
  split; [now rewrite map_length, seq_length|]. intros i m Hm.
  assert (L : i < n).
  { match type of Hm with nth_error ?x _ = _ => assert (X : i < List.length x) by (apply nth_error_Some; intros Y; rewrite Y in Hm; discriminate) end.
    now rewrite map_length, seq_length in X. }
  split; auto. rewrite nth_error_map in Hm. rewrite (nth_error_nth' _ 0) in Hm by now rewrite seq_length.
  rewrite seq_nth in Hm by auto. cbn in Hm. now inv Hm.
Qed.

Lemma setup_dirs str pos ps d ms o iv0 nc rd l objs : setup_parallel_simulation str pos ps d ms o iv0 nc rd l = Ok objs ->
  NoDup (map (fun m => o_savedir (m_opts m)) objs) /\
  forall i m, nth_error objs i = Some m ->
    o_savedir (m_opts m) = (o_savedir o ++ "/chain_" ++ dec i)%string /\
    o_results_filename (m_opts m) = Some ("chain_" ++ dec i ++ ".json")%string /\ m_fs m = l.
Proof.
  intros H. apply setup_objects in H as (iv & n & k & _ & Hn & H).
  assert (D : forall i m, nth_error objs i = Some m ->
    o_savedir (m_opts m) = (o_savedir o ++ "/chain_" ++ dec i)%string /\
    o_results_filename (m_opts m) = Some ("chain_" ++ dec i ++ ".json")%string /\ m_fs m = l).
  { intros i m Hm. apply H in Hm as [_ ->]. cbn [m_opts new_mcmc chain_options o_savedir o_results_filename m_fs].
    split; [reflexivity|]. split; [|reflexivity]. unfold chain_name. now rewrite append_assoc. }
  split; auto. apply NoDup_nth_error. intros i j Hi E'. rewrite map_length in Hi.
  rewrite !nth_error_map in E'. destruct (nth_error objs i) as [mi|] eqn:Mi; [|apply nth_error_None in Mi; lia].
  destruct (nth_error objs j) as [mj|] eqn:Mj; cbn in E'; [|discriminate].
  apply D in Mi as [Mi _]. apply D in Mj as [Mj _]. rewrite Mi, Mj in E'. injection E' as E'.
  apply append_inj_l in E'. apply (append_inj_l "/chain_") in E'. now apply dec_inj.
Qed.

(** ** The workers *)

Lemma worker_runs (objs : list (mcmc F)) : forall todo pos l, run_worker E objs todo pos = Ok l ->
  map fst l = todo /\
  (forall i r, In (i, r) l -> exists m p, nth_error objs i = Some m /\ pos <= p /\ run_simulation E false (at_pos m p) = Ok r) /\
  (forall a b i r j r', a < b -> nth_error l a = Some (i, r) -> nth_error l b = Some (j, r') ->
     exists m m' p p', nth_error objs i = Some m /\ nth_error objs j = Some m' /\
       run_simulation E false (at_pos m p) = Ok r /\ run_simulation E false (at_pos m' p') = Ok r' /\ m_pos r <= p').
Proof.
  induction todo as [|i t IH]; intros pos l H; cbn [run_worker] in H.
  - inv H. repeat split; [intros i r []|intros [|a] b i r j r' _ X; discriminate].
  - peel H. peel H. peel H. inv H. destruct (nth_error objs i) as [m|] eqn:Hm; [|discriminate]. inv E0.
    apply IH in E2 as (I1 & I2 & I3). pose proof (run_local E (e_str E) _ _ _ E1) as [P _]. cbn [m_pos at_pos] in P.
    split; [cbn; congruence|]. split.
    + intros j r [X|X]; [inv X; eauto 6|]. apply I2 in X as (m1 & p & X1 & X2 & X3). exists m1, p. repeat split; auto. lia.
    + intros [|x] [|y] j r j' r' L X Y; try lia; cbn in X, Y.
      * inv X. apply nth_error_In in Y. apply I2 in Y as (m1 & p & Y1 & Y2 & Y3). exists a, m1, pos, p. repeat split; auto.
      * eapply (I3 x y); eauto. lia.
Qed.

Lemma worker_first (objs : list (mcmc F)) i t pos l : run_worker E objs (i :: t) pos = Ok l ->
  exists m r l', nth_error objs i = Some m /\ run_simulation E false (at_pos m pos) = Ok r /\ l = (i, r) :: l'.
Proof.
  cbn [run_worker]. intros H. peel H. peel H. peel H. inv H. destruct (nth_error objs i) as [m|]; [|discriminate]. inv E0. eauto 8.
Qed.

Lemma mapM_ok {A B} (f : A -> res B) : forall l r, mapM f l = Ok r -> Forall2 (fun x y => f x = Ok y) l r.
Proof.
  induction l as [|x l IH]; intros r H; cbn [mapM] in H; [inv H; constructor|]. peel H. peel H. inv H. constructor; auto.
Qed.

Lemma Forall2_nth {A B} (P : A -> B -> Prop) l r : Forall2 P l r -> forall i x, nth_error l i = Some x -> exists y, nth_error r i = Some y /\ P x y.
Proof. induction 1; intros [|i] z Hz; cbn in *; try discriminate; [inv Hz; eauto|auto]. Qed.

Lemma find_fst (l : list (nat * mcmc F)) i r : NoDup (map fst l) -> In (i, r) l -> find (fun e => fst e =? i) l = Some (i, r).
Proof.
  induction l as [|[j x] l IH]; intros ND H; [destruct H|]. cbn in *. inversion ND as [|? ? N1 N2]; subst. destruct H as [H|H].
  - inv H. now rewrite Nat.eqb_refl.
  - destruct (Nat.eqb_spec j i) as [->|N]; [|auto]. exfalso. apply N1. apply in_map_iff. exists (i, r). auto.
Qed.

(** Where everything a parallel run returns comes from. *)
Lemma parallel_parts objs c sched pos rs : run_parallel_simulation E objs c sched pos = Ok rs -> schedules (List.length objs) sched ->
  (1 <= c)%Z /\ exists parts, Forall2 (fun t l => run_worker E objs t pos = Ok l) sched parts /\
    List.length rs = List.length objs /\
    (forall i r, nth_error rs i = Some r <-> In (i, r) (List.concat parts)).
Proof.
  unfold run_parallel_simulation. intros H [HS _]. destruct (c <? 1)%Z eqn:C; [discriminate|]. split; [lia|].
  peel H. rename a into parts. apply mapM_ok in E0. exists parts. split; [exact E0|].
  apply mapM_ok in H. pose proof (Forall2_len _ _ _ H) as L. rewrite seq_length in L. split; [auto|].
  assert (F1 : map fst (List.concat parts) = List.concat sched).
  { clear - E0. induction E0 as [|t l ts ls X _ IH]; cbn; auto. rewrite map_app, IH. f_equal. now apply worker_runs in X. }
  assert (ND : NoDup (map fst (List.concat parts))).
  { rewrite F1. eapply Permutation_NoDup; [symmetry; exact HS|]. apply seq_NoDup. }
  intros i r. split.
  - intros Hr. assert (i < List.length objs) by (rewrite L; apply nth_error_Some; congruence).
    destruct (Forall2_nth _ _ _ H i i) as (r' & R1 & R2).
    { rewrite (nth_error_nth' _ 0) by now rewrite seq_length. now rewrite seq_nth. }
    assert (r' = r) by congruence. subst r'. 
    destruct (find (fun e => fst e =? i) (List.concat parts)) as [[j x]|] eqn:Q; cbn in R2; [|discriminate]. inv R2.
    apply find_some in Q as [Q1 Q2]. cbn in Q2. apply Nat.eqb_eq in Q2. now subst.
  - intros Hin. assert (I : In i (List.concat sched)) by (rewrite <- F1; apply in_map_iff; exists (i, r); auto).
    apply (Permutation_in _ HS), in_seq in I. 
    destruct (Forall2_nth _ _ _ H i i) as (r' & R1 & R2).
    { rewrite (nth_error_nth' _ 0) by (rewrite seq_length; lia). rewrite seq_nth; auto. lia. }
    rewrite (find_fst _ _ _ ND Hin) in R2. cbn in R2. inv R2. exact R1.
Qed.

(** Results in the order of the chains. *)
Lemma parallel_results objs c sched pos rs : run_parallel_simulation E objs c sched pos = Ok rs -> schedules (List.length objs) sched ->
  (1 <= c)%Z /\ List.length rs = List.length objs /\
  forall i m, nth_error objs i = Some m -> exists p r, nth_error rs i = Some r /\ run_simulation E false (at_pos m p) = Ok r.
Proof.
  intros H HS. destruct (parallel_parts _ _ _ _ _ H HS) as (C & parts & P1 & P2 & P3). split; [exact C|]. split; [exact P2|].
  intros i m Hm. assert (L : i < List.length rs) by (rewrite P2; apply nth_error_Some; congruence).
  destruct (nth_error rs i) as [r|] eqn:R; [|apply nth_error_None in R; lia].
  apply P3, in_concat in R as (l & L1 & L2).
  apply In_nth_error in L1 as (k & L1). 
  assert (X : exists t, run_worker E objs t pos = Ok l).
  { clear - P1 L1. revert k L1. induction P1; intros [|k] L1; cbn in L1; try discriminate; [inv L1; eauto|eauto]. }
  destruct X as (t & X). apply worker_runs in X as (_ & X & _). apply X in L2 as (m1 & p & Y1 & _ & Y3).
  exists p, r. split; auto. congruence.
Qed.

Lemma nodup_tail {A} (x y : list A) : NoDup (x ++ y) -> NoDup y.
Proof. induction x; cbn; auto. intros H. inversion H; auto. Qed.

(** Two workers with a chain each: their first chains start at the same position. *)
Lemma parallel_same_start objs c sched pos rs a b i s j t : run_parallel_simulation E objs c sched pos = Ok rs -> schedules (List.length objs) sched ->
  a <> b -> nth_error sched a = Some (i :: s) -> nth_error sched b = Some (j :: t) ->
  i <> j /\ exists m m' r r', nth_error objs i = Some m /\ nth_error objs j = Some m' /\ nth_error rs i = Some r /\ nth_error rs j = Some r' /\
    run_simulation E false (at_pos m pos) = Ok r /\ run_simulation E false (at_pos m' pos) = Ok r'.
Proof.
  intros H HS AB A B. destruct (parallel_parts _ _ _ _ _ H HS) as (_ & parts & P1 & _ & P3). split.
  - intros <-. destruct HS as [HS _]. 
    assert (ND : NoDup (List.concat sched)) by (eapply Permutation_NoDup; [symmetry; exact HS|apply seq_NoDup]).
    clear - ND A B AB. revert a b AB A B. induction sched as [|x sched IH]; intros a b AB A B; [destruct a; discriminate|].
    cbn in ND. destruct a as [|a], b as [|b]; cbn in A, B; try congruence.
    + inv A. cbn in ND. inversion ND as [|? ? N1 N2]; subst. apply N1. apply in_app_iff. right. apply in_concat. exists (i :: t). split; [eapply nth_error_In; eauto|cbn; auto].
    + inv B. cbn in ND. inversion ND as [|? ? N1 N2]; subst. apply N1. apply in_app_iff. right. apply in_concat. exists (i :: s). split; [eapply nth_error_In; eauto|cbn; auto].
    + apply (IH (nodup_tail _ _ ND) a b); auto.
  - destruct (Forall2_nth _ _ _ P1 _ _ A) as (la & A1 & A2). destruct (Forall2_nth _ _ _ P1 _ _ B) as (lb & B1 & B2).
    apply worker_first in A2 as (m & r & l' & X1 & X2 & ->). apply worker_first in B2 as (m' & r' & l'' & Y1 & Y2 & ->).
    exists m, m', r, r'. split; [exact X1|]. split; [exact Y1|].
    split; [apply P3; apply in_concat; exists ((i, r) :: l'); split; [eapply nth_error_In; eauto|cbn; auto]|].
    split; [apply P3; apply in_concat; exists ((j, r') :: l''); split; [eapply nth_error_In; eauto|cbn; auto]|]. auto.
Qed.

(** Two chains of the same worker: the later one only reads random numbers from behind those of the earlier one. *)
Lemma parallel_same_worker objs c sched pos rs w t a b i j : run_parallel_simulation E objs c sched pos = Ok rs -> schedules (List.length objs) sched ->
  nth_error sched w = Some t -> nth_error t a = Some i -> nth_error t b = Some j -> a < b ->
  exists m m' p p' r r', nth_error objs i = Some m /\ nth_error objs j = Some m' /\ nth_error rs i = Some r /\ nth_error rs j = Some r' /\
    run_simulation E false (at_pos m p) = Ok r /\ run_simulation E false (at_pos m' p') = Ok r' /\
    p <= m_pos r <= p' /\ p' <= m_pos r' /\
    (forall y, same_draws (e_str E) y p (m_pos r) -> run_simulation (with_stream E y) false (at_pos m p) = Ok r) /\
    (forall y, same_draws (e_str E) y p' (m_pos r') -> run_simulation (with_stream E y) false (at_pos m' p') = Ok r').
Proof.
  intros H HS W A B AB. destruct (parallel_parts _ _ _ _ _ H HS) as (_ & parts & P1 & _ & P3).
  destruct (Forall2_nth _ _ _ P1 _ _ W) as (l & L1 & L2). apply worker_runs in L2 as (W1 & _ & W3).
  assert (X : exists r, nth_error l a = Some (i, r)).
  { rewrite <- W1, nth_error_map in A. destruct (nth_error l a) as [[? r]|]; cbn in A; inv A. eauto. }
  assert (Y : exists r, nth_error l b = Some (j, r)).
  { rewrite <- W1, nth_error_map in B. destruct (nth_error l b) as [[? r]|]; cbn in B; inv B. eauto. }
  destruct X as (r & X), Y as (r' & Y). destruct (W3 _ _ _ _ _ _ AB X Y) as (m & m' & p & p' & Z1 & Z2 & Z3 & Z4 & Z5).
  exists m, m', p, p', r, r'. split; auto. split; auto.
  split; [apply P3; apply in_concat; exists l; split; [eapply nth_error_In; eauto|eapply nth_error_In; eauto]|].
  split; [apply P3; apply in_concat; exists l; split; [eapply nth_error_In; eauto|eapply nth_error_In; eauto]|].
  split; auto. split; auto.
  pose proof (fun y => run_local E y _ _ _ Z3) as L. pose proof (fun y => run_local E y _ _ _ Z4) as L'. cbn [m_pos at_pos] in L, L'.
  split; [split; [apply (L (e_str E))|auto]|]. split; [apply (L' (e_str E))|]. split; intros y; [apply L|apply L'].
Qed.

(** The first iteration of a run starts at its first position. *)
Lemma iterate_trace K : forall l st st', iterate E K l st = Ok st' -> exists x, r_trace st' = x ++ r_trace st.
Proof.
  induction l as [|i l IH]; intros st st' H; cbn [iterate] in H; [inv H; exists []; auto|]. peel H. 
  apply step_summary in E0 as (stage & new & outb & z & iacce & s & _ & S). cbv zeta in S.
  decompose [and] S; clear S. apply IH in H as (x & ->).
  match goal with H : r_trace a = _ :: _ |- _ => rewrite H end. eexists (x ++ [_]). rewrite <- app_assoc. reflexivity.
Qed.

Lemma run_first_event b m m' : run_simulation E b m = Ok m' ->
  exists e evs, m_trace m' = rev (e :: evs) ++ m_trace m /\ ev_pos e = m_pos m.
Proof.
  intros H. apply run_model in H as (ini & ms1 & st0 & st & chains & H). cbv zeta in H.
  destruct H as (H1 & _ & _ & _ & _ & H2 & _ & H3 & H4 & _ & _ & _ & _ & _ & H5 & _ & _ & _ & H6 & _).
  pose proof (init_facts E _ _ _ _ _ _ _ _ H1) as IF. cbv zeta in IF. destruct IF as (_ & I2 & _ & _ & _ & _ & _ & _ & _ & _ & I3).
  unfold execute in H4. peel H4. destruct (_ <=? 1) eqn:N; [discriminate|]. peel H4. peel H4. inv H4. cbn [r_trace] in *.
  cbn [k_opts make_const] in *.
  destruct (o_nsimu (i_opts ini) - 1) as [|n] eqn:Q; [apply Nat.leb_gt in N; lia|]. cbn [seq iterate] in E0. peel E0.
  apply step_summary in E3 as (stage & new & outb & z & iacce & s & _ & S). cbv zeta in S. decompose [and] S; clear S.
  apply iterate_trace in E0 as (x & X). rewrite H6, X.
  match goal with H : r_trace a2 = _ :: _ |- _ => rewrite H end. rewrite H3. cbn [r_trace start_state r_io].
  eexists (mkev _ _ _ _ _). exists (rev x). split; [|cbn [ev_pos]; exact I3]. cbn [rev]. rewrite rev_involutive. reflexivity.
Qed.

(** ** Files *)

Lemma parallel_files str pos0 ps d ms o iv nc rd l objs c sched pos rs :
  setup_parallel_simulation str pos0 ps d ms o iv nc rd l = Ok objs ->
  run_parallel_simulation E objs c sched pos = Ok rs -> schedules (List.length objs) sched ->
  forall news all, Forall2 (fun r new => m_fs r = l ++ new) rs news -> interleaved news all ->
  forall i new p, nth_error news i = Some new -> fst (fst p) = (o_savedir o ++ "/chain_" ++ dec i)%string -> on_file p all = on_file p new.
Proof.
  intros S H HS news all N I i new p Hi Hp. apply setup_dirs in S as (_ & D). apply parallel_results in H as (_ & L & R); auto.
  unfold on_file. eapply inter_filter; eauto. intros j y J Hj.
  assert (LN := Forall2_len _ _ _ N). assert (j < List.length objs) by (rewrite <- L, LN; apply nth_error_Some; congruence).
  destruct (nth_error objs j) as [m|] eqn:M; [|apply nth_error_None in M; lia]. destruct (R _ _ M) as (q & r & R1 & R2).
  apply D in M as (M1 & _ & M3). apply run_writes in R2 as (_ & new' & W1 & W2 & _). cbn [m_fs at_pos m_opts] in W1, W2.
  destruct (Forall2_nth _ _ _ N _ _ R1) as (y' & Y1 & Y2). assert (y' = y) by congruence. subst y'.
  assert (new' = y) by (rewrite M3, Y2 in W1; now apply app_inv_head in W1). subst new'. rewrite M1 in W2.
  destruct (filter _ y) as [|op t] eqn:FI; auto. exfalso. assert (X : In op (op :: t)) by (cbn; auto). rewrite <- FI in X.
  apply filter_In in X as [X1 X2]. apply path_eqb_dir in X2. rewrite Forall_forall in W2. apply W2 in X1. unfold op_dir in X1.
  rewrite Hp, X1 in X2. apply append_inj_l in X2. apply (append_inj_l "/chain_") in X2. apply dec_inj in X2. auto.
Qed.
End P.
