(** Starting points of parallel chains. *)

From Coq Require Import ZArith QArith Qreals Reals Bool Lra Lia List String.
From Verif Require Import Base Num Samplers Adapt Settings Simulator SamplerFacts RVec Names Parallel ParallelSpec ParallelFacts.
Import ListNotations.
Close Scope Q_scope.
Open Scope list_scope.
Open Scope R_scope.

(** A parameter whose declared value is a number between its limits; each limit is a number or infinite. *)
Definition well_declared (p : param XR) : Prop :=
  exists t, a_theta0 p = Fin t /\
    (a_min p = NInf \/ exists lo, a_min p = Fin lo /\ lo <= t) /\
    (a_max p = PInf \/ exists hi, a_max p = Fin hi /\ t <= hi).

Lemma limits_fin p : well_declared p -> exists lo hi, low_lim p = Fin lo /\ upp_lim p = Fin hi /\ lo <= hi /\
  (forall v, lo <= v <= hi -> admits p (Fin v)).
Proof.
  intros (t & T & L & U). unfold low_lim, upp_lim, admits. rewrite T.
  assert (A : 0 <= Rabs t) by apply Rabs_pos.
  assert (Q : Q2R 100 = 100) by (unfold Q2R; simpl; lra).
  assert (XL : exists lo, (if neq (a_min p) nninf then nsub (Fin t) (nmul (nQ 100) (nabs (Fin t))) else a_min p) = Fin lo /\ lo <= t /\
             forall v, lo <= v -> nlt (Fin v) (a_min p) = false).
  { destruct L as [->|(lo & -> & L)].
    - exists (t - 100 * Rabs t). split; [unfold nninf; unfold neq, nsub, nmul, nabs, nQ, ninf, n0; unfold Num_X, xeq, xsub, xadd, xneg, xmul, xabs; cbn -[Q2R]; rewrite Q; reflexivity|].
      split; [lra|]. intros; reflexivity.
    - exists lo. split; [unfold nninf, neq, nsub, ninf, n0; unfold Num_X, xeq, xsub, xadd, xneg; cbn -[Q2R]; reflexivity|]. split; auto.
      intros v V. unfold nlt, Num_X, xlt, alt, Arith_R, Rltb. destruct (Rlt_dec v lo); auto; lra. }
  assert (XU : exists hi, (if neq (a_max p) ninf then nadd (Fin t) (nmul (nQ 100) (nabs (Fin t))) else a_max p) = Fin hi /\ t <= hi /\
             forall v, v <= hi -> nlt (a_max p) (Fin v) = false).
  { destruct U as [->|(hi & -> & U)].
    - exists (t + 100 * Rabs t). split; [unfold neq, nadd, nmul, nabs, nQ, ninf; unfold Num_X, xeq, xadd, xmul, xabs; cbn -[Q2R]; rewrite Q; reflexivity|].
      split; [lra|]. intros; reflexivity.
    - exists hi. split; [unfold neq, ninf; unfold Num_X, xeq; cbn -[Q2R]; reflexivity|]. split; auto.
      intros v V. unfold nlt, Num_X, xlt, alt, Arith_R, Rltb. destruct (Rlt_dec hi v); auto; lra. }
  destruct XL as (lo & L1 & L2 & L3), XU as (hi & U1 & U2 & U3). exists lo, hi. split; [exact L1|]. split; [exact U1|]. split; [lra|].
  intros v [V1 V2]. split; auto.
Qed.

Lemma generated_value lo hi u : lo <= hi -> 0 <= u <= 1 -> exists v : R,
  nadd (Fin lo) (nmul (nsub (Fin hi) (Fin lo)) (Fin u)) = Fin v /\ lo <= v <= hi.
Proof.
  intros H U. exists (lo + (hi - lo) * u). split; [reflexivity|]. split; [|]; nra.
Qed.

Definition uniforms (str : stream XR) : Prop := forall k, exists u, s_unif str k = Fin u /\ 0 <= u <= 1.

Lemma generated_points str pos nc ps : uniforms str -> Forall well_declared ps ->
  exists iv k, check_initial_values str pos None nc (List.length ps) (map low_lim ps) (map upp_lim ps) = Ok (iv, nc, k) /\
    List.length iv = nc /\ Forall (Forall2 (fun p v => admits p v /\ exists x, v = Fin x) ps) iv.
Proof.
  intros HU HP. eexists. eexists. split; [reflexivity|]. unfold generate_initial_values. rewrite map_length, seq_length. split; [reflexivity|].
  apply Forall_map. apply Forall_forall. intros i _.
  assert (G : forall a rest, ps = rest ++ a -> Forall2 (fun p v => admits p v /\ exists x, v = Fin x) a
     (map (fun j => nadd (nth j (map low_lim ps) n0) (nmul (nsub (nth j (map upp_lim ps) n0) (nth j (map low_lim ps) n0))
         (s_unif str (pos + (i * List.length ps + j))%nat))) (seq (List.length rest) (List.length a)))).
  { induction a as [|p a IH]; intros rest E; cbn [List.length seq map]; constructor.
    - assert (W : well_declared p) by (rewrite Forall_forall in HP; apply HP; rewrite E; apply in_app_iff; cbn; auto).
      apply limits_fin in W as (lo & hi & W1 & W2 & W3 & W4). destruct (HU (pos + (i * List.length ps + List.length rest))%nat) as (u & U1 & U2).
      assert (N1 : nth (List.length rest) (map low_lim ps) n0 = Fin lo).
      { rewrite E, map_app. cbn [map]. rewrite app_nth2; rewrite map_length; [|lia]. rewrite Nat.sub_diag. exact W1. }
      assert (N2 : nth (List.length rest) (map upp_lim ps) n0 = Fin hi).
      { rewrite E, map_app. cbn [map]. rewrite app_nth2; rewrite map_length; [|lia]. rewrite Nat.sub_diag. exact W2. }
      rewrite N1, N2, U1. destruct (generated_value lo hi u W3 U2) as (v & -> & V). split; [auto|eauto].
    - replace (S (List.length rest)) with (List.length (rest ++ [p])) by (rewrite app_length; cbn; lia). apply IH. rewrite <- app_assoc. exact E. }
  apply (G ps []). reflexivity.
Qed.

Close Scope R_scope.
Open Scope nat_scope.

Section Users.
Context {F : Type} `{NF : Num F}.

(** A parameter with two limits that are not infinite. *)
Definition bounded (p : param F) : Prop := neq (a_min p) nninf = false /\ neq (a_max p) ninf = false.

Lemma bounded_lims p : bounded p -> low_lim p = a_min p /\ upp_lim p = a_max p.
Proof. intros [A B]. unfold low_lim, upp_lim. now rewrite A, B. Qed.

Lemma outside_params (ps : list (param F)) (g h : param F -> F) : forall row, Forall2 (fun p v => nlt v (g p) = false /\ nlt (h p) v = false) ps row ->
  is_sample_outside_bounds row (map g ps) (map h ps) = false.
Proof.
  unfold is_sample_outside_bounds. induction 1 as [|p v ps row [A B] H IH]; auto. cbn [map map2 existsb]. rewrite A, B. cbn [orb]. exact IH.
Qed.

Lemma outside_some (ps : list (param F)) (g h : param F -> F) : forall row, List.length row = List.length ps ->
  is_sample_outside_bounds row (map g ps) (map h ps) = false -> Forall2 (fun p v => nlt v (g p) = false /\ nlt (h p) v = false) ps row.
Proof.
  unfold is_sample_outside_bounds. induction ps as [|p ps IH]; intros [|v row] L H; try discriminate; constructor.
  - cbn [map map2 existsb] in H. apply orb_false_iff in H as [A B]. apply orb_false_iff in A as [A _]. apply orb_false_iff in B as [B _]. auto.
  - apply IH; [now inversion L|]. cbn [map map2 existsb] in H. apply orb_false_iff in H as [A B]. 
    apply orb_false_iff in A as [_ A]. apply orb_false_iff in B as [_ B]. now rewrite A, B.
Qed.

(** The user's points are taken as they are, or the program stops. *)
Lemma users_points str pos (ps : list (param F)) iv nc : Forall (fun r => List.length r = List.length ps) iv ->
  let ok := Forall (Forall2 (fun p v => nlt v (low_lim p) = false /\ nlt (upp_lim p) v = false) ps) iv in
  (ok -> check_initial_values str pos (Some iv) nc (List.length ps) (map low_lim ps) (map upp_lim ps) = Ok (iv, List.length iv, 0)) /\
  (~ ok -> check_initial_values str pos (Some iv) nc (List.length ps) (map low_lim ps) (map upp_lim ps) = Err SysExit).
Proof.
  intros W ok. unfold check_initial_values, check_shape_of_users_initial_values, check_users_initial_values_wrt_limits.
  assert (E1 : map (firstn (List.length ps)) iv = iv).
  { clear ok. induction W as [|r iv H _ IH]; cbn; auto. rewrite IH. f_equal. rewrite <- H. apply firstn_all. }
  rewrite E1, !map_length.
  assert (E2 : existsb (fun r => List.length r <? List.length ps) iv = false).
  { clear ok E1. induction W as [|r iv H _ IH]; cbn [existsb]; auto. rewrite IH, H, Nat.ltb_irrefl. reflexivity. }
  rewrite E2. destruct (existsb (fun r => is_sample_outside_bounds r (map low_lim ps) (map upp_lim ps)) iv) eqn:O.
  - split; [|reflexivity]. intros K. exfalso. apply existsb_exists in O as (r & R1 & R2). unfold ok in K. rewrite Forall_forall in K.
    specialize (K r R1). apply (outside_params ps low_lim upp_lim) in K. congruence.
  - split; [reflexivity|]. intros K. exfalso. apply K. unfold ok. rewrite Forall_forall in W |- *. intros r R.
    apply outside_some; auto. destruct (is_sample_outside_bounds r (map low_lim ps) (map upp_lim ps)) eqn:Q; auto.
    exfalso. assert (X : existsb (fun r => is_sample_outside_bounds r (map low_lim ps) (map upp_lim ps)) iv = true) by (apply existsb_exists; eauto). congruence.
Qed.

(** Parameters with finite limits: exactly the points within the declared limits are accepted. *)
Lemma users_points_bounded str pos (ps : list (param F)) iv nc : Forall bounded ps -> Forall (fun r => List.length r = List.length ps) iv ->
  (Forall (Forall2 admits ps) iv -> check_initial_values str pos (Some iv) nc (List.length ps) (map low_lim ps) (map upp_lim ps) = Ok (iv, List.length iv, 0)) /\
  (~ Forall (Forall2 admits ps) iv -> check_initial_values str pos (Some iv) nc (List.length ps) (map low_lim ps) (map upp_lim ps) = Err SysExit).
Proof.
  intros B W. pose proof (users_points str pos ps iv nc W) as U. cbv zeta in U.
  assert (X : forall r, Forall2 (fun p v => nlt v (low_lim p) = false /\ nlt (upp_lim p) v = false) ps r <-> Forall2 admits ps r).
  { clear - B. induction B as [|p ps H B IH]; intros r; split; intros K; inversion K as [|? v ? r' K1 K2]; subst; constructor;
      try (apply IH; auto); destruct (bounded_lims _ H) as [-> ->] || (destruct (bounded_lims _ H) as [R1 R2]; rewrite R1, R2 in * ); unfold admits in *; auto. }
  assert (Y : Forall (Forall2 (fun p v => nlt v (low_lim p) = false /\ nlt (upp_lim p) v = false) ps) iv <-> Forall (Forall2 admits ps) iv).
  { rewrite !Forall_forall. split; intros K r R; apply X; auto. }
  rewrite <- Y. exact U.
Qed.

(** Every parameter of every chain starts from the array of initial values, sampled or not. *)
Lemma chain_starts str pos ps d ms o iv0 nc rd (l : fs F) objs : setup_parallel_simulation str pos ps d ms o iv0 nc rd l = Ok objs ->
  exists iv n k, check_initial_values str pos iv0 nc (List.length ps) (map low_lim ps) (map upp_lim ps) = Ok (iv, n, k) /\
    List.length objs = n /\
    forall i m j p q, nth_error objs i = Some m -> nth_error ps j = Some p -> nth_error (m_params m) j = Some q ->
      q = mkparam (a_name p) (nth j (nth i iv []) n0) (a_min p) (a_max p) (a_mu p) (a_sigma p) (a_sample p) (a_adapt p).
Proof.
  intros H. apply setup_objects in H as (iv & n & k & H1 & H2 & H3). exists iv, n, k. split; auto. split; auto.
  intros i m j p q Hm Hp Hq. apply H3 in Hm as [_ ->]. cbn [m_params new_mcmc] in Hq. unfold chain_params in Hq.
  revert j p q Hp Hq. generalize (nth i iv []). clear. induction ps as [|p0 ps IH]; intros [|v row] [|j] p q Hp Hq; cbn in *; try discriminate.
  - inv Hp. inv Hq. reflexivity.
  - eapply IH; eauto.
Qed.
End Users.

(** ** The same for a whole set-up *)

Section Setup.
Context {F : Type} `{NF : Num F}.

Lemma chain_params_theta (ps : list (param F)) : forall row, List.length row = List.length ps ->
  Forall2 (fun p q => a_name q = a_name p /\ a_min q = a_min p /\ a_max q = a_max p /\ a_sample q = a_sample p) ps (chain_params ps row) /\
  map (@a_theta0 F) (chain_params ps row) = row.
Proof.
  unfold chain_params. induction ps as [|p ps IH]; intros [|v row] L; try discriminate; cbn [map2 map]; [split; constructor|].
  injection L as L. destruct (IH row L) as [A B]. split; [constructor; auto|]. rewrite B. reflexivity.
Qed.

Lemma setup_users str pos (ps : list (param F)) d ms o iv nc rd l : Forall bounded ps -> Forall (fun r => List.length r = List.length ps) iv ->
  (Forall (Forall2 admits ps) iv -> exists objs, setup_parallel_simulation str pos ps d ms o (Some iv) nc rd l = Ok objs /\
     map (fun m => map (@a_theta0 F) (m_params m)) objs = iv) /\
  (~ Forall (Forall2 admits ps) iv -> setup_parallel_simulation str pos ps d ms o (Some iv) nc rd l = Err SysExit).
Proof.
  intros B W. destruct (users_points_bounded str pos ps iv nc B W) as [U1 U2]. unfold setup_parallel_simulation. split; intros H.
  - rewrite (U1 H). cbn [bind]. eexists. split; [reflexivity|]. rewrite map_map. cbn [m_params new_mcmc].
    transitivity (map (fun i => nth i iv []) (seq 0 (List.length iv))).
    + apply map_ext_in. intros i I. apply in_seq in I. apply chain_params_theta. rewrite Forall_forall in W. apply W, nth_In. lia.
    + clear. induction iv as [|r iv IH]; cbn [List.length seq map]; [reflexivity|]. f_equal. rewrite <- seq_shift, map_map. exact IH.
  - rewrite (U2 H). reflexivity.
Qed.

(** Parameters that are not sampled start from the array as well. *)
Lemma setup_overwrites str pos (ps : list (param F)) d ms o iv0 nc rd l objs : setup_parallel_simulation str pos ps d ms o iv0 nc rd l = Ok objs ->
  exists iv n k, check_initial_values str pos iv0 nc (List.length ps) (map low_lim ps) (map upp_lim ps) = Ok (iv, n, k) /\
    List.length objs = n /\
    forall i m j p q, nth_error objs i = Some m -> nth_error ps j = Some p -> nth_error (m_params m) j = Some q ->
      a_name q = a_name p /\ a_sample q = a_sample p /\ a_theta0 q = nth j (nth i iv []) n0.
Proof.
  intros H. apply chain_starts in H as (iv & n & k & H1 & H2 & H3). exists iv, n, k. split; auto. split; auto.
  intros i m j p q A B C. rewrite (H3 _ _ _ _ _ A B C). auto.
Qed.
End Setup.

Lemma setup_generated str pos (ps : list (param XR)) d ms o nc rd l : uniforms str -> Forall well_declared ps ->
  exists objs, setup_parallel_simulation str pos ps d ms o None nc rd l = Ok objs /\ List.length objs = nc /\
    Forall (fun m => Forall2 (fun p q => a_name q = a_name p /\ (exists x, a_theta0 q = Fin x) /\ admits p (a_theta0 q)) ps (m_params m)) objs.
Proof.
  intros U W. destruct (generated_points str pos nc ps U W) as (iv & k & C & L & A). unfold setup_parallel_simulation. rewrite C. cbn [bind].
  eexists. split; [reflexivity|]. split; [now rewrite map_length, seq_length|]. apply Forall_map, Forall_forall. intros i I. apply in_seq in I.
  cbn [m_params new_mcmc]. rewrite Forall_forall in A. assert (K : In (nth i iv []) iv) by (apply nth_In; lia). apply A in K. revert K.
  generalize (nth i iv []). clear. unfold chain_params. induction 1 as [|p v ps row [H X] _ IH]; cbn [map2]; constructor; auto.
Qed.

(** ** Workers *)

Lemma cores cpu n : (1 <= cpu)%Z -> (assign_number_of_cores cpu n <= cpu)%Z /\ (assign_number_of_cores cpu n <= n)%Z /\
  ((1 <= n)%Z -> (1 <= assign_number_of_cores cpu n)%Z) /\ ((1 <= n <= cpu)%Z -> assign_number_of_cores cpu n = n).
Proof.
  intros C. unfold assign_number_of_cores. destruct (Z.ltb_spec cpu n); repeat split; intros; lia.
Qed.

Section Runs.
Context {F : Type} `{NF : Num F}.
Variable E : env F.

Lemma no_collision str pos0 ps d ms o iv nc rd (l : fs F) objs c sched pos rs :
  setup_parallel_simulation str pos0 ps d ms o iv nc rd l = Ok objs ->
  run_parallel_simulation E objs c sched pos = Ok rs -> schedules (List.length objs) sched ->
  (1 <= c)%Z /\ List.length rs = List.length objs /\
  exists news, Forall2 (fun r new => m_fs r = l ++ new) rs news /\
    (forall i r new, nth_error rs i = Some r -> nth_error news i = Some new ->
       o_savedir (m_opts r) = (o_savedir o ++ "/chain_" ++ dec i)%string /\
       (exists m p, nth_error objs i = Some m /\ run_simulation E false (at_pos m p) = Ok r) /\
       Forall (fun op => op_dir op = o_savedir (m_opts r)) new /\
       forall p b, In (FJson p b) new -> p = (o_savedir (m_opts r), ("chain_" ++ dec i ++ ".json")%string, EmptyString)) /\
    NoDup (map (fun r => o_savedir (m_opts r)) rs) /\
    forall all, interleaved news all -> forall i new p, nth_error news i = Some new ->
      fst (fst p) = (o_savedir o ++ "/chain_" ++ dec i)%string -> on_file p all = on_file p new.
Proof.
  intros S H HS. pose proof (parallel_results E _ _ _ _ _ H HS) as (C & L & R). pose proof (setup_dirs _ _ _ _ _ _ _ _ _ _ _ S) as (ND & D).
  split; [exact C|]. split; [exact L|].
  assert (X : forall i r, nth_error rs i = Some r -> exists m p new, nth_error objs i = Some m /\ run_simulation E false (at_pos m p) = Ok r /\
     o_savedir (m_opts r) = (o_savedir o ++ "/chain_" ++ dec i)%string /\ m_fs r = l ++ new /\
     Forall (fun op => op_dir op = o_savedir (m_opts r)) new /\
     forall p b, In (FJson p b) new -> p = (o_savedir (m_opts r), ("chain_" ++ dec i ++ ".json")%string, EmptyString)).
  { intros i r Hi. assert (Li : i < List.length objs) by (rewrite <- L; apply nth_error_Some; congruence).
    destruct (nth_error objs i) as [m|] eqn:Em; [|apply nth_error_None in Em; lia].
    destruct (R _ _ Em) as (p & r' & R1 & R2). assert (r' = r) by congruence. subst r'.
    destruct (D _ _ Em) as (D1 & D2 & D3). pose proof R2 as W. apply run_writes in W as (W0 & new & W1 & W2 & W3).
    cbn [m_opts at_pos m_fs] in W0, W1, W2, W3. exists m, p, new. rewrite W0. rewrite D2 in W3. rewrite D3 in W1. split; [reflexivity|]. split; [exact R2|]. split; [exact D1|]. split; [exact W1|]. split; [exact W2|exact W3]. }
  assert (SK : forall x : fs F, skipn (List.length l) (l ++ x) = x) by (intros; rewrite skipn_app, skipn_all, Nat.sub_diag; reflexivity).
  set (news := map (fun r => skipn (List.length l) (m_fs r)) rs).
  assert (N : Forall2 (fun r new => m_fs r = l ++ new) rs news).
  { unfold news. assert (G : forall r, In r rs -> m_fs r = l ++ skipn (List.length l) (m_fs r)).
    { intros r I. apply In_nth_error in I as (i & I). apply X in I as (m & p & new & _ & _ & _ & I & _). now rewrite I, SK. }
    clear - G. induction rs as [|r rs IH]; cbn [map]; constructor; [apply G; cbn; auto|]. apply IH. intros z Z. apply G. cbn; auto. }
  exists news. split; [exact N|]. split; [|split].
  - intros i r new Hr Hn. destruct (X _ _ Hr) as (m & p & new' & X1 & X2 & X3 & X4 & X5 & X6).
    unfold news in Hn. rewrite nth_error_map, Hr in Hn. cbn [option_map] in Hn. injection Hn as <-. rewrite X4, SK.
    split; [exact X3|]. split; [eauto|]. split; [exact X5|exact X6].
  - replace (map (fun r => o_savedir (m_opts r)) rs) with (map (fun m => o_savedir (m_opts m)) objs); [exact ND|].
    apply (nth_ext _ _ EmptyString EmptyString); rewrite !map_length; [now symmetry|]. intros i Hi.
    destruct (nth_error objs i) as [m|] eqn:Em; [|apply nth_error_None in Em; lia].
    destruct (R _ _ Em) as (p & r & R1 & _). destruct (X _ _ R1) as (_ & _ & _ & _ & _ & X3 & _). destruct (D _ _ Em) as (D1 & _).
    apply (map_nth_error (fun m => o_savedir (m_opts m))) in Em. apply (map_nth_error (fun m => o_savedir (m_opts m))) in R1.
    erewrite !nth_error_nth by eassumption. congruence.
  - intros all I i new p Hn Hp. exact (parallel_files E _ _ _ _ _ _ _ _ _ _ _ _ _ _ _ S H HS news all N I i new p Hn Hp).
Qed.
End Runs.
