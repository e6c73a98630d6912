(** Properties of chain statistics: C40 (Gelman-Rubin), C41 (batch means), C42 and C57 (Geweke), C43 (quantiles). *)

From Coq Require Import ZArith QArith Qround Bool Lia List Reals Lra Arith Qreals Sorted Permutation String.
From Verif Require Import Base Num ChainFiles ChainStats PlotUtil RVec StatsSpec StatsFacts BatchFacts BatchReal GewekeFacts GewekeReal QuantSpec QuantFacts.
Import ListNotations.
Close Scope Q_scope.
Open Scope list_scope.
Open Scope R_scope.

(** ** C40 *)

(** [cols]: the chains of one parameter, [m] of them with [n] values each; [within]: mean of the variances of the chains;
    [between]: variance of the chain means. *)
Theorem C40_scale_reduction :
  forall cols n m, List.length cols = m -> (2 <= m)%nat -> (2 <= n)%nat -> equal_length n cols -> 0 < within cols ->
  exists r V e, calculate_psrf (finm cols) n m = Ok (mkpsrf (Fin r) (Fin (between cols * INR n)) (Fin (within cols)) (Fin V) (Fin e)) /\
    0 <= r /\ r² = (INR n - 1) / INR n + (INR m + 1) / INR m * (between cols / within cols) /\ V = r² * within cols /\
    (INR n - 1) / INR n <= r² /\
    (r² = (INR n - 1) / INR n <-> (forall c c', In c cols -> In c' cols -> Rmean c = Rmean c')) /\
    0 < e <= INR (m * n).
Proof.
  intros cols n m L M N E W. pose proof (psrf2_pos n m cols N M W) as P. destruct (psrf_bounds cols n m L M N W) as (B1 & B2 & B3 & B4).
  exists (sqrt (psrf2 n m cols)), (psrf2 n m cols * within cols), (neff_of n m cols). rewrite (psrf_value cols n m L M N E W).
  rewrite Rsqr_sqrt by lra. repeat split; auto; try apply sqrt_pos; apply B2.
Qed.
Print Assumptions C40_scale_reduction.

(** Other units for the parameter (x becomes c*x + d): same factor R and number of draws; the variances change by c^2. *)
Theorem C40_units :
  forall cols n m c d, List.length cols = m -> (2 <= m)%nat -> (2 <= n)%nat -> equal_length n cols -> 0 < within cols -> c <> 0 ->
  exists R B W V e,
    calculate_psrf (finm cols) n m = Ok (mkpsrf R (Fin B) (Fin W) (Fin V) e) /\
    calculate_psrf (finm (map (affine c d) cols)) n m = Ok (mkpsrf R (Fin (c * c * B)) (Fin (c * c * W)) (Fin (c * c * V)) e).
Proof. exact psrf_affine. Qed.
Print Assumptions C40_units.

Theorem C40_order_of_chains :
  forall cols cols' n m, Permutation cols cols' -> List.length cols = m -> (2 <= m)%nat -> (2 <= n)%nat ->
  equal_length n cols -> 0 < within cols ->
  calculate_psrf (finm cols') n m = calculate_psrf (finm cols) n m.
Proof. exact psrf_perm. Qed.
Print Assumptions C40_order_of_chains.

(** The diagnostic for several parameters: each name gets the values computed from its own column of every chain.
    [chains]: number of columns and rows; [chains_ok n w]: each has [n] rows and at least [w] columns. *)
Theorem C40_each_parameter :
  forall F (NF : Num F) chains names n, let nparam := match chains with [] => 0%nat | ch :: _ => fst ch end in
  let ns := match names with Some l => l | None => generate_default_names nparam end in
  (2 <= List.length chains)%nat -> (0 < n)%nat -> chains_ok n (List.length ns) chains -> NoDup ns ->
  exists ps, gelman_rubin chains names None = Ok (combine ns ps) /\ List.length ps = List.length ns /\
    forall i p, nth_error ps i = Some p -> calculate_psrf (columns chains i) n (List.length chains) = Ok p.
Proof. intros F NF chains names n. apply gelman_rubin_entries. now right. Qed.
Print Assumptions C40_each_parameter.

Definition two_chains : list (list R) := [[0; 2]; [1; 5]].
Lemma two_chains_within : within two_chains = 5.
Proof. unfold within, two_chains, Rvar, Rmean, Rsum, Rsqr. cbn. lra. Qed.
Example C40_case : List.length two_chains = 2%nat /\ equal_length 2 two_chains /\ 0 < within two_chains /\
  chains_ok 2 1 [(1%nat, [[@Fin R 0]; [Fin 2]]); (1%nat, [[Fin 1]; [Fin 5]])] /\ ~ (forall c c', In c two_chains -> In c' two_chains -> Rmean c = Rmean c').
Proof.
  split; [reflexivity|]. split; [repeat constructor|]. rewrite two_chains_within. split; [lra|]. split.
  - intros ch [<-|[<-|[]]]; cbn; lia.
  - intros H. specialize (H [0; 2] [1; 5]). unfold two_chains, Rmean, Rsum in H. cbn in H. specialize (H (or_introl eq_refl) (or_intror (or_introl eq_refl))). lra.
Qed.

(** ** C41 *)

(** [cut b chain parts rest]: the chain consists of consecutive parts of [b] rows and a shorter rest. *)
Theorem C41_batches :
  forall npar chain b, (0 < b)%nat -> (2 <= List.length chain / b)%nat ->
  exists parts rest, cut b chain parts rest /\ List.length parts = (List.length chain / b)%nat /\
    batch_mean_standard_deviation npar (finm chain) (Some b) =
    Ok (fin (map (fun j => batch_error (map (fun p => Rmean (Rcol j p)) parts) (Rmean (Rcol j chain)) b) (seq 0 npar))).
Proof. exact batch_value. Qed.
Print Assumptions C41_batches.

Theorem C41_short_chains_rejected :
  forall F (NF : Num F) npar chain,
  batch_mean_standard_deviation npar chain None = Err SysExit <-> (List.length chain < 20)%nat.
Proof. intros F NF. exact batch_default_rejects. Qed.
Print Assumptions C41_short_chains_rejected.

Theorem C41_constant_chain :
  forall npar chain row b, (0 < b)%nat -> (2 <= List.length chain / b)%nat -> (forall r, In r chain -> r = row) ->
  batch_mean_standard_deviation npar (finm chain) (Some b) = Ok (fin (repeat 0 npar)).
Proof. exact batch_constant. Qed.
Print Assumptions C41_constant_chain.

Theorem C41_scaling :
  forall npar chain b c, (0 < b)%nat -> (2 <= List.length chain / b)%nat ->
  exists s, batch_mean_standard_deviation npar (finm chain) (Some b) = Ok (fin s) /\ List.length s = npar /\
    (forall x, In x s -> 0 <= x) /\
    batch_mean_standard_deviation npar (finm (map (map (fun x => c * x)) chain)) (Some b) = Ok (fin (map (fun x => Rabs c * x) s)).
Proof. exact batch_scaling. Qed.
Print Assumptions C41_scaling.

Definition five_rows : list (list R) := [[1; 0]; [2; 0]; [3; 1]; [4; 1]; [5; 9]].
Example C41_case : (2 <= List.length five_rows / 2)%nat /\
  cut 2 five_rows [[[1; 0]; [2; 0]]; [[3; 1]; [4; 1]]] [[5; 9]] /\ (forall r, In r (repeat [3; 4] 5) -> r = [3; 4]).
Proof. split; [cbn; lia|]. split; [split; [reflexivity|]; split; [repeat constructor|cbn; lia]|]. intros r. apply repeat_spec. Qed.

(** ** C42 *)

(** [k] is the whole number of rows in the fraction [a] of [n]. *)
Definition rows_of (a : Q) (n k : nat) : Prop :=
  (inject_Z (Z.of_nat k) <= a * inject_Z (Z.of_nat n) /\ a * inject_Z (Z.of_nat n) < inject_Z (Z.of_nat k + 1))%Q.

(** The first [a] and the last [b] of the chain are compared: means, divided by the square root of their variances [gvar]. *)
Theorem C42_compares_ends_partial :
  forall cdf npar first mid last a b, let chain := first ++ mid ++ last in
  (0 <= a)%Q -> (0 <= b)%Q -> (b <= 1)%Q ->
  rows_of a (List.length chain) (List.length first) -> rows_of b (List.length chain) (List.length last) ->
  (4 <= List.length first < List.length last)%nat ->
  geweke (fun nw => fin (hann nw)) cdf npar (finm chain) a b =
  let z := map (fun j => ndiv (Fin (Rmean (Rcol j first) - Rmean (Rcol j last))) (Fin (sqrt (gvar j first last)))) (seq 0 npar) in
  Ok (z, map (fun v => nmul (nnat 2) (nsub n1 (cdf (nabs v)))) z).
Proof.
  intros cdf npar first mid last a b chain A B B1 H1 H2 L. apply (geweke_real cdf npar first mid last a b); auto; apply portion_spec; auto.
Qed.
Print Assumptions C42_compares_ends_partial.

(** Which settings are refused: those with no more rows at the end than at the beginning, whether they overlap or not;
    and which give a value. *)
Theorem C42_when_refused :
  forall F (NF : Num F) hanning cdf npar chain a b na nb, (0 <= a)%Q -> (0 <= b)%Q -> (b <= 1)%Q -> (0 < npar)%nat ->
  rows_of a (List.length chain) na -> rows_of b (List.length chain) nb ->
  (geweke hanning cdf npar chain a b = Err SysExit <-> (nb <= na)%nat) /\
  ((exists r, geweke hanning cdf npar chain a b = Ok r) <-> (4 <= na < nb)%nat).
Proof.
  intros F NF hanning cdf npar chain a b na nb A B B1 NP H1 H2. apply portion_spec in H1, H2; auto. subst na nb.
  split; [now apply geweke_exit|now apply geweke_accept].
Qed.
Print Assumptions C42_when_refused.

(** With the default fractions 0.1 and 0.5 the segments never overlap, and 40 rows are enough. *)
Theorem C42_default_disjoint :
  forall F (NF : Num F) hanning cdf npar (chain : list (list F)) na nb, (0 < npar)%nat ->
  rows_of (1 # 10) (List.length chain) na -> rows_of (1 # 2) (List.length chain) nb ->
  (na + nb <= List.length chain)%nat /\
  ((exists r, geweke hanning cdf npar chain (1 # 10) (1 # 2) = Ok r) <-> (40 <= List.length chain)%nat).
Proof.
  intros F NF hanning cdf npar chain na nb NP H1 H2. apply portion_spec in H1, H2; try discriminate. subst na nb. now apply geweke_default.
Qed.
Print Assumptions C42_default_disjoint.

(** Finding: segments that overlap are accepted, *)
Theorem C42_refuted_overlap_accepted :
  exists npar (chain : list (list XR)) a b na nb, rows_of a (List.length chain) na /\ rows_of b (List.length chain) nb /\
    (List.length chain < na + nb)%nat /\ exists r, geweke (fun nw => fin (hann nw)) (fun x => x) npar chain a b = Ok r.
Proof.
  exists 1%nat, (repeat [Fin 0] 10), (6 # 10)%Q, (7 # 10)%Q, 6%nat, 7%nat.
  assert (H1 : rows_of (6 # 10) 10 6) by (split; unfold Qle, Qlt; cbn; lia). assert (H2 : rows_of (7 # 10) 10 7) by (split; unfold Qle, Qlt; cbn; lia).
  rewrite repeat_length. repeat (split; [auto; lia|]).
  apply (C42_when_refused XR _ (fun nw => fin (hann nw)) (fun x => x) 1 (repeat [Fin 0] 10) (6 # 10) (7 # 10) 6 7); try discriminate; auto; lia.
Qed.
Print Assumptions C42_refuted_overlap_accepted.

(** and segments that do not are refused. *)
Theorem C42_refuted_disjoint_refused :
  exists npar (chain : list (list XR)) a b na nb, rows_of a (List.length chain) na /\ rows_of b (List.length chain) nb /\
    (na + nb <= List.length chain)%nat /\ geweke (fun nw => fin (hann nw)) (fun x => x) npar chain a b = Err SysExit.
Proof.
  exists 1%nat, (repeat [Fin 0] 10), (5 # 10)%Q, (4 # 10)%Q, 5%nat, 4%nat.
  assert (H1 : rows_of (5 # 10) 10 5) by (split; unfold Qle, Qlt; cbn; lia). assert (H2 : rows_of (4 # 10) 10 4) by (split; unfold Qle, Qlt; cbn; lia).
  rewrite repeat_length. repeat (split; [auto; lia|]).
  apply (C42_when_refused XR _ (fun nw => fin (hann nw)) (fun x => x) 1 (repeat [Fin 0] 10) (5 # 10) (4 # 10) 5 4); try discriminate; auto.
Qed.
Print Assumptions C42_refuted_disjoint_refused.

Example C42_case : let chain := repeat [1] 4 ++ repeat [7] 31 ++ repeat [2] 5 in
  rows_of (1 # 10) (List.length chain) (List.length (repeat [1] 4)) /\ rows_of (1 # 8) (List.length chain) (List.length (repeat [2] 5)) /\
  rows_of (1 # 10) 47 4 /\ rows_of (1 # 2) 47 23.
Proof. repeat split; unfold Qle, Qlt; cbn; lia. Qed.

(** ** C57 *)

(** The scores do not depend on the unit in which the parameters are measured ... *)
Theorem C57_units_partial :
  forall cdf npar first mid last a b c, let chain := first ++ mid ++ last in
  (0 <= a)%Q -> (0 <= b)%Q -> (b <= 1)%Q ->
  rows_of a (List.length chain) (List.length first) -> rows_of b (List.length chain) (List.length last) ->
  (4 <= List.length first < List.length last)%nat -> 0 < c -> (forall j, (j < npar)%nat -> 0 < gvar j first last) ->
  geweke (fun nw => fin (hann nw)) cdf npar (finm (map (map (fun x => c * x)) chain)) a b =
  geweke (fun nw => fin (hann nw)) cdf npar (finm chain) a b.
Proof.
  intros cdf npar first mid last a b c chain A B B1 H1 H2 L C G. apply (geweke_scale cdf npar first mid last a b c); auto; apply portion_spec; auto.
Qed.
Print Assumptions C57_units_partial.

(** ... but they do depend on the origin: the values are not centred before the variances are estimated. *)
Theorem C57_refuted_origin :
  forall cdf, exists chain a b d z z' p p',
    geweke (fun nw => fin (hann nw)) cdf 1 (finm chain) a b = Ok ([Fin z], p) /\
    geweke (fun nw => fin (hann nw)) cdf 1 (finm (map (map (fun x => x + d)) chain)) a b = Ok ([Fin z'], p') /\ z <> z'.
Proof. exact geweke_shift_differs. Qed.
Print Assumptions C57_refuted_origin.

(** Only the rows at the two ends matter. *)
Theorem C57_middle_irrelevant :
  forall F (NF : Num F) hanning cdf npar first mid mid' last a b, let n := List.length (first ++ mid ++ last) in
  (0 <= a)%Q -> (0 <= b)%Q -> (b <= 1)%Q -> List.length mid' = List.length mid ->
  rows_of a n (List.length first) -> rows_of b n (List.length last) ->
  geweke hanning cdf npar (first ++ mid' ++ last) a b = geweke hanning cdf npar (first ++ mid ++ last) a b.
Proof.
  intros F NF hanning cdf npar first mid mid' last a b n A B B1 L H1 H2. apply geweke_ends; auto; apply portion_spec; auto.
Qed.
Print Assumptions C57_middle_irrelevant.

Example C57_case : rows_of (1 # 3) 12 (List.length g_first) /\ rows_of (5 # 12) 12 (List.length g_last) /\ (4 <= List.length g_first < List.length g_last)%nat /\
  List.length (g_first ++ g_mid ++ g_last) = 12%nat /\ 0 < gvar 0 g_first g_last.
Proof.
  split; [split; unfold Qle, Qlt; cbn; lia|]. split; [split; unfold Qle, Qlt; cbn; lia|]. split; [cbn; lia|]. split; [reflexivity|].
  unfold gvar, g_first, g_last, Rcol. cbn [repeat map nth List.length]. rewrite spec0_4, spec0_5. simpl. lra.
Qed.

(** ** C43 *)

(** [x]: a sample of at least two rows of real numbers, one column for each quantity; [p]: the probabilities.
    [ordered l s]: [s] lists the values of [l] in increasing order; [interp]: linear interpolation. *)
Theorem C43_quantiles :
  forall ncol x ps, (2 <= List.length x)%nat -> Forall (fun p => (0 <= p)%Q /\ (p <= 1)%Q) ps ->
  exists q, empirical_quantiles ncol (finm x) ps = Ok (finm q) /\ List.length q = List.length ps /\
    forall i p j, nth_error ps i = Some p -> (j < ncol)%nat ->
      let v := nth j (nth i q []) 0 in
      (exists a b, In a (Rcol j x) /\ In b (Rcol j x) /\ a <= v <= b) /\
      (forall i' p', nth_error ps i' = Some p' -> (p <= p')%Q -> v <= nth j (nth i' q []) 0) /\
      (forall s, ordered (Rcol j x) s -> v = interp s (INR (List.length x - 1) * Q2R p)) /\
      (forall k s, (k < List.length x)%nat -> (p == Z.of_nat k # Pos.of_nat (List.length x - 1))%Q -> ordered (Rcol j x) s -> v = nth k s 0).
Proof.
  intros ncol x ps N P. exists (map (fun p => map (rquant x p) (seq 0 ncol)) ps).
  assert (U : Forall unit_interval ps) by exact P.
  split; [now apply quantile_value|]. split; [apply map_length|].
  assert (V : forall i p j, nth_error ps i = Some p -> (j < ncol)%nat -> nth j (nth i (map (fun p => map (rquant x p) (seq 0 ncol)) ps) []) 0 = rquant x p j).
  { intros i p j I J. rewrite (nth_error_nth (map (fun p => map (rquant x p) (seq 0 ncol)) ps) i [] (x := map (rquant x p) (seq 0 ncol))) by (rewrite nth_error_map, I; reflexivity).
    rewrite (nth_indep _ 0 (rquant x p 0%nat)) by (now rewrite map_length, seq_length). now rewrite map_nth, seq_nth. }
  assert (W : forall i p, nth_error ps i = Some p -> unit_interval p).
  { intros i p I. apply nth_error_In in I. rewrite Forall_forall in U. auto. }
  intros i p j I J. cbn zeta. rewrite (V i p j I J). specialize (W i p I). split; [|split; [|split]].
  - apply rquant_range; auto. destruct x; [cbn in N; lia|discriminate].
  - intros i' p' I' L. rewrite (V i' p' j I' J). now apply rquant_mono.
  - intros s O. unfold rquant. now rewrite (ordered_rsort _ _ O).
  - intros k s K E O. assert (R : rquant x p j = rquant x (Z.of_nat k # Pos.of_nat (List.length x - 1)) j).
    { unfold rquant. now rewrite (Qeq_eqR _ _ E). }
    rewrite R. now apply rquant_order.
Qed.
Print Assumptions C43_quantiles.

Theorem C43_outside_refused :
  forall ncol x ps, (2 <= List.length x)%nat -> ~ Forall (fun p => (0 <= p)%Q /\ (p <= 1)%Q) ps ->
  empirical_quantiles ncol (finm x) ps = Err ValueError.
Proof. exact quantile_refused. Qed.
Print Assumptions C43_outside_refused.

Theorem C43_order_of_rows :
  forall ncol x x' ps, Permutation x x' -> (2 <= List.length x)%nat ->
  empirical_quantiles ncol (finm x') ps = empirical_quantiles ncol (finm x) ps.
Proof. exact quantile_perm. Qed.
Print Assumptions C43_order_of_rows.

(** Finding: a sample of one row has quantiles of no value, whatever [p]. *)
Theorem C43_refuted_single_row :
  forall ncol row ps, List.length row = ncol -> empirical_quantiles ncol (finm [row]) ps = Ok (map (fun _ => repeat NaN ncol) ps).
Proof. exact quantile_single. Qed.
Print Assumptions C43_refuted_single_row.

Example C43_case : (2 <= List.length [[3; 1]; [1; 2]; [2; 0]])%nat /\ Forall (fun p => (0 <= p)%Q /\ (p <= 1)%Q) [(1 # 2)%Q; (1 # 3)%Q] /\
  ordered (Rcol 0 [[3; 1]; [1; 2]; [2; 0]]) [1; 2; 3] /\ ((1 # 2) == Z.of_nat 1 # Pos.of_nat 2)%Q.
Proof.
  split; [cbn; lia|]. split; [repeat constructor; unfold Qle; cbn; lia|]. split; [|reflexivity]. split.
  - cbn. apply Permutation_trans with [1; 3; 2]; [constructor|]. constructor. constructor.
  - repeat constructor; lra.
Qed.
