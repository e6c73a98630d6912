(** Properties of what is computed from a chain after the run: bands (C44), propagation (C45, C46), subsampling and grids for
    plots (C47, C48), interquartile range (C50), names (C56). *)

From Coq Require Import ZArith QArith Qround Bool Lia List Reals Lra Arith Qreals Sorted Permutation String.
From Verif Require Import Base Num Settings ChainFiles Results ChainStats PlotUtil Propagation PredInt RVec StatsSpec QuantSpec QuantFacts
  UtilFacts PropagFacts BandFacts.
Import ListNotations.
Close Scope Q_scope.
Close Scope R_scope.
Open Scope list_scope.
Open Scope nat_scope.

(** ** C44 *)

(** [is_band ncol x L b]: [b] consists of the quantiles (50 - L/2)% and (50 + L/2)% of the columns of the sample [x].
    [plot_intervals] draws one band for each level, the widest first. *)
Theorem C44_bands_partial :
  forall fmt ty limits ncol x, 2 <= List.length x -> Forall (fun L => (0 <= L)%Q /\ (L <= 100)%Q) limits ->
  exists Ls bands, interval_bands fmt ty (Some limits) [] ncol (finm x) = Ok bands /\
    Permutation limits Ls /\ StronglySorted (fun a b => (b <= a)%Q) Ls /\
    Forall2 (fun L b => fst b = (fmt L ++ "% " ++ ty)%string /\ is_band ncol x (Q2R L) (snd b)) Ls bands /\
    forall i j b b', i <= j -> nth_error bands i = Some b -> nth_error bands j = Some b' -> encloses (snd b) (snd b').
Proof.
  intros fmt ty limits ncol x N P. destruct (bands_drawn fmt ty limits ncol x N P (Some limits) [] eq_refl) as (Ls & bands & E & P1 & S & H).
  exists Ls, bands. repeat split; auto. intros. now apply (bands_nested fmt ty limits ncol x bands N P E i j).
Qed.
Print Assumptions C44_bands_partial.

Theorem C44_larger_encloses_smaller :
  forall ncol x L M b b', (0 <= L <= M)%R -> (M <= 100)%R -> is_band ncol x M b -> is_band ncol x L b' -> encloses b b'.
Proof. exact band_nested. Qed.
Print Assumptions C44_larger_encloses_smaller.

Theorem C44_impossible_levels_refused :
  forall fmt ty limits ncol x, 2 <= List.length x -> ~ Forall (fun L => (-100 <= L)%Q /\ (L <= 100)%Q) limits ->
  interval_bands fmt ty (Some limits) [] ncol (finm x) = Err ValueError.
Proof. exact bands_refused. Qed.
Print Assumptions C44_impossible_levels_refused.

(** PredictionIntervals with error variances ([o]: sampled observations): both bands are what their labels say. *)
Theorem C44_prediction_intervals :
  forall nrow x o lines plines, 2 <= List.length x -> 2 <= List.length o ->
  empirical_quantiles nrow (finm x) (interval_limits true) = Ok lines ->
  empirical_quantiles nrow (finm o) (interval_limits true) = Ok plines ->
  exists b1 b2, plotted_bands true lines (Some plines) = Ok [("95% PI"%string, b1); ("95% CI"%string, b2)] /\
    plotted_bands false lines (Some plines) = Ok [("95% CI"%string, b2)] /\
    is_band nrow o 95 [fst b1; snd b1] /\ is_band nrow x 95 [fst b2; snd b2].
Proof. exact pi_bands_with_s2. Qed.
Print Assumptions C44_prediction_intervals.

(** Without error variances: four bands, each within the previous one; the one labelled 90% is from 5% to 90%. *)
Theorem C44_credible_intervals :
  forall nrow x lines plot, 2 <= List.length x ->
  empirical_quantiles nrow (finm x) (interval_limits false) = Ok lines ->
  exists b99 b95 b90 b50, plotted_bands plot lines None =
      Ok [("99% CI"%string, b99); ("95% CI"%string, b95); ("90% CI"%string, b90); ("50% CI"%string, b50)] /\
    is_band nrow x 99 [fst b99; snd b99] /\ is_band nrow x 95 [fst b95; snd b95] /\ is_band nrow x 50 [fst b50; snd b50] /\
    (exists lo hi, [fst b90; snd b90] = [fin lo; fin hi] /\ List.length lo = nrow /\ List.length hi = nrow /\
       forall j, j < nrow -> is_quantile (Rcol j x) (5 / 100)%R (nth j lo 0%R) /\ is_quantile (Rcol j x) (90 / 100)%R (nth j hi 0%R)) /\
    encloses [fst b99; snd b99] [fst b95; snd b95] /\ encloses [fst b95; snd b95] [fst b90; snd b90] /\ encloses [fst b90; snd b90] [fst b50; snd b50].
Proof. exact pi_bands_without_s2. Qed.
Print Assumptions C44_credible_intervals.

(** Finding: that band is not the one its label promises. *)
Theorem C44_refuted_90_percent :
  exists nrow x lines b90, 2 <= List.length x /\
  empirical_quantiles nrow (finm x) (interval_limits false) = Ok lines /\
  (exists bands, plotted_bands true lines None = Ok bands /\ In ("90% CI"%string, b90) bands) /\
  ~ is_band nrow x 90 [fst b90; snd b90].
Proof. exact label_90_wrong. Qed.
Print Assumptions C44_refuted_90_percent.

(** Finding: plot_intervals cannot draw intervals that were calculated without error variances unless told not to draw prediction
    intervals. *)
Theorem C44_refuted_no_prediction :
  forall fmt ci pi limits addcredible ncol (cred : list (list XR)),
  plot_intervals fmt ci pi limits addcredible true ncol (mkinterval cred None) = Err AttributeError.
Proof. exact no_prediction_fails. Qed.
Print Assumptions C44_refuted_no_prediction.

Example C44_case : let x := [[3; 1]; [1; 2]; [2; 0]]%R in 2 <= List.length x /\
  Forall (fun L => (0 <= L)%Q /\ (L <= 100)%Q) [50; 95; 80]%Q /\ ~ Forall (fun L => (-100 <= L)%Q /\ (L <= 100)%Q) [50; 950]%Q /\
  exists lines, empirical_quantiles 2 (finm x) (interval_limits true) = Ok lines.
Proof.
  cbn zeta. split; [cbn; lia|]. split; [repeat constructor; unfold Qle; cbn; lia|]. split.
  - intros H. inversion H as [|? ? _ H1]; subst. inversion H1 as [|? ? [_ H2] _]; subst. unfold Qle in H2. cbn in H2. lia.
  - eexists. apply quantile_value; [cbn; lia|]. repeat constructor; unfold Qle; cbn; lia.
Qed.

(** ** C45 *)

(** [stores results theta parind]: these are the entries of the results; [holds_row theta parind row t]: [t] is [theta] with the
    sampled parameters taken from [row]; [fits]: the indices are distinct and valid and the rows have one entry for each.
    [sampled_rows chain us n rows]: all rows in order if [n] is not smaller than the length of the chain, otherwise the rows drawn
    with the uniform numbers [us].

    PredictionIntervals: for every data set each of the drawn rows of the chain without burn-in is evaluated, with the
    parameters that concern that data set. *)
Theorem C45_prediction_intervals_partial :
  forall F (NF : Num F) results model nd burnin asked nsample calc us z theta parind chain local,
  stores results theta parind -> lookup "chain"%string results = Some (PMat chain) -> lookup "local"%string results = Some (PArrZ (map Z.of_nat local)) ->
  fits theta parind chain -> (forall k, (0 <= us k)%Q /\ (us k < 1)%Q) ->
  let used := skipn burnin chain in
  let n := match nsample with Some n => n | None => List.length used end in
  let '(results', calls, r) := prediction_intervals results model nd burnin asked nsample calc us z in
  (calls = [] /\ exists e, r = Err e) \/
  exists rows pts m, sampled_rows used us n rows /\ Forall2 (holds_row theta parind) rows pts /\
    calls = firstn m (List.concat (map (fun ii => map (fun t => (ii, concerning ii local t)) pts) (seq 0 nd))) /\
    (forall v, r = Ok v -> m = nd * List.length rows).
Proof.
  intros F NF results model nd burnin asked nsample calc us z theta parind chain local S C L Ft U.
  pose proof (prediction_facts results model nd burnin asked nsample calc us z theta parind chain local S C L Ft U) as P. cbn zeta in P |- *.
  destruct (prediction_intervals results model nd burnin asked nsample calc us z) as ((results', calls), r).
  destruct P as (_ & theta' & _ & _ & [(A & _ & B)|(rows & pts & m & A & B & C' & _ & D)]); [left; auto|right].
  exists rows, pts, m. repeat split; auto. intros v E. now destruct (D v E).
Qed.
Print Assumptions C45_prediction_intervals_partial.

Theorem C45_drawn_rows_exist :
  forall (us : nat -> Q) n i, (forall k, (0 <= us k)%Q /\ (us k < 1)%Q) -> 0 < n -> exists k, wrap n (draw_index (us i) n) = Ok k /\ k < n.
Proof. exact draws_select. Qed.
Print Assumptions C45_drawn_rows_exist.

Theorem C45_every_row_can_be_drawn :
  forall n k, k < n -> exists u, (0 < u)%Q /\ (u < 1)%Q /\ draw_index u n = Z.of_nat k.
Proof. exact draws_reach. Qed.
Print Assumptions C45_every_row_can_be_drawn.

(** Finding: propagation.calculate_intervals draws rows but uses the first ones; the result does not depend on the draws at
    all. *)
Theorem C45_first_rows_used :
  forall F (NF : Num F) chain results model s2chain nsample sstype us z theta parind,
  stores results theta parind -> fits theta parind chain ->
  let '(results', calls, r) := calculate_intervals chain results model s2chain nsample sstype us z in
  exists m, Forall2 (holds_row theta parind) (firstn m chain) calls /\ m <= Nat.min nsample (List.length chain) /\
    (forall v, r = Ok v -> m = Nat.min nsample (List.length chain)).
Proof. intros F NF. exact propagation_rows. Qed.
Print Assumptions C45_first_rows_used.

Theorem C45_draws_not_used :
  forall F (NF : Num F) chain results model s2chain nsample sstype us us' z,
  calculate_intervals chain results model s2chain nsample sstype us z = calculate_intervals chain results model s2chain nsample sstype us' z.
Proof. intros F NF. exact propagation_ignores_draws. Qed.
Print Assumptions C45_draws_not_used.

Definition three_rows : list (list XQ) := [[Fin 0]; [Fin 1]; [Fin 2]]%Q.
Definition three_results : pydict XQ := [("theta", PArr [Fin 2; Fin 7]%Q); ("parind", PArrZ [0%Z]); ("local", PArrZ [0%Z; 0%Z]);
  ("chain", PMat three_rows); ("s2chain", PNone)]%string.
Definition high_draws (k : nat) : Q := 5 # 6.
Lemma three_stores : stores three_results [Fin 2; Fin 7]%Q [0].
Proof. split; reflexivity. Qed.
Lemma three_fits : fits [Fin 2; Fin 7]%Q [0] three_rows.
Proof. split; [repeat constructor; intros []|]. split; [intros i [<-|[]]; cbn; lia|repeat constructor]. Qed.

Theorem C45_refuted_propagation :
  exists (chain : list (list XQ)) results theta parind model nsample us z, stores results theta parind /\ fits theta parind chain /\
    (forall k, (0 <= us k)%Q /\ (us k < 1)%Q) /\
    let '(_, calls, r) := calculate_intervals chain results model S2none nsample 0 us z in
    (exists v, r = Ok v) /\ forall rows, sampled_rows chain us nsample rows -> ~ Forall2 (holds_row theta parind) rows calls.
Proof.
  exists three_rows, three_results, [Fin 2; Fin 7]%Q, [0], (fun t => Y1 t), 1, high_draws, (fun _ => Fin 0%Q).
  split; [exact three_stores|]. split; [exact three_fits|]. split; [intros k; split; unfold high_draws, Qle, Qlt; cbn; lia|].
  assert (E : calculate_intervals three_rows three_results (fun t => Y1 t) S2none 1 0 high_draws (fun _ => Fin 0%Q) =
    (setkey "theta"%string (PArr [Fin 0; Fin 7]%Q) three_results, [[Fin 0; Fin 7]%Q], Ok (One (mkinterval [[Fin 0; Fin 7]%Q] None)))) by (vm_compute; reflexivity).
  rewrite E. split; [eauto|]. intros rows S H. cbn in S. inversion S as [|? ? ? ? H1 H2]; subst. inversion H2; subst.
  destruct H1 as (k & D & K). inversion H as [|? ? ? ? H3 _]; subst. destruct H3 as (_ & H4 & _). specialize (H4 0). cbn in H4.
  destruct k as [|[|[|k]]]; cbn in K; try (destruct k; discriminate).
  - destruct D as (_ & [(_ & D)|(D & _)]); unfold high_draws, Qle, Qeq in D; cbn in D; lia.
  - injection K as <-. specialize (H4 (le_n 1)). discriminate.
  - injection K as <-. specialize (H4 (le_n 1)). discriminate.
Qed.
Print Assumptions C45_refuted_propagation.

Example C45_case : stores three_results [Fin 2; Fin 7]%Q [0] /\ fits [Fin 2; Fin 7]%Q [0] three_rows /\
  sampled_rows three_rows high_draws 2 [[Fin 2]; [Fin 2]]%Q /\
  exists v, prediction_intervals three_results (fun _ t => Y1 t) 1 0 None (Some 2) true high_draws (fun _ => Fin 0%Q) =
    (three_results, [(0, [Fin 2; Fin 7]%Q); (0, [Fin 2; Fin 7]%Q)], Ok v).
Proof.
  split; [exact three_stores|]. split; [exact three_fits|]. split.
  - cbn. repeat constructor; exists 2; (split; [split; [lia|left; split; unfold high_draws, Qle, Qlt; cbn; lia]|reflexivity]).
  - eexists. vm_compute. reflexivity.
Qed.

(** ** C46 *)

(** Every entry but 'theta' is left alone.  'theta' holds the last row used. *)
Theorem C46_propagation_partial :
  forall F (NF : Num F) chain results model s2chain nsample sstype us z theta parind,
  stores results theta parind -> fits theta parind chain ->
  let '(results', calls, r) := calculate_intervals chain results model s2chain nsample sstype us z in
  (forall k, k <> "theta"%string -> lookup k results' = lookup k results) /\
  exists theta', lookup "theta"%string results' = Some (PArr theta') /\
    (theta' = theta \/ exists row, In row (firstn nsample chain) /\ holds_row theta parind row theta') /\
    (forall v, r = Ok v -> 0 < nsample -> chain <> [] -> holds_row theta parind (nth (Nat.min nsample (List.length chain) - 1) chain []) theta') /\
    (theta' = theta -> results' = results).
Proof. intros F NF. exact propagation_results. Qed.
Print Assumptions C46_propagation_partial.

(** After a run 'theta' holds the last row of the chain: the results are unchanged if the whole chain is used. *)
Theorem C46_whole_chain :
  forall F (NF : Num F) chain results model s2chain nsample sstype us z theta parind v,
  stores results theta parind -> fits theta parind chain -> List.length chain <= nsample ->
  holds_row theta parind (last chain []) theta ->
  snd (calculate_intervals chain results model s2chain nsample sstype us z) = Ok v ->
  fst (fst (calculate_intervals chain results model s2chain nsample sstype us z)) = results.
Proof.
  intros F NF chain results model s2chain nsample sstype us z theta parind v S Ft N H E.
  pose proof (propagation_results chain results model s2chain nsample sstype us z theta parind S Ft) as P.
  destruct (calculate_intervals chain results model s2chain nsample sstype us z) as ((results', calls), r). cbn in E |- *. subst r.
  destruct P as (_ & theta' & _ & A & B & C). apply C. destruct A as [A|(row & I & _)]; auto.
  assert (NE : chain <> []) by (intros ->; rewrite firstn_nil in I; destruct I).
  assert (L : 0 < List.length chain) by (destruct chain; [contradiction|cbn; lia]).
  specialize (B v eq_refl ltac:(lia) NE). rewrite Nat.min_r in B by lia.
  assert (X : nth (List.length chain - 1) chain [] = last chain []).
  { rewrite <- (last_firstn chain (List.length chain) []) by lia. now rewrite firstn_all. }
  rewrite X in B. destruct Ft as (F1 & F2 & F3). assert (W : List.length (last chain []) = List.length parind).
  { rewrite Forall_forall in F3. apply F3. rewrite (app_removelast_last [] NE) at 2. apply in_or_app. right. now left. }
  rewrite (holds_scatter theta parind _ theta' F1 F2 W B). symmetry. now apply holds_scatter.
Qed.
Print Assumptions C46_whole_chain.

Theorem C46_prediction_intervals_partial :
  forall F (NF : Num F) results model nd burnin asked nsample calc us z theta parind chain local,
  stores results theta parind -> lookup "chain"%string results = Some (PMat chain) -> lookup "local"%string results = Some (PArrZ (map Z.of_nat local)) ->
  fits theta parind chain -> (forall k, (0 <= us k)%Q /\ (us k < 1)%Q) ->
  let used := skipn burnin chain in
  let n := match nsample with Some n => n | None => List.length used end in
  let '(results', calls, r) := prediction_intervals results model nd burnin asked nsample calc us z in
  (forall k, k <> "theta"%string -> lookup k results' = lookup k results) /\
  exists theta', lookup "theta"%string results' = Some (PArr theta') /\ (theta' = theta -> results' = results) /\
    (theta' = theta \/ exists rows row, sampled_rows used us n rows /\ In row rows /\ holds_row theta parind row theta') /\
    (forall v, r = Ok v -> 0 < nd -> 0 < Nat.min n (List.length used) ->
       exists rows, sampled_rows used us n rows /\ holds_row theta parind (last rows []) theta').
Proof.
  intros F NF results model nd burnin asked nsample calc us z theta parind chain local S C L Ft U.
  pose proof (prediction_facts results model nd burnin asked nsample calc us z theta parind chain local S C L Ft U) as P. cbn zeta in P |- *.
  destruct (prediction_intervals results model nd burnin asked nsample calc us z) as ((results', calls), r).
  destruct P as (K & theta' & T & E & P). split; [exact K|]. exists theta'. split; [exact T|]. split; [exact E|].
  destruct P as [(A & B & e & D)|(rows & pts & m & A & B & C' & D & G)].
  - split; [now left|]. intros v R. rewrite D in R. discriminate.
  - assert (H : forall (P : list F -> list F -> Prop) l l', Forall2 P l l' -> forall y, In y l' -> exists x, In x l /\ P x y).
    { clear. intros P l l' H. induction H as [|x y l l' H1 H2 IH]; intros z [].
      - subst z. exists x. split; [now left|exact H1].
      - destruct (IH z H) as (w & W1 & W2). exists w. split; [now right|exact W2]. }
    assert (LL : forall (P : list F -> list F -> Prop) l l', Forall2 P l l' -> l <> [] -> forall d d', P (last l d) (last l' d')).
    { clear. intros P l l' H. induction H as [|x y l l' H1 H2 IH]; intros NE d d'; [contradiction|].
      inversion H2; subst; [exact H1|]. apply IH. discriminate. }
    split.
    + destruct D as [D|D]; [now left|right]. destruct (H _ _ _ B _ D) as (row & R1 & R2). exists rows, row. auto.
    + intros v R ND PN. exists rows. split; [exact A|]. destruct (G v R) as (_ & G2).
      assert (NE : rows <> []).
      { intros ->. unfold sampled_rows in A. destruct (Nat.leb_spec (List.length (skipn burnin chain)) (match nsample with Some n => n | None => List.length (skipn burnin chain) end)) as [Q|Q].
        - rewrite <- A in PN. cbn in PN. lia.
        - inversion A as [EQ|]. apply (f_equal (@List.length nat)) in EQ. rewrite seq_length in EQ. cbn in EQ. rewrite <- EQ in PN. cbn in PN. lia. }
      rewrite (G2 ND NE). now apply LL.
Qed.
Print Assumptions C46_prediction_intervals_partial.

(** Finding: otherwise the results are changed. *)
Theorem C46_refuted_theta_changed :
  exists (chain : list (list XQ)) results theta parind model nsample us z, stores results theta parind /\ fits theta parind chain /\
    holds_row theta parind (last chain []) theta /\
    let '(results', _, r) := calculate_intervals chain results model S2none nsample 0 us z in
    (exists v, r = Ok v) /\ lookup "theta"%string results' <> lookup "theta"%string results.
Proof.
  exists three_rows, three_results, [Fin 2; Fin 7]%Q, [0], (fun t => Y1 t), 2, high_draws, (fun _ => Fin 0%Q).
  split; [exact three_stores|]. split; [exact three_fits|]. split.
  { split; [reflexivity|]. split; [|reflexivity]. intros k K. cbn in K. assert (k = 0) as -> by lia. reflexivity. }
  vm_compute. split; [eauto|discriminate].
Qed.
Print Assumptions C46_refuted_theta_changed.

Example C46_case : stores three_results [Fin 2; Fin 7]%Q [0] /\ fits [Fin 2; Fin 7]%Q [0] three_rows /\
  holds_row [Fin 2; Fin 7]%Q [0] (last three_rows []) [Fin 2; Fin 7]%Q /\
  exists v, snd (calculate_intervals three_rows three_results (fun t => Y1 t) S2none 3 0 high_draws (fun _ => Fin 0%Q)) = Ok v.
Proof.
  split; [exact three_stores|]. split; [exact three_fits|]. split.
  - split; [reflexivity|]. split; [|reflexivity]. intros k K. cbn in K. assert (k = 0) as -> by lia. reflexivity.
  - eexists. vm_compute. reflexivity.
Qed.

(** ** C47 *)

(** In range, starting at 0, with the same positive step, up to the end of the chain. *)
Theorem C47_stride :
  forall skip maxpoints nsimu ix, setup_subsample skip maxpoints nsimu = Ok ix ->
  let step := if maxpoints <? nsimu then nsimu / maxpoints else skip in
  0 < step /\ (forall i, i < List.length ix -> nth i ix 0 = i * step /\ i * step < nsimu) /\ nsimu <= List.length ix * step.
Proof. exact subsample_stride. Qed.
Print Assumptions C47_stride.

(** The number of points is bounded by [maxpoints] only if ... ; it is always less than twice as large. *)
Theorem C47_number_of_points_partial :
  forall skip maxpoints nsimu ix, setup_subsample skip maxpoints nsimu = Ok ix ->
  (List.length ix <= maxpoints <-> nsimu <= maxpoints \/ nsimu mod maxpoints = 0) /\
  (maxpoints < nsimu -> maxpoints <= List.length ix < 2 * maxpoints).
Proof. exact subsample_count. Qed.
Print Assumptions C47_number_of_points_partial.

Theorem C47_failures :
  forall skip maxpoints nsimu e, setup_subsample skip maxpoints nsimu = Err e ->
  e = ZeroDivision /\ (maxpoints = 0 /\ 0 < nsimu \/ nsimu <= maxpoints /\ skip = 0).
Proof. exact subsample_fails. Qed.
Print Assumptions C47_failures.

(** Finding: for every maximum of at least two there are chains for which almost twice as many points are plotted. *)
Theorem C47_refuted_maximum :
  forall skip maxpoints, 2 <= maxpoints -> exists ix, setup_subsample skip maxpoints (2 * maxpoints - 1) = Ok ix /\
  List.length ix = 2 * maxpoints - 1.
Proof.
  intros skip maxpoints M. destruct (setup_subsample skip maxpoints (2 * maxpoints - 1)) as [ix|e] eqn:E.
  - exists ix. split; [reflexivity|]. destruct (subsample_stride _ _ _ _ E) as (S & A & B).
    assert (T : the_step skip maxpoints (2 * maxpoints - 1) = 1).
    { unfold the_step. destruct (Nat.ltb_spec maxpoints (2 * maxpoints - 1)) as [L|L]; [|lia].
      symmetry. apply (Nat.div_unique _ _ _ (maxpoints - 1)); lia. }
    rewrite T in *. destruct (Nat.eq_dec (List.length ix) 0) as [Z|Z]; [lia|]. specialize (A (List.length ix - 1) ltac:(lia)). lia.
  - destruct (subsample_fails _ _ _ _ E) as (_ & [(Z & _)|(L & Z)]); lia.
Qed.
Print Assumptions C47_refuted_maximum.

Example C47_case : setup_subsample 1 5 23 = Ok [0; 4; 8; 12; 16; 20] /\ setup_subsample 2 5 5 = Ok [0; 2; 4] /\ setup_subsample 1 4 20 = Ok [0; 5; 10; 15].
Proof. repeat split; vm_compute; reflexivity. Qed.

(** ** C48 *)

Theorem C48_room :
  forall n, 1 <= n -> let '(rows, cols) := generate_subplot_grid n in (rows - 1) * cols < n <= rows * cols.
Proof. exact grid_room. Qed.
Print Assumptions C48_room.

Theorem C48_nearly_square :
  forall n, let '(rows, cols) := generate_subplot_grid n in
  (sqrt (INR n) <= INR rows < sqrt (INR n) + 1)%R /\ (Rabs (sqrt (INR n) - INR cols) < / 2)%R.
Proof. exact grid_sqrt. Qed.
Print Assumptions C48_nearly_square.

Example C48_case : 1 <= 7 /\ generate_subplot_grid 7 = (3, 3) /\ generate_subplot_grid 6 = (3, 2).
Proof. split; [lia|]. split; vm_compute; reflexivity. Qed.

(** ** C50 *)

(** [column l]: the sample as an array with one column; it is not changed.  For a sample in increasing order: *)
Theorem C50_sorted_partial :
  forall l, 8 <= List.length l -> StronglySorted Rle l ->
  exists v, iqrange 1 (column (fin l)) = (column (fin l), Ok [Fin v]) /\ (0 <= v)%R /\
    v = (interp l (3 * (INR (List.length l) + 1) / 4) - interp l ((INR (List.length l) + 1) / 4))%R.
Proof. exact iqrange_sorted. Qed.
Print Assumptions C50_sorted_partial.

Theorem C50_no_index_error_partial :
  forall F (NF : Num F) (l : list F), 8 <= List.length l -> exists v, snd (iqrange 1 (column l)) = Ok [v].
Proof. intros F NF. exact iqrange_long. Qed.
Print Assumptions C50_no_index_error_partial.

(** Findings: samples with fewer than eight values cannot be handled; the order of the values matters; the value may be
    negative. *)
Theorem C50_refuted_short :
  forall F (NF : Num F) (l : list F), List.length l < 8 -> snd (iqrange 1 (column l)) = Err IndexError.
Proof. intros F NF. exact iqrange_short. Qed.
Print Assumptions C50_refuted_short.

Theorem C50_refuted_order :
  exists x y v w, Permutation x y /\
  snd (iqrange 1 (column (fin x))) = Ok [Fin v] /\ snd (iqrange 1 (column (fin y))) = Ok [Fin w] /\ v <> w /\ (w < 0)%R.
Proof. exact iqrange_order. Qed.
Print Assumptions C50_refuted_order.

Example C50_case : 8 <= List.length [1; 1; 2; 3; 5; 8; 13; 21; 34]%R /\ StronglySorted Rle [1; 1; 2; 3; 5; 8; 13; 21; 34]%R.
Proof. split; [cbn; lia|]. repeat constructor; lra. Qed.

(** ** C56 *)

Theorem C56_default_names :
  forall n, NoDup (generate_default_names n) /\ List.length (generate_default_names n) = n.
Proof. exact names_default. Qed.
Print Assumptions C56_default_names.

(** A list that is too short is completed to [n] names, a longer one is not shortened; the names given stay in front.
    The result has no repetitions unless there are some in the given list or one of its names is a default name of a higher number. *)
Theorem C56_completed_names :
  forall names n, exists added, extend_names_to_match_nparam (Some names) n = names ++ added /\
  List.length added = n - List.length names /\ NoDup added /\
  (NoDup names -> (forall i, List.length names <= i < n -> ~ In (default_name i) names) -> NoDup (names ++ added)).
Proof. exact names_extended. Qed.
Print Assumptions C56_completed_names.

Theorem C56_generated_names :
  forall n given, exists added,
  generate_names n given = match given with Some l => l | None => [] end ++ added /\
  List.length (generate_names n given) = Nat.max n (match given with Some l => List.length l | None => 0 end) /\ NoDup added.
Proof. exact names_generated. Qed.
Print Assumptions C56_generated_names.

(** Parameters declared without a name get the same names, one after the other. *)
Theorem C56_declared_without_names :
  forall F (NF : Num F) k (x lo hi mu sg : F), map a_name (declare_unnamed k [] x lo hi mu sg) = generate_default_names k.
Proof. intros F NF. exact names_declared. Qed.
Print Assumptions C56_declared_without_names.

Example C56_case : extend_names_to_match_nparam (Some ["a"; "b"]%string) 4 = ["a"; "b"; "$p_{2}$"; "$p_{3}$"]%string /\
  NoDup ["a"; "b"]%string /\ extend_names_to_match_nparam (Some ["$p_{1}$"]%string) 2 = ["$p_{1}$"; "$p_{1}$"]%string.
Proof. split; [vm_compute; reflexivity|]. split; [repeat constructor; cbn; intuition discriminate|vm_compute; reflexivity]. Qed.
