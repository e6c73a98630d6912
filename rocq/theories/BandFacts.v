(** Interval bands: what they span, and that they are nested (Propagation.v, PredInt.v). *)

From Coq Require Import ZArith QArith Qround Bool Lia List Reals Lra Arith Qreals Sorted Permutation String.
From Verif Require Import Base Num ChainFiles PlotUtil Propagation PredInt RVec StatsFacts QuantSpec QuantFacts.
Import ListNotations.
Close Scope Q_scope.
Open Scope list_scope.
Open Scope R_scope.

(** ** Specification *)

(** [v] is the [p]-quantile of the sample [l]: linear interpolation between the ordered values. *)
Definition is_quantile (l : list R) (p v : R) : Prop := exists s, ordered l s /\ v = interp s (INR (List.length l - 1) * p).

(** Two curves that bound the middle [L] percent of every column of the sample [x]. *)
Definition is_band (ncol : nat) (x : list (list R)) (L : R) (curves : list (list XR)) : Prop :=
  exists lo hi, curves = [fin lo; fin hi] /\ List.length lo = ncol /\ List.length hi = ncol /\
  forall j, (j < ncol)%nat -> is_quantile (Rcol j x) ((50 - L / 2) / 100) (nth j lo 0) /\
                              is_quantile (Rcol j x) ((50 + L / 2) / 100) (nth j hi 0).

(** The first band contains the second at every point. *)
Definition encloses (outer inner : list (list XR)) : Prop :=
  exists lo hi lo' hi', outer = [fin lo; fin hi] /\ inner = [fin lo'; fin hi'] /\
  List.length lo = List.length lo' /\ List.length lo' = List.length hi' /\ List.length hi' = List.length hi /\
  forall j, (j < List.length lo)%nat -> nth j lo 0 <= nth j lo' 0 <= nth j hi' 0 /\ nth j hi' 0 <= nth j hi 0.

(** ** Facts *)

Lemma quantile_mono l p q v w : is_quantile l p v -> is_quantile l q w -> 0 <= p <= q -> v <= w.
Proof.
  intros (s & O & ->) (s' & O' & ->) H. rewrite (ordered_rsort _ _ O'). rewrite (ordered_rsort _ _ O).
  apply interp_mono; [apply rsort_sorted|]. pose proof (pos_INR (List.length l - 1)). nra.
Qed.

Lemma rquant_is x p j : is_quantile (Rcol j x) (Q2R p) (rquant x p j).
Proof. exists (rsort (Rcol j x)). split; [apply rsort_ordered|]. unfold rquant. now rewrite Rcol_length. Qed.

Theorem band_nested ncol x L M b b' : 0 <= L <= M -> M <= 100 -> is_band ncol x M b -> is_band ncol x L b' -> encloses b b'.
Proof.
  intros H1 H2 (lo & hi & -> & A & B & C) (lo' & hi' & -> & A' & B' & C'). exists lo, hi, lo', hi'. repeat split; auto; try congruence.
  - rewrite A in H. destruct (C j H) as [C1 C2]. destruct (C' j H) as [C3 C4]. eapply quantile_mono; eauto. lra.
  - rewrite A in H. destruct (C' j H) as [C3 C4]. eapply quantile_mono; eauto. lra.
  - rewrite A in H. destruct (C j H) as [C1 C2]. destruct (C' j H) as [C3 C4]. eapply quantile_mono; eauto. lra.
Qed.

Lemma nth_map_range {A} (g : nat -> A) n j d : (j < n)%nat -> nth j (map g (seq 0 n)) d = g j.
Proof. intros H. rewrite (nth_indep _ d (g 0%nat)) by (now rewrite map_length, seq_length). rewrite map_nth. now rewrite seq_nth. Qed.

(** any pair of quantile curves *)
Lemma curves_band ncol x (L p q : Q) : Q2R p = (50 - Q2R L / 2) / 100 -> Q2R q = (50 + Q2R L / 2) / 100 ->
  is_band ncol x (Q2R L) (finm (map (fun p => map (rquant x p) (seq 0 ncol)) [p; q])).
Proof.
  intros P Q. exists (map (rquant x p) (seq 0 ncol)), (map (rquant x q) (seq 0 ncol)). split; [reflexivity|].
  rewrite !map_length, !seq_length. repeat split; auto.
  - rewrite nth_map_range by auto. rewrite <- P. apply rquant_is.
  - rewrite nth_map_range by auto. rewrite <- Q. apply rquant_is.
Qed.

Definition percentage (L : Q) : Prop := (0 <= L)%Q /\ (L <= 100)%Q.

(** what is accepted: negative levels too (the two curves change places) *)
Definition accepted (L : Q) : Prop := (-100 <= L)%Q /\ (L <= 100)%Q.

Lemma convert_unit L : accepted L <-> Forall unit_interval (convert_limit L).
Proof.
  unfold accepted, convert_limit, unit_interval. cbn zeta.
  assert (A : Q2R ((1 # 2) - L / 100 / 2) = / 2 - Q2R L / 200).
  { rewrite Q2R_minus, !Q2R_div by discriminate. unfold Q2R at 1 3 4. cbn. field. }
  assert (B : Q2R ((1 # 2) + L / 100 / 2) = / 2 + Q2R L / 200).
  { rewrite Q2R_plus, !Q2R_div by discriminate. unfold Q2R at 1 3 4. cbn. field. }
  assert (E0 : Q2R 0 = 0) by (unfold Q2R; cbn [Qnum Qden]; lra). assert (E1 : Q2R 1 = 1) by (unfold Q2R; cbn [Qnum Qden]; lra). assert (E2 : Q2R 100 = 100) by (unfold Q2R; cbn [Qnum Qden]; lra). assert (E3 : Q2R (-100) = -100) by (unfold Q2R; cbn [Qnum Qden]; lra).
  split.
  - intros [H1 H2]. apply Qle_Rle in H1, H2. rewrite E3 in H1. rewrite E2 in H2.
    repeat constructor; apply Rle_Qle; rewrite ?A, ?B, ?E0, ?E1; lra.
  - intros H. apply Forall_cons_iff in H as [[H1 H2] H]. apply Forall_cons_iff in H as [[H3 H4] _].
    apply Qle_Rle in H1, H2, H3, H4. rewrite ?A, ?B, ?E0, ?E1 in *. split; apply Rle_Qle; rewrite ?E3, ?E2; lra.
Qed.

Lemma percentage_accepted L : percentage L -> accepted L.
Proof. intros [A B]. split; auto. apply Qle_trans with 0%Q; auto. discriminate. Qed.

Lemma convert_quant ncol x L : (2 <= List.length x)%nat -> percentage L ->
  exists b, empirical_quantiles ncol (finm x) (convert_limit L) = Ok b /\ is_band ncol x (Q2R L) b.
Proof.
  intros N P. rewrite quantile_value; auto; [|now apply convert_unit, percentage_accepted]. eexists. split; [reflexivity|]. unfold convert_limit. cbn zeta.
  apply curves_band.
  - rewrite Q2R_minus, !Q2R_div by discriminate. unfold Q2R at 1 3 4. cbn. field.
  - rewrite Q2R_plus, !Q2R_div by discriminate. unfold Q2R at 1 3 4. cbn. field.
Qed.

(** sorting of limits *)
Definition downward (a b : Q) : Prop := (b <= a)%Q.
Lemma insert_down_perm x l : Permutation (x :: l) (insert_down x l).
Proof.
  induction l as [|y l IH]; cbn; auto. destruct (Qle_bool y x); auto. transitivity (y :: x :: l); [constructor|]. now constructor.
Qed.
Lemma sort_down_perm l : Permutation l (sort_down l).
Proof. induction l as [|x l IH]; cbn; auto. transitivity (x :: sort_down l); [now constructor|]. apply insert_down_perm. Qed.
Lemma insert_down_sorted x l : StronglySorted downward l -> StronglySorted downward (insert_down x l).
Proof.
  induction 1 as [|y l S IH H]; cbn; [repeat constructor|]. destruct (Qle_bool y x) eqn:E.
  - apply Qle_bool_iff in E. constructor; [now constructor|]. constructor; [exact E|].
    rewrite Forall_forall in *. intros z I. specialize (H z I). unfold downward in *. now apply Qle_trans with y.
  - constructor; auto. assert (L : (x <= y)%Q). { apply Qnot_lt_le. intros C. apply Qlt_le_weak in C. apply Qle_bool_iff in C. congruence. }
    rewrite Forall_forall in *. intros z I. apply (Permutation_in _ (Permutation_sym (insert_down_perm x l))) in I as [<-|I]; auto.
Qed.
Lemma sort_down_sorted l : StronglySorted downward (sort_down l).
Proof. induction l; cbn; [constructor|]. now apply insert_down_sorted. Qed.

(** One band for each limit, in decreasing order, with its label. *)
Theorem bands_drawn fmt ty limits ncol x : (2 <= List.length x)%nat -> Forall percentage limits ->
  forall given dflt, limits = match given with Some l => l | None => dflt end ->
  exists Ls bands, interval_bands fmt ty given dflt ncol (finm x) = Ok bands /\
    Permutation limits Ls /\ StronglySorted downward Ls /\
    Forall2 (fun L b => fst b = (fmt L ++ "% " ++ ty)%string /\ is_band ncol x (Q2R L) (snd b)) Ls bands.
Proof.
  intros N P given dflt ->. set (l := match given with Some l => l | None => dflt end) in *.
  unfold interval_bands, check_limits. fold l. exists (sort_down l).
  assert (P' : Forall percentage (sort_down l)). { rewrite Forall_forall in *. intros L I. apply P. apply (Permutation_in _ (Permutation_sym (sort_down_perm l)) I). }
  pose proof (sort_down_perm l) as SP. pose proof (sort_down_sorted l) as SS. remember (sort_down l) as Ls eqn:E. clear E.
  assert (G : exists bands, draw_bands ncol (finm x) (setup_labels fmt Ls ty) (convert_limits Ls) = Ok bands /\
              Forall2 (fun L b => fst b = (fmt L ++ "% " ++ ty)%string /\ is_band ncol x (Q2R L) (snd b)) Ls bands).
  { clear SP SS. induction P' as [|L Ls H1 H2 IH]; [exists []; split; [reflexivity|constructor]|].
    destruct IH as (bands & E & FA). destruct (convert_quant ncol x L N H1) as (b & Eb & Hb).
    exists (((fmt L ++ "% " ++ ty)%string, b) :: bands).
    split; [|constructor; auto]. unfold setup_labels, convert_limits in *. cbn [map draw_bands]. rewrite Eb. cbn [bind]. rewrite E. reflexivity. }
  destruct G as (bands & E & FA). exists bands. auto.
Qed.

(** Each band contains those drawn after it. *)
Theorem bands_nested fmt ty limits ncol x bands : (2 <= List.length x)%nat -> Forall percentage limits ->
  interval_bands fmt ty (Some limits) [] ncol (finm x) = Ok bands ->
  forall i j b b', (i <= j)%nat -> nth_error bands i = Some b -> nth_error bands j = Some b' -> encloses (snd b) (snd b').
Proof.
  intros N P E i j b b' IJ Hi Hj. destruct (bands_drawn fmt ty limits ncol x N P (Some limits) [] eq_refl) as (Ls & bands' & E' & PE & S & FA).
  rewrite E in E'. injection E' as <-.
  assert (G : forall k c, nth_error bands k = Some c -> exists L, nth_error Ls k = Some L /\ is_band ncol x (Q2R L) (snd c)).
  { clear -FA. induction FA as [|L c Ls bands H FA IH]; intros [|k] d K; try discriminate.
    - injection K as <-. exists L. split; [reflexivity|apply H].
    - apply IH, K. }
  destruct (G _ _ Hi) as (L & HL & HB). destruct (G _ _ Hj) as (M & HM & HB').
  assert (PL : forall k L, nth_error Ls k = Some L -> percentage L).
  { intros k L0 K. apply nth_error_In in K. rewrite Forall_forall in P. apply P. now apply (Permutation_in _ (Permutation_sym PE)). }
  assert (LM : (M <= L)%Q).
  { clear -S IJ HL HM. revert i j IJ HL HM. induction S as [|x l S IH H]; intros i j IJ HL HM; [destruct i; discriminate|].
    destruct i as [|i].
    - injection HL as <-. destruct j as [|j]; [injection HM as <-; apply Qle_refl|]. cbn [nth_error] in HM. apply nth_error_In in HM. rewrite Forall_forall in H. exact (H _ HM).
    - destruct j as [|j]; [lia|]. apply (IH i j); auto. lia. }
  destruct (PL _ _ HM) as [M0 M1]. destruct (PL _ _ HL) as [L0 L1]. apply Qle_Rle in LM, M0, L1.
  replace (Q2R 0) with 0 in M0 by (unfold Q2R; cbn [Qnum Qden]; lra). replace (Q2R 100) with 100 in L1 by (unfold Q2R; cbn [Qnum Qden]; lra).
  apply (band_nested ncol x (Q2R M) (Q2R L)); auto; lra.
Qed.

(** A level beyond 100 in absolute value is refused. *)
Theorem bands_refused fmt ty limits ncol x : (2 <= List.length x)%nat -> ~ Forall accepted limits ->
  interval_bands fmt ty (Some limits) [] ncol (finm x) = Err ValueError.
Proof.
  intros N P. unfold interval_bands, check_limits.
  assert (P' : ~ Forall accepted (sort_down limits)).
  { intros C. apply P. rewrite Forall_forall in *. intros L I. apply C. now apply (Permutation_in _ (sort_down_perm limits)). }
  remember (sort_down limits) as Ls eqn:E. clear E.
  assert (D : forall L, accepted L \/ ~ accepted L).
  { intros L. unfold accepted. destruct (Qlt_le_dec L (-100)) as [A|A]; [right; intros [C _]; now apply (Qlt_not_le _ _ A)|].
    destruct (Qlt_le_dec 100 L) as [B|B]; [right; intros [_ C]; now apply (Qlt_not_le _ _ B)|]. left. split; auto. }
  induction Ls as [|L Ls IH]; [exfalso; apply P'; constructor|]. unfold setup_labels, convert_limits in *. cbn [map draw_bands].
  destruct (D L) as [H|H].
  - rewrite (quantile_value ncol x (convert_limit L) N) by (now apply convert_unit). cbn [bind]. rewrite IH; auto.
  - rewrite quantile_refused; auto. intros C. apply H. now apply convert_unit.
Qed.

(** Drawing intervals computed without error variances fails with the default settings. *)
Theorem no_prediction_fails fmt ci pi limits addcredible ncol (cred : list (list XR)) :
  plot_intervals fmt ci pi limits addcredible true ncol (mkinterval cred None) = Err AttributeError.
Proof. reflexivity. Qed.

(** ** The bands of PredictionIntervals.py *)

Definition band_of (b : string * (list XR * list XR)) : list (list XR) := [fst (snd b); snd (snd b)].

Lemma two_quant ncol x p q : finm (map (fun p => map (rquant x p) (seq 0 ncol)) [p; q]) = [fin (map (rquant x p) (seq 0 ncol)); fin (map (rquant x q) (seq 0 ncol))].
Proof. reflexivity. Qed.

Ltac level := unfold Q2R; cbn [Qnum Qden]; lra.

(** with error variances: a 95% prediction and a 95% credible band *)
Theorem pi_bands_with_s2 nrow x o lines plines : (2 <= List.length x)%nat -> (2 <= List.length o)%nat ->
  empirical_quantiles nrow (finm x) (interval_limits true) = Ok lines ->
  empirical_quantiles nrow (finm o) (interval_limits true) = Ok plines ->
  exists b1 b2, plotted_bands true lines (Some plines) = Ok [("95% PI"%string, b1); ("95% CI"%string, b2)] /\
    plotted_bands false lines (Some plines) = Ok [("95% CI"%string, b2)] /\
    is_band nrow o 95 [fst b1; snd b1] /\ is_band nrow x 95 [fst b2; snd b2].
Proof.
  intros N M. assert (U : Forall unit_interval (interval_limits true)).
  { unfold interval_limits, unit_interval. repeat constructor; unfold Qle; cbn; lia. }
  rewrite !quantile_value by auto. intros E1 E2. injection E1 as <-. injection E2 as <-. unfold interval_limits. cbn [map].
  set (a := (25 # 1000)%Q). set (c := (975 # 1000)%Q). set (h := (1 # 2)%Q).
  exists (fin (map (rquant o a) (seq 0 nrow)), fin (map (rquant o c) (seq 0 nrow))), (fin (map (rquant x a) (seq 0 nrow)), fin (map (rquant x c) (seq 0 nrow))).
  split; [reflexivity|]. split; [reflexivity|]. cbn [fst snd]. rewrite <- !two_quant.
  assert (L : Q2R 95 = 95) by level. rewrite <- L. split; apply curves_band; unfold a, c; level.
Qed.

(** without: four credible bands; the one labelled 90% goes from the 5% to the 90% quantile *)
Theorem pi_bands_without_s2 nrow x lines plot : (2 <= List.length x)%nat ->
  empirical_quantiles nrow (finm x) (interval_limits false) = Ok lines ->
  exists b99 b95 b90 b50, plotted_bands plot lines None =
      Ok [("99% CI"%string, b99); ("95% CI"%string, b95); ("90% CI"%string, b90); ("50% CI"%string, b50)] /\
    is_band nrow x 99 [fst b99; snd b99] /\ is_band nrow x 95 [fst b95; snd b95] /\ is_band nrow x 50 [fst b50; snd b50] /\
    (exists lo hi, [fst b90; snd b90] = [fin lo; fin hi] /\ List.length lo = nrow /\ List.length hi = nrow /\
       forall j, (j < nrow)%nat -> is_quantile (Rcol j x) (5 / 100) (nth j lo 0) /\ is_quantile (Rcol j x) (90 / 100) (nth j hi 0)) /\
    encloses [fst b99; snd b99] [fst b95; snd b95] /\ encloses [fst b95; snd b95] [fst b90; snd b90] /\ encloses [fst b90; snd b90] [fst b50; snd b50].
Proof.
  intros N. assert (U : Forall unit_interval (interval_limits false)).
  { unfold interval_limits, unit_interval. repeat constructor; unfold Qle; cbn; lia. }
  rewrite quantile_value by auto. intros E. injection E as <-. unfold interval_limits. cbn [map].
  set (q := fun p => map (rquant x p) (seq 0 nrow)). change (map (rquant x ?p) (seq 0 nrow)) with (q p).
  assert (QL : forall p, List.length (q p) = nrow) by (intros p; unfold q; now rewrite map_length, seq_length).
  assert (QM : forall p p' j, (j < nrow)%nat -> unit_interval p -> (p <= p')%Q -> nth j (q p) 0 <= nth j (q p') 0).
  { intros p p' j J P1 P2. unfold q. rewrite !nth_map_range by auto. now apply rquant_mono. }
  exists (fin (q (5#1000)%Q), fin (q (995#1000)%Q)), (fin (q (25#1000)%Q), fin (q (975#1000)%Q)), (fin (q (5#100)%Q), fin (q (9#10)%Q)), (fin (q (25#100)%Q), fin (q (75#100)%Q)).
  split; [destruct plot; reflexivity|]. cbn [fst snd].
  assert (B : forall L p p', Q2R p = (50 - Q2R L / 2) / 100 -> Q2R p' = (50 + Q2R L / 2) / 100 -> is_band nrow x (Q2R L) [fin (q p); fin (q p')]).
  { intros L p p' H1 H2. now apply curves_band. }
  assert (EN : forall p1 p2 p3 p4, unit_interval p1 -> unit_interval p2 -> unit_interval p3 -> (p1 <= p2)%Q -> (p2 <= p3)%Q -> (p3 <= p4)%Q ->
     encloses [fin (q p1); fin (q p4)] [fin (q p2); fin (q p3)]).
  { intros p1 p2 p3 p4 U1 U2 U3 H1 H2 H3. exists (q p1), (q p4), (q p2), (q p3). rewrite !QL. repeat split; auto; apply QM; auto; now rewrite QL in *. }
  split. { replace 99 with (Q2R 99) by level. apply B; level. }
  split. { replace 95 with (Q2R 95) by level. apply B; level. }
  split. { replace 50 with (Q2R 50) by level. apply B; level. }
  split.
  { exists (q (5#100)%Q), (q (9#10)%Q). rewrite !QL. repeat split; auto.
    - unfold q. rewrite nth_map_range by auto. replace (5 / 100) with (Q2R (5#100)) by level. apply rquant_is.
    - unfold q. rewrite nth_map_range by auto. replace (90 / 100) with (Q2R (9#10)) by level. apply rquant_is. }
  split; [|split]; apply EN; unfold unit_interval, Qle; cbn; try lia.
Qed.

(** The band labelled 90% is not the 90% band. *)
Theorem label_90_wrong : exists nrow x lines b90, (2 <= List.length x)%nat /\
  empirical_quantiles nrow (finm x) (interval_limits false) = Ok lines /\
  (exists bands, plotted_bands true lines None = Ok bands /\ In ("90% CI"%string, b90) bands) /\
  ~ is_band nrow x 90 [fst b90; snd b90].
Proof.
  pose (x := [[0]; [1]]).
  assert (N : (2 <= List.length x)%nat) by (cbn; lia).
  assert (U : Forall unit_interval (interval_limits false)).
  { unfold interval_limits, unit_interval. repeat constructor; unfold Qle; cbn; lia. }
  pose proof (quantile_value 1 x _ N U) as E. destruct (pi_bands_without_s2 1 x _ true N E) as (b99 & b95 & b90 & b50 & EB & _ & _ & _ & (lo & hi & E90 & L1 & L2 & H) & _).
  exists 1%nat, x, (finm (map (fun p : Q => map (rquant x p) (seq 0 1)) (interval_limits false))), b90. split; auto. split; [exact E|]. split; [eexists; split; [exact EB|cbn; auto]|].
  intros (lo' & hi' & E' & L1' & L2' & H'). rewrite E90 in E'. assert (HH : fin hi = fin hi') by congruence.
  destruct (H 0%nat ltac:(lia)) as [_ (s & O & V)]. destruct (H' 0%nat ltac:(lia)) as [_ (s' & O' & V')].
  assert (S0 : ordered (Rcol 0 x) [0; 1]). { split; [unfold x; cbn; auto|]. repeat constructor. lra. }
  rewrite (ordered_rsort _ _ O), <- (ordered_rsort _ _ S0) in V. rewrite (ordered_rsort _ _ O'), <- (ordered_rsort _ _ S0) in V'.
  assert (W : nth 0 hi 0 = nth 0 hi' 0).
  { assert (X : nth 0 (fin hi) (Fin 0) = nth 0 (fin hi') (Fin 0)) by (now rewrite HH). rewrite !nth_fin in X. now injection X. }
  rewrite V, V' in W. unfold x in W. cbn [Rcol map List.length] in W. cbn [List.length Nat.sub] in W. change (INR 1) with 1 in W.
  rewrite !interp_two in W. destruct (Rle_dec _ _) as [A|A] in W; [|exfalso; apply A; lra].
  destruct (Rle_dec (1 * ((50 + 90 / 2) / 100)) 1) as [A'|A'] in W; [|exfalso; apply A'; lra]. lra.
Qed.
