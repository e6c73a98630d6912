(** Properties of simulated observations: which variance and which random number each one is made with (C86). *)

From Coq Require Import ZArith QArith Qround Bool Lia List Reals Lra Arith String.
From Verif Require Import Base Num Settings Simulator ChainFiles Results PlotUtil Propagation PredInt RVec RMat QuantSpec QuantFacts PropagFacts
  ResultSpec ResultFacts ResultThms SummaryThms NoiseFacts NoisePred.
Import ListNotations.
Close Scope Q_scope.
Close Scope R_scope.
Open Scope list_scope.
Open Scope nat_scope.

(** ** C86 *)

(** propagation.py.  The model has [p] responses at [n] points, [g t i j] for the parameter vector [t].  [variances s2 nsimu p sv]:
    [sv k j] is the variance the caller gave for row [k] of the chain and response [j]: a number, one number for each response, a
    chain, or a chain for each response.  The sets of responses returned are those at the rows of the chain, the observations
    have the errors of the same row and the same response, and no normal is used for two of them. *)
Theorem C86_propagation :
  forall chain results model s2 nsample scale us zr theta parind n p g sv,
  stores results theta parind -> fits theta parind chain -> scale <= 2 -> (p = 1 \/ 2 <= n /\ 2 <= p /\ 0 < nsample /\ chain <> []) ->
  (forall row t, In row chain -> holds_row theta parind row t ->
     response (model t) n p (g t) /\ forall i j, i < n -> j < p -> on_scale scale (g t i j)) ->
  variances s2 (List.length chain) p sv -> (forall k j, k < List.length chain -> j < p -> (0 <= sv k j)%R) ->
  exists results' pts place i1 is,
    calculate_intervals chain results model s2 nsample scale us (fun i => Fin (zr i)) =
      (results', pts, Ok (if p =? 1 then One i1 else Many is)) /\
    Forall2 (holds_row theta parind) (firstn nsample chain) pts /\
    (p = 1 -> is = [i1]) /\ List.length is = p /\
    (forall j it, nth_error is j = Some it ->
       credible it = map (fun t => fin (vtab n (fun i => g t i j))) pts /\
       exists os, prediction it = Some os /\ List.length os = List.length pts /\
         forall k i t, nth_error pts k = Some t -> i < n ->
           nth_error (nth k os []) i = Some (Fin (observed scale (g t i j) (zr (place k i j)) (sv k j)))) /\
    (forall k i j k' i' j', i < n -> i' < n -> j < p -> j' < p -> place k i j = place k' i' j' -> k = k' /\ i = i' /\ j = j').
Proof.
  intros chain results model s2 nsample scale us zr theta parind n p g sv S FT HS HP HM HV PV.
  destruct (propagation_noise chain results model s2 nsample scale us zr theta parind n p g sv S FT HS HP HM HV PV) as (results' & pts & place & E & H & D).
  set (it := returned scale n g zr sv place pts).
  exists results', pts, place, (it 0), (map it (seq 0 p)). split; [exact E|]. split; auto. split; [now intros ->|]. split; [now rewrite map_length, seq_length|].
  split; auto. intros j x N. assert (J : j < p) by (assert (L : j < List.length (map it (seq 0 p))) by (apply nth_error_Some; congruence); now rewrite map_length, seq_length in L).
  rewrite nth_error_seq_map in N by auto. injection N as <-. split; [reflexivity|].
  eexists. split; [reflexivity|]. split; [now rewrite map_length, seq_length|]. intros k i t T I.
  assert (K : k < List.length pts) by (apply nth_error_Some; congruence). 
  rewrite (nth_error_nth _ _ [] (nth_error_seq_map _ _ k K)). rewrite fin_vtab, nth_error_seq_map by auto. now rewrite (nth_error_nth _ _ [] T).
Qed.
Print Assumptions C86_propagation.

(** PredictionIntervals.py.  Data set [ii] has [ncol ii] responses at [nrow ii] points; [concerning] is the part of the vector that
    belongs to the data set.  [c ii jj] is the column of the variance chain for response [jj] of data set [ii]: a single column, one
    for each response, or one for each data set.  Both intervals are quantiles of the responses at the rows drawn ([ks]), and of
    these responses with errors whose variance is that of the same row of the chain, in that column.  What is missing: the scale
    of the errors is 0 and not the one asked for. *)
Theorem C86_prediction_intervals_partial :
  forall results model nd burnin asked nsample us zr theta parind chain local sf ns nrow ncol g c scale,
  stores results theta parind -> lookup "chain"%string results = Some (PMat chain) ->
  lookup "local"%string results = Some (PArrZ (map Z.of_nat local)) -> List.length local = List.length theta ->
  lookup "s2chain"%string results = Some (PMat (finm (table (List.length chain) ns sf))) ->
  fits theta parind chain -> (forall k, (0 <= us k)%Q /\ (us k < 1)%Q) -> scale_used asked results scale -> scale <= 2 ->
  (forall ii, ii < nd -> 1 <= ncol ii) -> layout ns nd ncol c ->
  let used := skipn burnin chain in
  let n := match nsample with Some n => n | None => List.length used end in
  2 <= Nat.min n (List.length used) ->
  (forall ii, ii < nd -> shape_of (model ii theta) = (nrow ii, ncol ii)) ->
  (forall ii row t, ii < nd -> In row used -> holds_row theta parind row t ->
     response (model ii (concerning ii local t)) (nrow ii) (ncol ii) (g ii (concerning ii local t)) /\
     forall i j, i < nrow ii -> j < ncol ii -> on_scale scale (g ii (concerning ii local t) i j)) ->
  (forall k j, k < List.length chain -> j < ns -> (0 <= sf k j)%R) ->
  exists results' calls ks pts place cred pred,
    prediction_intervals results model nd burnin asked nsample true us (fun i => Fin (zr i)) =
      (results', calls, Ok (mkpred (by_column nd ncol cred) (Some (by_column nd ncol pred)))) /\
    chosen us n (List.length used) ks /\ Forall2 (fun k t => holds_row theta parind (nth k used []) t) ks pts /\
    (forall ii q i jj ii' q' i' jj', q < List.length pts -> q' < List.length pts -> i < nrow ii -> i' < nrow ii' -> jj < ncol ii -> jj' < ncol ii' ->
       place ii q i jj = place ii' q' i' jj' -> ii = ii' /\ q = q' /\ i = i' /\ jj = jj') /\
    forall ii jj, ii < nd -> jj < ncol ii ->
      empirical_quantiles (nrow ii) (finm (map (fun t => vtab (nrow ii) (fun i => g ii (concerning ii local t) i jj)) pts)) (interval_limits true) = Ok (cred ii jj) /\
      empirical_quantiles (nrow ii) (finm (map (fun q => vtab (nrow ii) (fun i =>
          observed scale (g ii (concerning ii local (nth q pts [])) i jj) (zr (place ii q i jj)) (sf (burnin + nth q ks 0) (c ii jj))))
        (seq 0 (List.length pts)))) (interval_limits true) = Ok (pred ii jj).
Proof. exact prediction_noise. Qed.
Print Assumptions C86_prediction_intervals_partial.

(** Without variances (or when prediction intervals are not asked for): the credible intervals. *)
Theorem C86_credible_intervals :
  forall results model nd burnin asked nsample calc us z theta parind chain local nrow ncol (g : nat -> list XR -> nat -> nat -> R),
  stores results theta parind -> lookup "chain"%string results = Some (PMat chain) ->
  lookup "local"%string results = Some (PArrZ (map Z.of_nat local)) -> List.length local = List.length theta ->
  (lookup "s2chain"%string results = Some PNone \/
   calc = false /\ exists ns sf c, lookup "s2chain"%string results = Some (PMat (finm (table (List.length chain) ns sf))) /\ layout ns nd ncol c) ->
  fits theta parind chain -> (forall k, (0 <= us k)%Q /\ (us k < 1)%Q) ->
  (forall ii, ii < nd -> 1 <= ncol ii) ->
  let used := skipn burnin chain in
  let n := match nsample with Some n => n | None => List.length used end in
  2 <= Nat.min n (List.length used) ->
  (forall ii, ii < nd -> shape_of (model ii theta) = (nrow ii, ncol ii)) ->
  (forall ii row t, ii < nd -> In row used -> holds_row theta parind row t ->
     response (model ii (concerning ii local t)) (nrow ii) (ncol ii) (g ii (concerning ii local t))) ->
  exists results' calls ks pts cred,
    prediction_intervals results model nd burnin asked nsample calc us z = (results', calls, Ok (mkpred (by_column nd ncol cred) None)) /\
    chosen us n (List.length used) ks /\ Forall2 (fun k t => holds_row theta parind (nth k used []) t) ks pts /\
    forall ii jj, ii < nd -> jj < ncol ii ->
      empirical_quantiles (nrow ii) (finm (map (fun t => vtab (nrow ii) (fun i => g ii (concerning ii local t) i jj)) pts)) (interval_limits false) = Ok (cred ii jj).
Proof. exact credible_values. Qed.
Print Assumptions C86_credible_intervals.

(** Any other number of columns is refused. *)
Theorem C86_other_layouts_refused :
  forall F (NF : Num F) results model nd burnin asked nsample calc us z theta parind (chain s2 : list (list F)) local,
  stores results theta parind -> lookup "chain"%string results = Some (PMat chain) ->
  lookup "local"%string results = Some (PArrZ (map Z.of_nat local)) -> lookup "s2chain"%string results = Some (PMat s2) ->
  let ncol := fun ii => snd (shape_of (model ii theta)) in
  (forall c, ~ layout (ncols s2) nd ncol c) ->
  prediction_intervals results model nd burnin asked nsample calc us z = (results, [], Err SysExit).
Proof.
  intros F NF results model nd burnin asked nsample calc us z theta parind chain s2 local S HC HL H2 ncol NL.
  destruct (stores_theta _ _ _ S) as [ST SP]. unfold prediction_intervals, assign_features. cbn zeta.
  rewrite HC. cbn [of_option bind]. rewrite SP, HL, ST, H2. cbn [of_option bind]. rewrite as_indices_nat. cbn [bind f_theta f_s2chain f_chain].
  assert (ES : map snd (response_shapes model nd theta) = map ncol (seq 0 nd)) by (unfold response_shapes; now rewrite map_map).
  rewrite ES. unfold analyze_s2chain. fold (total nd ncol).
  destruct (Nat.eqb_spec (ncols s2) 1) as [E|N1]; [exfalso; apply (NL (fun _ _ => 0)); now left|].
  destruct (Nat.eqb_spec (total nd ncol) (ncols s2)) as [E|N2]; [exfalso; apply (NL (fun ii jj => total ii ncol + jj)); right; now left|].
  destruct (Nat.eqb_spec (ncols s2) nd) as [E|N3]; [exfalso; apply (NL (fun ii _ => ii)); right; now right|]. reflexivity.
Qed.
Print Assumptions C86_other_layouts_refused.

(** Finding: the scale asked for in PredictionIntervals is not used (0 is taken instead) ... *)
Theorem C86_refuted_scale_asked_for :
  forall F (NF : Num F) results (model : nat -> list F -> yval) nd burnin s s' nsample calc us z,
  prediction_intervals results model nd burnin (Some s) nsample calc us z = prediction_intervals results model nd burnin (Some s') nsample calc us z.
Proof. reflexivity. Qed.
Print Assumptions C86_refuted_scale_asked_for.

(** ... and the results of a run do not have a scale, so that it is 0 as well when none is asked for. *)
Lemma exported_entries {F} {NF : Num F} ox mx x (r : results F) h (d : nat) f : Forall wf (option_values ox) -> wf (mx_Nshape mx) ->
  results_and_export ox mx x r = Ok (h, d, f) ->
  nth_error h d = Some (sets (entries (options_dict (rr_opts r) ox) (model_dict (rr_model r) mx) r (mx_prior_type mx) x) []).
Proof.
  intros WO WM H. unfold results_and_export in H.
  destruct (options_keys (rr_opts r) ox) as [NO LO]. destruct (model_keys (rr_model r) mx) as [NM LM].
  destruct (generate_ok _ _ r (mx_prior_type mx) x NO NM LO LM) as (h0 & G & _ & _ & G2). rewrite G in H. cbn [bind] in H.
  set (D0 := sets (entries (options_dict (rr_opts r) ox) (model_dict (rr_model r) mx) r (mx_prior_type mx) x) []) in *.
  destruct (o_save_to_json (rr_opts r)); [|now injection H as <- <- <-].
  destruct (o_save_lightly (rr_opts r)).
  - destruct (export_light_ok h0 2 D0 G2) as (h1 & K1 & E1).
    { apply sets_nodup. constructor. }
    { intros k I. enough (exists v, lookup k D0 = Some v) as (v & ->) by discriminate.
      cbn in I. destruct I as [<-|[<-|[<-|[]]]]; eexists; apply lookup_later; reflexivity. }
    rewrite E1 in H. clear E1. destruct (result_path D0) as [p|]; cbn [bind] in H; [|discriminate].
    destruct (encode _) as [j|]; cbn [bind] in H; [|discriminate]. injection H as <- <- <-. now apply K1.
  - destruct (export_simulation_results_to_json_file h0 2) as [[h1 [p j]]|] eqn:E1; cbn [bind] in H; [|discriminate].
    injection H as <- <- <-. apply (export_path_full _ _ D0) in E1 as (-> & _ & _); auto using kept_refl.
Qed.

Theorem C86_results_have_no_scale :
  forall F (NF : Num F) ox mx x (r : results F) h (d : nat) f, Forall wf (option_values ox) -> wf (mx_Nshape mx) ->
  results_and_export ox mx x r = Ok (h, d, f) ->
  exists D, nth_error h d = Some D /\ lookup "sstype"%string D = None /\
    forall (model : nat -> list F -> yval) nd burnin asked nsample calc us z,
      prediction_intervals D model nd burnin asked nsample calc us z = prediction_intervals D model nd burnin (Some 0) nsample calc us z.
Proof.
  intros F NF ox mx x r h d f WO WM H. pose proof (exported_entries ox mx x r h d f WO WM H) as HD. eexists. split; [exact HD|].
  match goal with |- lookup _ ?d = None /\ _ => set (D := d) end.
  assert (L : lookup "sstype"%string D = None).
  { unfold D. rewrite lookup_sets_out; auto. unfold entries. rewrite !map_app, !in_app_iff. unfold dram_entries.
    intros [I|[I|I]]; [|destruct (rr_iacce r)|]; cbn in I; repeat (destruct I as [I|I]; [discriminate|]); exact I. }
  split; auto. intros. destruct asked as [a|]; auto.
  assert (Z : forall ft, assign_features D burnin = Ok ft -> f_sstype ft = 0).
  { intros ft. unfold assign_features. rewrite L.
    repeat match goal with |- bind ?x _ = Ok _ -> _ => destruct x; cbn [bind]; [|discriminate] end. now injection 1 as <-. }
  unfold prediction_intervals. destruct (assign_features D burnin) as [ft|]; cbn [bind]; auto. specialize (Z ft eq_refl).
  destruct (match f_s2chain ft with None => _ | Some _ => _ end) as [index|]; cbn [bind]; auto.
  destruct (define_sample_points us (check_nsample nsample (List.length (f_chain ft))) (List.length (f_chain ft))) as [ii zz].
  destruct (take_rows (f_chain ft) ii) as [tc|]; cbn [bind]; auto.
  match goal with |- context [bind ?x _] => destruct x; cbn [bind]; auto end.
  cbn [setup_sstype]. now rewrite Z.
Qed.
Print Assumptions C86_results_have_no_scale.

(** Cases: a model with two responses at two points and one variance for each response, along a chain of three rows; and two data
    sets, one with one response and one with two, with a chain of three variances. *)
Open Scope R_scope.
Definition noise_value (x : XR) : R := match x with Fin a => a | _ => 0 end.
Definition noise_responses (t : list XR) (i j : nat) : R := noise_value (nth 0 t (Fin 0)) * INR (S i) + INR j.
Definition noise_rows : list (list XR) := [[Fin 0]; [Fin 1]; [Fin 2]].
Definition noise_results : pydict XR := [("theta", PArr [Fin 2; Fin 7]); ("parind", PArrZ [0%Z]); ("local", PArrZ [0%Z; 0%Z]);
  ("chain", PMat noise_rows); ("s2chain", PMat (finm (table 3 3 (fun k j => INR (k + j)))))]%string.
Definition noise_model (ii : nat) (t : list XR) : @yval XR :=
  if (ii =? 0)%nat then Y1 (fin (vtab 2 (fun i => noise_responses t i 0))) else Y2 2 (finm (table 2 2 (noise_responses t))).
Definition noise_columns (ii : nat) : nat := if (ii =? 0)%nat then 1 else 2.
Definition noise_layout (ii jj : nat) : nat := total ii noise_columns + jj.
Lemma noise_stores : stores noise_results [Fin 2; Fin 7] [0%nat].
Proof. split; reflexivity. Qed.
Lemma noise_fits : fits [Fin 2; Fin 7] [0%nat] noise_rows.
Proof. split; [repeat constructor; intros []|]. split; [intros i [<-|[]]; cbn; lia|repeat constructor]. Qed.
Lemma noise_response ii t : response (noise_model ii t) 2 (noise_columns ii) (noise_responses t).
Proof. unfold noise_model, noise_columns. destruct (ii =? 0)%nat; [right; split; reflexivity|left; reflexivity]. Qed.

Example C86_case_propagation : stores noise_results [Fin 2; Fin 7] [0%nat] /\ fits [Fin 2; Fin 7] [0%nat] noise_rows /\
  (forall row t, In row noise_rows -> holds_row [Fin 2; Fin 7] [0%nat] row t ->
     response (noise_model 1 t) 2 2 (noise_responses t) /\ forall i j, (i < 2)%nat -> (j < 2)%nat -> on_scale 0 (noise_responses t i j)) /\
  variances (S2vec (fin (vtab 2 (fun j => INR (S j))))) (List.length noise_rows) 2 (fun _ j => INR (S j)) /\
  (forall k j, (k < 3)%nat -> (j < 2)%nat -> 0 <= (fun _ j => INR (S j)) k j).
Proof.
  split; [exact noise_stores|]. split; [exact noise_fits|]. split; [intros; split; [exact (noise_response 1 t)|intros; split; [lia|discriminate]]|]. split.
  - right. right. left. exists (fun j => INR (S j)). split; [reflexivity|]. split; [cbn; lia|reflexivity].
  - intros. apply pos_INR.
Qed.

Example C86_case_prediction_intervals : stores noise_results [Fin 2; Fin 7] [0%nat] /\ fits [Fin 2; Fin 7] [0%nat] noise_rows /\
  layout 3 2 noise_columns noise_layout /\ (2 <= Nat.min 3 (List.length (skipn 1 noise_rows)))%nat /\ scale_used None noise_results 0 /\
  (forall ii, (ii < 2)%nat -> shape_of (noise_model ii [Fin 2; Fin 7]) = (2%nat, noise_columns ii)) /\
  (forall ii row t, (ii < 2)%nat -> In row (skipn 1 noise_rows) -> holds_row [Fin 2; Fin 7] [0%nat] row t ->
     response (noise_model ii (concerning ii [0; 0]%nat t)) 2 (noise_columns ii) (noise_responses (concerning ii [0; 0]%nat t)) /\
     forall i j, (i < 2)%nat -> (j < noise_columns ii)%nat -> on_scale 0 (noise_responses (concerning ii [0; 0]%nat t) i j)) /\
  (forall k j, (k < 3)%nat -> (j < 3)%nat -> 0 <= INR (k + j)) /\
  (noise_layout 0 0 = 0 /\ noise_layout 1 0 = 1 /\ noise_layout 1 1 = 2)%nat.
Proof.
  split; [exact noise_stores|]. split; [exact noise_fits|].
  split; [right; left; split; [reflexivity|intros; reflexivity]|]. split; [cbn; lia|]. split; [right; split; reflexivity|].
  split; [intros [|ii] H; reflexivity|]. split; [intros; split; [apply noise_response|intros; split; [lia|discriminate]]|]. split; [intros; apply pos_INR|].
  repeat split.
Qed.

Example C86_case_other_layouts : forall c, ~ layout 4 2 noise_columns c.
Proof. intros c [H|[H|H]]; destruct H as [H _]; cbn in H; discriminate. Qed.
