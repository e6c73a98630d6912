(** Model of plotting/PredictionIntervals.py: what is taken from the results (104-127), shape of the response
    (131-148), error variance columns (152-196), generation of intervals (200-584) and the bands drawn (588-656, 787-828).

    The user's model is a function of the number of the data set and the parameter vector, and does not change its
    argument.  As in Propagation.v, random numbers come from streams.  [burnin], [nsample], [sstype] are >= 0.
    Not modelled: the progress bar, nbatch (lines 117-121, used for titles only).  The data sets given
    to the model function (59-101) are in PredData.v, panels and colours in IntervalPlots.v. *)

From Coq Require Import ZArith QArith Qround Bool Lia List String Arith.
From Verif Require Import Base Num ChainFiles Results PlotUtil Propagation.
Import ListNotations.
Close Scope Q_scope.
Open Scope list_scope.
Open Scope nat_scope.

(** ** Columns of the error variance chain: lines 152-196.  First and last (excluded) column for each data set. *)
(** plotting/PredictionIntervals.py 152-196 *)
Fixpoint consecutive (start : nat) (widths : list nat) : list (nat * nat) :=
  match widths with
  | [] => []
  | w :: t => (start, start + w) :: consecutive (start + w) t
  end.
(** plotting/PredictionIntervals.py 152-196 *)
Definition analyze_s2chain (ndatabatches n : nat) (ncol : list nat) : res (list (nat * nat)) :=
  if n =? 1 then Ok (repeat (0, 1) ndatabatches)
  else if natlist_sum ncol =? n then Ok (consecutive 0 (firstn ndatabatches ncol))
  else if n =? ndatabatches then Ok (consecutive 0 (repeat 1 ndatabatches))
  else Err SysExit.

(** plotting/PredictionIntervals.py 271-291 *)
Definition interval_limits (have_s2 : bool) : list Q :=
  if have_s2 then [25#1000; 1#2; 975#1000]%Q
  else [5#1000; 25#1000; 5#100; 25#100; 5#10; 75#100; 9#10; 975#1000; 995#1000]%Q.
(** plotting/PredictionIntervals.py 294-315: what the caller asks for is not used *)
Definition setup_sstype (asked : option nat) (from_results : nat) : nat := match asked with None => from_results | Some _ => 0 end.
(** plotting/PredictionIntervals.py 319-333 *)
Definition check_nsample (nsample : option nat) (nsimu : nat) : nat := match nsample with None => nsimu | Some n => n end.
(** Lines 337-357 are the same as propagation.py 497-517. *)

Section PredInt.
Context {F : Type} `{NF : Num F}.

(** plotting/PredictionIntervals.py 104-127 *)
Record features : Type := mkfeatures {
  f_chain : list (list F); f_s2chain : option (nat * list (list F)); f_parind : list nat; f_local : list nat;
  f_theta : list F; f_sstype : nat }.
(** plotting/PredictionIntervals.py 104-127 *)
Definition assign_features (results : pydict F) (burnin : nat) : res features :=
  let get k := of_option KeyError (lookup k results) in
  let* chain := get "chain"%string in
  let* chain := match chain with PMat l => Ok l | _ => Err TypeError end in
  let* s2chain := get "s2chain"%string in
  let* s2chain := match s2chain with PNone => Ok None | PMat l => Ok (Some (ncols l, skipn burnin l)) | _ => Err TypeError end in
  let* parind := parind_of results in
  let* local := get "local"%string in
  let* local := as_indices local in
  let* theta := theta_of results in
  let sstype := match lookup "sstype"%string results with Some (PInt z) => Z.to_nat z | _ => 0 end in
  Ok (mkfeatures (skipn burnin chain) s2chain parind local theta sstype).

(** plotting/utilities.py 279-298 *)
Definition shape_of (y : @yval F) : nat * nat := match y with Y1 l => (List.length l, 1) | Y2 c rows => (List.length rows, c) end.
(** plotting/PredictionIntervals.py 131-148: each model once, at the vector in the results *)
Definition response_shapes (model : nat -> list F -> @yval F) (ndatabatches : nat) (theta : list F) : list (nat * nat) :=
  map (fun ii => shape_of (model ii theta)) (range ndatabatches).

(** plotting/PredictionIntervals.py 455-530.  [y.reshape(nrow, ncol)] *)
Definition reshape (nrow ncol : nat) (l : list F) : res (list (list F)) :=
  if List.length l =? nrow * ncol then Ok (map (fun i => slice (i * ncol) (i * ncol + ncol) l) (range nrow)) else Err ValueError.
(** plotting/PredictionIntervals.py 455-530.  [theta[test]] for a boolean array *)
Fixpoint mask (test : list bool) (theta : list F) : list F :=
  match test, theta with
  | b :: test, x :: theta => if b then x :: mask test theta else mask test theta
  | _, _ => []
  end.
(** plotting/PredictionIntervals.py 455-530 *)
Definition select (test : list bool) (theta : list F) : res (list F) :=
  if List.length test =? List.length theta then Ok (mask test theta) else Err IndexError.

(** plotting/PredictionIntervals.py 534-564 *)
Definition observation (sstype : nat) (s2elem : list F) (ypred : list (list F)) (ncol : nat) (z : nat -> F) (pos : nat) : res (list (list F)) :=
  let ny := ncol in
  let ns := List.length s2elem in
  let* s2elem := (if ns =? ny then Ok s2elem
                  else if ns =? 1 then Ok (map (fun _ => nmul (nth 0 s2elem n0) n1) (range ny)) else Err SysExit) in
  if 2 <? sstype then Err SysExit
  else
    let noise := matmul (map (fun i => map (fun j => z (pos + i * ncol + j)) (range ncol)) (range (List.length ypred)))
                        (diagflat (map nsqrt s2elem)) in
    Ok (map2 (map2 (fun y e => match sstype with
                               | 0 => nadd y e
                               | 1 => nsqr (nadd (nsqrt y) e)
                               | _ => nmul y (nexp e)
                               end)) ypred noise).

(** plotting/PredictionIntervals.py 455-486, and 489-530 when there are variances [s2] (one row for each row of the chain).
    One pass through the loop; the evaluation is recorded with the number of the data set. *)
Definition predict_row (ii : nat) (model : list F -> @yval F) (parind : list nat) (test : list bool) (nrow ncol : nat)
    (row : list F) : @comp F (list (list F)) :=
  andthen (assign parind row) (fun _ =>
  andthen (fun s => (s, select test (i_theta s))) (fun th =>
  andthen (fun s => (mkist (i_theta s) (i_pos s) (i_calls s ++ [(ii, th)]), Ok (model th))) (fun y =>
  lift (reshape nrow ncol (flat y))))).
(** plotting/PredictionIntervals.py 489-530 *)
Definition observe_row (z : nat -> F) (sstype nrow ncol : nat) (s2 : list F) (ypred : list (list F)) : @comp F (list (list F)) :=
  fun s => match observation sstype s2 ypred ncol z (i_pos s) with
           | Ok o => (mkist (i_theta s) (i_pos s + nrow * ncol) (i_calls s), Ok o)
           | Err e => (s, Err e)
           end.
(** plotting/PredictionIntervals.py 455-486 *)
Fixpoint credible_rows (ii : nat) (model : list F -> @yval F) (parind : list nat) (test : list bool) (nrow ncol : nat)
    (rows : list (list F)) : @comp F (list (list (list F))) :=
  match rows with
  | [] => ret []
  | r :: t =>
      andthen (predict_row ii model parind test nrow ncol r) (fun y =>
      andthen (credible_rows ii model parind test nrow ncol t) (fun ys => ret (y :: ys)))
  end.
(** plotting/PredictionIntervals.py 489-530 *)
Fixpoint prediction_rows (ii : nat) (model : list F -> @yval F) (parind : list nat) (test : list bool) (nrow ncol : nat)
    (z : nat -> F) (sstype : nat) (rows s2rows : list (list F)) : @comp F (list (list (list F)) * list (list (list F))) :=
  match rows, s2rows with
  | r :: t, s2 :: t2 =>
      andthen (predict_row ii model parind test nrow ncol r) (fun y =>
      andthen (observe_row z sstype nrow ncol s2 y) (fun o =>
      andthen (prediction_rows ii model parind test nrow ncol z sstype t t2) (fun '(ys, os) => ret (y :: ys, o :: os))))
  | _ :: _, [] => lift (Err IndexError)
  | [], _ => ret ([], [])
  end.

(** plotting/PredictionIntervals.py 568-584: for each column of the response the quantiles, one row for each limit *)
Definition generate_quantiles (response : list (list (list F))) (lims : list Q) (nrow ncol : nat) : res (list (list (list F))) :=
  mapM (fun jj => empirical_quantiles nrow (map (fun y => col jj y) response) lims) (range ncol).

(** plotting/PredictionIntervals.py 360-452: the data sets one after the other *)
Fixpoint intervals_of_sets (f : features) (model : nat -> list F -> @yval F) (z : nat -> F) (sstype : nat) (lims : list Q)
    (testchain : list (list F)) (tests2 : option (list (list F))) (sets : list (nat * (nat * nat) * (nat * nat)))
  : @comp F (list (list (list (list F))) * list (list (list (list F)))) :=
  match sets with
  | [] => ret ([], [])
  | (ii, (nrow, ncol), (a, b)) :: rest =>
      let test := set_local_parameters ii (f_local f) in
      andthen (match tests2 with
               | None =>
                   andthen (credible_rows ii (model ii) (f_parind f) test nrow ncol testchain) (fun ys =>
                   andthen (lift (generate_quantiles ys lims nrow ncol)) (fun q => ret (q, [])))
               | Some s2 =>
                   andthen (prediction_rows ii (model ii) (f_parind f) test nrow ncol z sstype testchain (map (slice a b) s2)) (fun '(ys, os) =>
                   andthen (lift (generate_quantiles ys lims nrow ncol)) (fun q =>
                   andthen (lift (generate_quantiles os lims nrow ncol)) (fun qo => ret (q, qo))))
               end) (fun '(q, qo) =>
      andthen (intervals_of_sets f model z sstype lims testchain tests2 rest) (fun '(qs, qos) => ret (q :: qs, qo :: qos)))
  end.

(** plotting/PredictionIntervals.py 233-267.  Rows selected by an index array (negative indices count from the end). *)
Definition take_rows (rows : list (list F)) (ix : list Z) : res (list (list F)) :=
  mapM (fun i => let* k := wrap (List.length rows) i in of_option IndexError (nth_error rows k)) ix.

(** plotting/PredictionIntervals.py 200-230 *)
Record pred_intervals : Type := mkpred { p_credible : list (list (list (list F))); p_prediction : option (list (list (list (list F)))) }.

(** plotting/PredictionIntervals.py 30-55 followed by 200-230.  [asked] is the sstype argument.  As in Propagation.v: the
    results afterwards,
    the evaluations (after those of lines 131-148), and the value. *)
Definition prediction_intervals (results : pydict F) (model : nat -> list F -> @yval F) (ndatabatches burnin : nat)
    (asked nsample : option nat) (calc_pred_int : bool) (us : nat -> Q) (z : nat -> F)
  : pydict F * list (nat * list F) * res pred_intervals :=
  match (let* f := assign_features results burnin in
         let shapes := response_shapes model ndatabatches (f_theta f) in
         let* index := (match f_s2chain f with
                        | None => Ok (repeat (0, 0) ndatabatches)
                        | Some (n, _) => analyze_s2chain ndatabatches n (map snd shapes)
                        end) in
         let s2chain := if calc_pred_int then f_s2chain f else None in
         let nsimu := List.length (f_chain f) in
         let lims := interval_limits (match s2chain with None => false | Some _ => true end) in
         let '(iisample, _) := define_sample_points us (check_nsample nsample nsimu) nsimu in
         let* testchain := take_rows (f_chain f) iisample in
         let* tests2 := (match s2chain with
                         | None => Ok None
                         | Some (_, rows) => let* r := take_rows rows iisample in Ok (Some r)
                         end) in
         Ok (f, shapes, index, lims, testchain, tests2)) with
  | Err e => (results, [], Err e)
  | Ok (f, shapes, index, lims, testchain, tests2) =>
      let sets := combine (combine (range ndatabatches) shapes) index in
      let '(s, r) := intervals_of_sets f model z (setup_sstype asked (f_sstype f)) lims testchain tests2 sets (mkist (f_theta f) 0 []) in
      (setkey "theta"%string (PArr (i_theta s)) results, i_calls s,
       let* (q, qo) := r in Ok (mkpred q (match tests2 with None => None | Some _ => Some qo end)))
  end.

(** ** Bands: lines 640-650 for data set [ii] and column [jj], 767-828 for labels and counts *)

(** plotting/PredictionIntervals.py 640-650.  [l[-k-1]] *)
Definition from_end {A} (k : nat) (l : list A) : res A := of_option IndexError (nth_error (rev l) k).
(** plotting/PredictionIntervals.py 787-806 *)
Definition clabels (have_prediction : bool) (nlines : nat) : list string :=
  if have_prediction then ["95% CI"]%string
  else if nlines =? 1 then ["95% CI"]%string else ["99% CI"; "95% CI"; "90% CI"; "50% CI"]%string.
(** plotting/PredictionIntervals.py 640-650, 810-828 *)
Definition band_curves (k : nat) (lines : list (list F)) : res (list F * list F) :=
  let* lo := of_option IndexError (nth_error lines k) in
  let* hi := from_end k lines in Ok (lo, hi).
(** plotting/PredictionIntervals.py 588-656: label, lower and upper curve, in the order drawn; [lines] are the curves of the
    credible intervals *)
Definition plotted_bands (plot_pred_int : bool) (lines : list (list F)) (pred : option (list (list F)))
  : res (list (string * (list F * list F))) :=
  let pred := if plot_pred_int then pred else None in
  let nn := (List.length lines + 1) / 2 in
  let labels := clabels (match pred with None => false | Some _ => true end) (nn - 1) in
  let* first := (match pred with
                 | None => Ok []
                 | Some p => let* b := band_curves 0 p in Ok [("95% PI"%string, b)]
                 end) in
  let* rest := mapM (fun kk => let* b := band_curves kk lines in
                               let* l := of_option IndexError (nth_error labels kk) in Ok (l, b)) (range (nn - 1)) in
  Ok (first ++ rest).

End PredInt.
