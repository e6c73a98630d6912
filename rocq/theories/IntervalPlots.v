(** Model of plotting/PredictionIntervals.py 588-828: the panels in which intervals are plotted, what is drawn in them and their
    titles.

    Not modelled: sizes, spacing, line styles, and what matplotlib itself checks (that curves have as many points as there are
    times).  Figures that exist before the call are not reused. *)

From Coq Require Import ZArith QArith Bool Lia List String Arith.
From Verif Require Import Base Num Names ChainFiles Samplers Settings PredInt PredData.
Import ListNotations.
Close Scope Q_scope.
Open Scope list_scope.
Open Scope nat_scope.
Open Scope res_scope.

(** plotting/utilities.py 302-316: what may be given as a flag *)
Inductive flag : Type := FlagBool (b : bool) | FlagText (s : string) | FlagInt (z : Z).
(** plotting/utilities.py 302-316 *)
Definition convert_flag_to_boolean (f : flag) : flag :=
  match f with
  | FlagText s => if String.eqb s "on" then FlagBool true else if String.eqb s "off" then FlagBool false else f
  | _ => f
  end.
(** plotting/PredictionIntervals.py 768-783: [is False] holds of the boolean only *)
Definition check_prediction_interval_flag {A} (f : flag) (pred : option A) : option A :=
  match convert_flag_to_boolean f with FlagBool false => None | _ => pred end.
(** plotting/PredictionIntervals.py 687-698: colours of the credible and of the prediction intervals *)
Definition setup_interval_colors (have_prediction : bool) : list string * list string :=
  if have_prediction then (["#c7e9b4"], ["#225ea8"])%string
  else (["#253494"; "#1d91c0"; "#7fcdbb"; "#c7e9b4"], [])%string.

Section IntervalPlots.
Context {F : Type} {U : Type}.

(** plotting/PredictionIntervals.py 640-650: a filled band *)
Record band : Type := mkband { b_label : string; b_colour : string; b_lower : list F; b_upper : list F }.
(** plotting/PredictionIntervals.py 626-655: the place [n_at] of [n_of] in the figure [n_figure], the times, the bands in the
    order drawn, the line of the model, the data, the title and whether there is a legend *)
Record ipanel : Type := mkipanel {
  n_figure : string; n_of : nat; n_at : nat; n_time : list F; n_bands : list band; n_model : list F;
  n_data : option (nda F * list F); n_title : option string; n_legend : bool }.

(** plotting/PredictionIntervals.py 632: [x.reshape(x.shape[0], )] *)
Definition flat_time (x : nda F) : res (list F) :=
  let* n := of_option IndexError (nth_error (nd_shape x) 0) in
  if size_of (nd_shape x) =? n then Ok (nd_entries x) else Err ValueError.
(** plotting/PredictionIntervals.py 648: [y[:, jj]] *)
Definition column_of (y : nda F) (jj : nat) : res (list F) :=
  match nd_shape y with
  | [n; k] => if jj <? k then mapM (fun i => of_option IndexError (nth_error (nd_entries y) (i * k + jj))) (seq 0 n) else Err IndexError
  | _ => Err IndexError
  end.
(** plotting/PredictionIntervals.py 701-719 *)
Definition figure_name (ii jj : nat) : string := ("Batch # " ++ dec ii ++ " | " ++ "Column # " ++ dec jj)%string.
(** plotting/PredictionIntervals.py 722-736 *)
Definition batch_column_title (nbatch ny ii jj : nat) : option string :=
  if 1 <? nbatch then Some ("Batch #" ++ dec ii ++ ", Column #" ++ dec jj)%string
  else if 1 <? ny then Some ("Column #" ++ dec jj)%string else None.
(** plotting/PredictionIntervals.py 810-828 *)
Definition setup_counting_metrics (cred : list (list (list (list F)))) : res (nat * nat * nat) :=
  let* first := of_option IndexError (nth_error cred 0) in
  let* lines := of_option IndexError (nth_error first 0) in
  let nn := (List.length lines + 1) / 2 in Ok (List.length cred, nn, nn - 1).
(** plotting/PredictionIntervals.py 633-655: column [jj] of data set [ii] *)
Definition interval_panel (cred : list (list (list F))) (pred : option (list (list (list (list F))))) (d : dstruct F U)
    (nbatch nn : nat) (clabs plabs cicolor picolor : list string) (adddata addlegend : bool) (time : list F) (ii jj : nat) : res ipanel :=
  let* first := (match pred with
                 | None => Ok []
                 | Some p => let* col := of_option IndexError (nth_error p ii) in
                             let* lines := of_option IndexError (nth_error col jj) in
                             let* lo := of_option IndexError (nth_error lines 0) in
                             let* hi := from_end 0 lines in
                             let* c := of_option IndexError (nth_error picolor 0) in
                             let* l := of_option IndexError (nth_error plabs 0) in
                             Ok [mkband l c lo hi]
                 end) in
  let* rest := mapM (fun kk => let* lines := of_option IndexError (nth_error cred jj) in
                               let* lo := of_option IndexError (nth_error lines kk) in
                               let* hi := from_end kk lines in
                               let* c := of_option IndexError (nth_error cicolor kk) in
                               let* l := of_option IndexError (nth_error clabs kk) in
                               Ok (mkband l c lo hi)) (range (nn - 1)) in
  let* lines := of_option IndexError (nth_error cred jj) in
  let* model := (if nn =? 0 then from_end 0 lines else of_option IndexError (nth_error lines (nn - 1))) in
  let* data := (if adddata then
                  let* x := of_option IndexError (nth_error (s_xdata d) 0) in
                  let* y := of_option IndexError (nth_error (s_ydata d) 0) in
                  let* col := column_of y jj in Ok (Some (x, col))
                else Ok None) in
  Ok (mkipanel (figure_name ii jj) (List.length cred) (jj + 1) time (first ++ rest) model data
        (batch_column_title nbatch (List.length cred) ii jj) addlegend).
(** plotting/PredictionIntervals.py 588-656, 739-764.  [datapred] are the data sets, [cred] and [pred] the intervals generated:
    curves for each data set, column and quantile. *)
Definition plot_prediction_intervals (datapred : list (dstruct F U)) (cred : list (list (list (list F)))) (pred : option (list (list (list (list F)))))
    (plot_pred_int : flag) (adddata addlegend : bool) : res (list ipanel) :=
  let pred := check_prediction_interval_flag plot_pred_int pred in
  let* (nbatch, nn, nlines) := setup_counting_metrics cred in
  let have := match pred with None => false | Some _ => true end in
  let clabs := clabels have nlines in
  let (cicolor, picolor) := setup_interval_colors have in
  let* sets := mapM (fun ii =>
    let* credlims := of_option IndexError (nth_error cred ii) in
    let* d := of_option IndexError (nth_error datapred ii) in
    let* x := of_option IndexError (nth_error (s_xdata d) 0) in
    let* time := flat_time x in
    mapM (interval_panel credlims pred d nbatch nn clabs ["95% PI"]%string cicolor picolor adddata addlegend time ii) (range (List.length credlims)))
    (range (List.length datapred)) in
  Ok (List.concat sets).
End IntervalPlots.
Arguments band F : clear implicits.
Arguments ipanel F : clear implicits.
