(** Model of plotting/MCMCPlotting.py: which panels are drawn, what is drawn in them and how they are labelled.

    Not modelled: sizes, spacing and styles.  A density curve is represented by the column it is made from; its grid is in
    PlotCurves.v, and the kernel density estimate itself is that of statsmodels. *)

From Coq Require Import ZArith QArith Bool Lia List String Arith.
From Verif Require Import Base Num Names ChainFiles ChainStats PlotUtil.
Import ListNotations.
Close Scope Q_scope.
Open Scope list_scope.
Open Scope nat_scope.
Open Scope res_scope.

Section Panels.
Context {F : Type}.

(** plotting/MCMCPlotting.py 59-61, 95, 133, 175, 214, 221: what is drawn in a panel *)
Inductive drawing : Type :=
| Histogram (v : list F)
| Density (v : list F)
| Trace (at_ : list nat) (v : list F)
| Dots (x y : list F).
(** plotting/MCMCPlotting.py 58-64, 94-98, 132-138, 174-187: a panel of the grid of [p_rows] times [p_cols] panels, with
    number [p_at]; [p_xticks] and [p_yticks] say whether the axes have numbers *)
Record panel : Type := mkpanel {
  p_rows : nat; p_cols : nat; p_at : nat; p_draw : list drawing;
  p_xlabel : string; p_ylabel : string; p_title : string; p_xticks : bool; p_yticks : bool }.

(** plotting/MCMCPlotting.py 58, 94, 132, 174 (plt.subplot): the number must be one of the grid *)
Definition subplot (rows cols num : nat) : res unit :=
  if (1 <=? num) && (num <=? rows * cols) then Ok tt else Err ValueError.
(** plotting/MCMCPlotting.py 52, 92: [chains[:, ii]] *)
Definition whole_column (chains : list (list F)) (ii : nat) : res (list F) :=
  mapM (fun row => of_option IndexError (nth_error row ii)) chains.
(** plotting/MCMCPlotting.py 130, 171-172: [chains[inds, ii]] *)
Definition some_rows (chains : list (list F)) (inds : list nat) (ii : nat) : res (list F) :=
  mapM (fun k => let* row := of_option IndexError (nth_error chains k) in of_option IndexError (nth_error row ii)) inds.
(** plotting/MCMCPlotting.py 64 *)
Definition pi_label (name : string) : string := ("$\pi$(" ++ name ++ "$|M^{data}$)")%string.

(** plotting/MCMCPlotting.py 33-70.  [nparam] is the number of columns; the list of names that is returned beside the panels is
    what the list of the caller has become (see ChainStats.extend_names_to_match_nparam). *)
Definition plot_density_panel (nparam : nat) (chains : list (list F)) (names : option (list string)) (hist_on : bool)
  : list string * res (list panel) :=
  let (ns1, ns2) := generate_subplot_grid nparam in
  let names := generate_names nparam names in
  (names, mapM (fun ii =>
     let* chain := whole_column chains ii in
     let* _ := subplot ns1 ns2 (ii + 1) in
     let* name := of_option IndexError (nth_error names ii) in
     Ok (mkpanel ns1 ns2 (ii + 1) ((if hist_on then [Histogram chain] else []) ++ [Density chain]) name (pi_label name) "" true true))
     (range nparam)).
(** plotting/MCMCPlotting.py 76-100 *)
Definition plot_histogram_panel (nparam : nat) (chains : list (list F)) (names : option (list string)) : list string * res (list panel) :=
  let (ns1, ns2) := generate_subplot_grid nparam in
  let names := generate_names nparam names in
  (names, mapM (fun ii =>
     let* chain := whole_column chains ii in
     let* _ := subplot ns1 ns2 (ii + 1) in
     let* name := of_option IndexError (nth_error names ii) in
     Ok (mkpanel ns1 ns2 (ii + 1) [Histogram chain] name "" "" true false))
     (range nparam)).
(** plotting/MCMCPlotting.py 106-140 *)
Definition plot_chain_panel (nparam : nat) (chains : list (list F)) (names : option (list string)) (skip maxpoints : nat)
  : list string * res (list panel) :=
  let (ns1, ns2) := generate_subplot_grid nparam in
  let names := generate_names nparam names in
  (names,
   let* inds := setup_subsample skip maxpoints (List.length chains) in
   mapM (fun ii =>
     let* chain := some_rows chains inds ii in
     let* _ := subplot ns1 ns2 (ii + 1) in
     let* name := of_option IndexError (nth_error names ii) in
     let xlabel := if ii + 1 <=? ns1 * ns2 - ns2 then ""%string else "Iteration"%string in
     Ok (mkpanel ns1 ns2 (ii + 1) [Trace inds chain] xlabel name "" true true))
     (range nparam)).
(** plotting/MCMCPlotting.py 169-187: the panel of the columns [ii] and [jj], counted from 1 *)
Definition pair_panel (nparam : nat) (chains : list (list F)) (names : list string) (inds : list nat) (jj ii : nat) : res panel :=
  let* chain1 := some_rows chains inds (ii - 1) in
  let* chain2 := some_rows chains inds (jj - 1) in
  let num := (jj - 2) * (nparam - 1) + ii in
  let* _ := subplot (nparam - 1) (nparam - 1) num in
  let* ylabel := if ii =? 1 then of_option IndexError (nth_error names (jj - 1)) else Ok ""%string in
  let* below := if (ii =? jj - 1) && (nparam =? 2) then of_option IndexError (nth_error names (ii - 1)) else Ok ""%string in
  let* above := if (ii =? jj - 1) && negb (nparam =? 2) then of_option IndexError (nth_error names (ii - 1)) else Ok ""%string in
  Ok (mkpanel (nparam - 1) (nparam - 1) num [Dots chain1 chain2] below ylabel above (jj =? nparam) (ii =? 1)).
(** plotting/MCMCPlotting.py 146-190 *)
Definition plot_pairwise_correlation_panel (nparam : nat) (chains : list (list F)) (names : option (list string)) (skip maxpoints : nat)
  : list string * res (list panel) :=
  match setup_subsample skip maxpoints (List.length chains) with
  | Err e => (match names with Some l => l | None => [] end, Err e)
  | Ok inds =>
      let names := generate_names nparam names in
      (names, let* rows := mapM (fun jj => mapM (pair_panel nparam chains names inds jj) (seq 1 (jj - 1))) (seq 2 (nparam - 1)) in
              Ok (List.concat rows))
  end.

(** plotting/MCMCPlotting.py 196-226 (plot_chain_metrics), plotting/utilities.py 33-54, 99-122.  The name is a text, or None.
    Names are generated as for a list: the length of the text is compared with 1, an empty text has no [append], and the
    default is a list of one name, which is shown with its brackets and quotes. *)
Definition metrics_name (name : option string) : res string :=
  match name with
  | None => Ok ("['" ++ default_name 0 ++ "']")%string
  | Some s => if String.length s =? 1 then Ok s else if 1 - String.length s =? 0 then Ok s else Err AttributeError
  end.
(** plotting/MCMCPlotting.py 196-226: the title of the figure and its two panels *)
Definition plot_chain_metrics (chain : list F) (name : option string) : res (string * list panel) :=
  let* name := metrics_name name in
  Ok (("Chain metrics for " ++ name)%string,
      [mkpanel 2 1 1 [Trace (range (List.length chain)) chain] "Iterations" (name ++ "-chain") "" true true;
       mkpanel 2 1 2 [Histogram chain] name ("Histogram of " ++ name ++ "-chain") "" true true]).
End Panels.
Arguments drawing F : clear implicits.
Arguments panel F : clear implicits.
