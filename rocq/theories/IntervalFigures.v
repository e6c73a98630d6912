(** Model of the figures of propagation.py: plot_intervals (136-274) and plot_3d_intervals (278-443), with their display
    settings (542-581).

    A figure is the list of what is drawn in it, in the order of drawing, and whether it has a legend.  The limits, labels and
    colours of the bands are those of Colours.v, the curves those of PlotUtil.v.  Arrays of observations have one dimension,
    points in three dimensions are given as pairs.  Not modelled: figures that exist before the call, their size, where the
    legend is, and what else matplotlib may refuse (unknown styles, say). *)

From Coq Require Import ZArith QArith Bool Lia List String Arith.
From Verif Require Import Base Num ChainFiles Results PlotUtil Propagation Colours.
Import ListNotations.
Close Scope Q_scope.
Open Scope list_scope.
Open Scope nat_scope.
Open Scope res_scope.

(** propagation.py 244, 250, 256, 260-262, 268, 271: a flag is compared with [is True] and [is None] only *)
Inductive pyflag : Type := IsTrue | IsNone | IsOther.
(** propagation.py 244, 250, 256, 262, 268, 271 *)
Definition is_true (f : pyflag) : bool := match f with IsTrue => true | _ => false end.

Section Figures.
Context {F : Type} `{NF : Num F}.

(** propagation.py 557-561 *)
Definition default_interval_display : pydict F :=
  [("linestyle", PStr ":"); ("linewidth", PInt 1); ("alpha", PFloat n1); ("edgecolor", PStr "k")]%string.
(** propagation.py 564-570 *)
Definition default_model_display : pydict F :=
  [("linestyle", PStr "-"); ("color", PStr "k"); ("marker", PStr ""); ("linewidth", PInt 2); ("markersize", PInt 5);
   ("label", PStr "Model")]%string.
(** propagation.py 573-579 *)
Definition default_data_display : pydict F :=
  [("linestyle", PStr ""); ("color", PStr "b"); ("marker", PStr "."); ("linewidth", PInt 1); ("markersize", PInt 5);
   ("label", PStr "Data")]%string.
(** propagation.py 542-581: styles of intervals, model and data *)
Definition setup_display_settings (interval_display model_display data_display : pyval F)
  : res (pydict F * pydict F * pydict F) :=
  let* i := check_settings default_interval_display interval_display in
  let* m := check_settings default_model_display model_display in
  let* d := check_settings default_data_display data_display in
  Ok (i, m, d).

(** propagation.py 244-266, 390-435: what is drawn.  [Fill] is a band of plot_intervals, [Surface] one of plot_3d_intervals *)
Inductive drawn : Type :=
| Fill (time lower upper : list F) (facecolor : colour) (label : string) (style : pydict F)
| Line (x y : list F) (style : pydict F)
| Surface (corners : list (F * F * F)) (color : colour) (label : string)
| Line3 (x y z : list F) (style : pydict F).
(** propagation.py 268-274, 437-443; [g_settings] are the bands of [piset] and [ciset] if they are returned *)
Record figure : Type := mkfigure { g_drawn : list drawn; g_legend : bool; g_settings : option (list band * list band) }.

(** propagation.py 136-143, 278-286: the arguments beside intervals, time and data *)
Record pargs : Type := mkpargs {
  a_limits : nat; a_adddata : pyflag; a_addmodel : pyflag; a_addlegend : pyflag; a_addcredible : pyflag; a_addprediction : pyflag;
  a_data_display : pyval F; a_model_display : pyval F; a_interval_display : pyval F;
  a_ciset : iset; a_piset : iset; a_return_settings : pyflag }.

(** propagation.py 247, 253: numpy's rule for a vector [x] where one with [n] entries is needed *)
Definition stretch (n : nat) (x : list F) : list F := if List.length x =? n then x else repeat (nth 0 x n0) n.
(** propagation.py 247-248, 253-254: fill_between.  The arguments [facecolor] and [label] must not come a second time; arrays of
    different lengths are refused unless one has a single entry *)
Definition fill_between (time lower upper : list F) (facecolor : colour) (label : string) (style : pydict F) : res drawn :=
  if existsb (fun k => existsb (String.eqb k) (map fst style)) ["facecolor"; "label"]%string then Err TypeError
  else match bdim (List.length time) (List.length lower) with
       | None => Err ValueError
       | Some n => match bdim n (List.length upper) with
                   | None => Err ValueError
                   | Some n => Ok (Fill (stretch n time) (stretch n lower) (stretch n upper) facecolor label style)
                   end
       end.
(** propagation.py 258, 264, 266: plot refuses arrays of different lengths *)
Definition plot (x y : list F) (style : pydict F) : res drawn :=
  if List.length x =? List.length y then Ok (Line x y style) else Err ValueError.
(** propagation.py 426, 432, 434-435: plot in three dimensions gives [z] the shape of [x] first *)
Definition plot3 (x y z : list F) (style : pydict F) : res drawn :=
  let* z := (if List.length z =? List.length x then Ok z
             else match z with [v] => Ok (repeat v (List.length x)) | _ => Err ValueError end) in
  if List.length x =? List.length y then Ok (Line3 x y z style) else Err ValueError.

(** propagation.py 246, 252, 392, 409: the two curves of a band *)
Definition curves_of (ncol : nat) (x : list (list F)) (b : band) : res (list F * list F) :=
  let* q := empirical_quantiles ncol x (b_range b) in
  let* lo := of_option IndexError (nth_error q 0) in
  let* hi := of_option IndexError (nth_error q 1) in Ok (lo, hi).
(** propagation.py 245-248, 251-254 *)
Definition fills (ncol : nat) (x : list (list F)) (time : list F) (style : pydict F) (bands : list band) : res (list drawn) :=
  mapM (fun b => let* (lo, hi) := curves_of ncol x b in fill_between time lo hi (b_colour b) (b_label b) style) bands.
(** propagation.py 391-405, 408-422 *)
Definition surfaces (ncol : nat) (x : list (list F)) (time1 time2 : list F) (bands : list band) : res (list drawn) :=
  mapM (fun b => let* (lo, hi) := curves_of ncol x b in
                 let* corners := outline time1 time2 lo hi in Ok (Surface corners (b_colour b) (b_label b))) bands.
(** propagation.py 257, 425 *)
Definition median_of (ncol : nat) (x : list (list F)) : res (list F) :=
  let* q := empirical_quantiles ncol x [(1#2)%Q] in of_option IndexError (nth_error q 0).
(** propagation.py 260-261, 428-429 *)
Definition data_flag (ydata : option (list F)) (adddata : pyflag) : bool :=
  match ydata, adddata with Some _, IsNone => true | _, f => is_true f end.

(** propagation.py 136-274; the second value is what the list objects hold afterwards *)
Definition plot_intervals (fmt : Q -> string) (objs : nat -> list Q) (ncol : nat) (i : interval) (time : list F)
    (ydata xdata : option (list F)) (a : pargs) : res (figure * (nat -> list Q)) :=
  let* (istyle, mstyle, dstyle) := setup_display_settings (a_interval_display a) (a_model_display a) (a_data_display a) in
  let* (pb, cb, objs') := band_settings fmt objs (a_limits a) (a_ciset a) (a_piset a) in
  let* pis := (if is_true (a_addprediction a) then
                 let* p := of_option AttributeError (prediction i) in fills ncol p time istyle pb
               else Ok []) in
  let* cis := (if is_true (a_addcredible a) then fills ncol (credible i) time istyle cb else Ok []) in
  let* mdl := (if is_true (a_addmodel a) then
                 let* m := median_of ncol (credible i) in let* l := plot time m mstyle in Ok [l]
               else Ok []) in
  let* dat := (match ydata with
               | Some y => if data_flag ydata (a_adddata a)
                           then let* l := plot (match xdata with Some x => x | None => time end) y dstyle in Ok [l]
                           else Ok []
               | None => Ok []
               end) in
  Ok (mkfigure (pis ++ cis ++ mdl ++ dat) (is_true (a_addlegend a)) (if is_true (a_return_settings a) then Some (pb, cb) else None), objs').

(** propagation.py 278-443.  [ydata.reshape] of None is an AttributeError; the shape asked for is that of the times *)
Definition plot_3d_intervals (fmt : Q -> string) (objs : nat -> list Q) (ncol : nat) (i : interval) (time : list (F * F))
    (ydata : option (list F)) (xdata : option (list (F * F))) (a : pargs) : res (figure * (nat -> list Q)) :=
  let* (istyle, mstyle, dstyle) := setup_display_settings (a_interval_display a) (a_model_display a) (a_data_display a) in
  let* (pb, cb, objs') := band_settings fmt objs (a_limits a) (a_ciset a) (a_piset a) in
  let time1 := map fst time in
  let time2 := map snd time in
  let* pis := (if is_true (a_addprediction a) then
                 let* p := of_option AttributeError (prediction i) in surfaces ncol p time1 time2 pb
               else Ok []) in
  let* cis := (if is_true (a_addcredible a) then surfaces ncol (credible i) time1 time2 cb else Ok []) in
  let* mdl := (if is_true (a_addmodel a) then
                 let* m := median_of ncol (credible i) in let* l := plot3 time1 time2 m mstyle in Ok [l]
               else Ok []) in
  let* dat := (if data_flag ydata (a_adddata a) then
                 let* y := of_option AttributeError ydata in
                 let* z := (if List.length y =? List.length time1 then Ok y else Err ValueError) in
                 let* l := (match xdata with
                            | None => plot3 time1 time2 z dstyle
                            | Some x => plot3 (map fst x) (map snd x) z dstyle
                            end) in Ok [l]
               else Ok []) in
  Ok (mkfigure (pis ++ cis ++ mdl ++ dat) (is_true (a_addlegend a)) (if is_true (a_return_settings a) then Some (pb, cb) else None), objs').
End Figures.
Arguments drawn F : clear implicits.
Arguments figure F : clear implicits.
Arguments pargs F : clear implicits.
