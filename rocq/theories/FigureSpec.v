(** What a figure of propagated intervals is to show (C94).  Bands and quantiles are those of BandFacts.v, colours those of
    ColourFacts.v; nothing here refers to the functions of IntervalFigures.v. *)

From Coq Require Import ZArith QArith Bool List String Reals Arith Qreals.
From Verif Require Import Base Num Results Propagation Colours RVec BandFacts ColourFacts IntervalFigures.
Import ListNotations.
Close Scope Q_scope.
Close Scope R_scope.
Open Scope list_scope.
Open Scope nat_scope.

(** Display settings as a user gives them: None or a dictionary. *)
Definition display {F} (u : pyval F) (entries : pydict F) : Prop :=
  NoDup (map fst entries) /\ (u = PDict entries \/ u = PNone /\ entries = []).

(** A style in which the user's entries count, and otherwise the defaults. *)
Definition styled {F} (defaults entries style : pydict F) : Prop :=
  forall k, lookup k style = match lookup k entries with Some v => Some v | None => lookup k defaults end.

(** The defaults of the three styles. *)
Definition interval_style : pydict XR :=
  [("linestyle", PStr ":"); ("linewidth", PInt 1); ("alpha", PFloat (Fin 1%R)); ("edgecolor", PStr "k")]%string.
Definition model_style : pydict XR :=
  [("linestyle", PStr "-"); ("color", PStr "k"); ("marker", PStr ""); ("linewidth", PInt 2); ("markersize", PInt 5); ("label", PStr "Model")]%string.
Definition data_style : pydict XR :=
  [("linestyle", PStr ""); ("color", PStr "b"); ("marker", PStr "."); ("linewidth", PInt 1); ("markersize", PInt 5); ("label", PStr "Data")]%string.

(** [shape d lo hi c label]: the drawn object [d] is a band between the curves [lo] and [hi] with this colour and label. *)
Definition as_fill (time : list XR) (style : pydict XR) (d : drawn XR) (lo hi : list R) (c : colour) (label : string) : Prop :=
  d = Fill time (fin lo) (fin hi) c label style.
(** In three dimensions: the corners go along the lower curve and back along the upper one, above the points of the plane. *)
Definition as_surface (time : list (XR * XR)) (d : drawn XR) (lo hi : list R) (c : colour) (label : string) : Prop :=
  exists corners, d = Surface corners c label /\ List.length corners = 2 * List.length time /\
    forall k p q, nth_error time k = Some (p, q) ->
      nth_error corners k = Some (p, q, Fin (nth k lo 0%R)) /\
      nth_error corners (2 * List.length time - 1 - k) = Some (p, q, Fin (nth k hi 0%R)).

Section Shape.
Variable shape : drawn XR -> list R -> list R -> colour -> string -> Prop.

(** One band for each limit of [Ls], in this order: the middle [L] percent of every column of the sample [x], with the label and
    colour of its limit; none reaches outside of the ones drawn before it. *)
Definition bands_shown (fmt : Q -> string) (ty : string) (Ls : list Q) (cm : string) (given : option (list string))
    (ncol : nat) (x : list (list R)) (ds : list (drawn XR)) : Prop :=
  List.length ds = List.length Ls /\
  (forall i L, nth_error Ls i = Some L ->
     exists d lo hi c, nth_error ds i = Some d /\ shape d lo hi c (fmt L ++ "% " ++ ty)%string /\
       is_band ncol x (Q2R L) [fin lo; fin hi] /\ colour_of Ls cm given i L c) /\
  (forall i j d d', i <= j -> nth_error ds i = Some d -> nth_error ds j = Some d' ->
     exists lo hi c l lo' hi' c' l', shape d lo hi c l /\ shape d' lo' hi' c' l' /\ encloses [fin lo; fin hi] [fin lo'; fin hi']).

(** [m] is the median of every column of [x], and lies within all the bands [ds]. *)
Definition median_shown (ncol : nat) (x : list (list R)) (ds : list (drawn XR)) (m : list R) : Prop :=
  List.length m = ncol /\ (forall j, j < ncol -> is_quantile (Rcol j x) (1 / 2)%R (nth j m 0%R)) /\
  forall d, In d ds -> exists lo hi c l, shape d lo hi c l /\ encloses [fin lo; fin hi] [fin m; fin m].
End Shape.

(** What is drawn if the flag is True, and nothing otherwise. *)
Definition if_true {A} (f : pyflag) (P : list A -> Prop) (ds : list A) : Prop := (f = IsTrue -> P ds) /\ (f <> IsTrue -> ds = []).
