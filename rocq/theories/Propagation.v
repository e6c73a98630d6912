(** Model of propagation.py: propagation of a chain through a model (21-132), observation errors (446-493),
    choice of rows (497-517), interval limits, labels and bands (136-274, 625-647).

    The user's model is a function of the parameter vector (the data being fixed) that does not change its
    argument; its value is an array with one or two dimensions.  Chains, limits and sizes are >= 0; random numbers
    are read from streams: [u] for np.random.rand, [z] for standard normals, the latter by position.
    Stacking with [np.array] is taken as a list of rows.  Not modelled: the progress bar, drawing and
    define_sample_points of other modules (PredInt.v has its own copy). Colours and outlines are in Colours.v. *)

From Coq Require Import ZArith QArith Qround Bool Lia List String Arith.
From Verif Require Import Base Num ChainFiles Results PlotUtil.
Import ListNotations.
Close Scope Q_scope.
Open Scope list_scope.
Open Scope nat_scope.

(** ** Which rows: lines 497-517 *)

(** propagation.py 515 for one draw: [ceil(u*nsimu) - 1], formed exactly *)
Definition draw_index (u : Q) (nsimu : nat) : Z := (Qceiling (u * inject_Z (Z.of_nat nsimu)) - 1)%Z.
(** propagation.py 497-517; [us] are the numbers np.random.rand delivers *)
Definition define_sample_points (us : nat -> Q) (nsample nsimu : nat) : list Z * nat :=
  if nsimu <=? nsample then (map Z.of_nat (range nsimu), nsimu)
  else (map (fun k => draw_index (us k) nsimu) (range nsample), nsample).

(** propagation.py 515, 68 (negative indices).  Indexing an axis of length [n] with [i]: negative indices count from the end. *)
Definition wrap (n : nat) (i : Z) : res nat :=
  if (0 <=? i)%Z then (if (i <? Z.of_nat n)%Z then Ok (Z.to_nat i) else Err IndexError)
  else if (- i <=? Z.of_nat n)%Z then Ok (Z.to_nat (Z.of_nat n + i)) else Err IndexError.

(** ** Limits and labels: lines 625-647 *)

(** propagation.py 642-647 for one limit *)
Definition convert_limit (limit : Q) : list Q :=
  let limit := (limit / 100)%Q in [(1#2) - limit / 2; (1#2) + limit / 2]%Q.
(** propagation.py 642-647 *)
Definition convert_limits (limits : list Q) : list (list Q) := map convert_limit limits.
(** propagation.py 625-632; [fmt] is the way numbers are written *)
Definition setup_labels (fmt : Q -> string) (limits : list Q) (inttype : string) : list string :=
  map (fun l => (fmt l ++ "% " ++ inttype)%string) limits.
(** propagation.py 635-639: decreasing order; [list.sort] is stable *)
Fixpoint insert_down (x : Q) (l : list Q) : list Q :=
  match l with
  | [] => [x]
  | y :: t => if Qle_bool y x then x :: l else y :: insert_down x t
  end.
(** propagation.py 635-639 *)
Definition sort_down (l : list Q) : list Q := fold_right insert_down [] l.
(** propagation.py 635-639 *)
Definition check_limits (limits : option (list Q)) (default : list Q) : list Q :=
  sort_down (match limits with Some l => l | None => default end).

Section Propagation.
Context {F : Type} `{NF : Num F}.

(** propagation.py 70-75.  What the model returns. *)
Inductive yval : Type := Y1 (l : list F) | Y2 (ncol : nat) (rows : list (list F)).
(** propagation.py 78, 85, 110 *)
Definition flat (y : yval) : list F := match y with Y1 l => l | Y2 _ rows => List.concat rows end.
(** propagation.py 78, 486-490 *)
Definition ysize (y : yval) : nat := match y with Y1 l => List.length l | Y2 c rows => List.length rows * c end.

(** propagation.py 446-469.  Error variances: None, a Python float, arrays with one or two dimensions. *)
Inductive s2val : Type := S2none | S2float (s : F) | S2vec (l : list F) | S2mat (ncol : nat) (rows : list (list F)).

(** propagation.py 446-469: numpy's rule for one dimension, and the position used in an operand of size [n] *)
Definition bdim (a b : nat) : option nat := if a =? b then Some a else if a =? 1 then Some b else if b =? 1 then Some a else None.
(** propagation.py 446-469 *)
Definition bpos (n i : nat) : nat := if n =? 1 then 0 else i.

(** propagation.py 446-469.  [s2chain * np.ones((nsimu, s2chain.size))]. *)
Definition times_ones (nrow ncol : nat) (rows : list (list F)) (nsimu : nat) : res s2val :=
  match bdim nrow nsimu, bdim ncol (nrow * ncol) with
  | Some r, Some c =>
      Ok (S2mat c (map (fun i => map (fun j => nmul (nth (bpos ncol j) (nth (bpos nrow i) rows []) n0) n1) (range c)) (range r)))
  | _, _ => Err ValueError
  end.
(** propagation.py 446-469 *)
Definition check_s2chain (s2 : s2val) (nsimu : nat) : res s2val :=
  match s2 with
  | S2none => Ok S2none
  | S2float s => Ok (S2vec (repeat (nmul n1 s) nsimu))
  | S2vec l =>
      if List.length l =? nsimu then Ok (S2vec l)
      else Ok (S2mat (List.length l) (repeat (map (fun s => nmul s n1) l) nsimu))
  | S2mat c rows =>
      if List.length rows =? nsimu then Ok (S2mat c rows) else times_ones (List.length rows) c rows nsimu
  end.

(** propagation.py 473-493: one entry, *)
Definition noisy (sstype : nat) (y z s : F) : F :=
  match sstype with
  | 0 => nadd y (nmul z (nsqrt s))
  | 1 => nsqr (nadd (nsqrt y) (nmul z (nsqrt s)))
  | _ => nmul y (nexp (nmul z (nsqrt s)))
  end.
(** propagation.py 473-493: and the whole array, for variances [s2] along the last axis (a single one for all entries).
    The normals are read from position [pos], row by row.  The result is flattened (lines 85 and 110). *)
Definition observation_sample (sstype : nat) (s2 : list F) (y : yval) (z : nat -> F) (pos : nat) : res (list F) :=
  if 2 <? sstype then Err SysExit
  else
    let '(n, rows) := match y with Y1 l => (List.length l, [l]) | Y2 c rows => (c, rows) end in
    match bdim n (List.length s2) with
    | None => Err ValueError
    | Some c =>
        Ok (List.concat (map (fun i => map (fun j => noisy sstype (nth (bpos n j) (nth i rows []) n0)
                                                        (z (pos + i * n + bpos n j)) (nth (bpos (List.length s2) j) s2 n0))
                                       (range c)) (range (List.length rows))))
    end.

(** ** Evaluation of the model along the chain *)

(** propagation.py 54-110.  The state of a computation: the array [results['theta']], which is also the vector given to the model,
    the position in the stream of normals, and (for stating properties) the model evaluations made:
    the number of the data set and the vector. *)
Record ist : Type := mkist { i_theta : list F; i_pos : nat; i_calls : list (nat * list F) }.
(** propagation.py 63-110 *)
Definition comp (A : Type) : Type := ist -> ist * res A.
(** propagation.py 63-110 *)
Definition ret {A} (a : A) : comp A := fun s => (s, Ok a).
(** propagation.py 63-110 *)
Definition lift {A} (r : res A) : comp A := fun s => (s, r).
(** propagation.py 63-110 *)
Definition andthen {A B} (c : comp A) (f : A -> comp B) : comp B :=
  fun s => let '(s, r) := c s in match r with Ok a => f a s | Err e => (s, Err e) end.

(** propagation.py 68.  [q[parind] = row]; nothing is assigned if an index is out of range or the lengths do not fit *)
Definition put (theta : list F) (parind : list nat) (row : list F) : res (list F) :=
  if negb (forallb (fun i => i <? List.length theta) parind) then Err IndexError
  else if List.length row =? List.length parind then Ok (scatter theta parind row)
  else match row with
       | [v] => Ok (scatter theta parind (repeat v (List.length parind)))
       | _ => Err ValueError
       end.
(** propagation.py 68 *)
Definition assign (parind : list nat) (row : list F) : comp unit :=
  fun s => match put (i_theta s) parind row with
           | Ok t => (mkist t (i_pos s) (i_calls s), Ok tt)
           | Err e => (s, Err e)
           end.
(** propagation.py 68-70: the model at the whole vector *)
Definition evaluate (model : list F -> yval) : comp yval :=
  fun s => (mkist (i_theta s) (i_pos s) (i_calls s ++ [(0, i_theta s)]), Ok (model (i_theta s))).
(** propagation.py 84, 109, 473-493: observation errors for [y]: as many normals as [y] has entries are used *)
Definition observe (z : nat -> F) (sstype : nat) (s2 : list F) (y : yval) : comp (list F) :=
  fun s => match observation_sample sstype s2 y z (i_pos s) with
           | Ok o => (mkist (i_theta s) (i_pos s + ysize y) (i_calls s), Ok o)
           | Err e => (s, Err e)
           end.

(** propagation.py 83, 106, 108.  [s2chain[kk]] as a list of variances; [s2chain[kk, jj]] *)
Definition s2row (s2 : s2val) (kk : nat) : res (list F) :=
  match s2 with
  | S2vec l => let* v := of_option IndexError (nth_error l kk) in Ok [v]
  | S2mat _ rows => of_option IndexError (nth_error rows kk)
  | _ => Err TypeError
  end.
(** propagation.py 102-108 *)
Definition s2cell (s2 : s2val) (ncol kk jj : nat) : res (list F) :=
  match s2 with
  | S2mat c rows =>
      if c =? ncol then
        let* r := of_option IndexError (nth_error rows kk) in
        let* v := of_option IndexError (nth_error r jj) in Ok [v]
      else s2row s2 kk
  | _ => s2row s2 kk
  end.
(** propagation.py 79, 98 *)
Definition is_none (s2 : s2val) : bool := match s2 with S2none => true | _ => false end.

(** propagation.py 60-62, 90-94.  The local variables of the loop; [v_lists] are [cis] and [pis] once they exist. *)
Record vars : Type := mkvars {
  v_ci : list (list F); v_pi : list (list F); v_multiple : bool; v_ncol : nat;
  v_lists : option (list (list (list F)) * list (list (list F))) }.
(** propagation.py 60-62 *)
Definition vars0 : vars := mkvars [] [] false 0 None.

(** propagation.py 97, 110, for the columns [js]; [cis] and [pis] are the lists they append to *)
Definition append_at {A} (j : nat) (v : A) (l : list (list A)) : res (list (list A)) :=
  let* old := of_option IndexError (nth_error l j) in Ok (set_nth j (old ++ [v]) l).
(** propagation.py 97, 109 *)
Definition column_of (y : yval) (j : nat) : res (list F) :=
  match y with
  | Y1 _ => Err IndexError
  | Y2 c rows => if j <? c then Ok (col j rows) else Err IndexError
  end.
(** propagation.py 95-110 *)
Fixpoint store_columns (z : nat -> F) (sstype : nat) (s2 : s2val) (y : yval) (ncol kk : nat) (js : list nat)
    (cis pis : list (list (list F))) : comp (list (list (list F)) * list (list (list F))) :=
  match js with
  | [] => ret (cis, pis)
  | j :: t =>
      andthen (lift (let* yj := column_of y j in let* cis := append_at j yj cis in Ok (yj, cis))) (fun '(yj, cis) =>
      if is_none s2 then store_columns z sstype s2 y ncol kk t cis pis
      else andthen (lift (s2cell s2 ncol kk j)) (fun s =>
           andthen (observe z sstype s (Y1 yj)) (fun o =>
           andthen (lift (append_at j o pis)) (fun pis =>
           store_columns z sstype s2 y ncol kk t cis pis))))
  end.

(** propagation.py 63-110: one pass through the loop *)
Definition interval_step (chain : list (list F)) (parind : list nat) (model : list F -> yval) (s2 : s2val)
    (z : nat -> F) (sstype kk : nat) (v : vars) : comp vars :=
  andthen (lift (of_option IndexError (nth_error chain kk))) (fun row =>
  andthen (assign parind row) (fun _ =>
  andthen (evaluate model) (fun y =>
  let '(multiple, ncol) :=
    match y with
    | Y1 _ => (v_multiple v, v_ncol v)
    | Y2 c rows =>
        (if negb (List.length rows =? List.length rows * c) && negb (c =? List.length rows * c) then true else v_multiple v, c)
    end in
  if negb multiple then
    let ci := v_ci v ++ [flat y] in
    if is_none s2 then ret (mkvars ci (v_pi v) multiple ncol (v_lists v))
    else andthen (lift (s2row s2 kk)) (fun s =>
         andthen (observe z sstype s y) (fun o =>
         ret (mkvars ci (v_pi v ++ [o]) multiple ncol (v_lists v))))
  else
    let lists := if kk =? 0 then Some (repeat [] ncol, repeat [] ncol) else v_lists v in
    match lists with
    | None => if ncol =? 0 then ret (mkvars (v_ci v) (v_pi v) multiple ncol None) else lift (Err UnboundLocal)
    | Some (cis, pis) =>
        andthen (store_columns z sstype s2 y ncol kk (range ncol) cis pis) (fun l =>
        ret (mkvars (v_ci v) (v_pi v) multiple ncol (Some l)))
    end))).

(** propagation.py 63-110 *)
Fixpoint interval_loop (chain : list (list F)) (parind : list nat) (model : list F -> yval) (s2 : s2val)
    (z : nat -> F) (sstype : nat) (ks : list nat) (v : vars) : comp vars :=
  match ks with
  | [] => ret v
  | kk :: t => andthen (interval_step chain parind model s2 z sstype kk v) (interval_loop chain parind model s2 z sstype t)
  end.

(** propagation.py 114-120, 125-131: a dictionary, or a list of them, one for each quantity *)
Record interval : Type := mkinterval { credible : list (list F); prediction : option (list (list F)) }.
(** propagation.py 119-120, 132 *)
Inductive intervals : Type := One (i : interval) | Many (l : list interval).
(** propagation.py 112-132 *)
Definition collect (s2 : s2val) (v : vars) : res intervals :=
  if negb (v_multiple v) then Ok (One (mkinterval (v_ci v) (if is_none s2 then None else Some (v_pi v))))
  else
    match v_lists v with
    | None => if v_ncol v =? 0 then Ok (Many []) else Err UnboundLocal
    | Some (cis, pis) =>
        let* l := mapM (fun j =>
          let* c := of_option IndexError (nth_error cis j) in
          if is_none s2 then Ok (mkinterval c None)
          else let* p := of_option IndexError (nth_error pis j) in Ok (mkinterval c (Some p))) (range (v_ncol v)) in
        Ok (Many l)
    end.

(** propagation.py 49-54.  [results['theta']] must be an array; assigning through [parind] changes it in place *)
Definition theta_of (results : pydict F) : res (list F) :=
  let* v := of_option KeyError (lookup "theta"%string results) in
  match v with PArr l => Ok l | _ => Err TypeError end.
(** propagation.py 49-54 *)
Definition parind_of (results : pydict F) : res (list nat) :=
  let* v := of_option KeyError (lookup "parind"%string results) in as_indices v.

(** propagation.py 21-132.  The results dictionary afterwards, the model evaluations made, and the value. *)
Definition calculate_intervals (chain : list (list F)) (results : pydict F) (model : list F -> yval) (s2chain : s2val)
    (nsample sstype : nat) (us : nat -> Q) (z : nat -> F) : pydict F * list (list F) * res intervals :=
  let nsimu := List.length chain in
  match (let* parind := parind_of results in let* q := theta_of results in
         let* s2 := check_s2chain s2chain nsimu in Ok (parind, q, s2)) with
  | Err e => (results, [], Err e)
  | Ok (parind, q, s2) =>
      let '(iisample, nsample) := define_sample_points us nsample nsimu in
      let '(s, v) := andthen (interval_loop chain parind model s2 z sstype (range (List.length iisample)) vars0)
                             (fun v => lift (collect s2 v)) (mkist q 0 []) in
      (setkey "theta"%string (PArr (i_theta s)) results, map snd (i_calls s), v)
  end.

(** ** Bands: lines 225-254.  For one kind of interval: label and the two curves of each band drawn. *)
(** propagation.py 243-254 *)
Fixpoint draw_bands (ncol : nat) (x : list (list F)) (labels : list string) (ranges : list (list Q))
  : res (list (string * list (list F))) :=
  match labels, ranges with
  | l :: labels, r :: ranges =>
      let* q := empirical_quantiles ncol x r in
      let* rest := draw_bands ncol x labels ranges in
      Ok ((l, q) :: rest)
  | _, _ => Ok []
  end.
(** propagation.py 225-254 *)
Definition interval_bands (fmt : Q -> string) (inttype : string) (limits : option (list Q)) (default : list Q)
    (ncol : nat) (x : list (list F)) : res (list (string * list (list F))) :=
  let limits := check_limits limits default in
  draw_bands ncol x (setup_labels fmt limits inttype) (convert_limits limits).
(** propagation.py 136-274 with the defaults for what is drawn: the prediction bands come first, and are drawn
    whether or not there are any (line 533 takes the shape of [None]: AttributeError). *)
Definition plot_intervals (fmt : Q -> string) (cilimits pilimits : option (list Q)) (limits : list Q) (addcredible addprediction : bool)
    (ncol : nat) (i : interval) : res (list (string * list (list F))) :=
  let* pis := (if addprediction then
                 match prediction i with
                 | None => Err AttributeError
                 | Some p => interval_bands fmt "PI" pilimits limits ncol p
                 end
               else Ok []) in
  let* cis := (if addcredible then interval_bands fmt "CI" cilimits limits ncol (credible i) else Ok []) in
  Ok (pis ++ cis).

End Propagation.
