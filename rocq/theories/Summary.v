(** Model of chain/ChainStatistics.py: integrated autocorrelation time (lines 330-365), acceptance figures (134-193) and
    the summary of a chain (22-70).

    Printed text is not modelled; the numbers printed as acceptance figures are, as are the exceptions raised by printing. *)

From Coq Require Import ZArith QArith Bool Lia List String Arith.
From Verif Require Import Base Num ChainFiles Results ChainStats PlotUtil.
Import ListNotations.
Close Scope Q_scope.
Open Scope list_scope.
Open Scope nat_scope.

Section Summary.
Context {F : Type} `{NF : Num F}.

(** [scipy.fftpack.fft] of a real column: real and imaginary parts *)
Variable fft : list F -> list (F * F).
Variable hanning : nat -> list F.
Variable cdf : F -> F.

(** ** Integrated autocorrelation time *)

(** chain/ChainStatistics.py 346-351, one column *)
Definition spectrum (x : list F) : list F :=
  let xmag := map (fun c => nadd (nsqr (fst c)) (nsqr (snd c))) (fft x) in
  let xmag := match xmag with [] => [] | _ :: t => n0 :: t end in
  map fst (fft xmag).

(** chain/ChainStatistics.py 357-363: [ii] counts the passes; ([tau], [m]) stay 0 if the sum never becomes negative *)
Fixpoint windowed (ii : nat) (snum : F) (l : list F) : F * nat :=
  match l with
  | [] => (n0, 0)
  | v :: t =>
      let snum := nsub (nadd snum v) (nQ (1 # 6)) in
      if nlt snum n0 then (nmul (nnat 2) (nadd snum (ndiv (nnat ii) (nnat 6))), S ii)
      else windowed (S ii) snum t
  end.

(** chain/ChainStatistics.py 352-363, one column of length [n] *)
Definition iact_column (n : nat) (x : list F) : F * nat :=
  let xmag := spectrum x in
  let first := nth 0 xmag n0 in
  let var := ndiv (ndiv first (nnat n)) (nnat (n - 1)) in
  if neq var n0 then (n0, 0)
  else windowed 0 (nQ (-1 # 3)) (map (fun v => ndiv v first) xmag).

(** chain/ChainStatistics.py 330-365; the transform of an empty array raises ValueError *)
Definition integrated_autocorrelation_time (npar : nat) (chain : list (list F)) : res (list F * list nat) :=
  let n := List.length chain in
  if n =? 0 then Err ValueError
  else
    let r := map (fun j => iact_column n (col j chain)) (range npar) in
    Ok (map fst r, map snd r).

(** ** Acceptance figures: lines 167-188 *)

(** chain/ChainStatistics.py 167-188 (np.unique).  [np.unique(x).size] *)
Fixpoint steps (x : F) (l : list F) : nat :=
  match l with
  | [] => 1
  | y :: t => if neq x y then steps y t else S (steps y t)
  end.
(** chain/ChainStatistics.py 167-188 (np.unique) *)
Definition unique_size (x : list F) : nat := match sort x with [] => 0 | y :: t => steps y t end.

(** chain/ChainStatistics.py 134-193.  What is printed from the results: accepted at each stage, their sum, and the number
    of simulations; and from the chain:
    the number of different values in the first column and the number of rows. *)
Record figures : Type := mkfigures { fg_results : option (list Z * Z * Z); fg_unique : nat; fg_rows : nat }.
(** chain/ChainStatistics.py 134-193.  Entries of the kinds that a simulation stores; a list (as read from a file) has no
    [sum]. *)
Definition acceptance_info (chain : list (list F)) (results : option (pydict F)) : res figures :=
  let* r := (match results with
             | None => Ok None
             | Some d =>
                 match lookup "iacce"%string d with
                 | None => Ok None
                 | Some iacce =>
                     let* nsimu := (match lookup "nsimu"%string d with
                                    | None => Ok (Z.of_nat (List.length chain))
                                    | Some (PInt z) | Some (PNpInt z) => Ok z
                                    | Some _ => Err TypeError
                                    end) in
                     match iacce with
                     | PArrZ l => Ok (Some (l, fold_right Z.add 0%Z l, nsimu))
                     | PList _ => Err AttributeError
                     | _ => Err TypeError
                     end
                 end
             end) in
  Ok (mkfigures r (unique_size (col 0 chain)) (List.length chain)).

(** ** Summary: lines 35-70 *)
(** chain/ChainStatistics.py 35-70, 470-490 *)
Definition names_of (results : option (pydict F)) : res (option (list string)) :=
  match results with
  | None => Ok None
  | Some d =>
      match lookup "names"%string d with
      | None => Err KeyError
      | Some (PList l) => let* l := mapM (fun v => match v with PStr s => Ok s | _ => Err TypeError end) l in Ok (Some l)
      | Some _ => Err TypeError
      end
  end.
(** chain/ChainStatistics.py 22-70 (np.std).  [np.std]: divided by the number of values *)
Definition std0 (v : list F) : F := nsqrt (ndiv (vsum (map (fun x => nsqr (nsub x (mean v))) v)) (nnat (List.length v))).

(** chain/ChainStatistics.py 22-70 *)
Record stats : Type := mkstats {
  st_mean : list F; st_std : list F; st_bmstd : list F; st_mcerr : list F; st_z : list F; st_p : list F;
  st_tau : list F; st_m : list nat; st_figures : figures }.
(** chain/ChainStatistics.py 22-70, 73-130.  The table printed has one line for each name (lines 106-114); a name without a column
    raises IndexError. *)
Definition chainstats (npar : nat) (chain : list (list F)) (results : option (pydict F)) : res stats :=
  let* given := names_of results in
  let names := get_parameter_names npar given in
  let means := map (fun j => mean (col j chain)) (range npar) in
  let stds := map (fun j => std0 (col j chain)) (range npar) in
  let* bmstd := batch_mean_standard_deviation npar chain None in
  let mcerr := map (fun b => ndiv b (nsqrt (nnat (List.length chain)))) bmstd in
  let* (z, p) := geweke hanning cdf npar chain (1 # 10) (1 # 2) in
  let* (tau, m) := integrated_autocorrelation_time npar chain in
  if npar <? List.length names then Err IndexError
  else
    let* fg := acceptance_info chain results in
    Ok (mkstats means stds bmstd mcerr z p tau m fg).

End Summary.
Arguments figures : clear implicits.
