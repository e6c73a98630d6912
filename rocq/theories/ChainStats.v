(** Model of chain/ChainStatistics.py: batch means, Geweke's diagnostic and the
    Gelman-Rubin diagnostic.

    Printing (lines 56-61, 73-193, 411-412, 455-466, 493-500) is not modelled.
    Integrated autocorrelation time, acceptance figures and the summary: Summary.v. *)

From Coq Require Import ZArith QArith Qround Bool Lia List String Arith.
From Verif Require Import Base Num Names ChainFiles.
Import ListNotations.
Close Scope Q_scope.
Open Scope list_scope.
Open Scope nat_scope.

(** ** Parameter names: plotting/utilities.py 33-54, 79-96, 99-122 and
    chain/ChainStatistics.py 470-490 *)

(** plotting/utilities.py 93-95, 119-121: ['$p_{{{}}}$'.format(ii)] *)
Definition default_name (i : nat) : string := ("$p_{" ++ dec i ++ "}$")%string.
(** plotting/utilities.py 79-96 *)
Definition generate_default_names (nparam : nat) : list string := map default_name (range nparam).
(** plotting/utilities.py 99-122.  The Python function appends to the list it is given and returns the same
    object; the value returned is therefore also what the caller's list has become. *)
Definition extend_names_to_match_nparam (names : option (list string)) (nparam : nat) : list string :=
  let names := match names with Some l => l | None => [] end in
  let n0 := List.length names in
  names ++ map default_name (seq n0 (nparam - n0)).
(** plotting/utilities.py 33-54 *)
Definition generate_names (nparam : nat) (names : option (list string)) : list string :=
  let names := match names with Some l => l | None => generate_default_names nparam end in
  if List.length names =? nparam then names else extend_names_to_match_nparam (Some names) nparam.
(** chain/ChainStatistics.py 470-490; [results_names] is [results['names']] of the results dictionary, if one is given *)
Definition get_parameter_names (nparam : nat) (results_names : option (list string)) : list string :=
  match results_names with
  | None => generate_default_names nparam
  | Some l => extend_names_to_match_nparam (Some l) nparam
  end.

Section Stats.
Context {F : Type} `{NF : Num F}.

(** chain/ChainStatistics.py 197-266, 416-452 (np.mean).  [np.mean] and [np.var(..., ddof=1)] of a vector; an empty vector
    or a single value gives 0/0. *)
Definition mean (v : list F) : F := ndiv (vsum v) (nnat (List.length v)).
(** chain/ChainStatistics.py 416-452 (np.var, ddof=1) *)
Definition var1 (v : list F) : F :=
  ndiv (vsum (map (fun x => nsqr (nsub x (mean v))) v)) (nnat (List.length v - 1)).

(** ** Batch means: lines 197-225 *)

(** chain/ChainStatistics.py 211-212: [int(max(10, np.fix(nsimu/20)))] *)
Definition default_batch (nsimu : nat) : nat := Nat.max 10 (nsimu / 20).

(** chain/ChainStatistics.py 214: [np.arange(0, nsimu+1, b)] for [b > 0] *)
Definition batch_indices (nsimu b : nat) : list nat := map (fun i => i * b) (range (nsimu / b + 1)).

(** chain/ChainStatistics.py 197-225, for a chain with [npar] columns.  [np.arange] with step 0 raises ZeroDivisionError. *)
Definition batch_mean_standard_deviation (npar : nat) (chain : list (list F)) (b : option nat) : res (list F) :=
  let nsimu := List.length chain in
  let b := match b with Some b => b | None => default_batch nsimu end in
  if b =? 0 then Err ZeroDivision
  else
    let inds := batch_indices nsimu b in
    let nb := List.length inds - 1 in
    if nb <? 2 then Err SysExit
    else
      Ok (map (fun j =>
           let c := col j chain in
           let y := map (fun i => mean (slice (nth i inds 0) (nth (i + 1) inds 0) c)) (range nb) in
           nsqrt (nmul (ndiv (vsum (map (fun v => nsqr (nsub v (mean c))) y)) (nnat (nb - 1))) (nnat b)))
         (range npar)).

(** ** Geweke's diagnostic: lines 229-326 *)

(** line 305: the Hanning window of a given width, and [scipy.stats.norm.cdf] *)
Variable hanning : nat -> list F.
Variable cdf : F -> F.

(** chain/ChainStatistics.py 287-326 for [nfft = len(x)] and [nw] not given, first entry of the result only (line 283).
    The zero-frequency entry of [fft(xw, nfft)] is the sum of [xw] ([nfft >= nw], so nothing is cut off);
    [n < nw] (line 307) cannot hold.  For fewer than 4 points [nw] is 0 and line 311 divides by 0;
    with at least 4 points [n2 >= 2], so that [y[0]] exists. *)
Definition psd0 (x : list F) : res F :=
  let n := List.length x in
  let nw := n / 4 in
  let noverlap := nw / 2 in
  let w := hanning nw in
  if nw - noverlap =? 0 then Err ZeroDivision
  else
    let k := (n - noverlap) / (nw - noverlap) in
    let kmu := nmul (nnat k) (nsqr (nsqrt (vsum (map nsqr w)))) in
    let y := fold_left (fun y i =>
               nadd y (nsqr (nabs (vsum (vmul w (slice (i * (nw - noverlap)) (i * (nw - noverlap) + nw) x))))))
             (range k) n0 in
    Ok (nmul y (ndiv n1 kmu)).

(** chain/ChainStatistics.py 269-284 *)
Definition spectral_estimate_for_variance (npar : nat) (x : list (list F)) : res (list F) :=
  mapM (fun j => psd0 (col j x)) (range npar).

(** chain/ChainStatistics.py 253-254: [int(np.floor(a*nsimu))] with the product formed exactly *)
Definition portion (a : Q) (nsimu : nat) : nat := Z.to_nat (Qfloor (a * inject_Z (Z.of_nat nsimu))).

(** chain/ChainStatistics.py 229-266, for [0 <= a] and [0 <= b <= 1] and a chain with [npar] columns *)
Definition geweke (npar : nat) (chain : list (list F)) (a b : Q) : res (list F * list F) :=
  let nsimu := List.length chain in
  let na := portion a nsimu in
  let nb := nsimu - portion b nsimu in
  if nsimu <=? na + nb then Err SysExit
  else
    let first := slice 0 na chain in
    let last := slice nb (nsimu + 1) chain in
    let m1 := map (fun j => mean (col j first)) (range npar) in
    let m2 := map (fun j => mean (col j last)) (range npar) in
    let* sa := spectral_estimate_for_variance npar first in
    let* sb := spectral_estimate_for_variance npar last in
    let den := map2 (fun x y => nsqrt (nadd (ndiv x (nnat na)) (ndiv y (nnat (nsimu - nb))))) sa sb in
    let z := map2 ndiv (map2 nsub m1 m2) den in
    Ok (z, map (fun v => nmul (nnat 2) (nsub n1 (cdf (nabs v)))) z).

(** ** Gelman-Rubin: lines 369-452 *)

(** chain/ChainStatistics.py 452 *)
Record psrf : Type := mkpsrf { ps_R : F; ps_B : F; ps_W : F; ps_V : F; ps_neff : F }.

(** chain/ChainStatistics.py 416-452; [x] is the list of the columns of the nsimu x nchains array.
    Line 442 divides two Python integers: nsimu = 0 raises ZeroDivisionError. *)
Definition calculate_psrf (x : list (list F)) (nsimu nchains : nat) : res psrf :=
  if (nsimu =? 0) || (nchains =? 0) then Err ZeroDivision
  else
    let n := nnat nsimu in
    let n' := nnat (nsimu - 1) in
    let m := nnat nchains in
    let Bpn := var1 (map mean x) in
    let W := mean (map var1 x) in
    let S := nadd (nmul (ndiv n' n) W) Bpn in
    let R := nsub (ndiv (nmul (ndiv (nnat (nchains + 1)) m) S) W) (ndiv (ndiv n' m) n) in
    let V := nmul R W in
    let B := nmul Bpn n in
    Ok (mkpsrf (nsqrt R) B W V (pymin (ndiv (nmul (nnat (nchains * nsimu)) V) B) (nnat (nchains * nsimu)))).

(** chain/ChainStatistics.py 405: [tmp[:, jj] = chains[jj][:, ii]] with [nsimu] entries on the left; a single value is
    broadcast, another length raises ValueError; a missing column raises IndexError. *)
Definition copy_column (nsimu ii : nat) (ch : nat * list (list F)) : res (list F) :=
  let '(ncol, rows) := ch in
  if ncol <=? ii then Err IndexError
  else if List.length rows =? nsimu then Ok (col ii rows)
  else if List.length rows =? 1 then Ok (repeat (nth 0 (col ii rows) n0) nsimu)
  else Err ValueError.

(** chain/ChainStatistics.py 400-410.  Assignment [d[k] = v] of a Python dictionary kept in insertion order. *)
Fixpoint dset {A} (k : string) (v : A) (d : list (string * A)) : list (string * A) :=
  match d with
  | [] => [(k, v)]
  | (k', v') :: t => if String.eqb k k' then (k', v) :: t else (k', v') :: dset k v t
  end.
(** chain/ChainStatistics.py 400-410 *)
Definition dget {A} (k : string) (d : list (string * A)) : option A :=
  match find (fun e => String.eqb k (fst e)) d with Some e => Some (snd e) | None => None end.

(** chain/ChainStatistics.py 400-406 *)
Fixpoint assemble (nsimu : nat) (chains : list (nat * list (list F))) (ii : nat) (names : list string)
    (par : list (string * list (list F))) : res (list (string * list (list F))) :=
  match names with
  | [] => Ok par
  | name :: t =>
      let* tmp := mapM (copy_column nsimu ii) chains in
      assemble nsimu chains (S ii) t (dset name tmp par)
  end.

(** chain/ChainStatistics.py 408-410 *)
Fixpoint psrf_all (nsimu nchains : nat) (names : list string) (par : list (string * list (list F)))
    (out : list (string * psrf)) : res (list (string * psrf)) :=
  match names with
  | [] => Ok out
  | name :: t =>
      let* x := of_option KeyError (dget name par) in
      let* r := calculate_psrf x nsimu nchains in
      psrf_all nsimu nchains t par (dset name r out)
  end.

(** chain/ChainStatistics.py 369-413 for a list of arrays, each given with its number of columns; the list of result
    dictionaries (lines 392-393) is first turned into arrays by [generate_chain_list] (ChainFiles.v). *)
Definition gelman_rubin (chains : list (nat * list (list F))) (names results_names : option (list string))
    : res (list (string * psrf)) :=
  match chains with
  | [] => Err IndexError
  | (nparam, rows0) :: _ =>
      let nsimu := List.length rows0 in
      let nchains := List.length chains in
      let names := match names with Some l => l | None => get_parameter_names nparam results_names end in
      if nchains <? 2 then Err ValueError
      else
        let* par := assemble nsimu chains 0 names [] in
        psrf_all nsimu nchains names par []
  end.

End Stats.
