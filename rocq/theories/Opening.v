(** Model of settings/ModelParameters.py with local parameters: how the declarations are opened (85-140), the function that
    was meant to replace that part (189-207), and the table of the parameters printed at the start of a run (299-331). *)

From Coq Require Import ZArith QArith Bool Lia List String.
From Verif Require Import Base Num ChainFiles Samplers Settings.
Import ListNotations.
Close Scope Q_scope.
Open Scope list_scope.
Open Scope nat_scope.
Open Scope res_scope.

(** settings/ModelParameters.py 107: the positions [a:b] of an array of [n] entries, as first position and number;
    a negative bound counts from the end *)
Definition slice_of (a b : Z) (n : nat) : nat * nat :=
  let fix_ (z : Z) := let z := if (z <? 0)%Z then (z + Z.of_nat n)%Z else z in Nat.min n (Z.to_nat z) in
  (fix_ a, fix_ b - fix_ a).
(** settings/ModelParameters.py 107: [x[a:b] = vals]; as many values as positions are needed, or a single one *)
Definition set_slice {A} (a b : Z) (vals x : list A) : res (list A) :=
  let '(lo, len) := slice_of a b (List.length x) in
  let put v := Ok (firstn lo x ++ v ++ skipn (lo + len) x) in
  if List.length vals =? len then put vals
  else match vals with [v] => put (repeat v len) | _ => Err ValueError end.

Section Opening.
Context {F : Type} `{NF : Num F}.

(** settings/ModelParameters.py 71-82: a declaration with its flag [local] (true: not 0) *)
Record lparam : Type := mklparam { lp_par : param F; lp_local : bool }.

(** settings/ModelParameters.py 103-110: [_local], [npar] and [ii] while the declarations are scanned *)
Record scanst : Type := mkscan { sc_local : list nat; sc_npar : nat; sc_ii : nat }.
(** settings/ModelParameters.py 104-110 *)
Definition scan_one (nbatch : nat) (s : scanst) (p : lparam) : res scanst :=
  if negb (a_sample (lp_par p)) && lp_local p then
    let ii := Z.of_nat (sc_ii s) in
    let* l := set_slice ii (ii + Z.of_nat nbatch - 1) (seq 0 nbatch) (sc_local s) in
    Ok (mkscan l (sc_npar s + nbatch - 1) (sc_ii s + nbatch))
  else Ok (mkscan (sc_local s) (sc_npar s) (S (sc_ii s))).
(** settings/ModelParameters.py 103-110 *)
Fixpoint scan (nbatch : nat) (s : scanst) (ps : list lparam) : res scanst :=
  match ps with [] => Ok s | p :: t => let* s := scan_one nbatch s p in scan nbatch s t end.

(** settings/ModelParameters.py 90-99: the arrays filled in the second loop; [_parind] and [_adapt] are flags there *)
Record filling : Type := mkfill {
  g_names : list string; g_initial : list F; g_value : list F; g_parind : list bool; g_adapt : list bool;
  g_upper : list F; g_lower : list F; g_mu : list F; g_sigma : list F }.
(** settings/ModelParameters.py 90-99 *)
Definition unfilled (n : nat) : filling :=
  mkfill [] (repeat n0 n) (repeat n0 n) (repeat true n) (repeat true n)
         (repeat (nmul n1 ninf) n) (repeat (nmul (nsub n0 n1) ninf) n) (repeat n0 n) (repeat (nmul n1 ninf) n).
(** settings/ModelParameters.py 113-134: one pass, [ii] and [kk] being equal *)
Definition fill_one (ps : list lparam) (local : list nat) (g : filling) (ii : nat) : res filling :=
  let* l := of_option IndexError (nth_error local ii) in
  if l =? 0 then
    let* q := of_option IndexError (nth_error ps ii) in
    let p := lp_par q in
    Ok (mkfill (g_names g ++ [a_name p]) (set_nth ii (a_theta0 p) (g_initial g)) (set_nth ii (a_theta0 p) (g_value g))
               (set_nth ii (a_sample p) (g_parind g)) (set_nth ii (setup_adapting (a_adapt p) (a_sample p)) (g_adapt g))
               (set_nth ii (a_max p) (g_upper g)) (set_nth ii (a_min p) (g_lower g))
               (set_nth ii (setup_prior_mu (a_mu p) (a_theta0 p)) (g_mu g)) (set_nth ii (setup_prior_sigma (a_sigma p)) (g_sigma g)))
  else Ok g.
(** settings/ModelParameters.py 112-134 *)
Fixpoint fill_all (ps : list lparam) (local : list nat) (g : filling) (is : list nat) : res filling :=
  match is with [] => Ok g | i :: t => let* g := fill_one ps local g i in fill_all ps local g t end.

(** settings/ModelParameters.py 85-140 *)
Definition open_local (nbatch : nat) (ps : list lparam) : res (opened F) :=
  let n := List.length ps in
  let* s := scan nbatch (mkscan (repeat 0 n) n 0) ps in
  let* g := fill_all ps (sc_local s) (unfilled n) (seq 0 (sc_npar s)) in
  let '(pi, ad, na) := setup_adaptation_indices (g_parind g) (g_adapt g) in
  Ok (mkopened (g_names g) (g_initial g) (g_value g) pi ad na (g_lower g) (g_upper g) (g_mu g) (g_sigma g)).

(** settings/ModelParameters.py 189-207 (not called): numbers of the batches the sampled values are for, 0 for all *)
Definition scan_for_local_variables (nbatch : nat) (ps : list lparam) : list nat :=
  flat_map (fun p => if a_sample (lp_par p) then if lp_local p then seq 1 nbatch else [0] else []) ps.

(** utilities/general.py 29-42: exponential or fixed format, of the number [x] *)
Inductive shown : Type := Expo (x : F) | Fixed (x : F).
(** utilities/general.py 29-42 *)
Definition format_number_to_str (x : F) : shown :=
  if nle (nQ (10000#1)) (nabs x) || nle (nabs x) (nQ (1#100)) then Expo x else Fixed x.

(** settings/ModelParameters.py 404-417: an entry of [no_adapt] is a bool of Python, or of numpy, which [is True] is not *)
Inductive flag : Type := PyBool (b : bool) | NpBool (b : bool).
(** settings/ModelParameters.py 404-417 *)
Definition noadapt_display_setting (no_adapt : flag) : string :=
  match no_adapt with PyBool true => " (*)"%string | _ => EmptyString end.
(** settings/ModelParameters.py 421-435 *)
Definition prior_display_setting (x : F) : string := if nisinf x then EmptyString else "^2"%string.

(** settings/ModelParameters.py 322-331: a line of the table *)
Record trow : Type := mktrow {
  t_name : string; t_start : shown; t_min : shown; t_max : shown; t_mu : shown; t_sigma : shown; t_square : string; t_mark : string }.
(** settings/ModelParameters.py 387-400 *)
Definition check_noadaptind (no_adapt : option (list flag)) (npar : nat) : list flag :=
  match no_adapt with Some l => l | None => repeat (NpBool false) npar end.
(** settings/ModelParameters.py 299-331, 371-383: the lines printed, [None] for nothing (verbosity 0 or None) *)
Definition display_parameter_settings (op : opened F) (verbosity : option nat) (no_adapt : option (list flag)) : res (option (list trow)) :=
  let no_adapt := check_noadaptind no_adapt (List.length (op_parind op)) in
  if 0 <? match verbosity with Some v => v | None => 0 end then
    let* rows := mapM (fun ii =>
      let* i := of_option IndexError (nth_error (op_parind op) ii) in
      let get {A} (l : list A) := of_option IndexError (nth_error l i) in
      let* name := get (op_names op) in
      let* v := get (op_initial op) in
      let* lo := get (op_lower op) in
      let* up := get (op_upper op) in
      let* mu := get (op_mu op) in
      let* sg := get (op_sigma op) in
      let* na := of_option IndexError (nth_error no_adapt ii) in
      Ok (mktrow name (format_number_to_str v) (format_number_to_str lo) (format_number_to_str up) (format_number_to_str mu)
                 (format_number_to_str sg) (prior_display_setting sg) (noadapt_display_setting na)))
      (seq 0 (List.length (op_parind op))) in
    Ok (Some rows)
  else Ok None.
(** MCMC.py 182-189: the table printed at the start of a run; [_no_adapt] is an array of numpy *)
Definition table_of_run (ps : list (param F)) (verbosity : nat) : res (option (list trow)) :=
  let op := check_prior_sigma (openparameterstructure ps) in
  display_parameter_settings op (Some verbosity) (Some (map NpBool (op_no_adapt op))).

End Opening.
Arguments lparam F : clear implicits.
Arguments trow F : clear implicits.
Arguments shown F : clear implicits.
