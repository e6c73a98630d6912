(** The results dictionary and its json file: pymcmcstat/structures/ResultsStructure.py,
    utilities/general.py 45-92, utilities/NumpyEncoder.py, MCMC.py 115-123 and 415-455.

    A Python dictionary is a list of entries with different keys, kept in a store: a dictionary object is
    a position in the store, so that a function changing its argument is told from one working on a copy.
    Nested dictionaries are held by value.  [nsimu] is a nat, and counters are integers.
    The text of a json file is not modelled, only the tree it denotes (numbers are written with
    [repr], which reads back as the same float).  Not modelled: creation of directories (os.makedirs). *)

From Coq Require Import ZArith QArith Bool Lia List String Ascii.
From Verif Require Import Base Num Samplers Adapt Settings Simulator Names ChainFiles.
Import ListNotations.
Close Scope Q_scope.
Open Scope list_scope.
Open Scope nat_scope.
Open Scope res_scope.

Section Values.
Context {F : Type}.

(** structures/ResultsStructure.py 139-310.  Python values that occur in results: numpy arrays of floats with one or two
    dimensions and of integers,
    lists, dictionaries, function handles, numpy integer scalars (which json does not know). *)
Inductive pyval : Type :=
| PNone
| PBool (b : bool)
| PInt (z : Z)
| PNpInt (z : Z)
| PFloat (x : F)
| PStr (s : string)
| PArr (l : list F)
| PMat (l : list (list F))
| PArrZ (l : list Z)
| PList (l : list pyval)
| PDict (d : list (string * pyval))
| PFun (name : string).

(** structures/ResultsStructure.py 40-42 *)
Definition pydict := list (string * pyval).

(** structures/ResultsStructure.py 52, 95-97.  [d[k]], [d[k] = v] (an existing key keeps its place), [del d[k]]. *)
Fixpoint lookup {A} (k : string) (d : list (string * A)) : option A :=
  match d with [] => None | (k', v) :: t => if String.eqb k k' then Some v else lookup k t end.
(** structures/ResultsStructure.py 152-171 *)
Fixpoint setkey {A} (k : string) (v : A) (d : list (string * A)) : list (string * A) :=
  match d with
  | [] => [(k, v)]
  | (k', v') :: t => if String.eqb k k' then (k', v) :: t else (k', v') :: setkey k v t
  end.
(** utilities/general.py 57 *)
Fixpoint delkey {A} (k : string) (d : list (string * A)) : list (string * A) :=
  match d with [] => [] | (k', v) :: t => if String.eqb k k' then t else (k', v) :: delkey k t end.

(** ** The store of dictionary objects *)
(** utilities/general.py 56 *)
Definition store := list pydict.
(** utilities/general.py 56, structures/ResultsStructure.py 258, 276 *)
Definition deref (h : store) (r : nat) : res pydict := of_option TypeError (nth_error h r).
(** utilities/general.py 56, structures/ResultsStructure.py 75 *)
Definition dict_copy (h : store) (r : nat) : res (store * nat) :=
  let* d := deref h r in Ok (h ++ [d], List.length h).
(** structures/ResultsStructure.py 152-171 *)
Definition dict_set (h : store) (r : nat) (k : string) (v : pyval) : res store :=
  let* d := deref h r in Ok (set_nth r (setkey k v d) h).
(** utilities/general.py 57 *)
Definition dict_del (h : store) (r : nat) (k : string) : res store :=
  let* d := deref h r in
  match lookup k d with None => Err KeyError | Some _ => Ok (set_nth r (delkey k d) h) end.

(** utilities/general.py 45-58 *)
Definition removekey (h : store) (d : nat) (key : string) : res (store * nat) :=
  let* (h, r) := dict_copy h d in
  let* h := dict_del h r key in
  Ok (h, r).

(** structures/ResultsStructure.py 263-264, 280-281, 350-351 *)
Fixpoint removekeys (h : store) (d : nat) (keys : list string) : res (store * nat) :=
  match keys with
  | [] => Ok (h, d)
  | k :: t => let* (h, d) := removekey h d k in removekeys h d t
  end.

(** structures/ResultsStructure.py 341-352 *)
Definition lighten_results (h : store) (results : nat) : res (store * nat) :=
  removekeys h results ["chain"; "s2chain"; "sschain"]%string.

(** structures/ResultsStructure.py 250-266 *)
Definition add_options (h : store) (results options : nat) : res store :=
  let* (h, opt) := removekeys h options
    ["doram"; "waitbar"; "debug"; "dodram"; "maxmem"; "verbosity"; "RDR"; "stats"; "initqcovn"; "drscale";
     "maxiter"; "_SimulationOptions__options_set"; "skip"]%string in
  let* d := deref h opt in
  dict_set h results "simulation_options" (PDict d).

(** structures/ResultsStructure.py 268-283 *)
Definition add_model (h : store) (results model : nat) : res store :=
  let* (h, mod_) := removekeys h model
    ["sos_function"; "prior_function"; "model_function"; "prior_update_function"; "prior_pars"]%string in
  let* d := deref h mod_ in
  dict_set h results "model_settings" (PDict d).

(** ** File names: lines 80-101, and os.path.join as used by _create_path_without_extension
    (chain/ChainProcessing.py 331-333) *)
(** structures/ResultsStructure.py 81-101 *)
Definition determine_filename (options : pydict) : res string :=
  let* r := of_option KeyError (lookup "results_filename"%string options) in
  match r with
  | PNone => let* d := of_option KeyError (lookup "datestr"%string options) in
             match d with PStr d => Ok (d ++ "_mcmc_simulation.json")%string | _ => Err TypeError end
  | PStr f => Ok f
  | _ => Err TypeError
  end.

(** chain/ChainProcessing.py 331-333 (os.path.join) *)
Fixpoint last_char (s : string) : option ascii :=
  match s with EmptyString => None | String c EmptyString => Some c | String _ t => last_char t end.
(** chain/ChainProcessing.py 331-333 (os.path.join) *)
Definition path_join (dir file : string) : string :=
  match file with
  | String "/" _ => file
  | _ => match last_char dir with
         | None => file
         | Some "/"%char => (dir ++ file)%string
         | Some _ => (dir ++ "/" ++ file)%string
         end
  end.

(** ** json trees, json.dump with NumpyEncoder and sort_keys, json.load *)
(** structures/ResultsStructure.py 116-117, 134-135 *)
Inductive json : Type :=
| JNull
| JBool (b : bool)
| JInt (z : Z)
| JFloat (x : F)
| JStr (s : string)
| JList (l : list json)
| JObj (d : list (string * json)).

(** utilities/NumpyEncoder.py 13-20, structures/ResultsStructure.py 117: arrays become lists; other objects json does not
    know raise TypeError. *)
Fixpoint encode (v : pyval) : res json :=
  match v with
  | PNone => Ok JNull
  | PBool b => Ok (JBool b)
  | PInt z => Ok (JInt z)
  | PNpInt _ => Err TypeError
  | PFloat x => Ok (JFloat x)
  | PStr s => Ok (JStr s)
  | PArr l => Ok (JList (map JFloat l))
  | PMat l => Ok (JList (map (fun r => JList (map JFloat r)) l))
  | PArrZ l => Ok (JList (map JInt l))
  | PList l => let* js := (fix go l := match l with
                           | [] => Ok []
                           | x :: t => let* j := encode x in let* r := go t in Ok (j :: r)
                           end) l in Ok (JList js)
  | PDict d => let* js := (fix go d := match d with
                           | [] => Ok []
                           | (k, x) :: t => let* j := encode x in let* r := go t in Ok ((k, j) :: r)
                           end) d in Ok (JObj (sort_by fst js))
  | PFun _ => Err TypeError
  end.

(** structures/ResultsStructure.py 134-135 *)
Fixpoint decode (j : json) : pyval :=
  match j with
  | JNull => PNone
  | JBool b => PBool b
  | JInt z => PInt z
  | JFloat x => PFloat x
  | JStr s => PStr s
  | JList l => PList (map decode l)
  | JObj d => PDict (map (fun e => (fst e, decode (snd e))) d)
  end.

(** structures/ResultsStructure.py 104-117: the tree written to a file and the dictionary read from it. *)
Definition save_json_object (h : store) (results : nat) : res json :=
  let* d := deref h results in encode (PDict d).
(** structures/ResultsStructure.py 120-136 *)
Definition load_json_object (j : json) : res pydict :=
  match decode j with PDict d => Ok d | _ => Err TypeError end.

(** structures/ResultsStructure.py 52-53, 71-72 *)
Definition options_of (d : pydict) : res pydict :=
  let* o := of_option KeyError (lookup "simulation_options"%string d) in
  match o with PDict o => Ok o | _ => Err TypeError end.
(** structures/ResultsStructure.py 52-55, 71-74 *)
Definition result_path (d : pydict) : res string :=
  let* o := options_of d in
  let* s := of_option KeyError (lookup "savedir"%string o) in
  let* f := determine_filename o in
  match s with PStr s => Ok (path_join s f) | _ => Err TypeError end.

(** structures/ResultsStructure.py 45-56: the store afterwards, the file and what it holds. *)
Definition export_simulation_results_to_json_file (h : store) (results : nat) : res (store * (string * json)) :=
  let* d := deref h results in
  let* p := result_path d in
  let* j := save_json_object h results in
  Ok (h, (p, j)).

(** structures/ResultsStructure.py 59-78 *)
Definition export_lightly (h : store) (results : nat) : res (store * (string * json)) :=
  let* d := deref h results in
  let* p := result_path d in
  let* (h, light) := dict_copy h results in
  let* (h, light) := lighten_results h light in
  let* j := save_json_object h light in
  Ok (h, (p, j)).
End Values.
Arguments pyval : clear implicits.
Arguments pydict : clear implicits.
Arguments json : clear implicits.
Arguments store : clear implicits.

Section Results.
Context {F : Type} `{NF : Num F}.

(** ** The attribute dictionaries of the settings objects *)

(** settings/SimulationOptions.py 22-25, 104-170.  Options without a part in the simulator. *)
Record optextra : Type := mkoptx {
  ox_adaptend : pyval F; ox_waitbar : bool; ox_debug : pyval F; ox_priorupdatestart : pyval F; ox_stats : pyval F;
  ox_skip : pyval F; ox_label : string; ox_datestr : string; ox_verbosity : Z; ox_maxiter : pyval F;
  ox_maxmem : pyval F; ox_json_restart_file : option string
}.

(** settings/SimulationOptions.py 104-170 *)
Definition pyopt {A} (f : A -> pyval F) (x : option A) : pyval F := match x with None => PNone | Some a => f a end.
(** settings/SimulationOptions.py 104-170 *)
Definition pynat (n : nat) : pyval F := PInt (Z.of_nat n).
(** settings/SimulationOptions.py 104-170 *)
Definition pyflag (b : bool) : pyval F := PInt (if b then 1 else 0).
(** settings/SimulationOptions.py 96-102 *)
Definition method_name (m : method) : string :=
  match m with MH => "mh" | AM => "am" | DR => "dr" | DRAM => "dram" | RAM => "ram" end%string.

(** settings/SimulationOptions.py 22-25 and 104-170, in order of assignment. *)
Definition options_dict (o : simopts F) (x : optextra) : pydict F :=
  [("description", PStr "simulation_options"); ("_SimulationOptions__options_set", PBool true);
   ("adaptint", PInt (o_adaptint o)); ("ntry", pynat (o_ntry o)); ("adascale", pyopt PFloat (o_adascale o));
   ("doram", pyflag (o_doram o)); ("nsimu", pynat (o_nsimu o)); ("method", PStr (method_name (o_method o)));
   ("dodram", pyflag (o_dodram o)); ("printint", pyopt PInt (o_printint o)); ("adaptend", ox_adaptend x);
   ("lastadapt", PInt (o_lastadapt o)); ("burnintime", PInt (o_burnintime o)); ("waitbar", PBool (ox_waitbar x));
   ("debug", ox_debug x); ("qcov", pyopt PMat (o_qcov o)); ("initqcovn", pyopt PFloat (o_initqcovn o));
   ("updatesigma", PBool (o_updatesigma o)); ("priorupdatestart", ox_priorupdatestart x);
   ("qcov_adjust", PFloat (o_qcov_adjust o)); ("burnin_scale", PFloat (o_burnin_scale o));
   ("alphatarget", PFloat (o_alphatarget o)); ("etaparam", PFloat (o_etaparam o)); ("stats", ox_stats x);
   ("drscale", PArr (o_drscale o)); ("skip", ox_skip x); ("datestr", PStr (ox_datestr x));
   ("label", PStr (ox_label x)); ("RDR", pyopt (fun l => PList (map PMat l)) (o_RDR o));
   ("verbosity", PInt (ox_verbosity x)); ("maxiter", ox_maxiter x); ("savesize", PInt (o_savesize o));
   ("maxmem", ox_maxmem x); ("chainfile", PStr (o_chainfile o)); ("s2chainfile", PStr (o_s2chainfile o));
   ("sschainfile", PStr (o_sschainfile o)); ("covchainfile", PStr (o_covchainfile o));
   ("savedir", PStr (o_savedir o)); ("save_to_bin", PBool (o_save_to_bin o)); ("save_to_txt", PBool (o_save_to_txt o));
   ("results_filename", pyopt PStr (o_results_filename o)); ("save_to_json", PBool (o_save_to_json o));
   ("json_restart_file", pyopt PStr (ox_json_restart_file x)); ("save_lightly", PBool (o_save_lightly o))]%string.

(** settings/ModelSettings.py 26-63.  Model settings without a part in the simulator: the user's functions and the arguments
    passed with them. *)
Record modextra : Type := mkmodx {
  mx_sos : pyval F; mx_prior : pyval F; mx_prior_type : Z; mx_prior_update : pyval F; mx_prior_pars : pyval F;
  mx_model : pyval F; mx_Nshape : pyval F; mx_nsos : nat
}.

(** settings/ModelSettings.py 22-63, 91-97, 158, in order of first assignment. *)
Definition model_dict (ms : modset F) (x : modextra) : pydict F :=
  [("description", PStr "Model Settings"); ("sos_function", mx_sos x); ("prior_function", mx_prior x);
   ("prior_type", PInt (mx_prior_type x)); ("prior_update_function", mx_prior_update x);
   ("prior_pars", mx_prior_pars x); ("model_function", mx_model x);
   ("sigma2", pyopt PArr (ms_sigma2 ms)); ("N", pyopt PArr (ms_N ms)); ("N0", pyopt PArr (ms_N0 ms));
   ("nbatch", pyopt pynat (ms_nbatch ms)); ("S20", PArr (ms_S20 ms)); ("Nshape", mx_Nshape x);
   ("nsos", pynat (mx_nsos x))]%string.

(** ** MCMC.py 415-455: the results dictionary of a run *)

(** structures/ResultsStructure.py 152-171, 228-229.  Entries of no further use in the package; [rx_RDR], [rx_alpha_count]
    belong to add_dram. *)
Record resextra : Type := mkresx {
  rx_local : list Z; rx_qcov_scale : F; rx_simutime : F; rx_qcovorig : list (list F);
  rx_original : list (list F); rx_RDR : list (list (list F)); rx_alpha_count : Z; rx_mu : list F; rx_sigma : list F
}.

(** structures/ResultsStructure.py 139-172 *)
Definition add_basic (h : store F) (results : nat) (r : Simulator.results F) (x : resextra) : res (store F) :=
  fold_left (fun h e => let* h := h in dict_set h results (fst e) (snd e))
    [("theta", PArr (rr_theta r)); ("parind", PArrZ (map Z.of_nat (rr_parind r))); ("local", PArrZ (rx_local x));
     ("total_rejected", PFloat (rr_total_rejected r)); ("rejected_outside_bounds", PFloat (rr_outside r));
     ("R", PMat (rr_R r)); ("qcov", PMat (rr_qcov r)); ("cov", pyopt PMat (rr_cov r));
     ("qcov_scale", PFloat (rx_qcov_scale x)); ("mean", pyopt PArr (rr_mean r));
     ("names", PList (map PStr (rr_names r))); ("allnames", PList (map PStr (rr_allnames r)));
     ("limits", PList [PArr (rr_lower r); PArr (rr_upper r)]); ("nsimu", pynat (rr_nsimu r));
     ("simutime", PFloat (rx_simutime x)); ("qcovorig", PMat (rx_qcovorig x));
     ("original_covariance", PMat (rx_original x))]%string (Ok h).

(** structures/ResultsStructure.py 210-233 *)
Definition add_dram (h : store F) (results : nat) (o : simopts F) (r : Simulator.results F) (x : resextra)
  : res (store F) :=
  match rr_iacce r with
  | None => Ok h
  | Some iacce =>
      fold_left (fun h e => let* h := h in dict_set h results (fst e) (snd e))
        [("drscale", PArr (o_drscale o)); ("iacce", PArrZ iacce);
         ("alpha_count", PInt (rx_alpha_count x)); ("RDR", PList (map PMat (rx_RDR x)))]%string (Ok h)
  end.

(** MCMC.py 414-455, structures/ResultsStructure.py 235-310 *)
Definition generate_dictionary (h : store F) (options model : nat) (r : results F) (px : Z) (x : resextra)
  : res (store F * nat) :=
  let results := List.length h in
  let h := h ++ [[]] in
  let* h := add_basic h results r x in
  let* h := add_dram h results (rr_opts r) r x in
  let* h := add_options h results options in
  let* h := add_model h results model in
  let* h := dict_set h results "prior"
    (PDict [("mu", PArr (rx_mu x)); ("sigma", PArr (rx_sigma x)); ("priortype", PInt px)]%string) in
  let* h := dict_set h results "chain" (PMat (rr_chain r)) in
  let* h := dict_set h results "s2chain" (pyopt PMat (rr_s2chain r)) in
  let* h := dict_set h results "sschain" (PMat (rr_sschain r)) in
  Ok (h, results).

(** MCMC.py 414-455 followed by 115-123, for an object holding the option and model settings objects
    (positions 0 and 1 of the store): the file written. *)
Definition results_and_export (ox : optextra) (mx : modextra) (x : resextra) (r : results F)
  : res (store F * nat * option (string * json F)) :=
  let o := rr_opts r in
  let* (h, d) := generate_dictionary [options_dict o ox; model_dict (rr_model r) mx] 0 1 r (mx_prior_type mx) x in
  if o_save_to_json o then
    let* (h, f) := (if o_save_lightly o then export_lightly h d else export_simulation_results_to_json_file h d) in
    Ok (h, d, Some f)
  else Ok (h, d, None).

(** ** Reading a results file for a restart: MCMC.py 156-160, settings/ModelParameters.py 240-265 *)
(** MCMC.py 157-159, settings/ModelParameters.py 245-264 *)
Definition as_floats (v : pyval F) : res (list F) :=
  match v with
  | PArr l => Ok l
  | PList l => mapM (fun x => match x with PFloat x => Ok x | PInt z => Ok (nQ (inject_Z z)) | _ => Err TypeError end) l
  | _ => Err TypeError
  end.
(** MCMC.py 159 *)
Definition as_rows (v : pyval F) : res (list (list F)) :=
  match v with PMat l => Ok l | PList l => mapM as_floats l | _ => Err TypeError end.
(** settings/ModelParameters.py 245-264 *)
Definition as_indices (v : pyval F) : res (list nat) :=
  match v with
  | PArrZ l => Ok (map Z.to_nat l)
  | PList l => mapM (fun x => match x with PInt z => Ok (Z.to_nat z) | _ => Err TypeError end) l
  | _ => Err TypeError
  end.
(** settings/ModelParameters.py 245-264 *)
Definition as_names (v : pyval F) : res (list string) :=
  match v with
  | PList l => mapM (fun x => match x with PStr s => Ok s | _ => Err TypeError end) l
  | _ => Err TypeError
  end.

(** MCMC.py 156-159, settings/ModelParameters.py 245-264 *)
Definition read_restart (d : pydict F) : res (restart F) :=
  let* names := of_option KeyError (lookup "names"%string d) in let* names := as_names names in
  let* parind := of_option KeyError (lookup "parind"%string d) in let* parind := as_indices parind in
  let* theta := of_option KeyError (lookup "theta"%string d) in let* theta := as_floats theta in
  let* qcov := of_option KeyError (lookup "qcov"%string d) in let* qcov := as_rows qcov in
  Ok (mkrestart names parind theta qcov).

(** utilities/general.py 61-92 (and plotting/utilities.py 365-396, the same lines), by value.  A nested default is merged with the user's value for it, which must be a
    dictionary or None. *)
Fixpoint check_settings (default : pydict F) (user : pyval F) {struct user} : res (pydict F) :=
  match user with
  | PNone => Ok default
  | PDict u =>
      (fix go (u : list (string * pyval F)) (settings : pydict F) : res (pydict F) :=
         match u with
         | [] => Ok settings
         | (uo, v) :: t =>
             match lookup uo settings with
             | Some (PDict sub) =>
                 if existsb (String.eqb uo) (map fst default) then
                   let* s := check_settings sub v in go t (setkey uo (PDict s) settings)
                 else go t (setkey uo v settings)
             | _ => go t (setkey uo v settings)
             end
         end) u default
  | _ => Err AttributeError
  end.
End Results.
Arguments optextra : clear implicits.
Arguments modextra : clear implicits.
Arguments resextra : clear implicits.
