(** Model of settings/DataStructure.py, settings/ModelParameters.py,
    settings/ModelSettings.py and settings/SimulationOptions.py. *)

From Coq Require Import ZArith QArith Bool Lia List String Ascii.
From Verif Require Import Base Num Names Samplers Adapt.
Import ListNotations.
Open Scope list_scope.
Open Scope nat_scope.
Open Scope res_scope.

Section Settings.
Context {F : Type} `{NF : Num F}.

(** ** Data (settings/DataStructure.py) *)

(** settings/DataStructure.py 80-95.  What the user may pass as [y]: a numpy array, described by its shape,
    a flat Python list of [k] numbers, or a scalar.  The values themselves are kept as the
    flattened list of entries. *)
Inductive ykind : Type :=
| YArray (shape : list nat)
| YList (k : nat)
| YScalar.

(** settings/DataStructure.py 102-114: anything that is not an ndarray becomes [np.array([xy])]. *)
Definition convert_to_numpy_array (y : ykind) : list nat :=
  match y with
  | YArray sh => sh
  | YList k => [1; k]
  | YScalar => [1]
  end.

(** settings/DataStructure.py 128 (ndarray.size) *)
Definition size_of (sh : list nat) : nat := fold_right Nat.mul 1 sh.

(** settings/DataStructure.py 117-129: anything not two-dimensional is reshaped to (size, 1). *)
Definition convert_to_2d (sh : list nat) : list nat :=
  if List.length sh =? 2 then sh else [size_of sh; 1].

(** settings/DataStructure.py 80-99.  A data set as stored: value lists are kept abstract as flattened entries. *)
Record dataset : Type := mkds {
  d_xs : list F;
  d_ys : list F;
  d_weight : F
}.

(** settings/DataStructure.py 34-40 *)
Record data : Type := mkdata {
  dt_sets : list dataset;
  dt_n : list nat;              (** [self.n] *)
  dt_shape : list (list nat)    (** [self.shape] *)
}.

(** settings/DataStructure.py 34-40 *)
Definition empty_data : data := mkdata [] [] [].

(** settings/DataStructure.py 42-99 (user_defined_object is stored alongside and never read).
    With [n] given nothing is appended to [self.n]. *)
Definition add_data_set (d : data) (x : list F) (y : ykind) (ys : list F)
    (n : option nat) (weight : F) : data :=
  let sh := convert_to_2d (convert_to_numpy_array y) in
  let cnt :=
    match n with
    | Some _ => []
    | None => [if size_of sh =? 1 then size_of sh else nth 0 sh 0]
    end in
  mkdata (dt_sets d ++ [mkds x ys weight]) (dt_n d ++ cnt) (dt_shape d ++ [sh]).

(** settings/DataStructure.py 131-147 *)
Definition get_number_of_batches (d : data) : nat := List.length (dt_shape d).
(** settings/DataStructure.py 149-173 *)
Definition get_number_of_data_sets (d : data) : nat :=
  natlist_sum (map (fun sh => if List.length sh =? 1 then 0 else nth 1 sh 0) (dt_shape d)).
(** settings/DataStructure.py 175-190 *)
Definition get_number_of_observations (d : data) : nat := natlist_sum (dt_n d).

(** ** Parameters (settings/ModelParameters.py) *)

(** settings/ModelParameters.py 71-82; [local] is 0, the default; see Opening.v. *)
Record param : Type := mkparam {
  a_name : string;
  a_theta0 : F;
  a_min : F;
  a_max : F;
  a_mu : F;
  a_sigma : F;
  a_sample : bool;
  a_adapt : bool
}.

(** settings/ModelParameters.py 354-367: ['$p_{{{}}}$'.format(nparam)] *)
Definition generate_default_name (nparam : nat) : string :=
  ("$p_{" ++ dec nparam ++ "}$")%string.

(** settings/ModelParameters.py 46-82 *)
Definition add_model_parameter (ps : list param) (name : option string) (theta0 : option F)
    (minimum maximum mu sigma : F) (sample adapt : bool) : list param :=
  ps ++ [mkparam (match name with Some s => s | None => generate_default_name (List.length ps) end)
                 (match theta0 with Some t => t | None => n1 end)
                 minimum maximum mu sigma sample adapt].

(** settings/ModelParameters.py 211-225 *)
Definition setup_prior_mu (mu value : F) : F := if nisnan mu then value else mu.
(** settings/ModelParameters.py 229-242 *)
Definition setup_prior_sigma (sigma : F) : F := if neq sigma n0 then ninf else sigma.
(** settings/ModelParameters.py 143-160 *)
Definition setup_adapting (adapt sample : bool) : bool := if sample then adapt else false.

(** settings/ModelParameters.py 85-140.  The opened structure: attributes set by [_openparameterstructure]. *)
Record opened : Type := mkopened {
  op_names : list string;
  op_initial : list F;
  op_value : list F;
  op_parind : list nat;
  op_adapt : list nat;
  op_no_adapt : list bool;
  op_lower : list F;
  op_upper : list F;
  op_mu : list F;
  op_sigma : list F
}.

(** settings/ModelParameters.py 163-186; [parind] indexes an array of the same length, so the lookups never fail. *)
Definition setup_adaptation_indices (parind adapt : list bool) : list nat * list nat * list bool :=
  let no_adapt := map2 xorb adapt parind in
  let pi := flatnonzero parind in
  (pi, flatnonzero adapt, map (fun i => nth i no_adapt false) pi).

(** settings/ModelParameters.py 85-140 without local parameters (with them in Opening.v): one pass over the declarations. *)
Definition openparameterstructure (ps : list param) : opened :=
  let '(pi, ad, na) :=
    setup_adaptation_indices (map a_sample ps)
                             (map (fun p => setup_adapting (a_adapt p) (a_sample p)) ps) in
  mkopened (map a_name ps) (map a_theta0 ps) (map a_theta0 ps) pi ad na
           (map a_min ps) (map a_max ps)
           (map (fun p => setup_prior_mu (a_mu p) (a_theta0 p)) ps)
           (map (fun p => setup_prior_sigma (a_sigma p)) ps).

(** settings/ModelParameters.py 267-291, MCMC.py 199-203.  [x[parind]] for an index list known to be in range ([parind]
    comes from [flatnonzero] of an array
    of the same length). *)
Definition sel (x : list F) (ix : list nat) : list F := map (fun i => nth i x n0) ix.

(** settings/ModelParameters.py 267-280: exits unless [lower <= upper] for every sampled parameter. *)
Definition check_parameter_limits (op : opened) : res unit :=
  if forallb (fun b => b) (map2 nle (sel (op_lower op) (op_parind op)) (sel (op_upper op) (op_parind op)))
  then Ok tt else Err SysExit.

(** settings/ModelParameters.py 283-291 *)
Definition check_initial_values (op : opened) : res unit :=
  let v := sel (op_initial op) (op_parind op) in
  if existsb (fun b => b) (map2 nlt v (sel (op_lower op) (op_parind op)))
     || existsb (fun b => b) (map2 nlt (sel (op_upper op) (op_parind op)) v)
  then Err SysExit else Ok tt.

(** settings/ModelParameters.py 294-296, 335-350, 439-449 *)
Definition check_prior_sigma (op : opened) : opened :=
  mkopened (op_names op) (op_initial op) (op_value op) (op_parind op) (op_adapt op) (op_no_adapt op)
           (op_lower op) (op_upper op) (op_mu op)
           (map (fun s => if nle s n0 then ninf else s) (op_sigma op)).

(** samplers/Metropolis.py 57-80, MCMC.py 197-203.  The view used by the samplers. *)
Definition view (op : opened) : pview F :=
  mkpview (List.length (op_parind op)) (op_parind op)
          (sel (op_lower op) (op_parind op)) (sel (op_upper op) (op_parind op))
          (sel (op_mu op) (op_parind op)) (sel (op_sigma op) (op_parind op)).

(** settings/ModelParameters.py 245-264, MCMC.py 157-159.  The part of a results dictionary (in memory or loaded from a json
    file) that a restart reads:
    ['names'], ['parind'], ['theta'], ['qcov']. *)
Record restart : Type := mkrestart {
  rs_names : list string;
  rs_parind : list nat;
  rs_theta : list F;
  rs_qcov : list (list F)
}.

(** settings/ModelParameters.py 257-264, the inner loop for one stored name and value. *)
Definition restart_one (name : string) (v : F) (p : param) : param :=
  if String.eqb name (a_name p) then
    mkparam (a_name p) (if a_sample p then v else a_theta0 p) (a_min p) (a_max p)
            (if nisnan (a_mu p) then a_theta0 p else a_mu p) (a_sigma p) (a_sample p) (a_adapt p)
  else p.

(** settings/ModelParameters.py 245-264: loop over [enumerate(parind)]; [names[ii]], [theta[parii]]
    raise IndexError when absent.  The loop variables of ii = 0.. are carried by [ii]. *)
Fixpoint results_to_params_loop (ii : nat) (names : list string) (theta : list F)
    (parind : list nat) (ps : list param) : res (list param) :=
  match parind with
  | [] => Ok ps
  | parii :: t =>
      let* name := of_option IndexError (nth_error names ii) in
      let* v := of_option IndexError (nth_error theta parii) in
      results_to_params_loop (S ii) names theta t (map (restart_one name v) ps)
  end.
(** settings/ModelParameters.py 245-264 *)
Definition results_to_params (r : restart) (ps : list param) : res (list param) :=
  results_to_params_loop 0 (rs_names r) (rs_theta r) (rs_parind r) ps.

(** ** Model settings (settings/ModelSettings.py)

    [ms_alias] is true when the attributes [S20] and [sigma2] are the same array object (line 114);
    then an in-place change of sigma2 also changes S20.  The user passing one and the same array object for
    both is not modelled. *)
(** settings/ModelSettings.py 26-63 *)
Record modset : Type := mkms {
  ms_sigma2 : option (list F);
  ms_N : option (list F);
  ms_N0 : option (list F);
  ms_S20 : list F;
  ms_nbatch : option nat;
  ms_alias : bool
}.

(** settings/ModelSettings.py 26-80: defaults are sigma2=None, N=None, S20=nan, N0=None, nbatch=None.
    ([_array_type]: scalars and lists become one-dimensional arrays; arrays are taken to be one-dimensional.) *)
Definition define_model_settings (sigma2 N N0v S20 : option (list F)) (nbatch : option nat) : modset :=
  mkms sigma2 N N0v (match S20 with Some s => s | None => [nnan] end) nbatch false.

(** settings/ModelSettings.py 117-136.  [np.array_equal] of one-dimensional arrays. *)
Definition array_equal (x y : list F) : bool :=
  (List.length x =? List.length y) && forallb (fun b => b) (map2 neq x y).

(** settings/ModelSettings.py 117-136 *)
Definition check_number_of_observations (udN dsN : list F) : res (list F) :=
  if array_equal udN dsN then Ok dsN
  else if (List.length udN <? List.length dsN) && (List.length udN =? 1) then
    if forallb (fun d => neq d (nth 0 udN n0)) dsN then Ok dsN else Err SysExit
  else if (List.length dsN <? List.length udN) && (List.length dsN =? 1) then
    if forallb (fun u => neq (nth 0 dsN n0) u) udN then Ok udN else Err SysExit
  else Err SysExit.

(** settings/ModelSettings.py 82-114.  The test on line 109, [not(np.isnan(self.S20)).any], is the negation of
    a bound method and therefore always false. *)
Definition check_dependent_model_settings (m : modset) (d : data) : res modset :=
  let nbatch := match ms_nbatch m with Some b => b | None => get_number_of_batches d end in
  let dsN := map nnat (dt_n d) in
  let* N := match ms_N m with
            | Some udN => check_number_of_observations udN dsN
            | None => Ok dsN
            end in
  let '(sigma2, N0v) :=
    match ms_N0 m, ms_sigma2 m with
    | None, None => (Some [n1], [n0])
    | None, Some s => (Some s, [n1])
    | Some n, s => (s, n)
    end in
  let sigma2 := match sigma2 with Some s => s | None => repeat n1 nbatch end in
  let '(S20, alias) :=
    if existsb nisnan (ms_S20 m) then (sigma2, true) else (ms_S20 m, ms_alias m) in
  Ok (mkms (Some sigma2) (Some N) (Some N0v) S20 (Some nbatch) alias).

(** settings/ModelSettings.py 160-184 *)
Definition check_size_of_setting (x : list F) (nsos : nat) : res (list F) :=
  match x with
  | [a] => Ok (repeat (nmul n1 a) nsos)
  | _ => if nsos <? List.length x then Err SysExit
         else if List.length x <? nsos then Err SysExit
         else Ok x
  end.

(** settings/ModelSettings.py 186-195 *)
Definition check_size_of_observations (N : list F) (nsos : nat) : res (list F) :=
  match N with
  | [a] => Ok (repeat (nmul n1 a) nsos)
  | _ => if (List.length N <? nsos) && (1 <? List.length N) then Err SysExit
         else if (nsos =? 1) && (1 <? List.length N) then Ok [vsum N]
         else Ok N
  end.

(** settings/ModelSettings.py 138-158.  A one-element setting becomes a new array, so the aliasing of S20 and
    sigma2 ends there; otherwise both keep their object. *)
Definition check_wrt_nsos (m : modset) (nsos : nat) : res modset :=
  let sigma2 := match ms_sigma2 m with Some s => s | None => [] end in
  let N0v := match ms_N0 m with Some s => s | None => [] end in
  let N := match ms_N m with Some s => s | None => [] end in
  let* S20' := check_size_of_setting (ms_S20 m) nsos in
  let* N0v' := check_size_of_setting N0v nsos in
  let* sigma2' := check_size_of_setting sigma2 nsos in
  let* N' := check_size_of_observations N nsos in
  Ok (mkms (Some sigma2') (Some N') (Some N0v') S20' (ms_nbatch m)
           (ms_alias m && negb (List.length sigma2 =? 1))).

(** ** Simulation options (settings/SimulationOptions.py) *)

(** settings/SimulationOptions.py 27-39.  Arguments of define_simulation_options; [None] is Python's None.
    Only the options that influence the modelled behaviour are listed. *)
Record rawopts : Type := mkraw {
  w_nsimu : nat;
  w_method : method;
  w_adaptint : option Z;
  w_ntry : option nat;
  w_doram : option bool;
  w_adascale : option F;
  w_printint : option Z;
  w_lastadapt : Z;
  w_burnintime : Z;
  w_qcov : option (list (list F));
  w_initqcovn : option F;
  w_updatesigma : bool;
  w_qcov_adjust : F;
  w_burnin_scale : F;
  w_alphatarget : F;
  w_etaparam : F;
  w_drscale : list F;
  w_RDR : option (list (list (list F)));
  w_savesize : Z;
  w_chainfile : string;
  w_sschainfile : string;
  w_s2chainfile : string;
  w_covchainfile : string;
  w_savedir : option string;
  w_save_to_bin : bool;
  w_save_to_txt : bool;
  w_save_to_json : bool;
  w_save_lightly : bool;
  w_results_filename : option string;
  w_restart : option restart      (** contents of json_restart_file *)
}.

(** settings/SimulationOptions.py 104-170 *)
Record simopts : Type := mkopts {
  o_nsimu : nat;
  o_method : method;
  o_adaptint : Z;
  o_ntry : nat;
  o_dodram : bool;
  o_doram : bool;
  o_adascale : option F;
  o_printint : option Z;
  o_lastadapt : Z;
  o_burnintime : Z;
  o_qcov : option (list (list F));
  o_initqcovn : option F;
  o_updatesigma : bool;
  o_qcov_adjust : F;
  o_burnin_scale : F;
  o_alphatarget : F;
  o_etaparam : F;
  o_drscale : list F;
  o_RDR : option (list (list (list F)));
  o_savesize : Z;
  o_chainfile : string;
  o_sschainfile : string;
  o_s2chainfile : string;
  o_covchainfile : string;
  o_savedir : string;
  o_save_to_bin : bool;
  o_save_to_txt : bool;
  o_save_to_json : bool;
  o_save_lightly : bool;
  o_results_filename : option string;
  o_restart : option restart
}.

(** settings/SimulationOptions.py 96-102: the method dictionary *)
Definition method_adaptint (m : method) : Z :=
  match m with MH => 0 | AM => 100 | DR => 0 | DRAM => 100 | RAM => 1 end.
(** settings/SimulationOptions.py 96-102 *)
Definition method_ntry (m : method) : nat :=
  match m with MH => 1 | AM => 1 | DR => 2 | DRAM => 2 | RAM => 1 end.
(** settings/SimulationOptions.py 96-102 *)
Definition method_doram (m : method) : bool :=
  match m with RAM => true | _ => false end.
(** settings/SimulationOptions.py 96-102 *)
Definition method_adascale (m : method) (adascale : option F) : option F :=
  match m with RAM => Some n1 | _ => adascale end.

(** settings/SimulationOptions.py 219-239 *)
Definition check_lightly_save (save_lightly save_to_json save_to_bin save_to_txt : bool) : bool :=
  if save_to_json then save_to_bin || save_to_txt else save_lightly.

(** settings/SimulationOptions.py 27-170; [datestr] is the current time as text. *)
Definition define_simulation_options (w : rawopts) (datestr : string) : simopts :=
  let m := w_method w in
  mkopts (w_nsimu w) m
    (match w_adaptint w with
     | None => method_adaptint m
     | Some a => match m with MH | DR => method_adaptint m | _ => a end
     end)
    (match w_ntry w with None => method_ntry m | Some n => n end)
    false
    (match w_doram w with None => method_doram m | Some b => b end)
    (match w_adascale w with None => method_adascale m None | Some a => Some a end)
    (w_printint w) (w_lastadapt w) (w_burnintime w) (w_qcov w) (w_initqcovn w) (w_updatesigma w)
    (w_qcov_adjust w) (w_burnin_scale w) (w_alphatarget w) (w_etaparam w) (w_drscale w) (w_RDR w)
    (w_savesize w) (w_chainfile w) (w_sschainfile w) (w_s2chainfile w) (w_covchainfile w)
    (match w_savedir w with None => (datestr ++ "_chain_log")%string | Some s => s end)
    (w_save_to_bin w) (w_save_to_txt w) (w_save_to_json w)
    (check_lightly_save (w_save_lightly w) (w_save_to_json w) (w_save_to_bin w) (w_save_to_txt w))
    (w_results_filename w) (w_restart w).

(** settings/SimulationOptions.py 172-198 *)
Definition check_dependent_simulation_options (o : simopts) (n0_given : bool) : simopts :=
  let nsimu := Z.of_nat (o_nsimu o) in
  let savesize := if ((o_savesize o <=? 0) || (nsimu <? o_savesize o))%Z then nsimu else o_savesize o in
  let lastadapt := if (o_lastadapt o <? 1)%Z then nsimu else o_lastadapt o in
  let printint := match o_printint o with
                  | None => Some (Z.max 100 (Z.min 1000 (o_adaptint o)))
                  | p => p
                  end in
  mkopts (o_nsimu o) (o_method o) (o_adaptint o) (o_ntry o) (1 <? o_ntry o) (o_doram o) (o_adascale o)
    printint lastadapt (o_burnintime o) (o_qcov o) (o_initqcovn o)
    (if n0_given then true else o_updatesigma o)
    (o_qcov_adjust o) (o_burnin_scale o) (o_alphatarget o) (o_etaparam o) (o_drscale o) (o_RDR o)
    savesize (o_chainfile o) (o_sschainfile o) (o_s2chainfile o) (o_covchainfile o)
    (o_savedir o) (o_save_to_bin o) (o_save_to_txt o) (o_save_to_json o) (o_save_lightly o)
    (o_results_filename o) (o_restart o).

(** MCMC.py 159: the covariance of a restart file becomes the user covariance. *)
Definition set_qcov (o : simopts) (q : list (list F)) : simopts :=
  mkopts (o_nsimu o) (o_method o) (o_adaptint o) (o_ntry o) (o_dodram o) (o_doram o) (o_adascale o)
    (o_printint o) (o_lastadapt o) (o_burnintime o) (Some q) (o_initqcovn o) (o_updatesigma o)
    (o_qcov_adjust o) (o_burnin_scale o) (o_alphatarget o) (o_etaparam o) (o_drscale o) (o_RDR o)
    (o_savesize o) (o_chainfile o) (o_sschainfile o) (o_s2chainfile o) (o_covchainfile o)
    (o_savedir o) (o_save_to_bin o) (o_save_to_txt o) (o_save_to_json o) (o_save_lightly o)
    (o_results_filename o) (o_restart o).

(** samplers/Adaptation.py 99-126.  The options read by an adaptation. *)
Definition ado_of (o : simopts) : adopts F :=
  mkado (o_burnintime o) (o_burnin_scale o) (o_ntry o) (o_drscale o) (o_alphatarget o)
        (o_etaparam o) (o_qcov_adjust o) (o_doram o).

End Settings.

Arguments data F : clear implicits.
Arguments dataset F : clear implicits.
Arguments param F : clear implicits.
Arguments opened F : clear implicits.
Arguments restart F : clear implicits.
Arguments modset F : clear implicits.
Arguments rawopts F : clear implicits.
Arguments simopts F : clear implicits.
