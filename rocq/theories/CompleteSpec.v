(** Well-formed problems: what a user has to provide for a run to come to its end.  Stated on the declarations,
    the settings and the user's functions only. *)

From Coq Require Import ZArith QArith Bool Lia List String.
From Verif Require Import Base Num Samplers Adapt Settings Simulator RunSpec.
Import ListNotations.
Open Scope list_scope.
Open Scope nat_scope.

Section Spec.
Context {F : Type} `{NF : Num F}.

(** An n x n matrix. *)
Definition square (n : nat) (M : list (list F)) : Prop := List.length M = n /\ Forall (fun r => List.length r = n) M.

(** One value, or one value per component of the sum of squares. *)
Definition one_or_all (nsos : nat) (x : list F) : Prop := List.length x = 1 \/ List.length x = nsos.

(** The proposal covariance a run starts with: the one given, or the default variances on the diagonal. *)
Definition start_variance (p : param F) : F :=
  default_variance (if neq (a_sigma p) n0 || nle (a_sigma p) n0 then ninf else a_sigma p) (a_theta0 p).
Definition start_covariance (ps : list (param F)) (o : simopts F) : list (list F) :=
  match o_qcov o with Some q => q | None => diagflat (map start_variance ps) end.

(** A covariance may also be given as a single row or column of variances. *)
Definition as_vector (q : list (list F)) : Prop := Nat.min (List.length q) (ncols q) = 1.
Definition positions (ps : list (param F)) : list nat := flatnonzero (map (@a_sample F) ps).
Definition restrict (q : list (list F)) (ix : list nat) : list (list F) :=
  map (fun i => map (fun j => nth j (nth i q []) n0) ix) ix.

(** The factor a run starts with. *)
Inductive start_factor (E : env F) (q : list (list F)) (ix : list nat) : list (list F) -> Prop :=
| sf_vector : as_vector q ->
    start_factor E q ix (map (fun i => map (fun j => nsqrt (if i =? j then nth i (List.concat q) n0 else n0)) ix) ix)
| sf_single i : ix = [i] -> start_factor E q ix [[nsqrt (nth i (nth i q []) n0)]]
| sf_chol L : e_chol E (restrict q ix) = Some L -> start_factor E q ix (transpose L).

(** Delayed rejection needs the inverses of the factors in use: they belong to a class of matrices that the
    solver inverts. *)
Record inverses (E : env F) (n : nat) (o : simopts F) (q : list (list F)) (ix : list nat) (Fac : list (list F) -> Prop) : Prop := mkinverses {
  iv_solved : forall M, square n M -> Fac M -> e_inv E M <> None;
  iv_start : forall R, start_factor E q ix R -> Fac R;
  iv_chol : forall A L, square n A -> e_chol E A = Some L -> Fac (transpose L);
  iv_scaled : forall M, square n M -> Fac M -> Fac (mscale (check_adascale (o_adascale o) n) M);
  iv_divided : forall M d, square n M -> Fac M -> In d (o_drscale o) -> Fac (mscale (ninv d) M);
  iv_given : forall l, o_RDR o = Some l -> l <> [] /\ o_ntry o <= List.length l /\ Forall (fun P => square n P /\ Fac P) l
}.

(** Names of the files that blocks of the chains are appended to. *)
Definition file_names (o : simopts F) : list string := [o_chainfile o; o_sschainfile o; o_s2chainfile o; o_covchainfile o].

(** The numbers of observations given agree with the data: the same numbers, one number for all data sets, or one data
    set whose number is repeated. *)
Definition agrees (nsos : nat) (counts : list nat) (N : list F) : Prop :=
  Forall2 (fun a k => neq a (nnat k) = true) N counts \/
  (exists a, N = [a] /\ 1 < List.length counts /\ forall k, In k counts -> neq (nnat k) a = true) \/
  (exists k, counts = [k] /\ 1 < List.length N /\ nsos <= List.length N /\ forall a, In a N -> neq (nnat k) a = true).

(** Parameters, user functions, data and model settings that fit together, for [nsos] sums of squares. *)
Record settings_fit (E : env F) (ps : list (param F)) (d : data F) (ms : modset F) (nsos : nat) : Prop := mksf {
  wf_sampled : exists p, In p ps /\ a_sample p = true;
  wf_limits : forall p, In p ps -> a_sample p = true ->
    nle (a_min p) (a_max p) = true /\ nlt (a_theta0 p) (a_min p) = false /\ nlt (a_max p) (a_theta0 p) = false;
  (** the sum of squares has a fixed number of components *)
  wf_nsos : 0 < nsos;
  wf_sos : forall v, List.length v = List.length ps -> List.length (e_sos E v) = nsos;
  wf_sigma2 : forall s, ms_sigma2 ms = Some s -> one_or_all nsos s;
  wf_N0 : forall s, ms_N0 ms = Some s -> one_or_all nsos s;
  wf_S20 : one_or_all nsos (ms_S20 ms);
  wf_batches : ms_sigma2 ms = None -> ms_N0 ms <> None ->
    forall b, b = match ms_nbatch ms with Some b => b | None => List.length (dt_shape d) end -> b = 1 \/ b = nsos;
  wf_N : forall N, ms_N ms = Some N -> agrees nsos (dt_n d) N;
  wf_data : List.length (dt_n d) = 1 \/ nsos <= List.length (dt_n d)
}.

(** Options that fit the parameters and the files that exist. *)
Record options_fit (E : env F) (ps : list (param F)) (o : simopts F) (l : fs F) : Prop := mkof {
  wf_nsimu : 2 <= o_nsimu o;
  (** the proposal covariance *)
  wf_chol : forall A L, square (List.length (positions ps)) A -> e_chol E A = Some L -> square (List.length (positions ps)) L;
  wf_cov : square (List.length ps) (start_covariance ps o) \/
           (as_vector (start_covariance ps o) /\ List.length (List.concat (start_covariance ps o)) = List.length ps);
  wf_factor : 1 < List.length (positions ps) -> as_vector (start_covariance ps o) \/
              e_chol E (restrict (start_covariance ps o) (positions ps)) <> None;
  (** delayed rejection *)
  wf_stages : 1 < o_ntry o -> uses_dr_setup (o_method o) = true /\ o_doram o = false /\ (o_burnintime o <= o_adaptint o)%Z /\ o_drscale o <> [];
  wf_inverses : uses_dr_setup (o_method o) = true -> exists Fac, inverses E (List.length (positions ps)) o (start_covariance ps o) (positions ps) Fac;
  (** binary logs: different names, and nothing there yet *)
  wf_names : o_save_to_bin o = true -> NoDup (file_names o);
  wf_files : o_save_to_bin o = true -> forall f, In f (file_names o) -> h5_sets (o_savedir o, f, "h5"%string) l = []
}.

Definition well_formed (E : env F) (ps : list (param F)) (d : data F) (ms : modset F) (o : simopts F) (l : fs F) (nsos : nat) : Prop :=
  settings_fit E ps d ms nsos /\ options_fit E ps o l /\ o_restart o = None.

(** The same declarations with other starting values, between the limits, for the sampled parameters. *)
Definition other_start (p p' : param F) : Prop :=
  a_name p' = a_name p /\ a_min p' = a_min p /\ a_max p' = a_max p /\ a_sigma p' = a_sigma p /\ a_sample p' = a_sample p /\ a_adapt p' = a_adapt p /\
  (a_sample p = false -> a_theta0 p' = a_theta0 p) /\
  (a_sample p = true -> nlt (a_theta0 p') (a_min p) = false /\ nlt (a_max p) (a_theta0 p') = false).

(** What is needed besides to continue runs: variances estimated from the beginning, different names of the sampled
    parameters, and numbers of observations that are not summed up (and for which the arithmetic has k = k and 1 k = k). *)
Record can_continue (ps : list (param F)) (d : data F) (ms : modset F) (o : simopts F) (nsos : nat) : Prop := mkcc {
  cc_sigma : o_updatesigma o = true \/ ms_N0 ms <> None;
  cc_names : NoDup (map (@a_name F) (sampled_params ps));
  cc_data : List.length (dt_n d) = 1 \/ List.length (dt_n d) = nsos;
  cc_N : nsos = 1 -> forall N, ms_N ms = Some N -> List.length N = 1;
  cc_counts : forall k, In k (dt_n d) -> neq (nnat k) (nnat k) = true /\ neq (nmul n1 (nnat k)) (nnat k) = true /\ neq (nnat k) (nmul n1 (nnat k)) = true
}.

(** Options for continuing: they fit wherever the chain has got to, and nothing is logged to binary files. *)
Definition next_options (E : env F) (ps : list (param F)) (o : simopts F) : Prop :=
  o_save_to_bin o = false /\ forall ps', Forall2 other_start ps ps' -> options_fit E ps' o [].

(** A run is continued as many times as there are options for it. *)
Definition continued (os : list (simopts F)) : list (action F) := flat_map (fun o' => [SetOptions o'; Run true]) os.

(** The run comes to its end; [stuck] is allowed only for the rejection loop of the gamma generator, which is entered
    when error variances are estimated. *)
Definition comes_to_end {A} (sigma_drawn : Prop) (r : res A) : Prop :=
  (exists a, r = Ok a) \/ (sigma_drawn /\ r = Err OutOfFuel).
End Spec.
