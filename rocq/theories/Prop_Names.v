(** C90: the names of the parameters.

    In any arithmetic, with or without restart files: different names for the parameters change nothing but the names. *)

From Coq Require Import ZArith QArith Bool Lia List String.
From Verif Require Import Base Num Samplers Adapt Settings Simulator SamplerFacts RunSpec OriginFacts NameSpec Demo DemoLogs.
Import ListNotations.
Open Scope list_scope.
Open Scope nat_scope.
Open Scope res_scope.

Section Names.
Context {F : Type} `{NF : Num F}.
Variable f : string -> string.
Hypothesis inj : forall a b, f a = f b -> a = b.
Variable E : env F.

Definition named_opened (op : opened F) : opened F :=
  mkopened (map f (op_names op)) (op_initial op) (op_value op) (op_parind op) (op_adapt op) (op_no_adapt op) (op_lower op) (op_upper op) (op_mu op) (op_sigma op).
Definition named_init (I : initrec F) : initrec F :=
  mkinit (named_opts f (i_opts I)) (i_model I) (named_opened (i_op I)) (i_cov I) (i_set I) (i_nsos I) (i_iacce I) (i_io I).

Lemma open_named ps : openparameterstructure (map (named_param f) ps) = named_opened (openparameterstructure ps).
Proof. unfold openparameterstructure. rewrite !map_map. unfold named_opened. cbn [setup_adaptation_indices op_names op_initial op_value op_parind op_adapt op_no_adapt op_lower op_upper op_mu op_sigma]. rewrite map_map. reflexivity. Qed.
Lemma init_named ps d ms o rdr pos calls :
  initialize_simulation E (map (named_param f) ps) d ms (named_opts f o) rdr pos calls = rmap named_init (initialize_simulation E ps d ms o rdr pos calls).
Proof.
  unfold initialize_simulation. rewrite open_named, rmap_bind. apply bind_ext. intros m1 _. rewrite rmap_bind. apply bind_ext. intros _ _. rewrite rmap_bind. apply bind_ext. intros _ _.
  rewrite rmap_bind. apply bind_ext. intros cov _.
  change (view (check_prior_sigma (named_opened (openparameterstructure ps)))) with (view (check_prior_sigma (openparameterstructure ps))).
  change (op_initial (check_prior_sigma (named_opened (openparameterstructure ps)))) with (op_initial (check_prior_sigma (openparameterstructure ps))).
  change (op_parind (check_prior_sigma (named_opened (openparameterstructure ps)))) with (op_parind (check_prior_sigma (openparameterstructure ps))).
  destruct (evaluate_sos_function E _ _ _) as [ss s1]. rewrite rmap_bind. apply bind_ext. intros m2 _. reflexivity.
Qed.
Lemma loop_named names theta : forall l ii ps,
  results_to_params_loop ii (map f names) theta l (map (named_param f) ps) = rmap (map (named_param f)) (results_to_params_loop ii names theta l ps).
Proof.
  induction l as [|i l IH]; intros ii ps; cbn [results_to_params_loop]; [reflexivity|]. rewrite nth_error_map.
  destruct (nth_error names ii) as [n|]; [|reflexivity]. cbn [option_map of_option bind]. destruct (nth_error theta i) as [v|]; [|reflexivity]. cbn [of_option bind].
  rewrite <- IH. f_equal. rewrite !map_map. apply map_ext. intros p. unfold restart_one. cbn [named_param a_name].
  assert (X : String.eqb (f n) (f (a_name p)) = String.eqb n (a_name p)).
  { destruct (String.eqb_spec n (a_name p)) as [->|N]; [apply String.eqb_refl|]. apply String.eqb_neq. intros H. now apply N, inj. }
  rewrite X. destruct (String.eqb n (a_name p)); reflexivity.
Qed.
Lemma step_named o V n N0 N al ch i st : step E (mkrc (named_opts f o) V n N0 N al ch) i st = step E (mkrc o V n N0 N al ch) i st.
Proof. reflexivity. Qed.
Lemma iterate_named o V n N0 N al ch is : forall st, iterate E (mkrc (named_opts f o) V n N0 N al ch) is st = iterate E (mkrc o V n N0 N al ch) is st.
Proof. induction is as [|i is IH]; intros st; cbn [iterate]; [reflexivity|]. rewrite step_named. apply bind_ext. intros t _. apply IH. Qed.
Lemma execute_named o V n N0 N al ch st : execute E (mkrc (named_opts f o) V n N0 N al ch) st = execute E (mkrc o V n N0 N al ch) st.
Proof. unfold execute. cbn [k_opts named_opts o_nsimu]. rewrite iterate_named. reflexivity. Qed.

(** Places of sampled parameters are places of declared ones. *)
Definition placed (op : opened F) : Prop := forall i, In i (op_parind op) -> i < List.length (op_names op).
Lemma init_placed ps d ms o rdr pos calls I : initialize_simulation E ps d ms o rdr pos calls = Ok I -> placed (i_op I).
Proof.
  unfold initialize_simulation. intros H.
  repeat match type of H with
  | bind ?x _ = Ok _ => destruct x; [cbn [bind] in H|discriminate]
  | (let (_, _) := ?x in _) = Ok _ => destruct x
  end.
  inversion H; subst I. intros j Hj. assert (X : In j (flatnonzero (map (@a_sample F) ps))) by exact Hj. apply flatnonzero_spec in X.
  enough (Y : j < List.length (map (@a_name F) ps)) by exact Y. rewrite map_length, <- (map_length (@a_sample F) ps). apply nth_error_Some. congruence.
Qed.
Lemma prepared_named m ps I index arrays : placed (i_op I) ->
  run_prepared E (named f m) (map (named_param f) ps) (named_init I) index arrays = rmap (named f) (run_prepared E m ps I index arrays).
Proof.
  intros P. destruct arrays as [[[ch ss] s2] chains]. unfold run_prepared. rewrite rmap_bind.
  change (make_const (named_init I) chains) with
    (mkrc (named_opts f (i_opts I)) (view (i_op I)) (i_nsos I) (lst (ms_N0 (i_model I))) (lst (ms_N (i_model I))) (ms_alias (i_model I)) chains).
  rewrite execute_named. change (start_state (named_init I) index ch ss s2 (m_fs (named f m))) with (start_state I index ch ss s2 (m_fs m)).
  apply bind_ext. intros st _. cbn [rmap]. f_equal. unfold named. cbn [m_params m_data m_model m_opts m_RDR m_status m_chain m_sschain m_s2chain m_index m_chains m_pos m_calls m_fs m_results m_trace named_init i_opts i_model].
  f_equal. cbn [option_map]. f_equal. unfold generate_results, named_results.
  cbn [named_init i_op i_opts named_opened op_names op_parind rr_theta rr_parind rr_total_rejected rr_outside rr_R rr_qcov rr_cov rr_mean rr_names rr_allnames rr_lower rr_upper rr_nsimu rr_iacce rr_opts rr_model rr_chain rr_sschain rr_s2chain].
  assert (N : map (fun i => nth i (map f (op_names (i_op I))) EmptyString) (op_parind (i_op I)) = map f (map (fun i => nth i (op_names (i_op I)) EmptyString) (op_parind (i_op I)))).
  { rewrite map_map. apply map_ext_in. intros i Hi. apply P in Hi. rewrite (nth_indep _ EmptyString (f EmptyString)) by (rewrite map_length; exact Hi). apply map_nth. }
  rewrite N. reflexivity.
Qed.
Lemma to_params_named r ps : results_to_params (named_restart f r) (map (named_param f) ps) = rmap (map (named_param f)) (results_to_params r ps).
Proof. apply loop_named. Qed.
Lemma run_named u m : run_simulation E u (named f m) = rmap (named f) (run_simulation E u m).
Proof.
  destruct u.
  - transitivity (match m_status m, option_map (named_results f) (m_results m) with
      | true, Some r => bind (results_to_params (restart_of r) (map (named_param f) (m_params m))) (fun ps =>
          bind (initialize_simulation E ps (m_data m) (m_model m) (named_opts f (m_opts m)) (m_RDR m) (m_pos m) (m_calls m)) (fun ini =>
          bind (expand_chains (named f m) ini) (fun arrays => run_prepared E (named f m) ps ini (m_index m) arrays)))
      | _, _ => Err SysExit end); [reflexivity|].
    unfold run_simulation. destruct (m_status m); [|reflexivity]. destruct (m_results m) as [r|]; [|reflexivity]. cbn [option_map].
    change (restart_of (named_results f r)) with (named_restart f (restart_of r)). rewrite to_params_named, bind_rmap, rmap_bind. apply bind_ext. intros ps _.
    rewrite init_named, bind_rmap, rmap_bind. apply bind_ext. intros I HI. change (expand_chains (named f m) (named_init I)) with (expand_chains m I). rewrite rmap_bind.
    apply bind_ext. intros arrays _. apply prepared_named. now apply (init_placed _ _ _ _ _ _ _ _ HI).
  - transitivity (bind (rmap (fun x => (map (named_param f) (fst x), named_opts f (snd x)))
      (match o_restart (m_opts m) with None => Ok (m_params m, m_opts m) | Some r => let* ps := results_to_params r (m_params m) in Ok (ps, set_qcov (m_opts m) (rs_qcov r)) end))
      (fun x => let (ps, o) := x in let* ini := initialize_simulation E ps (m_data m) (m_model m) o (m_RDR m) (m_pos m) (m_calls m) in
         let* arrays := initialize_chains ini (lst (ms_sigma2 (i_model ini))) in run_prepared E (named f m) ps ini 0 arrays)).
    + unfold run_simulation. change (o_restart (m_opts (named f m))) with (option_map (named_restart f) (o_restart (m_opts m))).
      destruct (o_restart (m_opts m)) as [r|]; [|reflexivity]. cbn [option_map]. rewrite rmap_bind. change (m_params (named f m)) with (map (named_param f) (m_params m)).
      rewrite to_params_named, bind_rmap. destruct (results_to_params r (m_params m)); reflexivity.
    + unfold run_simulation. rewrite bind_rmap, rmap_bind. apply bind_ext. intros [ps o] _. cbn [fst snd]. rewrite rmap_bind, init_named, bind_rmap. apply bind_ext. intros I HI. rewrite rmap_bind.
      change (initialize_chains (named_init I) (lst (ms_sigma2 (i_model (named_init I))))) with (initialize_chains I (lst (ms_sigma2 (i_model I)))). apply bind_ext. intros arrays _.
      apply prepared_named. now apply (init_placed _ _ _ _ _ _ _ _ HI).
Qed.
Lemma acts_named l : forall m, acts E (map (named_action f) l) (named f m) = rmap (named f) (acts E l m).
Proof.
  induction l as [|a l IH]; intros m; cbn [acts map]; [reflexivity|]. rewrite rmap_bind.
  transitivity (bind (rmap (named f) (act E a m)) (acts E (map (named_action f) l))).
  - f_equal. destruct a as [o|ms|u]; [reflexivity|reflexivity|]. apply run_named.
  - rewrite bind_rmap. apply bind_ext. intros t _. apply IH.
Qed.
End Names.

(** A renaming under which different names stay different changes nothing in a session but the names, failures included. *)
Theorem C90_names : forall {F} `{NF : Num F} (f : string -> string), (forall a b, f a = f b -> a = b) ->
  forall (E : env F) ps d ms o pos l actions,
  match acts E actions (new_mcmc ps d ms o pos l), acts E (map (named_action f) actions) (new_mcmc (map (named_param f) ps) d ms (named_opts f o) pos l) with
  | Ok m, Ok m' => m' = named f m
  | Err e, Err e' => e' = e
  | _, _ => False
  end.
Proof.
  intros F NF f inj E ps d ms o pos l a.
  change (new_mcmc (map (named_param f) ps) d ms (named_opts f o) pos l) with (named f (new_mcmc ps d ms o pos l)). rewrite (acts_named f inj E a).
  destruct (acts E a _); reflexivity.
Qed.
Print Assumptions C90_names.

(** The condition is needed: two parameters with the same name get one value when a run is continued or restarted. *)
Theorem C90_equal_names_are_confused : forall {F} `{NF : Num F} n (p q : param F) x y Q, a_name p = n -> a_name q = n -> a_sample p = true -> a_sample q = true ->
  exists p' q', results_to_params (mkrestart [n; n] [0; 1] [x; y] Q) [p; q] = Ok [p'; q'] /\ a_theta0 p' = y /\ a_theta0 q' = y.
Proof.
  intros F NF n [pn ? ? ? ? ? ps ?] [qn ? ? ? ? ? qs ?] x y Q Hp Hq Hs Ht. cbn in Hp, Hq, Hs, Ht. subst.
  unfold results_to_params. cbn [results_to_params_loop rs_names rs_theta rs_parind nth_error of_option bind map]. unfold restart_one. cbn [a_name a_sample].
  rewrite String.eqb_refl. cbn [a_name a_sample]. rewrite String.eqb_refl. do 2 eexists. split; [reflexivity|]. split; reflexivity.
Qed.
Print Assumptions C90_equal_names_are_confused.

(** A run of DemoLogs.v that starts from a restart file, with an "x" put before all names. *)
Definition with_x (s : string) : string := ("x" ++ s)%string.
Example C90_case : (forall a b, with_x a = with_x b -> a = b) /\ o_restart (m_opts front_again) = Some (restart_of front4_results) /\
  exists m, run_simulation demo_env false front_again = Ok m /\ run_simulation demo_env false (named with_x front_again) = Ok (named with_x m) /\
    m_chain (named with_x m) = m_chain m /\ option_map (@rr_names XQ) (m_results (named with_x m)) = Some ["xa"; "xb"]%string.
Proof.
  assert (J : forall a b, with_x a = with_x b -> a = b) by (intros a b H; now injection H).
  split; [exact J|]. split; [reflexivity|]. exists front_again3. split; [exact front_again3_ok|]. split; [|split; reflexivity].
  transitivity (rmap (named with_x) (run_simulation demo_env false front_again)); [apply (run_named with_x J)|].
  transitivity (rmap (named with_x) (Ok front_again3)); [|reflexivity]. apply (f_equal (rmap (named with_x))). exact front_again3_ok.
Qed.
