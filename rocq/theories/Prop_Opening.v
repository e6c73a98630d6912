(** Properties of local parameters and of the table of parameters. *)

From Coq Require Import ZArith QArith Bool Lia List String.
From Verif Require Import Base Num ChainFiles Samplers Settings RunSpec SamplerFacts RunLift Opening OpeningFacts Demo.
Import ListNotations.
Close Scope Q_scope.
Open Scope list_scope.
Open Scope nat_scope.

(** ** C80: local parameters

    A parameter declared local should have a value for each batch.  If no fixed parameter is local, or there is one batch, the
    flags have no effect at all: the structure is the one without flags. *)
Theorem C80_flag_without_effect_partial :
  forall F (NF : Num F) nbatch (ps : list (lparam F)),
  nbatch = 1 \/ (forall p, In p ps -> lp_local p = true -> a_sample (lp_par p) = true) ->
  open_local nbatch ps = Ok (openparameterstructure (map (@lp_par F) ps)).
Proof.
  intros F NF nb ps H. rewrite <- opened_all, map_length. eapply open_first; [|reflexivity].
  rewrite scan_plain; [reflexivity|]. destruct H as [H|H]; [now left|right]. apply Forall_forall. intros p Hp.
  unfold fixed_local. destruct (lp_local p) eqn:E; [rewrite (H p Hp E); reflexivity|apply andb_false_r].
Qed.
Print Assumptions C80_flag_without_effect_partial.

(** A fixed parameter that is local makes the run fail as soon as there are two batches. *)
Theorem C80_fixed_local_fails :
  forall F (NF : Num F) nbatch (ps : list (lparam F)) p,
  2 <= nbatch -> In p ps -> lp_local p = true -> a_sample (lp_par p) = false -> open_local nbatch ps = Err ValueError.
Proof.
  intros F NF nb ps p Hn Hp H1 H2. unfold open_local. rewrite scan_fails; [reflexivity|exact Hn|].
  apply Exists_exists. exists p. split; [exact Hp|]. unfold fixed_local. now rewrite H1, H2.
Qed.
Print Assumptions C80_fixed_local_fails.

(** The number of values needed if every local parameter has one for each batch. *)
Definition values_needed {F} (nbatch : nat) (ps : list (lparam F)) : nat :=
  natlist_sum (map (fun p => if lp_local p then nbatch else 1) ps).

Lemma needed_more {F} nb (ps : list (lparam F)) : 2 <= nb -> List.length ps <= values_needed nb ps /\
  ((exists p, In p ps /\ lp_local p = true) -> List.length ps < values_needed nb ps).
Proof.
  intros Hn. unfold values_needed, natlist_sum. induction ps as [|p t [IH1 IH2]]; cbn [map fold_right List.length].
  - split; [lia|]. intros (p & [] & _).
  - split; [destruct (lp_local p); lia|]. intros (q & [->|Hq] & H).
    + rewrite H. lia.
    + assert (List.length t < fold_right Nat.add 0 (map (fun p0 => if lp_local p0 then nb else 1) t)) by (apply IH2; eauto).
      destruct (lp_local p); lia.
Qed.

(** So with two batches and a local parameter the structure never has the values it needs. *)
Theorem C80_refuted_value_for_each_batch :
  forall F (NF : Num F) nbatch (ps : list (lparam F)) p op,
  2 <= nbatch -> In p ps -> lp_local p = true -> open_local nbatch ps = Ok op ->
  List.length (op_initial op) < values_needed nbatch ps.
Proof.
  intros F NF nb ps p op Hn Hp Hl H.
  destruct (existsb fixed_local ps) eqn:E.
  - apply existsb_exists in E as (q & Hq & E). unfold fixed_local in E. apply andb_true_iff in E as [E1 E2]. apply negb_true_iff in E1.
    rewrite (C80_fixed_local_fails F NF nb ps q Hn Hq E2 E1) in H. discriminate.
  - rewrite C80_flag_without_effect_partial in H.
    + injection H as <-. cbn. rewrite !map_length. apply needed_more; [exact Hn|eauto].
    + right. intros q Hq Hlq. destruct (a_sample (lp_par q)) eqn:Es; [reflexivity|]. exfalso.
      assert (existsb fixed_local ps = true); [|congruence]. apply existsb_exists. exists q. split; [exact Hq|]. unfold fixed_local. now rewrite Es, Hlq.
Qed.
Print Assumptions C80_refuted_value_for_each_batch.

(** Without data there are no batches.  Then every fixed local parameter takes one declaration off the end of the list:
    the parameters there are sampled, start at zero and have no limits, whatever was declared. *)
Theorem C80_without_batches :
  forall F (NF : Num F) (q : lparam F) (t : list (lparam F)),
  let ps := q :: t in let n := List.length ps in
  (lp_local q = true -> a_sample (lp_par q) = true) ->
  let k := List.length (filter (fun p => lp_local p && negb (a_sample (lp_par p))) ps) in
  exists op, open_local 0 ps = Ok op /\ op_names op = map (fun p => a_name (lp_par p)) (firstn (n - k) ps) /\
    forall i, n - k <= i < n -> In i (op_parind op) /\ nth_error (op_initial op) i = Some n0 /\
      nth_error (op_upper op) i = Some (nmul n1 ninf) /\ nth_error (op_lower op) i = Some (nmul (nsub n0 n1) ninf).
Proof.
  intros F NF q t ps n Hq k.
  assert (Hf : fixed_local q = false) by (unfold fixed_local; destruct (lp_local q); [rewrite (Hq eq_refl); reflexivity|apply andb_false_r]).
  assert (Hk : k = List.length (filter fixed_local t)).
  { unfold k, ps. cbn [filter]. rewrite andb_comm. fold (fixed_local q). rewrite Hf. f_equal. apply filter_ext. intros p. apply andb_comm. }
  assert (HS : exists ii, scan 0 (mkscan (repeat 0 n) n 0) ps = Ok (mkscan (repeat 0 n) (n - k) ii)).
  { unfold ps. cbn [scan]. unfold scan_one. fold (fixed_local q). rewrite Hf. cbn [bind]. rewrite scan_none by (cbn; lia).
    rewrite Hk. eexists. reflexivity. }
  destruct HS as (ii & HS). eexists. split; [eapply open_first; [exact HS|lia]|]. fold n.
  unfold opened_first. cbn [g_parind g_adapt filled setup_adaptation_indices op_names op_initial op_upper op_lower op_parind g_names g_initial g_lower g_upper].
  split; [rewrite firstn_map, map_map; reflexivity|]. rewrite map_length. fold n. intros i Hi.
  assert (R : forall B (f : param F -> B) (d : B), nth_error (map f (firstn (n - k) (map (@lp_par F) ps)) ++ repeat d (n - (n - k))) i = Some d).
  { intros B f d. rewrite nth_error_app2; rewrite !map_length, firstn_length, map_length; fold n; [|lia].
    replace (Nat.min (n - k) n) with (n - k) by lia. rewrite nth_error_nth' with (d := d); [f_equal; apply nth_repeat|rewrite repeat_length; lia]. }
  split; [|rewrite !R; auto]. apply flatnonzero_spec. apply R.
Qed.
Print Assumptions C80_without_batches.

(** The function that was to take care of this, which is not called, counts right. *)
Theorem C80_scan_for_local_variables :
  forall F nbatch (ps : list (lparam F)) b,
  count_occ Nat.eq_dec (scan_for_local_variables nbatch ps) b =
    if b =? 0 then List.length (filter (fun p => a_sample (lp_par p) && negb (lp_local p)) ps)
    else if b <=? nbatch then List.length (filter (fun p => a_sample (lp_par p) && lp_local p) ps) else 0.
Proof.
  intros F nb ps b. unfold scan_for_local_variables.
  assert (S1 : count_occ Nat.eq_dec (seq 1 nb) b = if b =? 0 then 0 else if b <=? nb then 1 else 0).
  { destruct (Nat.eqb_spec b 0) as [->|H0].
    - apply count_occ_not_In. rewrite in_seq. lia.
    - destruct (Nat.leb_spec b nb).
      + apply NoDup_count_occ'; [apply seq_NoDup|apply in_seq; lia].
      + apply count_occ_not_In. rewrite in_seq. lia. }
  induction ps as [|p t IH]; cbn [flat_map filter].
  - cbn. destruct (b =? 0); [reflexivity|destruct (b <=? nb); reflexivity].
  - rewrite count_occ_app, IH. destruct (a_sample (lp_par p)), (lp_local p); cbn [andb negb List.length]; rewrite ?S1; cbn [count_occ];
    try (destruct (Nat.eq_dec 0 b)); destruct (Nat.eqb_spec b 0); destruct (Nat.leb_spec b nb); lia.
Qed.
Print Assumptions C80_scan_for_local_variables.

Definition locals : list (lparam XQ) :=
  [mklparam (par "a" 1 0 2 true) true; mklparam (par "b" 1 0 2 false) false; mklparam (par "c" 1 0 2 false) true; mklparam (par "d" 5 4 6 false) false].
Example C80_case : open_local 1 locals = Ok (openparameterstructure (map (@lp_par XQ) locals)) /\ open_local 2 locals = Err ValueError /\
  open_local 2 (firstn 2 locals) = Ok (openparameterstructure (map (@lp_par XQ) (firstn 2 locals))) /\ values_needed 2 (firstn 2 locals) = 3 /\
  (exists op, open_local 0 locals = Ok op /\ op_parind op = [0; 3] /\ op_initial op = [Fin 1; Fin 1; Fin 1; Fin 0]%Q) /\
  scan_for_local_variables 2 locals = [1; 2].
Proof.
  split; [vm_compute; reflexivity|]. split; [vm_compute; reflexivity|]. split; [vm_compute; reflexivity|]. split; [reflexivity|].
  split; [eexists; split; [vm_compute; reflexivity|split; reflexivity]|reflexivity].
Qed.

(** ** C81: the table of parameters

    The table has a line for each sampled parameter, in order, with the values in use.  No line is marked. *)
Theorem C81_lines_of_the_table_partial :
  forall F (NF : Num F) (ps : list (param F)) verbosity,
  (verbosity = 0 -> table_of_run ps verbosity = Ok None) /\
  (0 < verbosity -> exists rows, table_of_run ps verbosity = Ok (Some rows) /\ Forall2 (fun p r => row_shows p "" r) (sampled_params ps) rows).
Proof.
  intros F NF ps v. split; [intros ->; reflexivity|]. intros Hv. unfold table_of_run.
  change (op_no_adapt (check_prior_sigma (openparameterstructure ps))) with (op_no_adapt (openparameterstructure ps)).
  assert (HL : List.length (map NpBool (op_no_adapt (openparameterstructure ps))) = List.length (sampled_params ps)).
  { rewrite map_length. cbn. rewrite map_length. eapply Forall2_len. apply sampled_indices. }
  destruct (display_rows ps v _ Hv HL) as (rows & H1 & H2). exists rows. split; [exact H1|].
  revert H2 HL. generalize (op_no_adapt (openparameterstructure ps)). generalize (sampled_params ps). clear. intros l m. revert m rows.
  induction l as [|p l IH]; intros [|b m] rows H HL; try discriminate; cbn [map combine] in H; inversion H; subst; constructor.
  - assumption.
  - eapply IH; [eassumption|]. now injection HL.
Qed.
Print Assumptions C81_lines_of_the_table_partial.

(** Parameters kept out of the adaptation should be marked.  Not one is. *)
Theorem C81_refuted_marks :
  forall F (NF : Num F) (ps : list (param F)) verbosity j p,
  0 < verbosity -> nth_error (sampled_params ps) j = Some p -> a_adapt p = false ->
  exists rows r, table_of_run ps verbosity = Ok (Some rows) /\ nth_error rows j = Some r /\ t_name r = a_name p /\ t_mark r <> " (*)"%string.
Proof.
  intros F NF ps v j p Hv Hj _. destruct (C81_lines_of_the_table_partial F NF ps v) as [_ H]. destruct (H Hv) as (rows & H1 & H2).
  assert (X : exists r, nth_error rows j = Some r /\ row_shows p "" r).
  { clear -H2 Hj. revert j Hj. induction H2 as [|a b l m H _ IH]; intros [|j] Hj; try discriminate; cbn in *.
    - injection Hj as <-. eauto.
    - auto. }
  destruct X as (r & X1 & X2 & _ & _ & _ & _ & _ & _ & X3). exists rows, r. split; [exact H1|]. split; [exact X1|]. split; [exact X2|]. now rewrite X3.
Qed.
Print Assumptions C81_refuted_marks.

(** Given a list of Python's own truth values instead of numpy's, the lines are marked as they say. *)
Theorem C81_marks_of_python_flags :
  forall F (NF : Num F) (ps : list (param F)) verbosity no_adapt,
  0 < verbosity -> List.length no_adapt = List.length (sampled_params ps) ->
  exists rows, display_parameter_settings (check_prior_sigma (openparameterstructure ps)) (Some verbosity) (Some (map PyBool no_adapt)) = Ok (Some rows) /\
    Forall2 (fun (pb : param F * bool) r => row_shows (fst pb) (if snd pb then " (*)" else "")%string r) (combine (sampled_params ps) no_adapt) rows.
Proof.
  intros F NF ps v na Hv HL. destruct (display_rows ps v (map PyBool na) Hv) as (rows & H1 & H2); [now rewrite map_length|].
  exists rows. split; [exact H1|]. revert H2. generalize (sampled_params ps). clear. intros l. revert na rows.
  induction l as [|p l IH]; intros [|b m] rows H; cbn [map combine] in *; inversion H; subst; constructor; cbn [fst snd] in *.
  - destruct b; assumption.
  - eapply IH; eassumption.
Qed.
Print Assumptions C81_marks_of_python_flags.

Definition kept_out : list (param XQ) := [par "a" 1 0 2 true; par "b" 1 0 2 false; mkparam "c" (qx 2) (qx 0) (qx 1) (qx 0) PInf true false].
Example C81_case : List.length [false; true] = List.length (sampled_params kept_out) /\ op_no_adapt (openparameterstructure kept_out) = [false; true] /\
  (exists p, nth_error (sampled_params kept_out) 1 = Some p /\ a_adapt p = false) /\
  exists rows, table_of_run kept_out 1 = Ok (Some rows) /\ map (@t_name XQ) rows = ["a"; "c"]%string.
Proof.
  split; [reflexivity|]. split; [reflexivity|]. split; [eexists; split; reflexivity|]. eexists. split; [vm_compute; reflexivity|reflexivity].
Qed.
