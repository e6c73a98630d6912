(** Facts about the declaration structures: data sets (C51), options (C54), parameter index sets (C55). *)

From Coq Require Import ZArith QArith Bool Lia List String Sorting.Sorted.
From Verif Require Import Base Num Samplers SamplerFacts Adapt Settings Simulator RunSpec RunLift.
Import ListNotations.
Close Scope Q_scope.
Open Scope list_scope.
Open Scope nat_scope.

Section P.
Context {F : Type} `{NF : Num F}.

(** ** Data sets *)

(** One call of add_data_set. *)
Record call : Type := mkcall { c_x : list F; c_y : ykind; c_ys : list F; c_n : option nat; c_w : F }.
Definition add_all (cs : list call) : data F :=
  fold_left (fun d c => add_data_set d (c_x c) (c_y c) (c_ys c) (c_n c) (c_w c)) cs empty_data.

(** Rows and columns of a data set as stored: a two-dimensional array keeps its shape, any other array becomes a
    column, a scalar is a single entry, and a flat list of [k] numbers is one row with [k] columns. *)
Definition stored_rows (y : ykind) : nat :=
  match y with
  | YArray sh => if List.length sh =? 2 then nth 0 sh 0 else fold_right Nat.mul 1 sh
  | YList _ => 1
  | YScalar => 1
  end.
Definition stored_cols (y : ykind) : nat :=
  match y with
  | YArray sh => if List.length sh =? 2 then nth 1 sh 0 else 1
  | YList k => k
  | YScalar => 1
  end.

Lemma conv_shape y : convert_to_2d (convert_to_numpy_array y) = [stored_rows y; stored_cols y].
Proof.
  destruct y as [sh|k|]; cbn [convert_to_numpy_array convert_to_2d stored_rows stored_cols].
  - unfold convert_to_2d. destruct (Nat.eqb_spec (List.length sh) 2) as [E|E]; [|reflexivity].
    destruct sh as [|a [|b [|]]]; try discriminate. reflexivity.
  - unfold convert_to_2d. reflexivity.
  - unfold convert_to_2d, size_of. reflexivity.
Qed.

Lemma add_fields d c : let d' := add_data_set d (c_x c) (c_y c) (c_ys c) (c_n c) (c_w c) in
  dt_sets d' = dt_sets d ++ [mkds (c_x c) (c_ys c) (c_w c)] /\
  dt_shape d' = dt_shape d ++ [[stored_rows (c_y c); stored_cols (c_y c)]] /\
  dt_n d' = dt_n d ++ match c_n c with Some _ => [] | None => [stored_rows (c_y c)] end.
Proof.
  cbn. unfold add_data_set. rewrite conv_shape. cbn [dt_sets dt_shape dt_n]. repeat split. f_equal.
  destruct (c_n c); [reflexivity|]. unfold size_of. cbn [fold_right nth].
  destruct (Nat.eqb_spec (stored_rows (c_y c) * (stored_cols (c_y c) * 1)) 1) as [E|E]; [|reflexivity].
  f_equal. rewrite Nat.mul_1_r in E. apply Nat.eq_mul_1 in E. destruct E as [E1 E2]. now rewrite E1, E2.
Qed.

Lemma add_all_fields : forall cs d,
  let d' := fold_left (fun d c => add_data_set d (c_x c) (c_y c) (c_ys c) (c_n c) (c_w c)) cs d in
  dt_sets d' = dt_sets d ++ map (fun c => mkds (c_x c) (c_ys c) (c_w c)) cs /\
  dt_shape d' = dt_shape d ++ map (fun c => [stored_rows (c_y c); stored_cols (c_y c)]) cs /\
  dt_n d' = dt_n d ++ map (fun c => stored_rows (c_y c)) (filter (fun c => match c_n c with None => true | _ => false end) cs).
Proof.
  induction cs as [|c cs IH]; intros d; cbn [fold_left map filter].
  - now rewrite !app_nil_r.
  - cbn zeta. destruct (IH (add_data_set d (c_x c) (c_y c) (c_ys c) (c_n c) (c_w c))) as (A & B & C).
    destruct (add_fields d c) as (A1 & B1 & C1). cbn zeta in *. rewrite A, B, C, A1, B1, C1, <- !app_assoc.
    repeat split. f_equal. destruct (c_n c); reflexivity.
Qed.

Lemma data_aligned cs :
  dt_sets (add_all cs) = map (fun c => mkds (c_x c) (c_ys c) (c_w c)) cs /\
  dt_shape (add_all cs) = map (fun c => [stored_rows (c_y c); stored_cols (c_y c)]) cs /\
  get_number_of_batches (add_all cs) = List.length cs /\
  get_number_of_data_sets (add_all cs) = natlist_sum (map (fun c => stored_cols (c_y c)) cs) /\
  ((forall c, In c cs -> c_n c = None) -> dt_n (add_all cs) = map (fun c => stored_rows (c_y c)) cs /\
     get_number_of_observations (add_all cs) = natlist_sum (map (fun c => stored_rows (c_y c)) cs)).
Proof.
  destruct (add_all_fields cs empty_data) as (A & B & C). fold (add_all cs) in A, B, C. cbn [empty_data dt_sets dt_shape dt_n app] in *.
  unfold get_number_of_batches, get_number_of_data_sets, get_number_of_observations. rewrite B, map_length, map_map.
  repeat split; auto.
  - rewrite C. f_equal. clear -H. induction cs as [|c cs IH]; [reflexivity|]. cbn. rewrite (H c) by (left; auto). f_equal.
    apply IH. intros; apply H; now right.
  - rewrite C. f_equal. f_equal. clear -H. induction cs as [|c cs IH]; [reflexivity|]. cbn. rewrite (H c) by (left; auto). f_equal.
    apply IH. intros; apply H; now right.
Qed.

(** Every call with [n] leaves the counts short. *)
Lemma counts_short cs : List.length (dt_n (add_all cs)) =
  List.length cs - List.length (filter (fun c => match c_n c with Some _ => true | None => false end) cs).
Proof.
  destruct (add_all_fields cs empty_data) as (_ & _ & C). fold (add_all cs) in C. rewrite C. cbn [empty_data dt_n app]. rewrite map_length.
  clear. induction cs as [|c cs IH]; [reflexivity|]. cbn [filter List.length].
  assert (List.length (filter (fun c => match c_n c with Some _ => true | None => false end) cs) <= List.length cs)
    by (clear; induction cs as [|a l IH]; cbn; [lia|]; destruct (c_n a); cbn; lia).
  destruct (c_n c); cbn [List.length] in *; lia.
Qed.

Lemma flat_list_counts (x : list F) ys w k : dt_n (add_data_set empty_data x (YList k) ys None w) = [1].
Proof. destruct (add_fields empty_data (mkcall x (YList k) ys None w)) as (_ & _ & H). exact H. Qed.

(** ** Parameter index sets *)

Lemma nth_flat_filter {A} (p : A -> bool) (d : A) : forall l k,
  map (fun i => nth (i - k) l d) (flatnonzero_from k (map p l)) = filter p l.
Proof.
  induction l as [|a l IH]; intros k; [reflexivity|]. cbn [map flatnonzero_from filter].
  assert (Q : map (fun i => nth (i - k) (a :: l) d) (flatnonzero_from (S k) (map p l)) = filter p l).
  { rewrite <- (IH (S k)). apply map_ext_in. intros i Hi. apply flatnonzero_from_spec in Hi as [Hi _].
    replace (i - k) with (S (i - S k)) by lia. reflexivity. }
  destruct (p a); cbn [map]; [|exact Q]. rewrite Nat.sub_diag, Q. reflexivity.
Qed.

Lemma index_sets (ps : list (param F)) : let op := openparameterstructure ps in
  StronglySorted lt (op_parind op) /\
  (forall i, In i (op_parind op) <-> exists p, nth_error ps i = Some p /\ a_sample p = true) /\
  StronglySorted lt (op_adapt op) /\
  (forall i, In i (op_adapt op) <-> exists p, nth_error ps i = Some p /\ a_sample p = true /\ a_adapt p = true) /\
  op_no_adapt op = map (fun p => negb (a_adapt p)) (filter (@a_sample F) ps).
Proof.
  cbn zeta. unfold openparameterstructure, setup_adaptation_indices. cbn [op_parind op_adapt op_no_adapt].
  split; [apply flatnonzero_from_sorted|]. split; [|split; [apply flatnonzero_from_sorted|split]].
  - intros i. rewrite flatnonzero_spec, nth_error_map. destruct (nth_error ps i) as [p|]; cbn; split.
    + intros H. injection H as H. eauto.
    + intros (q & H1 & H2). injection H1 as ->. now rewrite H2.
    + discriminate.
    + intros (q & H1 & _). discriminate.
  - intros i. rewrite flatnonzero_spec, nth_error_map. destruct (nth_error ps i) as [p|]; cbn; split.
    + intros H. injection H as H. unfold setup_adapting in H. destruct (a_sample p) eqn:S; [|discriminate]. eauto.
    + intros (q & H1 & H2 & H3). injection H1 as ->. unfold setup_adapting. now rewrite H2, H3.
    + discriminate.
    + intros (q & H1 & _). discriminate.
  - assert (Q : map2 xorb (map (fun p => setup_adapting (a_adapt p) (a_sample p)) ps) (map (@a_sample F) ps) =
                map (fun p => a_sample p && negb (a_adapt p)) ps).
    { clear. induction ps as [|p ps IH]; [reflexivity|]. cbn [map map2]. f_equal; [|exact IH].
      unfold setup_adapting. destruct (a_sample p), (a_adapt p); reflexivity. }
    rewrite Q. unfold flatnonzero.
    transitivity (map (fun p => a_sample p && negb (a_adapt p)) (filter (@a_sample F) ps)).
    2: { apply map_ext_in. intros p Hp. apply filter_In in Hp as [_ ->]. reflexivity. }
    destruct ps as [|p0 ps']; [reflexivity|]. rewrite <- (nth_flat_filter (@a_sample F) p0 (p0 :: ps') 0), map_map.
    apply map_ext_in. intros i Hi. apply flatnonzero_from_spec in Hi as [_ Hi]. rewrite Nat.sub_0_r in *.
    assert (HL : i < List.length (p0 :: ps')) by (rewrite <- (map_length (@a_sample F)); apply nth_error_Some; rewrite Hi; discriminate).
    rewrite (nth_indep _ false ((fun p => a_sample p && negb (a_adapt p)) p0)) by (now rewrite map_length).
    exact (map_nth (fun p => a_sample p && negb (a_adapt p)) (p0 :: ps') p0 i).
Qed.

(** ** Limits *)

Lemma forallb_map2_filter (p : param F -> bool) (f g : param F -> F) (c : F -> F -> bool) ps :
  forallb (fun b => b) (map2 c (map f (filter p ps)) (map g (filter p ps))) =
  forallb (fun q => c (f q) (g q)) (filter p ps).
Proof. induction (filter p ps) as [|q l IH]; [reflexivity|]. cbn. now rewrite IH. Qed.
Lemma existsb_map2_filter (p : param F -> bool) (f g : param F -> F) (c : F -> F -> bool) ps :
  existsb (fun b => b) (map2 c (map f (filter p ps)) (map g (filter p ps))) =
  existsb (fun q => c (f q) (g q)) (filter p ps).
Proof. induction (filter p ps) as [|q l IH]; [reflexivity|]. cbn. now rewrite IH. Qed.

Lemma limits_checked ps : check_parameter_limits (openparameterstructure ps) =
  if forallb (fun q => nle (a_min q) (a_max q)) (sampled_params ps) then Ok tt else Err SysExit.
Proof.
  unfold check_parameter_limits, openparameterstructure, setup_adaptation_indices. cbn [op_lower op_upper op_parind].
  rewrite !sel_filter. unfold sampled_params. now rewrite forallb_map2_filter.
Qed.
Lemma start_checked ps : check_initial_values (openparameterstructure ps) =
  if existsb (fun q => nlt (a_theta0 q) (a_min q)) (sampled_params ps) || existsb (fun q => nlt (a_max q) (a_theta0 q)) (sampled_params ps)
  then Err SysExit else Ok tt.
Proof.
  unfold check_initial_values, openparameterstructure, setup_adaptation_indices. cbn [op_lower op_upper op_parind op_initial].
  rewrite !sel_filter. unfold sampled_params. now rewrite !existsb_map2_filter.
Qed.

Lemma check_dep_err ms d e : check_dependent_model_settings ms d = Err e -> e = SysExit.
Proof.
  unfold check_dependent_model_settings. intros H. destruct (ms_N ms) as [u|].
  - destruct (check_number_of_observations u (map nnat (dt_n d))) eqn:C; cbn [bind] in H.
    + destruct (ms_N0 ms), (ms_sigma2 ms); cbn in H; destruct (existsb _ _); discriminate.
    + injection H as ->. revert C. unfold check_number_of_observations.
      repeat match goal with |- (if ?b then _ else _) = _ -> _ => destruct b end; congruence.
  - cbn [bind] in H. destruct (ms_N0 ms), (ms_sigma2 ms); cbn in H; destruct (existsb _ _); discriminate.
Qed.

Lemma bad_limits_exit (E : env F) m p :
  o_restart (m_opts m) = None -> In p (m_params m) -> a_sample p = true ->
  (nle (a_min p) (a_max p) = false \/ nlt (a_theta0 p) (a_min p) = true \/ nlt (a_max p) (a_theta0 p) = true) ->
  run_simulation E false m = Err SysExit.
Proof.
  intros HR HI HS HB. unfold run_simulation. rewrite HR. cbn [bind].
  assert (EI : initialize_simulation E (m_params m) (m_data m) (m_model m) (m_opts m) (m_RDR m) (m_pos m) (m_calls m) = Err SysExit);
    [|now rewrite EI].
  unfold initialize_simulation.
  destruct (check_dependent_model_settings _ _) as [ms|e] eqn:EC; cbn [bind]; [|f_equal; eapply check_dep_err; eauto].
  rewrite limits_checked, start_checked.
  assert (HF : In p (sampled_params (m_params m))) by (apply filter_In; auto).
  destruct (forallb _ _) eqn:E1; [|reflexivity]. cbn [bind].
  destruct HB as [HB|[HB|HB]].
  - rewrite forallb_forall in E1. specialize (E1 p HF). cbn in E1. congruence.
  - assert (Q : existsb (fun q => nlt (a_theta0 q) (a_min q)) (sampled_params (m_params m)) = true) by (apply existsb_exists; eauto).
    now rewrite Q.
  - assert (Q : existsb (fun q => nlt (a_max q) (a_theta0 q)) (sampled_params (m_params m)) = true) by (apply existsb_exists; eauto).
    now rewrite Q, orb_true_r.
Qed.

End P.
Arguments call F : clear implicits.
