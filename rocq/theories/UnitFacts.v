(** A run in other units goes through the same iterations. *)

From Coq Require Import ZArith QArith Bool Lia List String Reals Lra.
From Verif Require Import Base Num Samplers Adapt Settings Simulator SamplerFacts RunSpec ScaleNum ScaleSpec ScaleFacts OriginFacts UnitSpec UnitNum.
Import ListNotations.
Close Scope Q_scope.
Close Scope R_scope.
Open Scope list_scope.
Open Scope nat_scope.
Open Scope res_scope.

(** ** The samplers *)
Section Units.
Variable c : list R.
Variable E : env XR.
Variable V : pview XR.
Let cs := map (fun i => nth i c 1%R) (v_parind V).
Notation E' := (unit_env c cs E).
Hypothesis Hc : posl c.
Lemma pos_sel : posl cs.
Proof. unfold cs. clear cs. induction (v_parind V) as [|i l IH]; cbn [map]; constructor; [now apply pos_nth|exact IH]. Qed.

Definition unit_view : pview XR := mkpview (v_npar V) (v_parind V) (us cs (v_lower V)) (us cs (v_upper V)) (us cs (v_mu V)) (us cs (v_sigma V)).
Definition unit_set (p : pset XR) : pset XR := mkpset (us cs (p_theta p)) (p_ss p) (p_prior p) (p_sigma2 p) (p_alpha p).
Definition unit_io (s : io XR) : io XR := mkio (io_pos s) (us c (io_value s)) (map (us c) (io_calls s)).
Lemma candidate_unit n old R s :
  sample_candidate E' n (us cs old) (map (us cs) R) (unit_io s) = rmap (fun '(t, z, s) => (us cs t, z, unit_io s)) (sample_candidate E n old R s).
Proof.
  unfold sample_candidate. rewrite us_length, is_square_us. destruct (is_square n R && (List.length old =? n)); [|reflexivity].
  pose proof pos_sel as P. unfold randn. cbn [unit_env e_str unit_io io_pos io_value io_calls rmap]. now rewrite vecmat_us, us_vadd.
Qed.
Lemma sos_unit t s : evaluate_sos_function E' unit_view (us cs t) (unit_io s) =
  (fst (evaluate_sos_function E V t s), unit_io (snd (evaluate_sos_function E V t s))).
Proof.
  unfold evaluate_sos_function. cbn [unit_view v_parind unit_io io_value io_pos io_calls unit_env e_sos fst snd].
  assert (X : scatter (us c (io_value s)) (v_parind V) (us cs t) = us c (scatter (io_value s) (v_parind V) t)) by apply us_scatter.
  rewrite X, us_back by exact Hc. reflexivity.
Qed.
Lemma prior_unit t : evaluate_prior E' unit_view (us cs t) = evaluate_prior E V t.
Proof. unfold evaluate_prior. cbn [unit_env e_prior unit_view v_mu v_sigma]. rewrite !us_back by apply pos_sel. reflexivity. Qed.
Lemma outside_unit t : is_sample_outside_bounds (us cs t) (v_lower unit_view) (v_upper unit_view) = is_sample_outside_bounds t (v_lower V) (v_upper V).
Proof. apply us_outside. apply pos_sel. Qed.
Lemma unit_outside p : unit_set (set_outside_bounds p) = set_outside_bounds (unit_set p).
Proof. reflexivity. Qed.

Lemma metropolis_unit R old s : run_metropolis_step E' unit_view (map (us cs) R) (unit_set old) (unit_io s) =
  rmap (fun '(acc, new, outb, z, s) => (acc, unit_set new, outb, z, unit_io s)) (run_metropolis_step E V R old s).
Proof.
  unfold run_metropolis_step. change (v_npar unit_view) with (v_npar V). change (p_theta (unit_set old)) with (us cs (p_theta old)).
  rewrite candidate_unit, bind_rmap, rmap_bind. apply bind_ext. intros [[t z] s1] _. rewrite outside_unit.
  destruct (is_sample_outside_bounds t (v_lower V) (v_upper V)); [reflexivity|].
  rewrite prior_unit, sos_unit. destruct (evaluate_sos_function E V t s1) as [ss s2]. cbn [fst snd].
  change (p_sigma2 (unit_set old)) with (p_sigma2 old). change (p_ss (unit_set old)) with (p_ss old). change (p_prior (unit_set old)) with (p_prior old).
  rewrite rmap_bind. apply bind_ext. intros l1 _. rewrite rmap_bind. apply bind_ext. intros l2 _. reflexivity.
Qed.

(** ** Delayed rejection *)
Definition invs (l : list (list (list XR))) : list (list (list XR)) := map (rws (map Rinv cs)) l.
Lemma theta_unit (l : list (pset XR)) i : (let* p := of_option IndexError (nth_error (map unit_set l) i) in Ok (p_theta p)) =
  rmap (us cs) (let* p := of_option IndexError (nth_error l i) in Ok (p_theta p)).
Proof. rewrite nth_error_map. now destruct (nth_error l i). Qed.
Lemma proposal_unit iq l invR : nth_stage_log_proposal_ratio iq (map unit_set l) (invs invR) = nth_stage_log_proposal_ratio iq l invR.
Proof.
  unfold nth_stage_log_proposal_ratio. rewrite map_length. destruct (_ =? _); [reflexivity|].
  unfold invs. rewrite nth_error_map. change (@nth_error (list (list XR)) invR iq) with (nth_error (A := mat) invR iq); destruct (nth_error (A := mat) invR iq) as [iR|]; [|reflexivity]. cbn [option_map of_option bind]. unfold extract_state_elements. rewrite !theta_unit.
  do 4 (match goal with |- context [rmap (us cs) ?x] => destruct x end; cbn [rmap bind]; [|reflexivity]). unfold norm2. rewrite !us_vsub, !vecmat_cancel by apply pos_sel. reflexivity.
Qed.
Lemma exponent_unit l invR : alpha_exponent (map unit_set l) (invs invR) = alpha_exponent l invR.
Proof.
  unfold alpha_exponent. rewrite map_length, !nth_error_map.
  destruct (nth_error l 0) as [x1|]; [|reflexivity]. destruct (nth_error l (List.length l - 1)) as [x2|]; [|reflexivity].
  cbn [option_map of_option bind]. cbn [unit_set p_ss p_sigma2 p_prior]. apply bind_ext. intros l2 _. apply bind_ext. intros l1 _.
  set (y := calculate_log_posterior_ratio _ _ _ _). generalize (Ok y). induction (range (List.length l - 1)) as [|i t IH]; intros acc; cbn [fold_left]; [reflexivity|].
  rewrite proposal_unit. apply IH.
Qed.
Lemma loop_unit (rec rec' : list (pset XR) -> res XR) l ks : (forall u, rec' (map unit_set u) = rec u) ->
  forall a1 a2, alpha_loop rec' (map unit_set l) ks a1 a2 = alpha_loop rec l ks a1 a2.
Proof.
  intros Hr. induction ks as [|i t IH]; intros a1 a2; cbn [alpha_loop]; [reflexivity|].
  rewrite <- map_rev, !firstn_map, !Hr. apply bind_ext. intros x _. apply bind_ext. intros y _. destruct (neq _ _); [reflexivity|]. apply IH.
Qed.
Lemma alpha_unit fuel : forall invR l, alphafun fuel (invs invR) (map unit_set l) = alphafun fuel invR l.
Proof.
  induction fuel as [|f IH]; intros invR l; cbn [alphafun]; [reflexivity|].
  rewrite map_length, (loop_unit (alphafun f invR) (alphafun f (invs invR)) l _ (IH invR)). apply bind_ext. intros [[a1 a2]|] _; [|reflexivity]. now rewrite exponent_unit.
Qed.
Definition unit_dr (x : drstep (F := XR)) : drstep (F := XR) :=
  let '(acc, out, outb, iacce, path, s) := x in (acc, unit_set out, outb, iacce, map unit_set path, unit_io s).
Lemma dr_unit RDR invR old new n : forall itry path iacce acc outb out s,
  dr_loop E' unit_view (map (map (us cs)) RDR) (invs invR) (unit_set old) (unit_set new) n itry (map unit_set path) iacce (acc, unit_set out, outb) (unit_io s) =
  rmap unit_dr (dr_loop E V RDR invR old new n itry path iacce (acc, out, outb) s).
Proof.
  induction n as [|n IH]; intros itry path iacce acc outb out s; cbn [dr_loop]; [reflexivity|].
  rewrite nth_error_map. change (@nth_error (list (list XR)) RDR) with (nth_error (A := mat) RDR); destruct (nth_error (A := mat) RDR _) as [P|] eqn:HP; [|reflexivity]. cbn [option_map of_option bind]. change (v_npar unit_view) with (v_npar V). change (p_theta (unit_set old)) with (us cs (p_theta old)).
  rewrite candidate_unit, bind_rmap, rmap_bind. apply bind_ext. intros [[t z] s1] _. rewrite outside_unit.
  change (p_sigma2 (unit_set new)) with (p_sigma2 new).
  destruct (is_sample_outside_bounds t (v_lower V) (v_upper V)).
  - change (mkpset (us cs t) [] n0 (p_sigma2 new) None) with (unit_set (mkpset t [] n0 (p_sigma2 new) None)). rewrite <- unit_outside.
    change [unit_set (set_outside_bounds (mkpset t [] n0 (p_sigma2 new) None))] with (map unit_set [set_outside_bounds (mkpset t [] n0 (p_sigma2 new) None)]).
    rewrite <- map_app. apply IH.
  - rewrite sos_unit, prior_unit. destruct (evaluate_sos_function E V t s1) as [ss s2]. cbn [fst snd].
    set (pr := evaluate_prior E V t). set (nx := fun a => mkpset t ss pr (p_sigma2 new) a).
    assert (X : forall a, map unit_set path ++ [mkpset (us cs t) ss pr (p_sigma2 new) a] = map unit_set (path ++ [nx a])) by (intros a; now rewrite map_app).
    rewrite !X, map_length, alpha_unit. change (mkpset t ss pr (p_sigma2 new) None) with (nx None). rewrite rmap_bind. apply bind_ext. intros alpha _.
    rewrite X. unfold posterior_ratio_acceptance_test.
    assert (Y : rand E' (unit_io s2) = (fst (rand E s2), unit_io (snd (rand E s2)))) by reflexivity. rewrite Y.
    destruct (rand E s2) as [u s3]. cbn [fst snd]. change (mkpset t ss pr (p_sigma2 new) (Some alpha)) with (nx (Some alpha)).
    change (mkpset (us cs t) ss pr (p_sigma2 new) (Some alpha)) with (unit_set (nx (Some alpha))).
    assert (Z : (if nle n1 alpha then (true, unit_io s2) else (nlt u alpha, unit_io s3)) =
                (fst (if nle n1 alpha then (true, s2) else (nlt u alpha, s3)), unit_io (snd (if nle n1 alpha then (true, s2) else (nlt u alpha, s3)))))
      by (destruct (nle n1 alpha); reflexivity).
    rewrite Z. destruct (if nle n1 alpha then (true, s2) else (nlt u alpha, s3)) as [accept s4]. cbn [fst snd].
    rewrite rmap_bind. apply bind_ext. intros cnt _.
    assert (U : update_set_based_on_acceptance accept (unit_set old) (unit_set (nx (Some alpha))) = unit_set (update_set_based_on_acceptance accept old (nx (Some alpha))))
      by (destruct accept; reflexivity).
    rewrite U. destruct accept; [reflexivity|]. apply IH.
Qed.
End Units.
