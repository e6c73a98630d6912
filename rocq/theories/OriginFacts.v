(** A run seen from another origin goes through the same iterations. *)

From Coq Require Import ZArith QArith Bool Lia List String Reals Lra.
From Verif Require Import Base Num Samplers Adapt Settings Simulator SamplerFacts RunSpec ScaleNum ScaleSpec ScaleFacts OriginSpec.
Import ListNotations.
Close Scope Q_scope.
Close Scope R_scope.
Open Scope list_scope.
Open Scope nat_scope.
Open Scope res_scope.

(** ** Numbers *)
Lemma sh_0 x : sh 0 x = x.
Proof. destruct x; cbn; auto. f_equal. lra. Qed.
Lemma sh_back r x : sh (- r) (sh r x) = x.
Proof. destruct x; cbn; auto. f_equal. lra. Qed.
Lemma add_shift_l c x y : nadd (sh c x) y = sh c (nadd x y).
Proof. destruct x, y; cbn [nadd Num_X xadd sh aadd Arith_R]; try reflexivity. f_equal. ring. Qed.
Lemma ltb_shift c a b : Rltb (a + c) (b + c) = Rltb a b.
Proof. unfold Rltb. destruct (Rlt_dec (a + c) (b + c)), (Rlt_dec a b); try reflexivity; exfalso; lra. Qed.
Lemma leb_shift c a b : Rleb (a + c) (b + c) = Rleb a b.
Proof. unfold Rleb. destruct (Rle_dec (a + c) (b + c)), (Rle_dec a b); try reflexivity; exfalso; lra. Qed.
Lemma lt_shift c x y : nlt (sh c x) (sh c y) = nlt x y.
Proof. destruct x, y; cbn [nlt Num_X xlt sh alt Arith_R]; try reflexivity. apply ltb_shift. Qed.
Lemma le_shift c x y : nle (sh c x) (sh c y) = nle x y.
Proof. destruct x, y; cbn [nle Num_X xle sh ale Arith_R]; try reflexivity. apply leb_shift. Qed.

(** ** Vectors *)
Lemma mv_length d : forall v, List.length (mv d v) = List.length v.
Proof. induction d as [|r d IH]; intros [|x v]; cbn; auto. Qed.
Lemma mv_back d : forall v, mv (map Ropp d) (mv d v) = v.
Proof. induction d as [|r d IH]; intros [|x v]; cbn [mv map]; auto. now rewrite sh_back, IH. Qed.
Lemma mv_nil v : mv [] v = v.
Proof. now destruct v. Qed.
Lemma mv_empty d : mv d [] = [].
Proof. now destruct d. Qed.
Lemma mv_nth d : forall v i x0, i < List.length v -> nth i (mv d v) x0 = sh (nth i d 0%R) (nth i v x0).
Proof.
  induction d as [|r d IH]; intros v i x0 H.
  - rewrite mv_nil. destruct i; cbn [nth]; now rewrite sh_0.
  - destruct v as [|x v]; cbn in H; [lia|]. destruct i; cbn [mv nth]; auto. apply IH. lia.
Qed.
Lemma mv_nth_error d v i : nth_error (mv d v) i = option_map (sh (nth i d 0%R)) (nth_error v i).
Proof.
  revert v i. induction d as [|r d IH]; intros v i.
  - rewrite mv_nil. replace (nth i [] 0%R) with 0%R by now destruct i. destruct (nth_error v i); cbn; now rewrite ?sh_0.
  - destruct v as [|x v]; [destruct i; reflexivity|]. destruct i; cbn [mv nth nth_error]; auto.
Qed.
Lemma vadd_mv d : forall v w, vadd (mv d v) w = mv d (vadd v w).
Proof. induction d as [|r d IH]; intros [|x v] [|y w]; try reflexivity. cbn [mv vadd map2]. rewrite add_shift_l. f_equal. apply IH. Qed.
Lemma vsub_mv d : forall v w, vsub (mv d v) (mv d w) = vsub v w.
Proof.
  induction d as [|r d IH]; intros [|x v] [|y w]; try reflexivity; try (rewrite !mv_nil; reflexivity). cbn [mv vsub map2]. rewrite sub_shift. f_equal. apply IH.
Qed.
Lemma lt_mv d : forall v w, map2 nlt (mv d v) (mv d w) = map2 nlt v w.
Proof. induction d as [|r d IH]; intros [|x v] [|y w]; try reflexivity. cbn [mv map2]. rewrite lt_shift. f_equal. apply IH. Qed.
Lemma le_mv d : forall v w, map2 nle (mv d v) (mv d w) = map2 nle v w.
Proof. induction d as [|r d IH]; intros [|x v] [|y w]; try reflexivity. cbn [mv map2]. rewrite le_shift. f_equal. apply IH. Qed.
Lemma set_mv d : forall v i x, set_nth i (sh (nth i d 0%R) x) (mv d v) = mv d (set_nth i x v).
Proof.
  induction d as [|r d IH]; intros v i x.
  - rewrite !mv_nil. replace (nth i [] 0%R) with 0%R by now destruct i. now rewrite sh_0.
  - destruct v as [|y v]; [now destruct i|]. destruct i; cbn [mv set_nth nth]; auto. now rewrite IH.
Qed.
Lemma scatter_mv d : forall ix v t, scatter (mv d v) ix (mv (map (fun i => nth i d 0%R) ix) t) = mv d (scatter v ix t).
Proof. induction ix as [|i ix IH]; intros v [|x t]; cbn [scatter map mv]; auto. now rewrite set_mv, IH. Qed.
Lemma sel_mv d v ix : (forall i, In i ix -> i < List.length v) -> sel (mv d v) ix = mv (map (fun i => nth i d 0%R) ix) (sel v ix).
Proof.
  unfold sel. induction ix as [|i ix IH]; intros H; cbn [map mv]; auto. rewrite mv_nth by (apply H; now left). f_equal. apply IH. intros j J. apply H. now right.
Qed.
Lemma outside_mv d t lo up : is_sample_outside_bounds (mv d t) (mv d lo) (mv d up) = is_sample_outside_bounds t lo up.
Proof. unfold is_sample_outside_bounds. now rewrite !lt_mv. Qed.

(** ** The samplers *)
Section Moved.
Variables d : list R.
Variable E : env XR.
Variable V : pview XR.
Let ds := map (fun i => nth i d 0%R) (v_parind V).
Notation E' := (moved_env d ds E).

Definition moved_view : pview XR := mkpview (v_npar V) (v_parind V) (mv ds (v_lower V)) (mv ds (v_upper V)) (mv ds (v_mu V)) (v_sigma V).
Definition moved_set (p : pset XR) : pset XR := mkpset (mv ds (p_theta p)) (p_ss p) (p_prior p) (p_sigma2 p) (p_alpha p).
Definition moved_io (s : io XR) : io XR := mkio (io_pos s) (mv d (io_value s)) (map (mv d) (io_calls s)).
Definition rmap {A B} (f : A -> B) (x : res A) : res B := match x with Ok a => Ok (f a) | Err e => Err e end.

Lemma bind_rmap {A B C} (f : A -> B) (x : res A) (g : B -> res C) : bind (rmap f x) g = bind x (fun a => g (f a)).
Proof. now destruct x. Qed.
Lemma rmap_bind {A B C} (f : B -> C) (x : res A) (g : A -> res B) : rmap f (bind x g) = bind x (fun a => rmap f (g a)).
Proof. now destruct x. Qed.
Lemma bind_ext {A B} (x : res A) (f g : A -> res B) : (forall a, x = Ok a -> f a = g a) -> bind x f = bind x g.
Proof. destruct x; cbn; auto. Qed.

Lemma candidate_moved n old R s :
  sample_candidate E' n (mv ds old) R (moved_io s) = rmap (fun '(t, z, s) => (mv ds t, z, moved_io s)) (sample_candidate E n old R s).
Proof.
  unfold sample_candidate. rewrite mv_length. destruct (is_square n R && (List.length old =? n)); [|reflexivity].
  cbn. now rewrite vadd_mv.
Qed.
Lemma sos_moved t s : evaluate_sos_function E' moved_view (mv ds t) (moved_io s) =
  (fst (evaluate_sos_function E V t s), moved_io (snd (evaluate_sos_function E V t s))).
Proof.
  unfold evaluate_sos_function. cbn [moved_view v_parind moved_io io_value io_pos io_calls moved_env e_sos fst snd].
  assert (X : scatter (mv d (io_value s)) (v_parind V) (mv ds t) = mv d (scatter (io_value s) (v_parind V) t)) by apply scatter_mv.
  rewrite X, mv_back. reflexivity.
Qed.
Lemma prior_moved t : evaluate_prior E' moved_view (mv ds t) = evaluate_prior E V t.
Proof. unfold evaluate_prior. cbn [moved_env e_prior moved_view v_mu v_sigma]. now rewrite !mv_back. Qed.
Lemma outside_moved t : is_sample_outside_bounds (mv ds t) (v_lower moved_view) (v_upper moved_view) = is_sample_outside_bounds t (v_lower V) (v_upper V).
Proof. apply outside_mv. Qed.
Lemma moved_outside p : moved_set (set_outside_bounds p) = set_outside_bounds (moved_set p).
Proof. reflexivity. Qed.

Lemma metropolis_moved R old s : run_metropolis_step E' moved_view R (moved_set old) (moved_io s) =
  rmap (fun '(acc, new, outb, z, s) => (acc, moved_set new, outb, z, moved_io s)) (run_metropolis_step E V R old s).
Proof.
  unfold run_metropolis_step. change (v_npar moved_view) with (v_npar V). change (p_theta (moved_set old)) with (mv ds (p_theta old)).
  rewrite candidate_moved, bind_rmap, rmap_bind. apply bind_ext. intros [[t z] s1] _. rewrite outside_moved.
  destruct (is_sample_outside_bounds t (v_lower V) (v_upper V)); [reflexivity|].
  rewrite prior_moved, sos_moved. destruct (evaluate_sos_function E V t s1) as [ss s2]. cbn [fst snd].
  change (p_sigma2 (moved_set old)) with (p_sigma2 old). change (p_ss (moved_set old)) with (p_ss old). change (p_prior (moved_set old)) with (p_prior old).
  rewrite rmap_bind. apply bind_ext. intros l1 _. rewrite rmap_bind. apply bind_ext. intros l2 _. reflexivity.
Qed.

(** ** Delayed rejection *)
Lemma theta_moved (l : list (pset XR)) i : (let* p := of_option IndexError (nth_error (map moved_set l) i) in Ok (p_theta p)) =
  rmap (mv ds) (let* p := of_option IndexError (nth_error l i) in Ok (p_theta p)).
Proof. rewrite nth_error_map. now destruct (nth_error l i). Qed.
Lemma proposal_moved iq l invR : nth_stage_log_proposal_ratio iq (map moved_set l) invR = nth_stage_log_proposal_ratio iq l invR.
Proof.
  unfold nth_stage_log_proposal_ratio. rewrite map_length. destruct (_ =? _); [reflexivity|].
  apply bind_ext. intros iR _. unfold extract_state_elements. rewrite !theta_moved.
  do 4 (match goal with |- context [rmap (mv ds) ?x] => destruct x end; cbn [rmap bind]; [|reflexivity]). now rewrite !vsub_mv.
Qed.
Lemma exponent_moved l invR : alpha_exponent (map moved_set l) invR = alpha_exponent l invR.
Proof.
  unfold alpha_exponent. rewrite map_length, !nth_error_map.
  destruct (nth_error l 0) as [x1|]; [|reflexivity]. destruct (nth_error l (List.length l - 1)) as [x2|]; [|reflexivity].
  cbn [option_map of_option bind]. cbn [moved_set p_ss p_sigma2 p_prior]. apply bind_ext. intros l2 _. apply bind_ext. intros l1 _.
  set (y := calculate_log_posterior_ratio _ _ _ _). generalize (Ok y). induction (range (List.length l - 1)) as [|i t IH]; intros acc; cbn [fold_left]; [reflexivity|].
  rewrite proposal_moved. apply IH.
Qed.
Lemma loop_moved (rec : list (pset XR) -> res XR) l ks : (forall u, rec (map moved_set u) = rec u) ->
  forall a1 a2, alpha_loop rec (map moved_set l) ks a1 a2 = alpha_loop rec l ks a1 a2.
Proof.
  intros Hr. induction ks as [|i t IH]; intros a1 a2; cbn [alpha_loop]; [reflexivity|].
  rewrite <- map_rev, !firstn_map, !Hr. apply bind_ext. intros x _. apply bind_ext. intros y _. destruct (neq _ _); [reflexivity|]. apply IH.
Qed.
Lemma alpha_moved fuel : forall invR l, alphafun fuel invR (map moved_set l) = alphafun fuel invR l.
Proof.
  induction fuel as [|f IH]; intros invR l; cbn [alphafun]; [reflexivity|].
  rewrite map_length, (loop_moved (alphafun f invR) l _ (IH invR)). apply bind_ext. intros [[a1 a2]|] _; [|reflexivity]. now rewrite exponent_moved.
Qed.
Definition moved_dr (x : drstep (F := XR)) : drstep (F := XR) :=
  let '(acc, out, outb, iacce, path, s) := x in (acc, moved_set out, outb, iacce, map moved_set path, moved_io s).
Lemma dr_moved RDR invR old new n : forall itry path iacce acc outb out s,
  dr_loop E' moved_view RDR invR (moved_set old) (moved_set new) n itry (map moved_set path) iacce (acc, moved_set out, outb) (moved_io s) =
  rmap moved_dr (dr_loop E V RDR invR old new n itry path iacce (acc, out, outb) s).
Proof.
  induction n as [|n IH]; intros itry path iacce acc outb out s; cbn [dr_loop]; [reflexivity|].
  rewrite rmap_bind. apply bind_ext. intros P _. change (v_npar moved_view) with (v_npar V). change (p_theta (moved_set old)) with (mv ds (p_theta old)).
  rewrite candidate_moved, bind_rmap, rmap_bind. apply bind_ext. intros [[t z] s1] _. rewrite outside_moved.
  change (p_sigma2 (moved_set new)) with (p_sigma2 new).
  destruct (is_sample_outside_bounds t (v_lower V) (v_upper V)).
  - change (mkpset (mv ds t) [] n0 (p_sigma2 new) None) with (moved_set (mkpset t [] n0 (p_sigma2 new) None)). rewrite <- moved_outside.
    change [moved_set (set_outside_bounds (mkpset t [] n0 (p_sigma2 new) None))] with (map moved_set [set_outside_bounds (mkpset t [] n0 (p_sigma2 new) None)]).
    rewrite <- map_app. apply IH.
  - rewrite sos_moved, prior_moved. destruct (evaluate_sos_function E V t s1) as [ss s2]. cbn [fst snd].
    set (pr := evaluate_prior E V t). set (nx := fun a => mkpset t ss pr (p_sigma2 new) a).
    assert (X : forall a, map moved_set path ++ [mkpset (mv ds t) ss pr (p_sigma2 new) a] = map moved_set (path ++ [nx a])) by (intros a; now rewrite map_app).
    rewrite !X, map_length, alpha_moved. change (mkpset t ss pr (p_sigma2 new) None) with (nx None). rewrite rmap_bind. apply bind_ext. intros alpha _.
    rewrite X. unfold posterior_ratio_acceptance_test.
    assert (Y : rand E' (moved_io s2) = (fst (rand E s2), moved_io (snd (rand E s2)))) by reflexivity. rewrite Y.
    destruct (rand E s2) as [u s3]. cbn [fst snd]. change (mkpset t ss pr (p_sigma2 new) (Some alpha)) with (nx (Some alpha)).
    change (mkpset (mv ds t) ss pr (p_sigma2 new) (Some alpha)) with (moved_set (nx (Some alpha))).
    assert (Z : (if nle n1 alpha then (true, moved_io s2) else (nlt u alpha, moved_io s3)) =
                (fst (if nle n1 alpha then (true, s2) else (nlt u alpha, s3)), moved_io (snd (if nle n1 alpha then (true, s2) else (nlt u alpha, s3)))))
      by (destruct (nle n1 alpha); reflexivity).
    rewrite Z. destruct (if nle n1 alpha then (true, s2) else (nlt u alpha, s3)) as [accept s4]. cbn [fst snd].
    rewrite rmap_bind. apply bind_ext. intros cnt _.
    assert (U : update_set_based_on_acceptance accept (moved_set old) (moved_set (nx (Some alpha))) = moved_set (update_set_based_on_acceptance accept old (nx (Some alpha))))
      by (destruct accept; reflexivity).
    rewrite U. destruct accept; [reflexivity|]. apply IH.
Qed.
End Moved.
