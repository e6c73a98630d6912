(** The first proposals, in other units. *)

From Coq Require Import ZArith QArith Bool Lia List String Reals Lra.
From Verif Require Import Base Num Samplers Adapt Settings Simulator SamplerFacts RunSpec ScaleNum ScaleSpec ScaleFacts OriginFacts UnitSpec UnitNum UnitFacts UnitAdapt.
Import ListNotations.
Close Scope Q_scope.
Close Scope R_scope.
Open Scope list_scope.
Open Scope nat_scope.
Open Scope res_scope.

Definition sq (c : list R) : list R := map (fun r => r * r)%R c.
Lemma sq_nth c i : nth i (sq c) 1%R = (nth i c 1 * nth i c 1)%R.
Proof. unfold sq. replace 1%R with ((fun r => r * r)%R 1%R) at 1 by ring. now rewrite (map_nth (fun r => r * r)%R). Qed.
Lemma us_nth_lt c v i x0 : i < List.length v -> nth i (us c v) x0 = sc (nth i c 1%R) (nth i v x0).
Proof.
  revert v i. induction c as [|r c IH]; intros v i H.
  - rewrite us_nil. destruct i; cbn [nth]; now rewrite sc_1.
  - destruct v as [|x v]; cbn in H; [lia|]. destruct i; cbn [us nth]; auto. apply IH. lia.
Qed.
Lemma diag_both c v : diagflat (us (sq c) v) = both c (diagflat v).
Proof.
  unfold diagflat. rewrite us_length, both_table. apply map_ext. intros i. apply map_ext. intros j. destruct (i =? j) eqn:Q.
  - apply Nat.eqb_eq in Q as <-. now rewrite us_nth, sq_nth, sc_sc.
  - now rewrite !sc_zero.
Qed.
Lemma sqrt_sc r x : (0 < r)%R -> nsqrt (sc r (sc r x)) = sc r (nsqrt x).
Proof.
  intros H. destruct x as [a| | |]; try reflexivity. cbn [sc nsqrt Num_X xsqrt alt asqrt Arith_R]. rewrite a0_0, !ltb_scale0 by exact H. unfold Rltb.
  destruct (Rlt_dec a 0); [reflexivity|]. cbn [sc]. f_equal. replace (r * (r * a))%R with (r * r * a)%R by ring. rewrite sqrt_mult by nra. now rewrite sqrt_square by lra.
Qed.
Lemma sqrt_zero : nsqrt (n0 : XR) = n0.
Proof. unfold n0. cbn [nsqrt nQ Num_X xsqrt alt asqrt aQ Arith_R]. rewrite a0_0, Q2R0. unfold Rltb. destruct (Rlt_dec 0 0); [lra|]. now rewrite sqrt_0. Qed.

(** ** Selecting rows and columns *)
Section Select.
Variable c : list R.
Variable ix : list nat.
Notation cs := (map (fun i => nth i c 1%R) ix).

Lemma gather_map {A B} (f : A -> B) l : forall jx, gather (map f l) jx = rmap (map f) (gather l jx).
Proof.
  induction jx as [|i jx IH]; cbn [gather]; [reflexivity|]. rewrite nth_error_map, IH. destruct (nth_error l i); [|reflexivity]. cbn [option_map of_option bind].
  destruct (gather l jx); reflexivity.
Qed.
Lemma gather_us v : gather (us c v) ix = rmap (us cs) (gather v ix).
Proof.
  induction ix as [|i jx IH]; cbn [gather map]; [reflexivity|]. rewrite us_nth_error, IH. destruct (nth_error v i); [|reflexivity]. cbn [option_map of_option bind].
  destruct (gather v jx); reflexivity.
Qed.
Lemma gather_rws M : gather (rws c M) ix = rmap (rws cs) (gather M ix).
Proof.
  induction ix as [|i jx IH]; cbn [gather map]; [reflexivity|]. rewrite rws_nth_error, IH. destruct (nth_error M i); [|reflexivity]. cbn [option_map of_option bind].
  destruct (gather M jx); reflexivity.
Qed.
Definition cols (jx : list nat) (rows : list (list XR)) : res (list (list XR)) :=
  fold_right (fun r acc => let* g := gather r jx in let* t := acc in Ok (g :: t)) (Ok []) rows.
Lemma cols_us rows : cols ix (map (us c) rows) = rmap (map (us cs)) (cols ix rows).
Proof.
  unfold cols. induction rows as [|r rows IH]; cbn [map fold_right]; [reflexivity|]. rewrite gather_us, bind_rmap, rmap_bind. apply bind_ext. intros g _. rewrite IH.
  destruct (fold_right _ _ rows); reflexivity.
Qed.
Lemma cols_rws e : forall rows, cols ix (rws e rows) = rmap (rws e) (cols ix rows).
Proof.
  unfold cols. induction e as [|r e IH]; intros rows.
  - rewrite rws_nil. destruct (fold_right _ _ rows) as [x|]; [|reflexivity]. cbn [rmap]. now rewrite rws_nil.
  - destruct rows as [|x rows]; [reflexivity|]. cbn [rws fold_right]. rewrite (gather_map (sc r)), bind_rmap, rmap_bind. apply bind_ext. intros g _. rewrite IH.
    destruct (fold_right _ _ rows); reflexivity.
Qed.
Lemma submat_both M : submat (both c M) ix = rmap (both cs) (submat M ix).
Proof.
  unfold submat, both. rewrite gather_rws, (gather_map (us c)), !bind_rmap, rmap_bind. apply bind_ext. intros rows _.
  fold (cols ix (rws cs (map (us c) rows))). fold (cols ix rows). rewrite cols_rws, cols_us. destruct (cols ix rows); reflexivity.
Qed.
End Select.
Lemma gather_spec {A} (l : list A) : forall ix g, gather l ix = Ok g ->
  List.length g = List.length ix /\ forall a x, nth_error g a = Some x -> exists i, nth_error ix a = Some i /\ nth_error l i = Some x.
Proof.
  induction ix as [|i ix IH]; intros g H; cbn [gather] in H; [inversion H; split; [reflexivity|]; intros [|a] x X; discriminate|].
  destruct (nth_error l i) as [v|] eqn:V; [|discriminate]. cbn [of_option bind] in H. destruct (gather l ix) as [t|] eqn:G; [|discriminate]. inversion H; subst g.
  destruct (IH t eq_refl) as [L N]. split; [cbn; now f_equal|]. intros [|a] x X; cbn [nth_error] in *; [inversion X; subst; eauto|]. now apply N.
Qed.
Lemma cols_spec ix : forall rows sub, cols ix rows = Ok sub ->
  List.length sub = List.length rows /\ forall a g, nth_error sub a = Some g -> exists r, nth_error rows a = Some r /\ gather r ix = Ok g.
Proof.
  unfold cols. induction rows as [|r rows IH]; intros sub H; cbn [fold_right] in H; [inversion H; split; [reflexivity|]; intros [|a] x X; discriminate|].
  destruct (gather r ix) as [g|] eqn:G; [|discriminate]. cbn [bind] in H. destruct (fold_right _ _ rows) as [t|] eqn:T; [|discriminate]. inversion H; subst sub.
  destruct (IH t eq_refl) as [L N]. split; [cbn; now f_equal|]. intros [|a] x X; cbn [nth_error] in *; [inversion X; subst; eauto|]. now apply N.
Qed.
Lemma submat_spec (M : list (list XR)) ix (sub : list (list XR)) : submat M ix = Ok sub ->
  List.length sub = List.length ix /\
  forall a g, nth_error sub a = Some g -> List.length g = List.length ix /\
    exists i row, nth_error ix a = Some i /\ nth_error M i = Some row /\ forall b x, nth_error g b = Some x -> exists j, nth_error ix b = Some j /\ nth_error row j = Some x.
Proof.
  unfold submat. destruct (gather M ix) as [rows|] eqn:G; [|discriminate]. cbn [bind]. fold (cols ix rows). intros H. apply gather_spec in G as [L1 N1]. apply cols_spec in H as [L2 N2].
  split; [congruence|]. intros a g Hg. destruct (N2 a g Hg) as (row & R1 & R2). destruct (N1 a row R1) as (i & I1 & I2). apply gather_spec in R2 as [L3 N3].
  split; [exact L3|]. exists i, row. auto.
Qed.

(** ** Roots of a diagonal covariance *)
Lemma same_entries {A} : forall a b : list A, (forall i, nth_error a i = nth_error b i) -> a = b.
Proof.
  induction a as [|x a IH]; intros [|y b] H; [reflexivity|specialize (H 0); discriminate|specialize (H 0); discriminate|]. f_equal; [now injection (H 0)|].
  apply IH. intros i. exact (H (S i)).
Qed.
Lemma us_ext c v w : List.length v = List.length w -> (forall i x y, nth_error v i = Some x -> nth_error w i = Some y -> y = sc (nth i c 1%R) x) -> w = us c v.
Proof.
  revert v w. induction c as [|r c IH]; intros v w L H.
  - rewrite us_nil. revert w L H. induction v as [|x v IHv]; intros [|y w] L H; try discriminate; [reflexivity|]. f_equal.
    + rewrite (H 0 x y eq_refl eq_refl). apply sc_1.
    + apply IHv; [now injection L|]. intros i a b A B. rewrite (H (S i) a b A B). now destruct i.
  - destruct v as [|x v], w as [|y w]; try discriminate; [reflexivity|]. cbn [us]. f_equal; [exact (H 0 x y eq_refl eq_refl)|].
    apply IH; [now injection L|]. intros i a b A B. exact (H (S i) a b A B).
Qed.
Lemma row_roots cs r g : (0 < r)%R -> (forall b x, nth_error g b = Some x -> x = n0 \/ nth b cs 1%R = r) ->
  map nsqrt (map (sc r) (us cs g)) = us cs (map nsqrt g).
Proof.
  intros Hr H. apply us_ext; [now rewrite !map_length, us_length|]. intros i x y X Y. rewrite !nth_error_map, us_nth_error in Y. rewrite nth_error_map in X.
  destruct (nth_error g i) as [v|] eqn:V; [|discriminate]. cbn [option_map] in X, Y. apply (f_equal (fun o => match o with Some z => z | None => n0 end)) in X, Y. subst x y.
  destruct (H i v V) as [->| ->]; [now rewrite !sc_zero, sqrt_zero, sc_zero|now apply sqrt_sc].
Qed.
Lemma roots_both cs M : posl cs -> (forall a g, nth_error M a = Some g -> forall b x, nth_error g b = Some x -> x = n0 \/ nth b cs 1%R = nth a cs 1%R) ->
  map (map nsqrt) (both cs M) = map (us cs) (map (map nsqrt) M).
Proof.
  intros P H. unfold both. apply same_entries. intros a. rewrite !nth_error_map, rws_nth_error, nth_error_map. destruct (nth_error M a) as [g|] eqn:G; [|reflexivity].
  cbn [option_map]. f_equal. apply row_roots; [now apply pos_nth|]. exact (H a g G).
Qed.

(** ** The covariance the user gives *)
Lemma concat_both c M : List.length (List.concat (both c M)) = List.length (List.concat M).
Proof.
  unfold both. assert (A : forall e M, List.length (List.concat (rws e M)) = List.length (List.concat M)).
  { induction e as [|r e IH]; intros [|x N]; cbn [rws List.concat]; auto. rewrite !app_length, map_length. f_equal. apply IH. }
  rewrite A. induction M as [|x M IH]; cbn [map List.concat]; [reflexivity|]. rewrite !app_length, us_length. now f_equal.
Qed.
Section Setup.
Variable c : list R.
Variable pi : list nat.
Hypothesis Hc : posl c.
Notation cs := (map (fun i => nth i c 1%R) pi).
Variables E E' : env XR.
Hypothesis HE : unit_free cs E.
Hypothesis EC : e_chol E' = e_chol E.
Hypothesis EI : e_inv E' = e_inv E.
Notation inv := (rws (map Rinv cs)).
Lemma cs_pos : posl cs.
Proof. clear -Hc. induction pi as [|i l IH]; cbn [map]; constructor; [now apply pos_nth|exact IH]. Qed.
Lemma cs_nth a i : nth_error pi a = Some i -> nth a cs 1%R = nth i c 1%R.
Proof. intros H. apply nth_error_nth. now apply (map_nth_error (fun i => nth i c 1%R)). Qed.
Lemma diag_sub (v : list XR) (sub : list (list XR)) : submat (diagflat v) pi = Ok sub ->
  forall a g, nth_error sub a = Some g -> forall b x, nth_error g b = Some x -> x = n0 \/ nth b cs 1%R = nth a cs 1%R.
Proof.
  intros H a g G b x X. apply submat_spec in H as [_ H]. destruct (H a g G) as (_ & i & row & I1 & I2 & I3). destruct (I3 b x X) as (j & J1 & J2).
  rewrite (cs_nth a i I1), (cs_nth b j J1). unfold diagflat in I2. rewrite nth_error_map in I2. destruct (nth_error (range (List.length v)) i) as [i'|] eqn:Q; [|discriminate].
  cbn [option_map] in I2. inversion I2; subst row. clear I2. rewrite nth_error_map in J2. destruct (nth_error (range (List.length v)) j) as [j'|] eqn:Q2; [|discriminate].
  assert (RG : forall m k y, nth_error (range m) k = Some y -> y = k).
  { intros m k y Y. pose proof Y as Y'. apply nth_error_nth with (d := 0) in Y. assert (k < m) by (rewrite <- (seq_length m 0); apply nth_error_Some; unfold range in Y'; congruence).
    unfold range in Y. rewrite seq_nth in Y by assumption. lia. }
  apply RG in Q, Q2. subst i' j'. cbn [option_map] in J2. inversion J2; subst x. destruct (i =? j) eqn:Z; [right|now left]. apply Nat.eqb_eq in Z. now subst.
Qed.
Definition smap (x : list (list XR) * list (list XR)) := (map (us cs) (fst x), both cs (snd x)).
Lemma setup_R_unit q : setup_R_matrix E' (unit_qcov c q) pi = rmap smap (setup_R_matrix E q pi).
Proof.
  unfold setup_R_matrix, unit_qcov. destruct (Nat.min (List.length q) (ncols q) =? 1) eqn:Z.
  - assert (M1 : Nat.min (List.length [us (sq c) (List.concat q)]) (ncols [us (sq c) (List.concat q)]) =? 1 = true).
    { cbn [List.length ncols hd]. rewrite us_length. apply Nat.eqb_eq in Z. apply Nat.eqb_eq. destruct q as [|r q]; [discriminate|]. cbn [ncols hd List.concat List.length] in *. rewrite app_length. lia. }
    fold (sq c). rewrite M1. cbn [List.concat]. rewrite app_nil_r, diag_both, submat_both. pose proof (diag_sub (List.concat q)) as D.
    destruct (submat (diagflat (List.concat q)) pi) as [sub|]; [|reflexivity]. cbn [rmap bind]. f_equal. unfold smap. cbn [fst snd]. f_equal.
    apply roots_both; [apply cs_pos|]. exact (D sub eq_refl).
  - rewrite both_length, both_ncols, Z, submat_both. destruct (submat q pi) as [sub|] eqn:SB; [|reflexivity]. cbn [rmap bind]. rewrite concat_both.
    destruct (List.length (List.concat sub) =? 1) eqn:L1.
    + apply Nat.eqb_eq in L1. cbn [rmap]. f_equal. unfold smap. cbn [fst snd]. f_equal. apply submat_spec in SB as [SL SN0].
      assert (SN : forall a g, nth_error sub a = Some g -> List.length g = List.length pi) by (intros a g Hg; exact (proj1 (SN0 a g Hg))). clear SN0.
      assert (Len : List.length (List.concat sub) = List.length sub * List.length pi).
      { clear L1 SL. induction sub as [|g sub IH]; [reflexivity|]. cbn [List.concat List.length]. rewrite app_length, IH by (intros a h Hh; exact (SN (S a) h Hh)). rewrite (SN 0 g eq_refl). lia. }
      rewrite Len, SL in L1. apply Nat.mul_eq_1 in L1 as [L1 _]. destruct sub as [|g [|]]; cbn in SL; try lia. pose proof (SN 0 g eq_refl) as Lg. rewrite L1 in Lg. destruct g as [|x [|]]; cbn in Lg; try lia.
      destruct pi as [|i [|]]; cbn in L1; try lia. cbn [map both rws us transpose range ncols hd seq col nth List.length]. rewrite sqrt_sc by now apply pos_nth. reflexivity.
    + rewrite EC, (uf_chol cs E HE). destruct (e_chol E sub) as [L|]; [|reflexivity]. cbn [option_map of_option bind rmap]. unfold smap. cbn [fst snd]. now rewrite transpose_rws.
Qed.
Lemma RDR_loop_unit ds n : forall i P, setup_RDR_loop E' ds n i (map (us cs) P) = rmap (pmap cs) (setup_RDR_loop E ds n i P).
Proof.
  induction n as [|n IH]; intros i P; cbn [setup_RDR_loop]; [reflexivity|]. rewrite rmap_bind. apply bind_ext. intros d _. rewrite mscale_us by apply cs_pos. rewrite EI, (uf_inv cs E HE).
  destruct (e_inv E (mscale (ninv d) P)) as [iP|]; [|reflexivity]. cbn [option_map of_option bind]. rewrite IH. destruct (setup_RDR_loop E ds n (S i) _) as [[t1 t2]|]; reflexivity.
Qed.
Lemma invert_unit n : forall l, invert_all E' n (map (map (us cs)) l) = rmap (map inv) (invert_all E n l).
Proof.
  induction n as [|n IH]; intros l; cbn [invert_all]; [reflexivity|]. destruct l as [|P l]; [reflexivity|]. cbn [map]. rewrite EI, (uf_inv cs E HE). destruct (e_inv E P) as [iP|]; [|reflexivity].
  cbn [option_map of_option bind]. rewrite IH. destruct (invert_all E n l); reflexivity.
Qed.
Lemma setup_RDR_unit R ntry ds l : setup_RDR_matrix E' (map (us cs) R) ntry ds (option_map (map (map (us cs))) l) =
  rmap (fun '(R, l, i) => (map (us cs) R, map (map (us cs)) l, map inv i)) (setup_RDR_matrix E R ntry ds l).
Proof.
  unfold setup_RDR_matrix. destruct l as [l|]; cbn [option_map].
  - rewrite invert_unit, bind_rmap, rmap_bind. apply bind_ext. intros iv _. destruct l as [|P l]; reflexivity.
  - rewrite EI, (uf_inv cs E HE). destruct (e_inv E R) as [iR|]; [|reflexivity]. cbn [option_map of_option bind]. rewrite RDR_loop_unit. destruct (setup_RDR_loop E ds _ 1 R) as [[t1 t2]|]; reflexivity.
Qed.

(** ** The default *)
Definition usable (s t : XR) : Prop := (exists a, s = Fin a /\ (0 < a)%R) \/ (unbounded s /\ t <> Fin 0%R).
Lemma square_pos a : a <> 0%R -> neq (Fin (a * a)%R : XR) n0 = false.
Proof. intros H. unfold n0. cbn [neq nQ Num_X xeq aeq aQ Arith_R]. rewrite Q2R0. unfold Reqb. destruct (Req_EM_T (a * a) 0) as [Z|]; [|reflexivity]. apply Rmult_integral in Z. tauto. Qed.
Lemma variance_unit r s t : (0 < r)%R -> usable s t -> default_variance (sc r s) (sc r t) = sc (r * r) (default_variance s t).
Proof.
  intros Hr [(a & -> & Ha)|[U T]].
  - unfold default_variance. cbn [sc]. unfold nsqr. cbn [nmul Num_X xmul amul Arith_R nisinf nisnan xisinf xisnan orb].
    change (neq (Fin (a * a)%R) n0) with (neq (Fin (a * a)%R : XR) n0).
    rewrite !square_pos by nra. cbn [sc]. f_equal. ring.
  - assert (I : forall s, unbounded s -> (nisinf (nsqr s) || nisnan (nsqr s))%bool = true) by (intros [] ?; try contradiction; reflexivity).
    unfold default_variance. rewrite (unbounded_shift 0 s U) at 1 || idtac. rewrite (I s U). assert (U' : unbounded (sc r s)) by (destruct s; try contradiction; exact Logic.I). rewrite (I _ U').
    assert (P5 : Q2R (5 # 100) = (1 / 20)%R) by (unfold Q2R; cbn; lra).
    assert (S5 : xsgninf (1 / 20)%R = (PInf : XR)) by (unfold xsgninf; cbn [alt Arith_R]; rewrite a0_0; unfold Rltb; destruct (Rlt_dec 0 (1 / 20)); [reflexivity|lra]).
    destruct t as [t| | |]; cbn [sc nabs Num_X xabs aabs Arith_R].
    + unfold nsqr. cbn [nmul nQ Num_X xmul amul aQ Arith_R]. rewrite P5. assert (t <> 0%R) by congruence.
      rewrite !square_pos.
      * cbn [sc]. f_equal. rewrite Rabs_mult, (Rabs_right r) by lra. ring.
      * intros Z. apply Rmult_integral in Z as [Z|Z]; [|lra]. now apply Rabs_no_R0 in Z.
      * intros Z. apply Rmult_integral in Z as [Z|Z]; [|lra]. apply Rabs_no_R0 in Z; [exact Z|nra].
    + unfold nsqr. cbn [nmul nQ Num_X xmul amul aQ Arith_R]. rewrite P5, S5. reflexivity.
    + unfold nsqr. cbn [nmul nQ Num_X xmul amul aQ Arith_R]. rewrite P5, S5. reflexivity.
    + reflexivity.
Qed.
Lemma variances_unit e : posl e -> forall s t, Forall2 usable s t -> map2 default_variance (us e s) (us e t) = us (sq e) (map2 default_variance s t).
Proof.
  induction 1 as [|r e Hr _ IH]; intros s t H; [rewrite !us_nil; reflexivity|]. destruct H as [|x y s t Hxy H]; [reflexivity|]. cbn [us sq map map2]. rewrite variance_unit by assumption. f_equal. now apply IH.
Qed.
Lemma setup_covariance_unit q s t : q <> None \/ Forall2 usable s t ->
  setup_covariance_matrix (option_map (unit_qcov c) q) (us c s) (us c t) = unit_qcov c (setup_covariance_matrix q s t).
Proof.
  intros H. unfold setup_covariance_matrix. destruct q as [q|]; [reflexivity|]. destruct H as [H|H]; [congruence|]. cbn [option_map]. rewrite variances_unit by assumption.
  set (v := map2 default_variance s t). unfold unit_qcov. fold (sq c). destruct (Nat.min _ _ =? 1) eqn:Z; [|apply diag_both].
  assert (L1 : List.length v = 1).
  { apply Nat.eqb_eq in Z. unfold diagflat in Z. rewrite map_length in Z. unfold range in Z. rewrite seq_length in Z. destruct v as [|a [|b v]]; [discriminate|reflexivity|].
    cbn [ncols hd map seq List.length] in Z. rewrite map_length, seq_length in Z. lia. }
  destruct v as [|x [|]]; try discriminate. assert (D : forall y : XR, diagflat [y] = [[y]]) by reflexivity. destruct c as [|r e]; [now rewrite D|]. rewrite D. cbn [sq map List.concat app us]. rewrite us_empty. apply D.
Qed.
Lemma initialize_covariance_unit meth ntry ds ur q ad iq s t na old th : q <> None \/ Forall2 usable s t ->
  initialize_covariance E' meth ntry ds (option_map (map (map (us cs))) ur) (option_map (unit_qcov c) q) ad iq (us c s) (us c t) pi na (unit_rdr cs old) (us cs th) =
  rmap (unit_cov cs) (initialize_covariance E meth ntry ds ur q ad iq s t pi na old th).
Proof.
  intros H. unfold initialize_covariance. rewrite (setup_covariance_unit q s t H), setup_R_unit, bind_rmap, rmap_bind. apply bind_ext. intros [R sub] _. unfold smap. cbn [fst snd].
  destruct (uses_dr_setup meth).
  - rewrite setup_RDR_unit. destruct (setup_RDR_matrix E R ntry ds ur) as [[[R1 l] i]|]; [|reflexivity]. cbn [rmap bind]. unfold unit_cov. cbn. destruct iq; reflexivity.
  - cbn [bind rmap]. unfold unit_cov. cbn. destruct iq; reflexivity.
Qed.
End Setup.
