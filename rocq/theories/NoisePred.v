(** Simulated observations in plotting/PredictionIntervals.py 131-584 (modelled in PredInt.v), over the real numbers: lemmas. *)

From Coq Require Import ZArith QArith Qround Bool Lia List Reals Lra Arith String.
From Verif Require Import Base Num ChainFiles Results PlotUtil Propagation PredInt RVec RMat QuantSpec QuantFacts PropagFacts NoiseFacts.
Import ListNotations.
Close Scope Q_scope.
Close Scope R_scope.
Open Scope list_scope.
Open Scope nat_scope.

(** Specification: rows of the chain used *)
Definition chosen (us : nat -> Q) (n len : nat) (ks : list nat) : Prop :=
  if len <=? n then ks = seq 0 len else Forall2 (fun i k => drawn (us i) len k) (seq 0 n) ks.

(** ** Selection of rows *)

Lemma wrap_ok u n : (0 <= u)%Q -> (u < 1)%Q -> 0 < n -> exists k, wrap n (draw_index u n) = Ok k /\ k < n /\ drawn u n k.
Proof.
  intros U0 U1 N. assert (exists k, wrap n (draw_index u n) = Ok k) as [k E].
  { apply Qle_lteq in U0 as [U0|U0].
    - pose proof (draw_index_range _ _ U0 U1 N) as H. unfold wrap. destruct (Z.leb_spec 0 (draw_index u n)); [|lia].
      destruct (Z.ltb_spec (draw_index u n) (Z.of_nat n)); [eauto|lia].
    - assert (E : draw_index u n = (-1)%Z) by (rewrite <- (draw_index_zero n); unfold draw_index; now rewrite <- U0).
      rewrite E. unfold wrap. cbn [Z.leb Z.compare]. destruct (Z.leb_spec (- -1) (Z.of_nat n)); [eauto|lia]. }
  pose proof (wrap_drawn u n k U0 U1 N E) as D. exists k. split; auto. split; auto. apply D.
Qed.

Lemma rows_taken us n len : (forall k, (0 <= us k)%Q /\ (us k < 1)%Q) ->
  exists ks, chosen us n len ks /\ Forall (fun k => k < len) ks /\ List.length ks = Nat.min n len /\
    forall l : list (list XR), List.length l = len ->
      take_rows l (fst (define_sample_points us n len)) = Ok (map (fun k => nth k l []) ks).
Proof.
  intros U. unfold define_sample_points, chosen. destruct (Nat.leb_spec len n) as [L|L]; cbn [fst].
  - exists (seq 0 len). split; auto. split; [apply Forall_forall; intros k I; apply in_seq in I; lia|]. split; [rewrite seq_length; lia|].
    intros l <-. pose proof (take_all l []) as T. cbn [app List.length] in T. unfold take_rows, range. rewrite T. f_equal.
    apply nth_error_ext_list. intros i. destruct (Nat.lt_ge_cases i (List.length l)) as [I|I].
    + rewrite nth_error_seq_map by auto. now apply nth_error_nth'.
    + rewrite !(proj2 (nth_error_None _ _)); auto. now rewrite map_length, seq_length.
  - assert (G : forall a w, exists ks, Forall2 (fun i k => drawn (us i) len k) (seq a w) ks /\ Forall (fun k => k < len) ks /\
      forall l : list (list XR), List.length l = len ->
      mapM (fun i => let* k := wrap len i in of_option IndexError (nth_error l k)) (map (fun k => draw_index (us k) len) (seq a w)) = Ok (map (fun k => nth k l []) ks)).
    { intros a w. revert a. induction w as [|w IH]; intros a.
      - exists []. split; [constructor|]. split; [constructor|]. reflexivity.
      - destruct (wrap_ok (us a) len (proj1 (U a)) (proj2 (U a)) ltac:(lia)) as (k & E & K & D). destruct (IH (S a)) as (ks & H1 & H2 & H3).
        exists (k :: ks). split; [constructor; auto|]. split; [constructor; auto|]. intros l LL. cbn [seq map mapM]. rewrite E. cbn [bind].
        rewrite (nth_error_nth' l []) by lia. cbn [of_option bind]. rewrite H3 by auto. reflexivity. }
    destruct (G 0 n) as (ks & H1 & H2 & H3). exists ks. split; auto. split; auto. split.
    + rewrite Nat.min_l by lia. clear - H1.
      assert (E : List.length (seq 0 n) = List.length ks) by (induction H1; cbn; auto). now rewrite seq_length in E.
    + intros l LL. unfold take_rows, range. rewrite LL. now apply H3.
Qed.

(** ** Columns of variances *)

Lemma total_S k ncol : total (S k) ncol = total k ncol + ncol k.
Proof.
  unfold total. rewrite seq_S, map_app. cbn [map Nat.add]. generalize (map ncol (seq 0 k)). intros l. unfold natlist_sum.
  induction l as [|x l IH]; cbn [app fold_right]; lia.
Qed.
Lemma total_le a b ncol : a <= b -> total a ncol <= total b ncol.
Proof. intros H. induction H; auto. rewrite total_S. lia. Qed.
Lemma consecutive_total ncol w : forall a, consecutive (total a ncol) (map ncol (seq a w)) = map (fun ii => (total ii ncol, total ii ncol + ncol ii)) (seq a w).
Proof. induction w as [|w IH]; intros a; cbn [seq map consecutive]; auto. f_equal. rewrite <- total_S. apply IH. Qed.
Lemma consecutive_ones w : forall a, consecutive a (repeat 1 w) = map (fun ii => (ii, ii + 1)) (seq a w).
Proof. induction w as [|w IH]; intros a; cbn [repeat consecutive seq map]; auto. f_equal. rewrite Nat.add_1_r. apply IH. Qed.
Lemma total_bounds nd ncol : (forall ii, ii < nd -> 1 <= ncol ii) -> nd <= total nd ncol /\
  (total nd ncol = nd -> forall ii, ii < nd -> ncol ii = 1 /\ total ii ncol = ii).
Proof.
  intros H. induction nd as [|nd IH]; [split; [lia|intros; lia]|]. destruct IH as [IH1 IH2]; [intros; apply H; lia|]. rewrite total_S.
  specialize (H nd ltac:(lia)). split; [lia|]. intros E ii I. destruct (Nat.eq_dec ii nd) as [->|N]; [lia|]. apply IH2; lia.
Qed.

Lemma layout_index n nd ncol c : (forall ii, ii < nd -> 1 <= ncol ii) -> layout n nd ncol c ->
  exists a w : nat -> nat, analyze_s2chain nd n (map ncol (seq 0 nd)) = Ok (map (fun ii => (a ii, a ii + w ii)) (seq 0 nd)) /\
    forall ii, ii < nd -> a ii + w ii <= n /\ (w ii = ncol ii \/ w ii = 1) /\
      forall jj, jj < ncol ii -> a ii + (if w ii =? ncol ii then jj else 0) = c ii jj.
Proof.
  intros H LO. destruct (total_bounds nd ncol H) as [TB TE]. unfold analyze_s2chain. fold (total nd ncol).
  destruct (Nat.eqb_spec n 1) as [->|N1].
  - exists (fun _ => 0), (fun _ => 1). split; [now rewrite repeat_seq|]. intros ii I. split; [lia|]. split; auto. intros jj J.
    assert (D : (if 1 =? ncol ii then jj else 0) = 0) by (destruct (Nat.eqb_spec 1 (ncol ii)); lia). rewrite D.
    destruct LO as [[_ E]|[[ET E]|[ET E]]]; rewrite E; auto; [|lia].
    assert (ND : nd = 1) by lia. subst nd. destruct (TE (eq_sym ET) ii I). lia.
  - destruct (Nat.eqb_spec (total nd ncol) n) as [ET|NT].
    + exists (fun ii => total ii ncol), ncol. split.
      { rewrite firstn_all2 by now rewrite map_length, seq_length. rewrite <- (consecutive_total ncol nd 0). reflexivity. }
      intros ii I. split; [rewrite <- total_S, <- ET; apply total_le; lia|]. split; auto. intros jj J. rewrite Nat.eqb_refl.
      destruct LO as [[? _]|[[_ E]|[EN E]]]; [lia|now rewrite E|]. rewrite E. destruct (TE ltac:(lia) ii I). lia.
    + destruct LO as [[? _]|[[? _]|[EN E]]]; [lia|lia|]. subst n. rewrite Nat.eqb_refl. exists (fun ii => ii), (fun _ => 1).
      split; [now rewrite consecutive_ones|]. intros ii I. split; [lia|]. split; auto. intros jj J. rewrite E.
      destruct (Nat.eqb_spec 1 (ncol ii)); lia.
Qed.

Lemma nth_error_firstn_lt {A} (l : list A) : forall n i, i < n -> nth_error (firstn n l) i = nth_error l i.
Proof. induction l as [|x l IH]; intros [|n] [|i] H; cbn; auto; try lia. apply IH. lia. Qed.
Lemma nth_error_skipn_at {A} (l : list A) : forall n i, nth_error (skipn n l) i = nth_error l (n + i).
Proof. induction l as [|x l IH]; intros [|n] i; cbn; auto. now destruct i. Qed.
Lemma slice_tab (f : nat -> R) n a w : a + w <= n -> slice a (a + w) (fin (vtab n f)) = fin (vtab w (fun j => f (a + j))).
Proof.
  intros H. unfold slice. replace (a + w - a) with w by lia. rewrite !fin_vtab. apply nth_error_ext_list. intros i.
  destruct (Nat.lt_ge_cases i w) as [I|I].
  - rewrite nth_error_firstn_lt by auto. rewrite nth_error_skipn_at. rewrite !nth_error_seq_map by lia. reflexivity.
  - rewrite !(proj2 (nth_error_None _ _)); auto; [|rewrite firstn_length; lia]. rewrite map_length, seq_length. lia.
Qed.

(** ** One array of observations *)

Section Arrays.
Context (zr : nat -> R) (scale : nat).
Hypothesis HS : scale <= 2.
Let z : nat -> XR := fun i => Fin (zr i).

Lemma diag_noise n p (f : nat -> nat -> R) d : 0 < p ->
  matmul (finm (table n p f)) (diagflat (fin (vtab p d))) = finm (table n p (fun i j => (f i j * d j)%R)).
Proof.
  intros P. rewrite diagflat_tab, matmul_tab by auto. f_equal. apply table_ext. intros i j I J.
  rewrite (Sum_ext p _ (fun l => if (l =? j)%nat then f i l * d l else 0)%R) by (intros l _; destruct (l =? j); lra).
  clear - J. induction p as [|p IH]; [lia|]. cbn [Sum]. destruct (Nat.eqb_spec p j) as [->|N].
  - rewrite Sum_0; [lra|]. intros l L. destruct (Nat.eqb_spec l j); [lia|reflexivity].
  - rewrite IH by lia. lra.
Qed.

Lemma observation_tab n p w f sv pos : 0 < p -> w = p \/ w = 1 -> (forall i j, i < n -> j < p -> on_scale scale (f i j)) ->
  (forall j, j < w -> (0 <= sv j)%R) ->
  observation scale (fin (vtab w sv)) (finm (table n p f)) p z pos =
  Ok (finm (table n p (fun i j => observed scale (f i j) (zr (pos + i * p + j)) (sv (if w =? p then j else 0))))).
Proof.
  intros P W O V. unfold observation. rewrite fin_length, vtab_length.
  assert (E : (if w =? p then Ok (fin (vtab w sv)) else if w =? 1 then Ok (map (fun _ => nmul (nth 0 (fin (vtab w sv)) n0) n1) (range p)) else Err SysExit) =
              Ok (fin (vtab p (fun j => sv (if w =? p then j else 0))))).
  { destruct (Nat.eqb_spec w p) as [->|N]; auto. destruct W as [|W1]; [lia|]. subst w. cbn [Nat.eqb]. f_equal. rewrite (fin_vtab p (fun _ => sv 0)).
    apply map_ext. intros _. rewrite nth_fin_vtab by lia. rewrite XR_n1. change (@nmul XR _ (Fin ?a) (Fin ?b)) with (Fin (a * b)%R). f_equal. lra. }
  rewrite E. cbn [bind]. clear E. replace (2 <? scale) with false by (symmetry; now apply Nat.ltb_ge).
  set (sv' := fun j => sv (if w =? p then j else 0)). assert (V' : forall j, j < p -> (0 <= sv' j)%R).
  { intros j J. unfold sv'. destruct (Nat.eqb_spec w p); apply V; lia. }
  assert (ES : map nsqrt (fin (vtab p sv')) = fin (vtab p (fun j => sqrt (sv' j)))).
  { rewrite !fin_vtab, map_map. apply map_seq_ext. intros j J. apply XR_nsqrt. apply V'. lia. }
  rewrite ES. rewrite finm_length, table_length.
  assert (EZ : map (fun i => map (fun j => z (pos + i * p + j)) (range p)) (range n) = finm (table n p (fun i j => zr (pos + i * p + j)))).
  { rewrite finm_table. apply map_ext. intros i. rewrite fin_vtab. reflexivity. }
  rewrite EZ, diag_noise by auto. f_equal. rewrite !finm_table, map2_map. apply map_seq_ext. intros i I. rewrite !fin_vtab, map2_map.
  apply map_seq_ext. intros j J. change (sv (if w =? p then j else 0)) with (sv' j). specialize (O i j ltac:(lia) ltac:(lia)). destruct O as [O1 O2]. unfold observed.
  destruct scale as [|[|[|?]]]; [| | |lia]; try reflexivity. rewrite XR_nsqrt by auto. reflexivity.
Qed.

End Arrays.

Lemma slice_concat {A} p (rows : list (list A)) : forall i, (forall r, In r rows -> List.length r = p) -> i < List.length rows ->
  slice (i * p) (i * p + p) (List.concat rows) = nth i rows [].
Proof.
  induction rows as [|r rows IH]; intros i L I; cbn [List.length] in I; [lia|]. cbn [List.concat]. unfold slice in *.
  assert (LR : List.length r = p) by (apply L; now left). destruct i as [|i].
  - cbn [Nat.mul Nat.add skipn nth]. rewrite Nat.sub_0_r, firstn_app, <- LR, firstn_all, Nat.sub_diag. cbn [firstn]. apply app_nil_r.
  - cbn [nth]. rewrite <- (IH i) by (auto; try lia; intros; apply L; now right). replace (S i * p + p - S i * p) with (i * p + p - i * p) by lia. f_equal.
    rewrite skipn_app. cbn [Nat.mul]. rewrite (skipn_all2 r) by lia. cbn [app]. f_equal. lia.
Qed.
Lemma concat_len {A} p (rows : list (list A)) : (forall r, In r rows -> List.length r = p) -> List.length (List.concat rows) = List.length rows * p.
Proof.
  induction rows as [|r rows IH]; intros L; cbn [List.concat List.length Nat.mul]; auto.
  rewrite app_length, IH by (intros; apply L; now right). rewrite (L r) by now left. reflexivity.
Qed.

Lemma response_reshape y n p f : response y n p f -> shape_of y = (n, p) /\ reshape n p (flat y) = Ok (finm (table n p f)).
Proof.
  assert (G : response (Y2 p (finm (table n p f))) n p f -> shape_of (Y2 p (finm (table n p f))) = (n, p) /\
              reshape n p (List.concat (finm (table n p f))) = Ok (finm (table n p f))).
  { intros _. cbn [shape_of]. rewrite finm_length, table_length. split; auto. unfold reshape.
    assert (L : forall r, In r (finm (table n p f)) -> List.length r = p).
    { intros r I. rewrite finm_table in I. apply in_map_iff in I as (i & <- & _). now rewrite fin_length, vtab_length. }
    rewrite (concat_len p) by auto. rewrite finm_length, table_length, Nat.eqb_refl. f_equal. transitivity (map (fun i => fin (vtab p (f i))) (seq 0 n)); [|symmetry; apply finm_table].
    apply map_seq_ext. intros i I. rewrite slice_concat by (auto; rewrite finm_length, table_length; lia). apply nth_finm_table. lia. }
  intros [->|[-> ->]]; [apply G; now left|]. destruct G as [_ G]; [now left|]. split.
  - cbn [shape_of]. now rewrite fin_length, vtab_length.
  - rewrite <- G. f_equal. cbn [flat]. rewrite finm_table. rewrite (map_ext _ (fun i => [Fin (f i 0)])) by (intros; reflexivity).
    now rewrite concat_singles, fin_vtab.
Qed.

(** ** The rows and the data sets *)

Section Sets.
Context (theta : list XR) (parind local : list nat) (zr : nat -> R) (scale : nat) (m : nat) (row : nat -> list XR) (sv : nat -> nat -> R) (ns : nat)
  (model : nat -> list XR -> @yval XR) (nd : nat) (nrow ncol : nat -> nat) (g : nat -> list XR -> nat -> nat -> R).
Hypothesis HN : NoDup parind.
Hypothesis HB : forall i, In i parind -> i < List.length theta.
Hypothesis HL : List.length local = List.length theta.
Hypothesis HR : forall q, q < m -> List.length (row q) = List.length parind.
Hypothesis HS : scale <= 2.
Let z : nat -> XR := fun i => Fin (zr i).
Definition tq (q : nat) : list XR := point theta parind (row q).
Definition th (ii q : nat) : list XR := mask (set_local_parameters ii local) (tq q).
Hypothesis HC : forall ii, ii < nd -> 1 <= ncol ii.
Hypothesis HM : forall ii q, ii < nd -> q < m -> response (model ii (th ii q)) (nrow ii) (ncol ii) (g ii (th ii q)) /\
  forall i j, i < nrow ii -> j < ncol ii -> on_scale scale (g ii (th ii q) i j).

Lemma tq_good q : q < m -> good theta parind (tq q).
Proof. intros Q. unfold tq, point. apply good_scatter; auto. Qed.

Lemma row_predicted ii q s : ii < nd -> q < m -> good theta parind (i_theta s) ->
  predict_row ii (model ii) parind (set_local_parameters ii local) (nrow ii) (ncol ii) (row q) s =
  (mkist (tq q) (i_pos s) (i_calls s ++ [(ii, th ii q)]), Ok (finm (table (nrow ii) (ncol ii) (g ii (th ii q))))).
Proof.
  intros I Q G. destruct (HM ii q I Q) as [R _]. apply response_reshape in R as [_ R].
  unfold predict_row, andthen, assign. rewrite (put_good theta parind HB) by auto. cbn [i_theta i_pos i_calls].
  change (scatter theta parind (row q)) with (tq q). unfold select.
  assert (E : List.length (set_local_parameters ii local) = List.length (tq q)).
  { unfold set_local_parameters, tq, point. now rewrite map_length, scatter_length. }
  rewrite E, Nat.eqb_refl. change (mask (set_local_parameters ii local) (tq q)) with (th ii q). unfold lift. now rewrite R.
Qed.

Definition ob (base ii w a q i j : nat) : R :=
  observed scale (g ii (th ii q) i j) (zr (base + q * (nrow ii * ncol ii) + i * ncol ii + j)) (sv q (a + (if w =? ncol ii then j else 0))).

Lemma rows_observed base ii a w : ii < nd -> w = ncol ii \/ w = 1 -> a + w <= ns -> (forall q c, q < m -> c < ns -> (0 <= sv q c)%R) -> forall k q s,
  q + k <= m -> good theta parind (i_theta s) -> i_pos s = base + q * (nrow ii * ncol ii) ->
  exists s', prediction_rows ii (model ii) parind (set_local_parameters ii local) (nrow ii) (ncol ii) z scale (map row (seq q k))
       (map (slice a (a + w)) (map (fun q => fin (vtab ns (sv q))) (seq q k))) s =
     (s', Ok (map (fun q => finm (table (nrow ii) (ncol ii) (g ii (th ii q)))) (seq q k),
              map (fun q => finm (table (nrow ii) (ncol ii) (ob base ii w a q))) (seq q k))) /\
    good theta parind (i_theta s') /\ i_pos s' = base + (q + k) * (nrow ii * ncol ii).
Proof.
  intros I W A V. induction k as [|k IH]; intros q s Q G P; cbn [seq map prediction_rows].
  - exists s. rewrite Nat.add_0_r. auto.
  - unfold andthen at 1. rewrite row_predicted by (auto; lia). unfold andthen at 1, observe_row. cbn [i_pos i_theta i_calls]. rewrite slice_tab by auto.
    destruct (HM ii q I ltac:(lia)) as [_ O].
    pose proof (observation_tab zr scale HS (nrow ii) (ncol ii) w (g ii (th ii q)) (fun j => sv q (a + j)) (i_pos s) ltac:(specialize (HC ii I); lia) W O) as OB.
    fold z in OB. rewrite OB by (intros; apply V; lia). clear OB. unfold andthen at 1.
    destruct (IH (S q) (mkist (tq q) (i_pos s + nrow ii * ncol ii) (i_calls s ++ [(ii, th ii q)])) ltac:(lia) (tq_good q ltac:(lia)) ltac:(cbn [i_pos]; lia))
      as (s' & E & G' & P'). rewrite E. exists s'. unfold ret. split; [|split; [auto|rewrite P'; lia]].
    do 4 f_equal. unfold ob. rewrite <- P. reflexivity.
Qed.

(** Positions in the stream of normals where data set [ii] starts *)
Definition offset (ii : nat) : nat := m * total ii (fun i => nrow i * ncol i).
Context (c : nat -> nat -> nat) (a w : nat -> nat) (lims : list Q).
Hypothesis HI : forall ii, ii < nd -> a ii + w ii <= ns /\ (w ii = ncol ii \/ w ii = 1) /\
      forall jj, jj < ncol ii -> a ii + (if w ii =? ncol ii then jj else 0) = c ii jj.
Hypothesis HV : forall q k, q < m -> k < ns -> (0 <= sv q k)%R.
Hypothesis M2 : 2 <= m.
Hypothesis LU : Forall unit_interval lims.

Definition sample (ii jj : nat) : list (list R) := map (fun q => vtab (nrow ii) (fun i => g ii (th ii q) i jj)) (seq 0 m).
Definition place (ii q i jj : nat) : nat := offset ii + q * (nrow ii * ncol ii) + i * ncol ii + jj.
Definition observations (ii jj : nat) : list (list R) :=
  map (fun q => vtab (nrow ii) (fun i => observed scale (g ii (th ii q) i jj) (zr (place ii q i jj)) (sv q (c ii jj)))) (seq 0 m).
Definition quantile_rows (x : list (list R)) (n : nat) : list (list XR) := finm (map (fun p => map (rquant x p) (seq 0 n)) lims).

Lemma quantiles_of (f : nat -> nat -> nat -> R) n p : 
  generate_quantiles (map (fun q => finm (table n p (f q))) (seq 0 m)) lims n p =
  Ok (map (fun jj => quantile_rows (map (fun q => vtab n (fun i => f q i jj)) (seq 0 m)) n) (seq 0 p)).
Proof.
  unfold generate_quantiles, range. apply mapM_tab. intros jj J. rewrite map_map.
  rewrite (map_seq_ext _ (fun q => fin (vtab n (fun i => f q i jj)))) by (intros; rewrite col_fin, Rcol_table by auto; reflexivity).
  assert (E : map (fun q => fin (vtab n (fun i => f q i jj))) (seq 0 m) = finm (map (fun q => vtab n (fun i => f q i jj)) (seq 0 m))) by (unfold finm; now rewrite map_map).
  rewrite E. apply quantile_value; auto. now rewrite map_length, seq_length.
Qed.

Lemma sets_done f : f_parind f = parind -> f_local f = local -> forall k ii s, ii + k <= nd -> good theta parind (i_theta s) -> i_pos s = offset ii ->
  exists s', intervals_of_sets f model z scale lims (map row (seq 0 m)) (Some (map (fun q => fin (vtab ns (sv q))) (seq 0 m)))
      (map (fun ii => (ii, (nrow ii, ncol ii), (a ii, a ii + w ii))) (seq ii k)) s =
    (s', Ok (map (fun ii => map (fun jj => quantile_rows (sample ii jj) (nrow ii)) (seq 0 (ncol ii))) (seq ii k),
             map (fun ii => map (fun jj => quantile_rows (observations ii jj) (nrow ii)) (seq 0 (ncol ii))) (seq ii k))).
Proof.
  intros FP FL. induction k as [|k IH]; intros ii s I G P; cbn [seq map intervals_of_sets].
  - exists s. reflexivity.
  - destruct (HI ii ltac:(lia)) as (A & W & C). rewrite FL, FP.
    destruct (rows_observed (offset ii) ii (a ii) (w ii) ltac:(lia) W A HV m 0 s ltac:(lia) G ltac:(lia)) as (s1 & E1 & G1 & P1).
    unfold andthen at 1. unfold andthen at 1. rewrite E1. unfold andthen at 1, lift at 1.
    rewrite quantiles_of. unfold andthen at 1, lift at 1. rewrite quantiles_of. unfold ret at 1.
    destruct (IH (S ii) s1 ltac:(lia) G1) as (s2 & E2).
    { rewrite P1. unfold offset. rewrite total_S. lia. }
    unfold andthen. rewrite E2. exists s2. unfold ret. do 4 f_equal.
    apply map_seq_ext. intros jj J. f_equal. unfold observations. apply map_seq_ext. intros q Q. apply vtab_ext. intros i Hi. unfold ob.
    rewrite C by lia. reflexivity.
Qed.

Lemma rows_evaluated ii : ii < nd -> forall k q s, q + k <= m -> good theta parind (i_theta s) ->
  exists s', credible_rows ii (model ii) parind (set_local_parameters ii local) (nrow ii) (ncol ii) (map row (seq q k)) s =
     (s', Ok (map (fun q => finm (table (nrow ii) (ncol ii) (g ii (th ii q)))) (seq q k))) /\ good theta parind (i_theta s').
Proof.
  intros I. induction k as [|k IH]; intros q s Q G; cbn [seq map credible_rows].
  - exists s. split; auto.
  - unfold andthen at 1. rewrite row_predicted by (auto; lia). unfold andthen at 1.
    destruct (IH (S q) (mkist (tq q) (i_pos s) (i_calls s ++ [(ii, th ii q)])) ltac:(lia) (tq_good q ltac:(lia))) as (s' & E & G').
    rewrite E. exists s'. split; auto.
Qed.
Lemma sets_evaluated z' scale' f : f_parind f = parind -> f_local f = local -> forall k ii s, ii + k <= nd -> good theta parind (i_theta s) ->
  exists s', intervals_of_sets f model z' scale' lims (map row (seq 0 m)) None
      (map (fun ii => (ii, (nrow ii, ncol ii), (a ii, a ii + w ii))) (seq ii k)) s =
    (s', Ok (map (fun ii => map (fun jj => quantile_rows (sample ii jj) (nrow ii)) (seq 0 (ncol ii))) (seq ii k), map (fun _ => []) (seq ii k))).
Proof.
  intros FP FL. induction k as [|k IH]; intros ii s I G; cbn [seq map intervals_of_sets].
  - exists s. reflexivity.
  - rewrite FL, FP. destruct (rows_evaluated ii ltac:(lia) m 0 s ltac:(lia) G) as (s1 & E1 & G1).
    unfold andthen at 1. unfold andthen at 1. rewrite E1. unfold andthen at 1, lift at 1. rewrite quantiles_of. unfold ret at 1.
    destruct (IH (S ii) s1 ltac:(lia) G1) as (s2 & E2). unfold andthen. rewrite E2. exists s2. reflexivity.
Qed.

Lemma places_differ ii q i jj ii' q' i' jj' : q < m -> q' < m -> i < nrow ii -> i' < nrow ii' -> jj < ncol ii -> jj' < ncol ii' ->
  place ii q i jj = place ii' q' i' jj' -> ii = ii' /\ q = q' /\ i = i' /\ jj = jj'.
Proof.
  clear. assert (LT : forall ii q i jj, q < m -> i < nrow ii -> jj < ncol ii -> place ii q i jj < offset (S ii)).
  { intros x q0 i0 j0 Q I J. unfold place, offset. rewrite total_S.
    assert (i0 * ncol x + j0 < nrow x * ncol x) by nia. assert (S q0 * (nrow x * ncol x) <= m * (nrow x * ncol x)) by (apply Nat.mul_le_mono_r; lia). lia. }
  assert (GE : forall ii q i jj, offset ii <= place ii q i jj) by (intros; unfold place; lia).
  assert (MO : forall x y, x <= y -> offset x <= offset y) by (intros x y XY; unfold offset; pose proof (total_le x y (fun i => nrow i * ncol i) XY); nia).
  intros Q Q' I I' J J' E.
  assert (ii = ii').
  { pose proof (LT ii q i jj Q I J). pose proof (LT ii' q' i' jj' Q' I' J'). pose proof (GE ii q i jj). pose proof (GE ii' q' i' jj').
    destruct (lt_eq_lt_dec ii ii') as [[L|]|L]; auto.
    - pose proof (MO (S ii) ii' L). lia.
    - pose proof (MO (S ii') ii L). lia. }
  subst ii'. split; auto. unfold place in E.
  assert (H1 : nrow ii * ncol ii * q + (ncol ii * i + jj) = nrow ii * ncol ii * q' + (ncol ii * i' + jj')) by nia.
  destruct (Nat.div_mod_unique (nrow ii * ncol ii) q q' (ncol ii * i + jj) (ncol ii * i' + jj')) as [H2 H3]; auto; try nia.
  destruct (Nat.div_mod_unique (ncol ii) i i' jj jj') as [H4 H5]; auto.
Qed.
End Sets.

(** ** The whole computation *)

Lemma skipn_seq_map {A} (f : nat -> A) b len : skipn b (map f (seq 0 len)) = map (fun k => f (b + k)) (seq 0 (len - b)).
Proof.
  apply nth_error_ext_list. intros i. rewrite nth_error_skipn_at. destruct (Nat.lt_ge_cases i (len - b)) as [I|I].
  - rewrite !nth_error_seq_map by lia. reflexivity.
  - rewrite !(proj2 (nth_error_None _ _)); auto; rewrite map_length, seq_length; lia.
Qed.
Lemma map_as_seq {A B} (h : A -> B) (l : list A) d : map h l = map (fun q => h (nth q l d)) (seq 0 (List.length l)).
Proof.
  apply nth_error_ext_list. intros i. destruct (Nat.lt_ge_cases i (List.length l)) as [I|I].
  - rewrite nth_error_seq_map by auto. rewrite nth_error_map, (nth_error_nth' l d) by auto. reflexivity.
  - rewrite !(proj2 (nth_error_None _ _)); auto; rewrite map_length; auto. now rewrite seq_length.
Qed.

(** Specification: the scale on which errors are added; that of the results, unless the caller gives one *)
Definition scale_used (asked : option nat) (results : pydict XR) (scale : nat) : Prop :=
  match asked with
  | None => lookup "sstype"%string results = Some (PInt (Z.of_nat scale)) \/ lookup "sstype"%string results = None /\ scale = 0
  | Some _ => scale = 0
  end.

Definition by_column {A} (nd : nat) (ncol : nat -> nat) (f : nat -> nat -> A) : list (list A) :=
  map (fun ii => map (f ii) (seq 0 (ncol ii))) (seq 0 nd).

Lemma combine_tab {A B} (f : nat -> A) (g : nat -> B) a n : combine (map f (seq a n)) (map g (seq a n)) = map (fun i => (f i, g i)) (seq a n).
Proof. revert a. induction n as [|n IH]; intros a; cbn; [reflexivity|]. now rewrite IH. Qed.

Theorem prediction_noise results model nd burnin asked nsample us zr theta parind chain local sf ns nrow ncol g c scale :
  stores results theta parind -> lookup "chain"%string results = Some (PMat chain) ->
  lookup "local"%string results = Some (PArrZ (map Z.of_nat local)) -> List.length local = List.length theta ->
  lookup "s2chain"%string results = Some (PMat (finm (table (List.length chain) ns sf))) ->
  fits theta parind chain -> (forall k, (0 <= us k)%Q /\ (us k < 1)%Q) -> scale_used asked results scale -> scale <= 2 ->
  (forall ii, ii < nd -> 1 <= ncol ii) -> layout ns nd ncol c ->
  let used := skipn burnin chain in
  let n := match nsample with Some n => n | None => List.length used end in
  2 <= Nat.min n (List.length used) ->
  (forall ii, ii < nd -> shape_of (model ii theta) = (nrow ii, ncol ii)) ->
  (forall ii row t, ii < nd -> In row used -> holds_row theta parind row t ->
     response (model ii (concerning ii local t)) (nrow ii) (ncol ii) (g ii (concerning ii local t)) /\
     forall i j, i < nrow ii -> j < ncol ii -> on_scale scale (g ii (concerning ii local t) i j)) ->
  (forall k j, k < List.length chain -> j < ns -> (0 <= sf k j)%R) ->
  exists results' calls ks pts place cred pred,
    prediction_intervals results model nd burnin asked nsample true us (fun i => Fin (zr i)) =
      (results', calls, Ok (mkpred (by_column nd ncol cred) (Some (by_column nd ncol pred)))) /\
    chosen us n (List.length used) ks /\ Forall2 (fun k t => holds_row theta parind (nth k used []) t) ks pts /\
    (forall ii q i jj ii' q' i' jj', q < List.length pts -> q' < List.length pts -> i < nrow ii -> i' < nrow ii' -> jj < ncol ii -> jj' < ncol ii' ->
       place ii q i jj = place ii' q' i' jj' -> ii = ii' /\ q = q' /\ i = i' /\ jj = jj') /\
    forall ii jj, ii < nd -> jj < ncol ii ->
      empirical_quantiles (nrow ii) (finm (map (fun t => vtab (nrow ii) (fun i => g ii (concerning ii local t) i jj)) pts)) (interval_limits true) = Ok (cred ii jj) /\
      empirical_quantiles (nrow ii) (finm (map (fun q => vtab (nrow ii) (fun i =>
          observed scale (g ii (concerning ii local (nth q pts [])) i jj) (zr (place ii q i jj)) (sf (burnin + nth q ks 0) (c ii jj))))
        (seq 0 (List.length pts)))) (interval_limits true) = Ok (pred ii jj).
Proof.
  intros S HC HLo LL H2 FT U SU HS NC LO used n M2 SH HM VP. destruct (stores_theta _ _ _ S) as [ST SP]. pose proof FT as (FN & FB & FL).
  unfold prediction_intervals, assign_features. cbn zeta. rewrite HC. cbn [of_option bind]. rewrite SP, HLo, ST, H2. cbn [of_option bind].
  rewrite as_indices_nat. cbn [bind f_theta f_s2chain f_chain]. fold used.
  assert (LC : List.length used = List.length chain - burnin) by (unfold used; apply skipn_length).
  assert (NC' : ncols (finm (table (List.length chain) ns sf)) = ns) by (rewrite ncols_fin; apply Rcols_table; lia).
  rewrite NC'. assert (ES : map snd (response_shapes model nd theta) = map ncol (seq 0 nd)).
  { unfold response_shapes, range. rewrite map_map. apply map_seq_ext. intros ii I. rewrite SH by lia. reflexivity. }
  rewrite ES. destruct (layout_index ns nd ncol c NC LO) as (a & w & EA & IX). rewrite EA. cbn [bind].
  change (check_nsample nsample (List.length used)) with n.
  destruct (rows_taken us n (List.length used) U) as (ks & CH & KL & KN & TK).
  destruct (define_sample_points us n (List.length used)) as [ix nn] eqn:ED. cbn [fst] in TK.
  rewrite TK by auto. cbn [bind]. rewrite TK by (rewrite skipn_length, finm_length, table_length; auto). cbn [bind].
  set (m := List.length ks). assert (KM : m = Nat.min n (List.length used)) by exact KN.
  rewrite (map_as_seq (fun k => nth k used []) ks 0), (map_as_seq (fun k => nth k (skipn burnin (finm (table (List.length chain) ns sf))) []) ks 0). fold m.
  set (row := fun q => nth (nth q ks 0) used []). set (sv := fun q => sf (burnin + nth q ks 0)).
  assert (KB : forall q, q < m -> nth q ks 0 < List.length used) by (intros q Q; rewrite Forall_forall in KL; apply KL, nth_In; exact Q).
  assert (E2 : map (fun q => nth (nth q ks 0) (skipn burnin (finm (table (List.length chain) ns sf))) []) (seq 0 m) = map (fun q => fin (vtab ns (sv q))) (seq 0 m)).
  { apply map_seq_ext. intros q Q. specialize (KB q ltac:(lia)). rewrite finm_table, skipn_seq_map.
    apply nth_error_nth. rewrite nth_error_seq_map by lia. reflexivity. }
  rewrite E2. clear E2.
  assert (RI : forall q, q < m -> In (row q) used) by (intros q Q; apply nth_In; now apply KB).
  assert (RL : forall q, q < m -> List.length (row q) = List.length parind).
  { intros q Q. rewrite Forall_forall in FL. apply FL. rewrite <- (firstn_skipn burnin chain). apply in_or_app. right. now apply RI. }
  assert (EX : setup_sstype asked (match lookup "sstype"%string results with Some (PInt z) => Z.to_nat z | _ => 0 end) = scale).
  { unfold scale_used, setup_sstype in *. destruct asked; auto. destruct SU as [->|[-> ->]]; auto. now rewrite Nat2Z.id. }
  cbn [f_sstype]. rewrite EX. unfold response_shapes, range.
  rewrite (map_seq_ext (fun ii => shape_of (model ii theta)) (fun ii => (nrow ii, ncol ii))) by (intros; apply SH; lia).
  assert (CT : combine (combine (seq 0 nd) (map (fun ii => (nrow ii, ncol ii)) (seq 0 nd))) (map (fun ii => (a ii, a ii + w ii)) (seq 0 nd)) =
               map (fun ii => (ii, (nrow ii, ncol ii), (a ii, a ii + w ii))) (seq 0 nd)).
  { assert (E0 : seq 0 nd = map (fun ii => ii) (seq 0 nd)) by (symmetry; apply map_id).
    transitivity (combine (combine (map (fun ii => ii) (seq 0 nd)) (map (fun ii => (nrow ii, ncol ii)) (seq 0 nd))) (map (fun ii => (a ii, a ii + w ii)) (seq 0 nd)));
      [now rewrite <- E0|]. now rewrite !combine_tab. }
  rewrite CT. clear CT.
  assert (TH : forall ii q, th theta parind local row ii q = concerning ii local (tq theta parind row q)) by (intros; apply mask_concerning).
  assert (HO : forall q, q < m -> holds_row theta parind (row q) (tq theta parind row q)) by (intros q Q; apply scatter_holds; auto).
  set (f := mkfeatures used _ parind local theta _).
  assert (HM' : forall ii q, ii < nd -> q < m -> response (model ii (th theta parind local row ii q)) (nrow ii) (ncol ii) (g ii (th theta parind local row ii q)) /\
     forall i j, i < nrow ii -> j < ncol ii -> on_scale scale (g ii (th theta parind local row ii q) i j)).
  { intros ii q I Q. rewrite TH. apply (HM ii (row q)); auto. }
  assert (LU : Forall unit_interval (interval_limits true)).
  { repeat constructor; try (apply Qle_bool_iff; reflexivity). }
  destruct (sets_done theta parind local zr scale m row sv ns model nd nrow ncol g FN FB LL RL HS NC HM' c a w (interval_limits true) IX) with (f := f) (k := nd) (ii := 0) (s := mkist theta 0 ([] : list (nat * list XR)))
    as (s' & E); auto; try lia.
  { intros q k Q K. unfold sv. apply VP; auto. specialize (KB q Q). lia. }
  { apply good_base. }
  { unfold offset, total. cbn. lia. }
  change (f_theta f) with theta. rewrite E. set (pts := map (tq theta parind row) (seq 0 m)).
  assert (LP : List.length pts = m) by (unfold pts; now rewrite map_length, seq_length).
  assert (NP : forall q, q < m -> nth q pts [] = tq theta parind row q).
  { intros q Q. apply nth_error_nth. unfold pts. now rewrite nth_error_seq_map. }
  eexists _, _, ks, pts, (place m nrow ncol), _, _. split; [|split; [exact CH|split; [|split]]].
  - cbn [bind]. unfold by_column. reflexivity.
  - assert (EK : ks = map (fun q => nth q ks 0) (seq 0 m)) by (etransitivity; [symmetry; apply map_id|exact (map_as_seq (fun x => x) ks 0)]).
    rewrite EK. unfold pts. clear - HO. assert (G : forall w a, a + w <= m -> Forall2 (fun k t => holds_row theta parind (nth k used []) t)
      (map (fun q => nth q ks 0) (seq a w)) (map (tq theta parind row) (seq a w))); [|now apply G].
    induction w as [|w IH]; intros a A; cbn [seq map]; constructor; [apply HO; lia|apply IH; lia].
  - rewrite LP. intros. now apply (places_differ m nrow ncol ii q i jj ii' q' i' jj').
  - intros ii jj I J. split; (rewrite (quantile_value (nrow ii)); auto; [|rewrite map_length; try rewrite seq_length; lia]); unfold quantile_rows.
    + assert (EQ : map (fun t => vtab (nrow ii) (fun i => g ii (concerning ii local t) i jj)) pts = sample theta parind local m row nrow g ii jj); [|now rewrite EQ].
      unfold sample, pts. rewrite map_map. apply map_ext. intros q. now rewrite TH.
    + rewrite LP.
      match goal with |- Ok (finm (map (fun p => map (rquant ?x p) _) _)) = _ =>
        assert (EQ : x = observations theta parind local zr scale m row sv nrow ncol g c ii jj); [|now rewrite EQ] end.
      unfold observations. apply map_seq_ext. intros q Q. rewrite NP by lia. rewrite <- TH. reflexivity.
Qed.

(** Without variances: the credible intervals *)
Theorem credible_values results model nd burnin asked nsample calc us z theta parind chain local nrow ncol (g : nat -> list XR -> nat -> nat -> R) :
  stores results theta parind -> lookup "chain"%string results = Some (PMat chain) ->
  lookup "local"%string results = Some (PArrZ (map Z.of_nat local)) -> List.length local = List.length theta ->
  (lookup "s2chain"%string results = Some PNone \/
   calc = false /\ exists ns sf c, lookup "s2chain"%string results = Some (PMat (finm (table (List.length chain) ns sf))) /\ layout ns nd ncol c) ->
  fits theta parind chain -> (forall k, (0 <= us k)%Q /\ (us k < 1)%Q) ->
  (forall ii, ii < nd -> 1 <= ncol ii) ->
  let used := skipn burnin chain in
  let n := match nsample with Some n => n | None => List.length used end in
  2 <= Nat.min n (List.length used) ->
  (forall ii, ii < nd -> shape_of (model ii theta) = (nrow ii, ncol ii)) ->
  (forall ii row t, ii < nd -> In row used -> holds_row theta parind row t ->
     response (model ii (concerning ii local t)) (nrow ii) (ncol ii) (g ii (concerning ii local t))) ->
  exists results' calls ks pts cred,
    prediction_intervals results model nd burnin asked nsample calc us z = (results', calls, Ok (mkpred (by_column nd ncol cred) None)) /\
    chosen us n (List.length used) ks /\ Forall2 (fun k t => holds_row theta parind (nth k used []) t) ks pts /\
    forall ii jj, ii < nd -> jj < ncol ii ->
      empirical_quantiles (nrow ii) (finm (map (fun t => vtab (nrow ii) (fun i => g ii (concerning ii local t) i jj)) pts)) (interval_limits false) = Ok (cred ii jj).
Proof.
  intros S HC HLo LL H2 FT U NC used n M2 SH HM. destruct (stores_theta _ _ _ S) as [ST SP]. pose proof FT as (FN & FB & FL).
  assert (LC : List.length used = List.length chain - burnin) by (unfold used; apply skipn_length).
  assert (ES : map snd (response_shapes model nd theta) = map ncol (seq 0 nd)).
  { unfold response_shapes, range. rewrite map_map. apply map_seq_ext. intros ii I. rewrite SH by lia. reflexivity. }
  assert (IDX : exists s2c a w, (let* v := of_option KeyError (lookup "s2chain"%string results) in
        match v with PNone => Ok None | PMat l => Ok (Some (ncols l, skipn burnin l)) | _ => Err TypeError end) = Ok s2c /\ (if calc then s2c else None) = None /\
      (match s2c with None => Ok (repeat (0, 0) nd) | Some (n, _) => analyze_s2chain nd n (map ncol (seq 0 nd)) end) = Ok (map (fun ii => (a ii, a ii + w ii)) (seq 0 nd))).
  { destruct H2 as [->|(-> & ns & sf & c & -> & LO)]; cbn [of_option bind].
    - exists None, (fun _ => 0), (fun _ => 0). split; auto. split; [now destruct calc|]. now rewrite repeat_seq.
    - assert (NC' : ncols (finm (table (List.length chain) ns sf)) = ns) by (rewrite ncols_fin; apply Rcols_table; lia). rewrite NC'.
      destruct (layout_index ns nd ncol c NC LO) as (a & w & EA & _). eexists (Some (ns, _)), a, w. split; [reflexivity|]. split; auto. }
  destruct IDX as (s2c & a & w & E2 & EC & EA).
  unfold prediction_intervals, assign_features. cbn zeta. rewrite HC. cbn [of_option bind]. rewrite SP, HLo, ST.
  destruct (of_option KeyError (lookup "s2chain"%string results)) as [v2|e2]; [|discriminate]. cbn [bind] in E2 |- *.
  rewrite E2. cbn [bind of_option]. rewrite as_indices_nat. cbn [bind f_theta f_s2chain f_chain]. fold used. rewrite ES, EA. cbn [bind].
  change (check_nsample nsample (List.length used)) with n.
  destruct (rows_taken us n (List.length used) U) as (ks & CH & KL & KN & TK).
  destruct (define_sample_points us n (List.length used)) as [ix nn] eqn:ED. cbn [fst] in TK.
  rewrite TK by auto. cbn [bind]. rewrite EC. cbn [bind].
  set (m := List.length ks). assert (KM : m = Nat.min n (List.length used)) by exact KN.
  rewrite (map_as_seq (fun k => nth k used []) ks 0). fold m.
  set (row := fun q => nth (nth q ks 0) used []).
  assert (KB : forall q, q < m -> nth q ks 0 < List.length used) by (intros q Q; rewrite Forall_forall in KL; apply KL, nth_In; exact Q).
  assert (RI : forall q, q < m -> In (row q) used) by (intros q Q; apply nth_In; now apply KB).
  assert (RL : forall q, q < m -> List.length (row q) = List.length parind).
  { intros q Q. rewrite Forall_forall in FL. apply FL. rewrite <- (firstn_skipn burnin chain). apply in_or_app. right. now apply RI. }
  unfold response_shapes, range.
  rewrite (map_seq_ext (fun ii => shape_of (model ii theta)) (fun ii => (nrow ii, ncol ii))) by (intros; apply SH; lia).
  assert (CT : combine (combine (seq 0 nd) (map (fun ii => (nrow ii, ncol ii)) (seq 0 nd))) (map (fun ii => (a ii, a ii + w ii)) (seq 0 nd)) =
               map (fun ii => (ii, (nrow ii, ncol ii), (a ii, a ii + w ii))) (seq 0 nd)).
  { assert (E0 : seq 0 nd = map (fun ii => ii) (seq 0 nd)) by (symmetry; apply map_id).
    transitivity (combine (combine (map (fun ii => ii) (seq 0 nd)) (map (fun ii => (nrow ii, ncol ii)) (seq 0 nd))) (map (fun ii => (a ii, a ii + w ii)) (seq 0 nd)));
      [now rewrite <- E0|]. now rewrite !combine_tab. }
  rewrite CT. clear CT.
  assert (TH : forall ii q, th theta parind local row ii q = concerning ii local (tq theta parind row q)) by (intros; apply mask_concerning).
  assert (HO : forall q, q < m -> holds_row theta parind (row q) (tq theta parind row q)) by (intros q Q; apply scatter_holds; auto).
  assert (LU : Forall unit_interval (interval_limits false)).
  { repeat constructor; try (apply Qle_bool_iff; reflexivity). }
  assert (HM' : forall ii q, ii < nd -> q < m -> response (model ii (th theta parind local row ii q)) (nrow ii) (ncol ii) (g ii (th theta parind local row ii q)) /\
     forall i j, i < nrow ii -> j < ncol ii -> on_scale 0 (g ii (th theta parind local row ii q) i j)).
  { intros ii q I Q. rewrite TH. split; [apply (HM ii (row q)); auto|]. intros. split; [lia|discriminate]. }
  cbn [f_sstype f_parind f_local f_theta].
  match goal with |- context [intervals_of_sets ?f model ?z ?sc _ _ _ _] =>
    destruct (sets_evaluated theta parind local 0 m row model nd nrow ncol g FN FB LL RL ltac:(lia) HM' a w (interval_limits false) ltac:(lia) LU z sc f eq_refl eq_refl nd 0
      (mkist theta 0 []) ltac:(lia) (good_base theta parind)) as (s' & E)
  end.
  rewrite E. set (pts := map (tq theta parind row) (seq 0 m)).
  assert (LP : List.length pts = m) by (unfold pts; now rewrite map_length, seq_length).
  eexists _, _, ks, pts, _. split; [|split; [exact CH|split]].
  - cbn [bind]. unfold by_column. reflexivity.
  - assert (EK : ks = map (fun q => nth q ks 0) (seq 0 m)) by (etransitivity; [symmetry; apply map_id|exact (map_as_seq (fun x => x) ks 0)]).
    rewrite EK. unfold pts. clear - HO. assert (G : forall w a, a + w <= m -> Forall2 (fun k t => holds_row theta parind (nth k used []) t)
      (map (fun q => nth q ks 0) (seq a w)) (map (tq theta parind row) (seq a w))); [|now apply G].
    induction w as [|w IH]; intros a A; cbn [seq map]; constructor; [apply HO; lia|apply IH; lia].
  - intros ii jj I J. rewrite (quantile_value (nrow ii)); auto; [|rewrite map_length; lia]. unfold quantile_rows.
    assert (EQ : map (fun t => vtab (nrow ii) (fun i => g ii (concerning ii local t) i jj)) pts = sample theta parind local m row nrow g ii jj); [|now rewrite EQ].
    unfold sample, pts. rewrite map_map. apply map_ext. intros q. now rewrite TH.
Qed.
