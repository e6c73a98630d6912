(** Which rows of the chain the model is evaluated at, and what happens to the results: propagation.py and
    PredictionIntervals.py. *)

From Coq Require Import ZArith QArith Qround Bool Lia List String Arith Lqa.
From Verif Require Import Base Num ChainFiles Results ResultThms PlotUtil Propagation PredInt.
Import ListNotations.
Close Scope Q_scope.
Open Scope list_scope.
Open Scope nat_scope.

(** ** Drawn indices *)

Lemma draw_index_range u n : (0 < u)%Q -> (u < 1)%Q -> 0 < n -> (0 <= draw_index u n < Z.of_nat n)%Z.
Proof.
  intros U0 U1 N. unfold draw_index. set (p := (u * inject_Z (Z.of_nat n))%Q).
  assert (I : (0 < inject_Z (Z.of_nat n))%Q) by (change 0%Q with (inject_Z 0); rewrite <- Zlt_Qlt; lia).
  assert (P0 : (0 < p)%Q) by (unfold p; nra). assert (P1 : (p < inject_Z (Z.of_nat n))%Q) by (unfold p; nra).
  split.
  - assert (0 < Qceiling p)%Z; [|lia]. rewrite Zlt_Qlt. apply Qlt_le_trans with p; auto. apply Qle_ceiling.
  - assert (Qceiling p <= Z.of_nat n)%Z; [|lia]. rewrite <- (Qceiling_Z (Z.of_nat n)). apply Qceiling_resp_le. lra.
Qed.

Lemma draw_index_zero n : draw_index 0 n = (-1)%Z.
Proof. unfold draw_index. replace (Qceiling (0 * inject_Z (Z.of_nat n))) with 0%Z; auto. Qed.

(** Draws from [0, 1) always select a row; a draw of exactly 0 gives index -1, which is the last row. *)
Theorem draws_select (us : nat -> Q) n i : (forall k, (0 <= us k)%Q /\ (us k < 1)%Q) -> 0 < n ->
  exists k, wrap n (draw_index (us i) n) = Ok k /\ k < n.
Proof.
  intros U N. destruct (U i) as [A B]. apply Qle_lteq in A as [A|A].
  - pose proof (draw_index_range _ _ A B N) as H. exists (Z.to_nat (draw_index (us i) n)). unfold wrap.
    destruct (Z.leb_spec 0 (draw_index (us i) n)); [|lia]. destruct (Z.ltb_spec (draw_index (us i) n) (Z.of_nat n)); [|lia]. split; auto. lia.
  - assert (E : draw_index (us i) n = (-1)%Z). { rewrite <- (draw_index_zero n). unfold draw_index. now rewrite <- A. }
    rewrite E. exists (n - 1). unfold wrap. cbn [Z.leb Z.compare]. destruct (Z.leb_spec (- -1) (Z.of_nat n)); [|lia]. split; [f_equal; lia|lia].
Qed.

Theorem draws_reach n k : k < n -> exists u, (0 < u)%Q /\ (u < 1)%Q /\ draw_index u n = Z.of_nat k.
Proof.
  intros K. set (N := Z.of_nat n). exists ((inject_Z (Z.of_nat k) + (1#2)) / inject_Z N)%Q.
  assert (I : (0 < inject_Z N)%Q) by (change 0%Q with (inject_Z 0); rewrite <- Zlt_Qlt; unfold N; lia).
  assert (K0 : (0 <= inject_Z (Z.of_nat k))%Q) by (change 0%Q with (inject_Z 0); rewrite <- Zle_Qle; lia).
  assert (K1 : (inject_Z (Z.of_nat k) + 1 <= inject_Z N)%Q).
  { change 1%Q with (inject_Z 1). rewrite <- inject_Z_plus, <- Zle_Qle. unfold N. lia. }
  split; [|split].
  - apply Qlt_shift_div_l; lra.
  - apply Qlt_shift_div_r; lra.
  - unfold draw_index. fold N.
    assert (E : ((inject_Z (Z.of_nat k) + (1 # 2)) / inject_Z N * inject_Z N == inject_Z (Z.of_nat k) + (1#2))%Q) by (field; lra).
    rewrite E. assert (H1 := Qle_ceiling (inject_Z (Z.of_nat k) + (1#2))). assert (H2 := Qceiling_lt (inject_Z (Z.of_nat k) + (1#2))).
    set (c := Qceiling (inject_Z (Z.of_nat k) + (1 # 2))) in *.
    assert (A : (Z.of_nat k < c)%Z) by (rewrite Zlt_Qlt; lra).
    assert (B : (c - 1 < Z.of_nat k + 1)%Z). { rewrite Zlt_Qlt, inject_Z_plus. change (inject_Z 1) with 1%Q. lra. }
    lia.
Qed.

(** ** Specification: the vector obtained from [theta] by putting a row of the chain at the positions [parind] *)
Section Spec.
Context {F : Type}.
Definition holds_row (theta : list F) (parind : list nat) (row t : list F) : Prop :=
  List.length t = List.length theta /\
  (forall k, k < List.length parind -> nth_error t (nth k parind 0) = nth_error row k) /\
  (forall j, ~ In j parind -> nth_error t j = nth_error theta j).
(** Positions and rows fit the vector. *)
Definition fits (theta : list F) (parind : list nat) (rows : list (list F)) : Prop :=
  NoDup parind /\ (forall i, In i parind -> i < List.length theta) /\ Forall (fun r => List.length r = List.length parind) rows.

Lemma nth_error_ext (a b : list F) : (forall j, nth_error a j = nth_error b j) -> a = b.
Proof.
  revert b. induction a as [|x a IH]; intros [|y b] H; auto; try (specialize (H 0); discriminate).
  pose proof (H 0) as H0. injection H0 as ->. f_equal. apply IH. intros j. apply (H (S j)).
Qed.

Lemma scatter_holds theta parind row : NoDup parind -> (forall i, In i parind -> i < List.length theta) -> List.length row = List.length parind ->
  holds_row theta parind row (scatter theta parind row).
Proof.
  intros N B L. split; [apply scatter_length|]. split; [intros; now apply scatter_in|intros; now apply scatter_other].
Qed.
Lemma holds_scatter theta parind row t : NoDup parind -> (forall i, In i parind -> i < List.length theta) -> List.length row = List.length parind ->
  holds_row theta parind row t -> t = scatter theta parind row.
Proof.
  intros N B L (H1 & H2 & H3). apply nth_error_ext. intros j. destruct (in_dec Nat.eq_dec j parind) as [I|O].
  - apply (In_nth _ _ 0) in I as (k & K & <-). rewrite H2, scatter_in; auto.
  - rewrite H3, scatter_other; auto.
Qed.
End Spec.

Section Facts.
Context {F : Type} `{NF : Num F}.

Section Trail.
Variables (base : list F) (parind : list nat).
Hypothesis HN : NoDup parind.
Hypothesis HB : forall i, In i parind -> i < List.length base.

(** The array keeps everything outside [parind]. *)
Definition same_outside (t : list F) : Prop := forall row, List.length row = List.length parind -> scatter t parind row = scatter base parind row.
Definition good (t : list F) : Prop := List.length t = List.length base /\ same_outside t.
Lemma good_base : good base. Proof. split; auto. intros row _. reflexivity. Qed.
Lemma good_scatter row : List.length row = List.length parind -> good (scatter base parind row).
Proof. intros L. split; [apply scatter_length|]. intros r' L'. apply scatter_twice; auto. Qed.

Lemma put_good t row : good t -> List.length row = List.length parind -> put t parind row = Ok (scatter base parind row).
Proof.
  intros [G1 G2] L. unfold put.
  assert (E : forallb (fun i => i <? List.length t) parind = true) by (apply forallb_forall; intros i I; apply Nat.ltb_lt; rewrite G1; auto).
  rewrite E. cbn [negb]. rewrite L, Nat.eqb_refl. now rewrite G2.
Qed.

Definition point (row : list F) : list F := scatter base parind row.

(** A computation that, for each of the [items], puts a row into the array and then makes an evaluation that is recorded
    (or stops early). *)
Definition item : Type := (nat * list F) * list F.
Definition trail {A} (c : @comp F A) (items : list item) : Prop :=
  forall s, good (i_theta s) ->
  exists m, let '(s', r) := c s in
    i_calls s' = i_calls s ++ map fst (firstn m items) /\ m <= List.length items /\
    (forall a, r = Ok a -> m = List.length items) /\ good (i_theta s') /\
    (i_theta s' = i_theta s \/ exists it, In it items /\ i_theta s' = point (snd it)) /\
    (m = List.length items -> i_theta s' = match items with [] => i_theta s | it :: _ => point (snd (last items it)) end).

Definition quiet {A} (c : @comp F A) : Prop := forall s, i_calls (fst (c s)) = i_calls s /\ i_theta (fst (c s)) = i_theta s.

Lemma quiet_ret {A} (a : A) : quiet (ret a). Proof. intros s. split; reflexivity. Qed.
Lemma quiet_lift {A} (r : res A) : quiet (lift r). Proof. intros s. split; reflexivity. Qed.
Lemma quiet_then {A B} (c : @comp F A) (f : A -> @comp F B) : quiet c -> (forall a, quiet (f a)) -> quiet (andthen c f).
Proof.
  intros Q1 Q2 s. specialize (Q1 s). unfold andthen. destruct (c s) as [s1 [a|e]]; cbn [fst] in *; auto.
  destruct (Q2 a s1) as [A1 A2]. destruct Q1 as [B1 B2]. split; congruence.
Qed.
Lemma quiet_observe z sstype s2 y : quiet (observe z sstype s2 y).
Proof. intros s. unfold observe. destruct (observation_sample sstype s2 y z (i_pos s)); split; reflexivity. Qed.
Lemma quiet_observe_row z sstype nrow ncol s2 y : quiet (observe_row z sstype nrow ncol s2 y).
Proof. intros s. unfold observe_row. destruct (observation sstype s2 y ncol z (i_pos s)); split; reflexivity. Qed.

Lemma trail_quiet {A} (c : @comp F A) : quiet c -> trail c [].
Proof.
  intros Q s G. exists 0. specialize (Q s). destruct (c s) as [s' r]. cbn [fst] in Q. destruct Q as [Q1 Q2].
  rewrite Q1, Q2. cbn. rewrite app_nil_r. repeat split; auto; try apply G.
Qed.

Lemma last_app {A} (l1 l2 : list A) d d' : l2 <> [] -> last (l1 ++ l2) d = last l2 d'.
Proof.
  intros N. induction l1 as [|x l1 IH].
  - cbn [app]. induction l2 as [|y l2 IH2]; [easy|]. destruct l2; cbn; auto. apply IH2. discriminate.
  - cbn [app]. destruct (l1 ++ l2) eqn:E; [apply app_eq_nil in E as [_ ->]; easy|]. rewrite <- IH. reflexivity.
Qed.

Lemma trail_then {A B} (c : @comp F A) (f : A -> @comp F B) i1 i2 : trail c i1 -> (forall a, trail (f a) i2) -> trail (andthen c f) (i1 ++ i2).
Proof.
  intros T1 T2 s G. destruct (T1 s G) as (m1 & H). unfold andthen. destruct (c s) as [s1 [a|e]].
  - destruct H as (C1 & L1 & O1 & G1 & P1 & E1). specialize (O1 a eq_refl). subst m1. rewrite firstn_all in C1.
    destruct (T2 a s1 G1) as (m2 & H). exists (List.length i1 + m2). destruct (f a s1) as [s2 r]. destruct H as (C2 & L2 & O2 & G2 & P2 & E2).
    rewrite C2, C1, <- app_assoc, firstn_app_2, map_app. rewrite app_length. repeat split; auto; try lia.
    + intros b Hb. specialize (O2 b Hb). lia.
    + apply G2.
    + apply G2.
    + specialize (E1 eq_refl). destruct P2 as [P2|(it & I & P2)].
      * rewrite P2. destruct P1 as [P1|(it & I & P1)]; auto. right. exists it. split; auto. apply in_or_app; auto.
      * right. exists it. split; auto. apply in_or_app; auto.
    + intros M. assert (m2 = List.length i2) by lia. specialize (E1 eq_refl). specialize (E2 H). rewrite E2, E1.
      destruct i2 as [|x2 i2].
      * rewrite app_nil_r. reflexivity.
      * destruct i1 as [|x1 i1]; cbn [app]; auto. do 2 f_equal. symmetry. apply (last_app (x1 :: i1) (x2 :: i2)). discriminate.
  - destruct H as (C1 & L1 & O1 & G1 & P1 & E1). exists (Nat.min m1 (List.length i1)). rewrite firstn_app.
    replace (Nat.min m1 (List.length i1) - List.length i1) with 0 by lia. cbn [firstn]. rewrite app_nil_r.
    replace (Nat.min m1 (List.length i1)) with m1 by lia. rewrite app_length. repeat split; auto; try lia; try apply G1.
    + intros a Ha. discriminate.
    + destruct P1 as [P1|(it & I & P1)]; auto. right. exists it. split; auto. apply in_or_app; auto.
    + intros M. assert (i2 = []) by (destruct i2; auto; cbn in M; lia). subst. rewrite app_nil_r. apply E1. lia.
Qed.

Lemma trail_nil_l {A B} (c : @comp F A) (f : A -> @comp F B) i2 : quiet c -> (forall a, trail (f a) i2) -> trail (andthen c f) i2.
Proof. intros Q T. apply (trail_then c f [] i2); auto. now apply trail_quiet. Qed.

(** *** Propagation.v *)

Lemma quiet_store z sstype s2 y ncol kk : forall js cis pis, quiet (store_columns z sstype s2 y ncol kk js cis pis).
Proof.
  induction js as [|j js IH]; intros cis pis; cbn [store_columns]; [apply quiet_ret|].
  apply quiet_then; [apply quiet_lift|]. intros [yj cis']. destruct (is_none s2); auto.
  apply quiet_then; [apply quiet_lift|]. intros s. apply quiet_then; [apply quiet_observe|]. intros o.
  apply quiet_then; [apply quiet_lift|]. intros pis'. auto.
Qed.

Lemma trail_eval (row : list F) model : List.length row = List.length parind ->
  trail (andthen (assign parind row) (fun _ => evaluate model)) [((0, point row), row)].
Proof.
  intros L s G. exists 1. unfold andthen, assign. rewrite (put_good _ _ G L). unfold evaluate. cbn.
  repeat split; auto; try (apply good_scatter; auto).
  right. exists ((0, point row), row). cbn. auto.
Qed.

Lemma andthen_assoc {A B C} (c : @comp F A) (f : A -> @comp F B) (g : B -> @comp F C) s :
  andthen (andthen c f) g s = andthen c (fun a => andthen (f a) g) s.
Proof. unfold andthen. destruct (c s) as [s1 [a|e]]; auto. Qed.

Lemma trail_ext {A} (c c' : @comp F A) i : (forall s, c s = c' s) -> trail c i -> trail c' i.
Proof. intros E T s G. destruct (T s G) as [m H]. exists m. now rewrite <- E. Qed.

Lemma trail_step chain model s2 z sstype kk v row : nth_error chain kk = Some row -> List.length row = List.length parind ->
  trail (interval_step chain parind model s2 z sstype kk v) [((0, point row), row)].
Proof.
  intros E L.
  assert (Q : forall y, quiet (
    let '(multiple, ncol) :=
      match y with
      | Y1 _ => (v_multiple v, v_ncol v)
      | Y2 c rows =>
          (if negb (List.length rows =? List.length rows * c) && negb (c =? List.length rows * c) then true else v_multiple v, c)
      end in
    if negb multiple then
      let ci := v_ci v ++ [flat y] in
      if is_none s2 then ret (mkvars ci (v_pi v) multiple ncol (v_lists v))
      else andthen (lift (s2row s2 kk)) (fun s =>
           andthen (observe z sstype s y) (fun o =>
           ret (mkvars ci (v_pi v ++ [o]) multiple ncol (v_lists v))))
    else
      let lists := if kk =? 0 then Some (repeat [] ncol, repeat [] ncol) else v_lists v in
      match lists with
      | None => if ncol =? 0 then ret (mkvars (v_ci v) (v_pi v) multiple ncol None) else lift (Err UnboundLocal)
      | Some (cis, pis) =>
          andthen (store_columns z sstype s2 y ncol kk (range ncol) cis pis) (fun l =>
          ret (mkvars (v_ci v) (v_pi v) multiple ncol (Some l)))
      end)).
  { intros y. destruct (match y with Y1 _ => _ | Y2 c rows => _ end) as [multiple ncol]. destruct (negb multiple); cbn zeta.
    - destruct (is_none s2); [apply quiet_ret|]. apply quiet_then; [apply quiet_lift|]. intros s. apply quiet_then; [apply quiet_observe|]. intros; apply quiet_ret.
    - destruct (if kk =? 0 then _ else _) as [[cis pis]|].
      + apply quiet_then; [apply quiet_store|]. intros; apply quiet_ret.
      + destruct (ncol =? 0); [apply quiet_ret|apply quiet_lift]. }
  refine (trail_ext (andthen (andthen (assign parind row) (fun _ => evaluate model)) _) _ _ _ (trail_then _ _ [_] [] (trail_eval row model L) (fun y => trail_quiet _ (Q y)))).
  intros s. rewrite andthen_assoc. unfold interval_step. rewrite E. reflexivity.
Qed.

Lemma trail_loop chain model s2 z sstype : forall ks v, Forall (fun k => k < List.length chain) ks -> Forall (fun r => List.length r = List.length parind) chain ->
  trail (interval_loop chain parind model s2 z sstype ks v) (map (fun k => ((0, point (nth k chain [])), nth k chain [])) ks).
Proof.
  intros ks v K L. revert v. induction K as [|k ks K1 K2 IH]; intros v; cbn [interval_loop map]; [apply trail_quiet, quiet_ret|].
  apply (trail_then _ _ [_] _); auto. apply trail_step; [now apply nth_error_nth'|].
  rewrite Forall_forall in L. apply L. now apply nth_In.
Qed.

(** *** PredInt.v *)

Lemma trail_predict ii model test nrow ncol row : List.length row = List.length parind ->
  trail (predict_row ii model parind test nrow ncol row) [((ii, mask test (point row)), row)].
Proof.
  intros L s G. unfold predict_row, andthen, assign. rewrite (put_good _ _ G L). cbn [i_theta i_pos i_calls]. unfold select.
  destruct (List.length test =? List.length (scatter base parind row)) eqn:E.
  - exists 1. cbn [i_theta i_pos i_calls lift]. repeat split; auto; try (apply good_scatter; auto). right. eexists. split; [now left|reflexivity].
  - exists 0. cbn [i_theta i_pos i_calls]. cbn [firstn map]. rewrite app_nil_r. repeat split; auto; try (apply good_scatter; auto); try (cbn; lia); try discriminate.
    right. eexists. split; [now left|reflexivity].
Qed.

Definition set_items (ii : nat) (test : list bool) (rows : list (list F)) : list item := map (fun row => ((ii, mask test (point row)), row)) rows.

Lemma trail_credible ii model test nrow ncol rows : Forall (fun r => List.length r = List.length parind) rows ->
  trail (credible_rows ii model parind test nrow ncol rows) (set_items ii test rows).
Proof.
  intros L. induction L as [|r rows L1 L2 IH]; cbn [credible_rows set_items map]; [apply trail_quiet, quiet_ret|].
  apply (trail_then _ _ [_] _); [now apply trail_predict|]. intros y. rewrite <- (app_nil_r (map _ rows)). apply trail_then; auto.
  intros ys. apply trail_quiet, quiet_ret.
Qed.

Lemma trail_prediction ii model test nrow ncol z sstype rows : Forall (fun r => List.length r = List.length parind) rows ->
  forall s2, trail (prediction_rows ii model parind test nrow ncol z sstype rows s2) (set_items ii test rows) \/ List.length s2 < List.length rows.
Proof.
  intros L. induction L as [|r rows L1 L2 IH]; intros [|s s2]; cbn [prediction_rows set_items map]; try (left; apply trail_quiet, quiet_ret).
  - right. cbn. lia.
  - destruct (IH s2) as [T|S]; [left|right; cbn; lia].
    apply (trail_then _ _ [_] _); [now apply trail_predict|]. intros y. apply trail_nil_l; [apply quiet_observe_row|]. intros o.
    rewrite <- (app_nil_r (map _ rows)). apply trail_then; auto. intros [ys os]. apply trail_quiet, quiet_ret.
Qed.

Definition sets_items (local : list nat) (rows : list (list F)) (sets : list (nat * (nat * nat) * (nat * nat))) : list item :=
  List.concat (map (fun st => set_items (fst (fst st)) (set_local_parameters (fst (fst st)) local) rows) sets).

Lemma trail_sets f model z sstype lims rows tests2 : f_parind f = parind -> Forall (fun r => List.length r = List.length parind) rows ->
  (forall s2, tests2 = Some s2 -> List.length s2 = List.length rows) ->
  forall sets, trail (intervals_of_sets f model z sstype lims rows tests2 sets) (sets_items (f_local f) rows sets).
Proof.
  intros P L S. induction sets as [|[[ii [nrow ncol]] [a b]] sets IH]; cbn [intervals_of_sets]; [apply trail_quiet, quiet_ret|].
  unfold sets_items. cbn [map List.concat fst]. fold (sets_items (f_local f) rows sets).
  assert (T : trail (match tests2 with
               | None =>
                   andthen (credible_rows ii (model ii) (f_parind f) (set_local_parameters ii (f_local f)) nrow ncol rows) (fun ys =>
                   andthen (lift (generate_quantiles ys lims nrow ncol)) (fun q => ret (q, [])))
               | Some s2 =>
                   andthen (prediction_rows ii (model ii) (f_parind f) (set_local_parameters ii (f_local f)) nrow ncol z sstype rows (map (slice a b) s2)) (fun '(ys, os) =>
                   andthen (lift (generate_quantiles ys lims nrow ncol)) (fun q =>
                   andthen (lift (generate_quantiles os lims nrow ncol)) (fun qo => ret (q, qo))))
               end) (set_items ii (set_local_parameters ii (f_local f)) rows)).
  { rewrite P. destruct tests2 as [s2|].
    - rewrite <- (app_nil_r (set_items _ _ _)). apply trail_then.
      + destruct (trail_prediction ii (model ii) (set_local_parameters ii (f_local f)) nrow ncol z sstype rows L (map (slice a b) s2)) as [T|T]; auto.
        rewrite map_length, (S _ eq_refl) in T. lia.
      + intros [ys os]. apply trail_quiet. apply quiet_then; [apply quiet_lift|]. intros q. apply quiet_then; [apply quiet_lift|]. intros qo. apply quiet_ret.
    - rewrite <- (app_nil_r (set_items _ _ _)). apply trail_then; [now apply trail_credible|].
      intros ys. apply trail_quiet. apply quiet_then; [apply quiet_lift|]. intros q. apply quiet_ret. }
  apply trail_then; auto. intros [q qo]. rewrite <- (app_nil_r (sets_items _ _ _)). apply trail_then; auto. intros [qs qos]. apply trail_quiet, quiet_ret.
Qed.
End Trail.

Lemma setkey_same (k : string) (v : pyval F) d : lookup k d = Some v -> setkey k v d = d.
Proof.
  induction d as [|[k' v'] d IH]; cbn [lookup setkey]; [discriminate|]. destruct (String.eqb_spec k k') as [->|N].
  - intros E. now injection E as ->.
  - intros E. now rewrite IH.
Qed.

Lemma as_indices_nat (l : list nat) : as_indices (@PArrZ F (map Z.of_nat l)) = Ok l.
Proof. cbn. rewrite map_map. f_equal. rewrite <- (map_id l) at 2. apply map_ext. intros; apply Nat2Z.id. Qed.

(** The results hold the vector [theta] and the positions [parind] of the sampled parameters. *)
Definition stores (results : pydict F) (theta : list F) (parind : list nat) : Prop :=
  lookup "theta"%string results = Some (PArr theta) /\ lookup "parind"%string results = Some (PArrZ (map Z.of_nat parind)).

Lemma stores_theta results theta parind : stores results theta parind -> theta_of results = Ok theta /\ parind_of results = Ok parind.
Proof. intros [A B]. unfold theta_of, parind_of. rewrite A, B. cbn [of_option bind]. split; auto. apply as_indices_nat. Qed.

Lemma sample_length us nsample nsimu : List.length (fst (define_sample_points us nsample nsimu)) = Nat.min nsample nsimu /\
  snd (define_sample_points us nsample nsimu) = Nat.min nsample nsimu.
Proof.
  unfold define_sample_points. destruct (Nat.leb_spec nsimu nsample); cbn [fst snd]; unfold range; rewrite !map_length, seq_length; lia.
Qed.

(** The numbers drawn have no influence. *)
Theorem propagation_ignores_draws chain results model s2chain nsample sstype us us' z :
  calculate_intervals chain results model s2chain nsample sstype us z = calculate_intervals chain results model s2chain nsample sstype us' z.
Proof.
  unfold calculate_intervals. destruct (let* parind := parind_of results in _) as [[[parind q] s2]|e]; auto.
  pose proof (sample_length us nsample (List.length chain)) as [A _]. pose proof (sample_length us' nsample (List.length chain)) as [B _].
  destruct (define_sample_points us nsample (List.length chain)) as [i n]. destruct (define_sample_points us' nsample (List.length chain)) as [i' n'].
  cbn [fst] in A, B. now rewrite A, B.
Qed.

Lemma items_points theta parind (chain : list (list F)) n : n <= List.length chain ->
  map (fun k => ((0, point theta parind (nth k chain [])), nth k chain [])) (range n) =
  map (fun row => ((0, point theta parind row), row)) (firstn n chain).
Proof.
  intros N. assert (E : firstn n chain = map (fun k => nth k chain []) (range n)).
  { unfold range. revert n N. induction chain as [|r chain IH]; intros [|n] N; cbn [firstn seq map List.length] in *; auto; try lia.
    cbn [nth]. f_equal. rewrite (IH n) by lia. rewrite <- seq_shift, map_map. reflexivity. }
  rewrite E, map_map. reflexivity.
Qed.

Lemma points_hold theta parind rows : fits theta parind rows -> Forall2 (holds_row theta parind) rows (map (point theta parind) rows).
Proof.
  intros (N & B & L). induction L as [|r rows L1 L2 IH]; cbn [map]; constructor; auto. now apply scatter_holds.
Qed.

Lemma fits_firstn theta parind (rows : list (list F)) n : fits theta parind rows -> fits theta parind (firstn n rows).
Proof. intros (N & B & L). repeat split; auto. rewrite Forall_forall in *. intros r I. apply L. rewrite <- (firstn_skipn n rows). apply in_or_app; auto. Qed.

Lemma firstn_min {A} (l : list A) n : firstn (Nat.min n (List.length l)) l = firstn n l.
Proof. destruct (Nat.le_ge_cases n (List.length l)); [now rewrite Nat.min_l|rewrite Nat.min_r by lia; now rewrite firstn_all, firstn_all2]. Qed.

(** The model is evaluated at the first rows of the chain, in order. *)
Theorem propagation_rows chain results model s2chain nsample sstype us z theta parind :
  stores results theta parind -> fits theta parind chain ->
  let '(results', calls, r) := calculate_intervals chain results model s2chain nsample sstype us z in
  exists m, Forall2 (holds_row theta parind) (firstn m chain) calls /\ m <= Nat.min nsample (List.length chain) /\
    (forall v, r = Ok v -> m = Nat.min nsample (List.length chain)).
Proof.
  intros S FT. destruct (stores_theta _ _ _ S) as [ST SP]. unfold calculate_intervals. rewrite SP, ST. cbn [bind].
  destruct (check_s2chain s2chain (List.length chain)) as [s2|e]; cbn [bind].
  2:{ exists 0. cbn. split; [constructor|]. split; [lia|discriminate]. }
  pose proof (sample_length us nsample (List.length chain)) as [A _]. destruct (define_sample_points us nsample (List.length chain)) as [ii n].
  cbn [fst] in A. rewrite A. set (ns := Nat.min nsample (List.length chain)) in *. destruct FT as (FN & FB & FL).
  assert (T : trail theta parind (andthen (interval_loop chain parind model s2 z sstype (range ns) vars0) (fun v => lift (collect s2 v)))
                (map (fun k => ((0, point theta parind (nth k chain [])), nth k chain [])) (range ns) ++ [])).
  { apply trail_then; auto.
    - apply trail_loop; auto. apply Forall_forall. intros k K. unfold range in K. apply in_seq in K. lia.
    - intros v. apply trail_quiet, quiet_lift. }
  rewrite app_nil_r, items_points in T by lia. specialize (T (mkist theta 0 []) (good_base theta parind)). destruct T as [m T].
  match type of T with context [let '(_, _) := ?e in _] => destruct e as [s r] end.
  destruct T as (C & M & O & _). cbn [i_calls] in C. cbn [app] in C. rewrite C. rewrite map_length, firstn_length in M, O.
  exists m. rewrite map_map. rewrite firstn_map, firstn_firstn, map_map. rewrite !Nat.min_l by lia. split.
  - apply points_hold, fits_firstn. now repeat split.
  - split; [lia|]. intros v Hv. specialize (O v Hv). lia.
Qed.

Lemma last_map {A B} (g : A -> B) l d : last (map g l) (g d) = g (last l d).
Proof. induction l as [|x l IH]; [reflexivity|]. destruct l; [reflexivity|]. exact IH. Qed.

Lemma last_firstn {A} (l : list A) n d : 0 < n <= List.length l -> last (firstn n l) d = nth (n - 1) l d.
Proof.
  revert n. induction l as [|x l IH]; intros n H; cbn [List.length] in H; [lia|].
  destruct n as [|n]; [lia|]. cbn [firstn]. replace (S n - 1) with n by lia. destruct n as [|n]; [reflexivity|].
  destruct l as [|y l]; [cbn [List.length] in H; lia|]. specialize (IH (S n) ltac:(lia)). replace (S n - 1) with n in IH by lia.
  change (nth (S n) (x :: y :: l) d) with (nth n (y :: l) d). rewrite <- IH. reflexivity.
Qed.

Lemma last_indep {A} (l : list A) d d' : l <> [] -> last l d = last l d'.
Proof. intros N. induction l as [|x l IH]; [easy|]. destruct l; auto. cbn in *. apply IH. discriminate. Qed.

Lemma last_cons {A} (l : list A) x d : last (x :: l) d = match l with [] => x | y :: _ => last l y end.
Proof. destruct l as [|y l]; [reflexivity|]. cbn [last]. destruct l; [reflexivity|]. apply last_indep. discriminate. Qed.

(** What becomes of the results dictionary. *)
Theorem propagation_results chain results model s2chain nsample sstype us z theta parind :
  stores results theta parind -> fits theta parind chain ->
  let '(results', calls, r) := calculate_intervals chain results model s2chain nsample sstype us z in
  (forall k, k <> "theta"%string -> lookup k results' = lookup k results) /\
  exists theta', lookup "theta"%string results' = Some (PArr theta') /\
    (theta' = theta \/ exists row, In row (firstn nsample chain) /\ holds_row theta parind row theta') /\
    (forall v, r = Ok v -> 0 < nsample -> chain <> [] -> holds_row theta parind (nth (Nat.min nsample (List.length chain) - 1) chain []) theta') /\
    (theta' = theta -> results' = results).
Proof.
  intros S FT. destruct (stores_theta _ _ _ S) as [ST SP]. unfold calculate_intervals. rewrite SP, ST. cbn [bind].
  destruct (check_s2chain s2chain (List.length chain)) as [s2|e]; cbn [bind].
  2:{ split; auto. exists theta. split; [apply S|]. split; auto. split; [discriminate|]. auto. }
  pose proof (sample_length us nsample (List.length chain)) as [A _]. destruct (define_sample_points us nsample (List.length chain)) as [ii n].
  cbn [fst] in A. rewrite A. set (ns := Nat.min nsample (List.length chain)) in *. pose proof FT as (FN & FB & FL).
  assert (T : trail theta parind (andthen (interval_loop chain parind model s2 z sstype (range ns) vars0) (fun v => lift (collect s2 v)))
                (map (fun k => ((0, point theta parind (nth k chain [])), nth k chain [])) (range ns) ++ [])).
  { apply trail_then; auto.
    - apply trail_loop; auto. apply Forall_forall. intros k K. unfold range in K. apply in_seq in K. lia.
    - intros v. apply trail_quiet, quiet_lift. }
  rewrite app_nil_r, items_points in T by lia. specialize (T (mkist theta 0 []) (good_base theta parind)). destruct T as [m T].
  match type of T with context [let '(_, _) := ?e in _] => destruct e as [s r] end.
  destruct T as (_ & M & O & _ & P & E). cbn [i_theta] in *.
  assert (HR : forall row, In row chain -> holds_row theta parind row (point theta parind row)).
  { intros row I. apply scatter_holds; auto. rewrite Forall_forall in FL. auto. }
  split; [|exists (i_theta s); split; [|split; [|split]]].
  - intros k K. rewrite lookup_setkey. destruct (String.eqb_spec k "theta"); congruence.
  - now rewrite lookup_setkey, String.eqb_refl.
  - destruct P as [P|(it & I & P)]; auto. right. apply in_map_iff in I as (row & <- & I). cbn [snd] in P.
    exists row. unfold ns in I. rewrite firstn_min in I. split; auto. rewrite P. apply HR.
    rewrite <- (firstn_skipn nsample chain). apply in_or_app; auto.
  - intros v Hv N0 C. specialize (O v Hv). rewrite E by auto.
    assert (NS : 0 < ns <= List.length chain). { assert (List.length chain <> 0) by (destruct chain; [easy|discriminate]). lia. }
    remember (firstn ns chain) as l eqn:Hl. destruct l as [|r0 l]; cbn [map].
    + apply (f_equal (@List.length _)) in Hl. rewrite firstn_length in Hl. cbn in Hl. lia.
    + pose proof (last_map (fun row => (0, point theta parind row, row)) (r0 :: l) r0) as LM. cbn [map] in LM. unfold item. rewrite LM. clear LM.
      cbn [snd]. rewrite Hl.
      rewrite (last_firstn chain ns r0 NS). rewrite (nth_indep chain r0 []) by lia. apply HR. apply nth_In. lia.
  - intros ->. apply setkey_same. apply S.
Qed.

(** ** PredictionIntervals.py *)

(** Specification: row [k] of [n] is the one a draw [u] from [0,1) stands for *)
Definition drawn (u : Q) (n k : nat) : Prop :=
  k < n /\ ((inject_Z (Z.of_nat k) < u * inject_Z (Z.of_nat n))%Q /\ (u * inject_Z (Z.of_nat n) <= inject_Z (Z.of_nat k + 1))%Q
            \/ (u == 0)%Q /\ k = n - 1).

Lemma wrap_drawn u n k : (0 <= u)%Q -> (u < 1)%Q -> 0 < n -> wrap n (draw_index u n) = Ok k -> drawn u n k.
Proof.
  intros U0 U1 N. apply Qle_lteq in U0 as [U0|U0].
  - pose proof (draw_index_range _ _ U0 U1 N) as H. unfold wrap. destruct (Z.leb_spec 0 (draw_index u n)); [|lia].
    destruct (Z.ltb_spec (draw_index u n) (Z.of_nat n)); [|lia]. intros E. injection E as <-. unfold drawn. split; [lia|]. left.
    rewrite Z2Nat.id by lia. unfold draw_index. set (p := (u * inject_Z (Z.of_nat n))%Q). split.
    + apply Qceiling_lt.
    + replace (Qceiling p - 1 + 1)%Z with (Qceiling p) by lia. apply Qle_ceiling.
  - assert (E : draw_index u n = (-1)%Z). { rewrite <- (draw_index_zero n). unfold draw_index. now rewrite <- U0. }
    rewrite E. unfold wrap. cbn [Z.leb Z.compare]. destruct (Z.leb_spec (- -1) (Z.of_nat n)); [|lia]. intros W. injection W as <-.
    split; [lia|]. right. split; [now symmetry|lia].
Qed.

(** The rows used: all of them, or one for each draw. *)
Definition sampled_rows (chain : list (list F)) (us : nat -> Q) (nsample : nat) (rows : list (list F)) : Prop :=
  if List.length chain <=? nsample then rows = chain
  else Forall2 (fun i row => exists k, drawn (us i) (List.length chain) k /\ nth_error chain k = Some row) (seq 0 nsample) rows.

Lemma mapM_forall2 {A B} (g : A -> res B) l : forall r, mapM g l = Ok r -> Forall2 (fun a b => g a = Ok b) l r.
Proof.
  induction l as [|a l IH]; cbn [mapM]; intros r H.
  - injection H as <-. constructor.
  - destruct (g a) eqn:E; [|discriminate]. cbn [bind] in H. destruct (mapM g l) eqn:E2; [|discriminate]. cbn [bind] in H. injection H as <-.
    constructor; auto.
Qed.

Lemma take_all (rows pre : list (list F)) : mapM (fun i => let* k := wrap (List.length (pre ++ rows)) i in of_option IndexError (nth_error (pre ++ rows) k))
  (map Z.of_nat (seq (List.length pre) (List.length rows))) = Ok rows.
Proof.
  revert pre. induction rows as [|r rows IH]; intros pre; cbn [List.length seq map mapM]; auto.
  assert (W : wrap (List.length (pre ++ r :: rows)) (Z.of_nat (List.length pre)) = Ok (List.length pre)).
  { unfold wrap. destruct (Z.leb_spec 0 (Z.of_nat (List.length pre))); [|lia].
    destruct (Z.ltb_spec (Z.of_nat (List.length pre)) (Z.of_nat (List.length (pre ++ r :: rows)))); [now rewrite Nat2Z.id|].
    rewrite app_length in *. cbn [List.length] in *. lia. }
  rewrite W. cbn [bind]. rewrite nth_error_app2, Nat.sub_diag by lia. cbn [nth_error of_option bind].
  specialize (IH (pre ++ [r])). rewrite <- app_assoc in IH. cbn [app] in IH. replace (List.length (pre ++ [r])) with (S (List.length pre)) in IH by (rewrite app_length; cbn; lia). rewrite IH. reflexivity.
Qed.

Lemma take_sampled chain us nsample rows : (forall k, (0 <= us k)%Q /\ (us k < 1)%Q) ->
  take_rows chain (fst (define_sample_points us nsample (List.length chain))) = Ok rows -> sampled_rows chain us nsample rows.
Proof.
  intros U. unfold define_sample_points, sampled_rows, take_rows. destruct (Nat.leb_spec (List.length chain) nsample) as [L|L]; cbn [fst].
  - intros H. unfold range in H. pose proof (take_all chain []) as T. cbn [app List.length] in T. rewrite T in H. now injection H as <-.
  - intros H. apply mapM_forall2 in H. unfold range in H. remember (seq 0 nsample) as l. clear Heql. revert rows H.
    induction l as [|i l IH]; intros rows H; cbn [map] in H; inversion H as [|a b ? ? H1 H2]; subst; constructor; auto.
    destruct (wrap (List.length chain) (draw_index (us i) (List.length chain))) as [k|e] eqn:W; cbn [bind] in H1; [|discriminate].
    exists k. split; [apply wrap_drawn; auto; try apply U; lia|]. destruct (nth_error chain k); [|discriminate]. now injection H1 as <-.
Qed.

Lemma take_in (rows : list (list F)) ix r : take_rows rows ix = Ok r -> forall x, In x r -> In x rows.
Proof.
  unfold take_rows. intros H x I. apply mapM_forall2 in H. induction H as [|i b ix r H1 H2 IH]; [easy|].
  destruct I as [->|I]; auto. destruct (wrap (List.length rows) i) as [k|]; cbn [bind] in H1; [|discriminate].
  destruct (nth_error rows k) eqn:E; [|discriminate]. injection H1 as <-. now apply nth_error_In in E.
Qed.

Lemma take_length (rows : list (list F)) ix r : take_rows rows ix = Ok r -> List.length r = List.length ix.
Proof. unfold take_rows. intros H. apply mapM_forall2 in H. induction H; cbn; auto. Qed.

(** Specification: the entries of a vector that concern data set [ii] *)
Definition concerning (ii : nat) (local : list nat) (t : list F) : list F :=
  map snd (filter (fun lx => (fst lx =? 0) || (fst lx =? ii)) (combine local t)).
Lemma mask_concerning ii local t : mask (set_local_parameters ii local) t = concerning ii local t.
Proof.
  unfold concerning, set_local_parameters. revert t. induction local as [|l local IH]; intros [|x t]; cbn; auto.
  destruct ((l =? 0) || (l =? ii)); cbn; now rewrite IH.
Qed.

Lemma combine_range {A} (l : list A) n : List.length l = n -> map fst (combine (range n) l) = range n.
Proof.
  intros <-. unfold range. generalize 0. induction l as [|a l IH]; intros k; cbn [List.length seq combine map fst]; auto. now rewrite IH.
Qed.

Lemma map_fst_combine {A B} (l : list A) (l' : list B) : List.length l = List.length l' -> map fst (combine l l') = l.
Proof. revert l'. induction l as [|a l IH]; intros [|b l'] H; cbn in *; try lia; auto. f_equal. apply IH. lia. Qed.

Lemma analyze_length nd n ncol ix : List.length ncol = nd -> analyze_s2chain nd n ncol = Ok ix -> List.length ix = nd.
Proof.
  assert (C : forall w k, List.length (consecutive k w) = List.length w) by (induction w; intros; cbn; auto).
  unfold analyze_s2chain. intros L. destruct (n =? 1); [intros E; injection E as <-; apply repeat_length|].
  destruct (natlist_sum ncol =? n); [intros E; injection E as <-; rewrite C, firstn_length; lia|].
  destruct (n =? nd); [intros E; injection E as <-; rewrite C; apply repeat_length|discriminate].
Qed.

Lemma concat_grid {A B C} (g : A -> B -> C) (rows : list B) l : List.length (List.concat (map (fun i => map (g i) rows) l)) = List.length l * List.length rows.
Proof. induction l as [|a l IH]; cbn [map List.concat List.length]; auto. rewrite app_length, map_length, IH. cbn. lia. Qed.

Lemma map_fst_grid {A B C} (g : A -> B -> C) (rows : list B) l :
  map fst (List.concat (map (fun i => map (fun r => (g i r, r)) rows) l)) = List.concat (map (fun i => map (g i) rows) l).
Proof. rewrite concat_map, map_map. f_equal. apply map_ext. intros a. rewrite map_map. reflexivity. Qed.

Lemma last_grid {A B C} (g : A -> B -> C) (rows : list B) l d r0 : l <> [] -> rows <> [] ->
  snd (last (List.concat (map (fun i => map (fun r => (g i r, r)) rows) l)) d) = last rows r0.
Proof.
  intros N R. assert (E : forall a d, snd (last (map (fun r => (g a r, r)) rows) d) = last rows r0).
  { intros a d0. rewrite (last_indep _ d0 (g a r0, r0)) by (destruct rows; [easy|discriminate]).
    rewrite (last_map (fun r => (g a r, r)) rows r0). reflexivity. }
  induction l as [|a l IH]; [easy|]. cbn [map List.concat]. destruct l as [|b l].
  - cbn [map List.concat]. rewrite app_nil_r. apply E.
  - rewrite (last_app _ _ d d). { apply IH. discriminate. }
    cbn [map List.concat]. destruct rows; [easy|discriminate].
Qed.

(** The model is evaluated, for each data set, at the rows drawn; and the results afterwards. *)
Theorem prediction_facts results model nd burnin asked nsample calc us z theta parind chain local :
  stores results theta parind -> lookup "chain"%string results = Some (PMat chain) -> lookup "local"%string results = Some (PArrZ (map Z.of_nat local)) ->
  fits theta parind chain -> (forall k, (0 <= us k)%Q /\ (us k < 1)%Q) ->
  let used := skipn burnin chain in
  let n := match nsample with Some n => n | None => List.length used end in
  let '(results', calls, r) := prediction_intervals results model nd burnin asked nsample calc us z in
  (forall k, k <> "theta"%string -> lookup k results' = lookup k results) /\
  exists theta', lookup "theta"%string results' = Some (PArr theta') /\ (theta' = theta -> results' = results) /\
    ((calls = [] /\ theta' = theta /\ exists e, r = Err e) \/
     exists rows pts m, sampled_rows used us n rows /\ Forall2 (holds_row theta parind) rows pts /\
       calls = firstn m (List.concat (map (fun ii => map (fun t => (ii, concerning ii local t)) pts) (seq 0 nd))) /\
       (theta' = theta \/ In theta' pts) /\
       (forall v, r = Ok v -> m = nd * List.length rows /\ (0 < nd -> rows <> [] -> theta' = last pts []))).
Proof.
  intros S HC HL FT U used n. destruct (stores_theta _ _ _ S) as [ST SP]. unfold prediction_intervals, assign_features. cbn zeta.
  rewrite HC. cbn [of_option bind]. rewrite SP, HL, ST. cbn [of_option].
  assert (EARLY : forall e, (forall k, k <> "theta"%string -> lookup k results = lookup k results) /\
    exists theta', lookup "theta"%string results = Some (PArr theta') /\ (theta' = theta -> results = results) /\
    ((@nil (nat * list F) = [] /\ theta' = theta /\ exists e0, @Err (@pred_intervals F) e = Err e0) \/
     exists rows pts m, sampled_rows used us n rows /\ Forall2 (holds_row theta parind) rows pts /\
       [] = firstn m (List.concat (map (fun ii => map (fun t => (ii, concerning ii local t)) pts) (seq 0 nd))) /\
       (theta' = theta \/ In theta' pts) /\
       (forall v, @Err (@pred_intervals F) e = Ok v -> m = nd * List.length rows /\ (0 < nd -> rows <> [] -> theta' = last pts [])))).
  { intros e. split; auto. exists theta. split; [apply S|]. split; auto. left. repeat split; eauto. }
  destruct (lookup "s2chain"%string results) as [s2v|]; cbn [of_option bind]; [|apply EARLY].
  destruct (match s2v with PNone => Ok None | PMat l => Ok (Some (ncols l, skipn burnin l)) | _ => Err TypeError end) as [s2c|e]; cbn [bind]; [|apply EARLY].
  rewrite as_indices_nat. cbn [bind]. cbn [f_theta f_s2chain f_chain]. fold used.
  destruct (match s2c with None => Ok (repeat (0, 0) nd) | Some (n0, _) => analyze_s2chain nd n0 (map snd (response_shapes model nd theta)) end) as [index|e] eqn:EI;
    cbn [bind]; [|apply EARLY].
  assert (LI : List.length index = nd).
  { destruct s2c as [[n0 ?]|]; [|injection EI as <-; apply repeat_length]. apply (analyze_length nd n0 (map snd (response_shapes model nd theta))); auto.
    unfold response_shapes, range. now rewrite !map_length, seq_length. }
  change (check_nsample nsample (List.length used)) with n.
  pose proof (take_sampled used us n) as TS. pose proof (sample_length us n (List.length used)) as [SL _].
  destruct (define_sample_points us n (List.length used)) as [ix n'] eqn:ED. cbn [fst] in TS, SL.
  destruct (take_rows used ix) as [rows|e] eqn:ET; cbn [bind]; [|apply EARLY].
  specialize (TS rows U eq_refl).
  set (s2chain := if calc then s2c else None).
  destruct (match s2chain with None => Ok None | Some (_, r0) => let* r1 := take_rows r0 ix in Ok (Some r1) end) as [tests2|e] eqn:E2; cbn [bind]; [|apply EARLY].
  set (f := mkfeatures used s2c parind local theta _).
  set (lims := interval_limits _). set (shapes := response_shapes model nd theta).
  set (sets := combine (combine (range nd) shapes) index).
  pose proof FT as (FN & FB & FL).
  assert (RL : Forall (fun r => List.length r = List.length parind) rows).
  { rewrite Forall_forall in *. intros r I. apply FL. rewrite <- (firstn_skipn burnin chain). apply in_or_app. right. now apply (take_in used ix rows ET). }
  assert (T2 : forall s2, tests2 = Some s2 -> List.length s2 = List.length rows).
  { intros s2 ->. destruct s2chain as [[n0 r0]|]; [|discriminate]. destruct (take_rows r0 ix) eqn:E3; [|discriminate]. injection E2 as <-.
    rewrite (take_length _ _ _ E3). now rewrite (take_length _ _ _ ET). }
  pose proof (trail_sets theta parind FN FB f model z (setup_sstype asked (f_sstype f)) lims rows tests2 eq_refl RL T2 sets (mkist theta 0 []) (good_base theta parind)) as [m T].
  change (f_theta f) with theta.
  destruct (intervals_of_sets f model z (setup_sstype asked (f_sstype f)) lims rows tests2 sets (mkist theta 0 [])) as [s r].
  destruct T as (C & M & O & _ & P & E). cbn [i_theta i_calls app] in *.
  assert (SH : List.length shapes = nd) by (unfold shapes, response_shapes, range; now rewrite map_length, seq_length).
  assert (SI : map (fun st => fst (fst st)) sets = seq 0 nd).
  { unfold sets. rewrite <- (map_map fst fst). rewrite map_fst_combine.
    - now apply combine_range.
    - rewrite combine_length. unfold range. rewrite seq_length. lia. }
  set (pts := map (point theta parind) rows).
  assert (IT : sets_items theta parind local rows sets =
               List.concat (map (fun ii => map (fun row => ((ii, concerning ii local (point theta parind row)), row)) rows) (seq 0 nd))).
  { unfold sets_items. rewrite <- SI, map_map. f_equal. apply map_ext. intros st. unfold set_items. apply map_ext. intros row. now rewrite mask_concerning. }
  split; [intros k K; rewrite lookup_setkey; destruct (String.eqb_spec k "theta"); congruence|].
  exists (i_theta s). split; [now rewrite lookup_setkey, String.eqb_refl|]. split; [intros ->; apply setkey_same; apply S|].
  right. exists rows, pts, m. split; auto. split; [apply points_hold; repeat split; auto|].
  change (f_local f) with local in *. rewrite IT in C, M, O, P, E.
  assert (LEN := concat_grid (fun ii row => ((ii, concerning ii local (point theta parind row)), row)) rows (seq 0 nd)). rewrite seq_length in LEN.
  unfold item in *. rewrite LEN in M, O, E.
  split; [|split].
  - rewrite C, <- firstn_map. f_equal. rewrite (map_fst_grid (fun ii row => (ii, concerning ii local (point theta parind row))) rows (seq 0 nd)).
    f_equal. apply map_ext. intros ii. unfold pts. now rewrite map_map.
  - destruct P as [P|(it & I & P)]; auto. right. rewrite P. apply in_concat in I as (x & I1 & I2). apply in_map_iff in I1 as (ii & <- & _).
    apply in_map_iff in I2 as (row & <- & I2). cbn [snd]. unfold pts. now apply in_map.
  - intros v Hv. destruct r as [[q qo]|e]; [|discriminate]. specialize (O _ eq_refl). split; auto. intros N0 R0. rewrite E by auto.
    destruct rows as [|r0 rows']; [easy|]. set (rows := r0 :: rows') in *.
    pose proof (last_grid (fun ii row => (ii, concerning ii local (point theta parind row))) rows (seq 0 nd)) as LG.
    destruct (List.concat _) as [|it items] eqn:EC.
    + cbn [List.length] in LEN. unfold rows in LEN. cbn [List.length] in LEN. lia.
    + rewrite (LG it r0); [|destruct nd; [lia|discriminate]|discriminate]. unfold pts.
      rewrite (last_indep _ [] (point theta parind r0)) by discriminate. symmetry. apply last_map.
Qed.
End Facts.
