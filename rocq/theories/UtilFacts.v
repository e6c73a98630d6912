(** Facts about subplot grids, subsampling, the interquartile range (PlotUtil.v) and names (ChainStats.v). *)

From Coq Require Import ZArith QArith Qround Bool Lia List Reals Lra Arith Qreals Sorted Permutation String.
From Verif Require Import Base Num Names ChainFiles ChainStats PlotUtil RVec StatsFacts QuantSpec QuantFacts Settings.
Import ListNotations.
Close Scope Q_scope.
Open Scope list_scope.
Open Scope nat_scope.

(** ** Grids *)

Theorem grid_room n : 1 <= n -> let '(rows, cols) := generate_subplot_grid n in (rows - 1) * cols < n <= rows * cols.
Proof.
  intros H. unfold generate_subplot_grid, ceil_sqrt, round_sqrt.
  destruct (Nat.sqrt_spec n ltac:(lia)) as [A B]. set (k := Nat.sqrt n) in *. cbn zeta.
  destruct (Nat.eqb_spec (k * k) n), (Nat.leb_spec n (k * k + k)); nia.
Qed.

(** the numbers are the rounded-up and the nearest integer to the square root *)
Theorem grid_sqrt n : let '(rows, cols) := generate_subplot_grid n in
  (sqrt (INR n) <= INR rows < sqrt (INR n) + 1)%R /\ (Rabs (sqrt (INR n) - INR cols) < / 2)%R.
Proof.
  unfold generate_subplot_grid, ceil_sqrt, round_sqrt.
  destruct (Nat.sqrt_spec n ltac:(lia)) as [A B]. set (k := Nat.sqrt n) in *. cbn zeta.
  assert (P : (0 <= sqrt (INR n))%R) by apply sqrt_pos. assert (Q : (sqrt (INR n) * sqrt (INR n) = INR n)%R) by (apply sqrt_sqrt, pos_INR).
  set (s := sqrt (INR n)) in *. assert (K0 := pos_INR k).
  assert (NA := A). apply le_INR in A. rewrite mult_INR in A. apply lt_INR in B. rewrite mult_INR, S_INR in B.
  assert (S1 : (INR k <= s)%R) by nra. assert (S2 : (s < INR k + 1)%R) by nra.
  destruct (Nat.eqb_spec (k * k) n) as [E|E], (Nat.leb_spec n (k * k + k)) as [G|G].
  - apply (f_equal INR) in E. rewrite mult_INR in E. assert (s = INR k) by nra. rewrite H, Rminus_diag_eq, Rabs_R0 by auto. lra.
  - lia.
  - assert (A' : k * k < n) by lia. apply lt_INR in A'. rewrite mult_INR in A'. apply le_INR in G. rewrite plus_INR, mult_INR in G.
    rewrite plus_INR. change (INR 1) with 1%R. assert (INR k < s)%R by nra. assert (s < INR k + / 2)%R by nra.
    split; [lra|]. apply Rabs_def1; lra.
  - assert (L : (INR (k * k + k + 1) <= INR n)%R) by (apply le_INR; lia).
    rewrite !plus_INR, mult_INR in L. rewrite plus_INR. change (INR 1) with 1%R in *.
    assert (INR k + / 2 < s)%R by nra. split; [lra|]. apply Rabs_def1; lra.
Qed.

(** ** Subsampling *)

(** The indices: 0, step, 2*step, ... below [n]. *)
Lemma arange_spec n step ix : arange n step = Ok ix ->
  0 < step /\ List.length ix = (n + step - 1) / step /\ (forall i, i < List.length ix -> nth i ix 0 = i * step /\ i * step < n) /\
  n <= List.length ix * step.
Proof.
  unfold arange. destruct (Nat.eqb_spec step 0); [discriminate|]. intros H. injection H as <-.
  assert (P : 0 < step) by lia. unfold range. rewrite map_length, seq_length.
  assert (D := Nat.div_mod (n + step - 1) step ltac:(lia)). assert (M := Nat.mod_upper_bound (n + step - 1) step ltac:(lia)).
  set (q := (n + step - 1) / step) in *. repeat split; auto.
  - rewrite nth_map_seq; auto.
  - nia.
  - nia.
Qed.

Definition the_step (skip maxpoints nsimu : nat) : nat := if maxpoints <? nsimu then nsimu / maxpoints else skip.

Theorem subsample_stride skip maxpoints nsimu ix : setup_subsample skip maxpoints nsimu = Ok ix ->
  let step := the_step skip maxpoints nsimu in
  0 < step /\ (forall i, i < List.length ix -> nth i ix 0 = i * step /\ i * step < nsimu) /\ nsimu <= List.length ix * step.
Proof.
  unfold setup_subsample, the_step. destruct (maxpoints <? nsimu).
  - destruct (maxpoints =? 0); [discriminate|]. intros H. apply arange_spec in H as (A & _ & B & C). auto.
  - intros H. apply arange_spec in H as (A & _ & B & C). auto.
Qed.

Theorem subsample_fails skip maxpoints nsimu e : setup_subsample skip maxpoints nsimu = Err e ->
  e = ZeroDivision /\ (maxpoints = 0 /\ 0 < nsimu \/ nsimu <= maxpoints /\ skip = 0).
Proof.
  unfold setup_subsample, arange. destruct (Nat.ltb_spec maxpoints nsimu).
  - destruct (Nat.eqb_spec maxpoints 0); [intros E; injection E as <-; split; auto; left; lia|].
    assert (1 <= nsimu / maxpoints) by (apply Nat.div_le_lower_bound; lia).
    destruct (Nat.eqb_spec (nsimu / maxpoints) 0); [lia|discriminate].
  - destruct (Nat.eqb_spec skip 0); [|discriminate]. intros E; injection E as <-. auto.
Qed.

(** How many points: at most [maxpoints] exactly when the chain is short enough or [maxpoints] divides its length;
    always fewer than twice as many. *)
Theorem subsample_count skip maxpoints nsimu ix : setup_subsample skip maxpoints nsimu = Ok ix ->
  (List.length ix <= maxpoints <-> nsimu <= maxpoints \/ nsimu mod maxpoints = 0) /\
  (maxpoints < nsimu -> maxpoints <= List.length ix < 2 * maxpoints).
Proof.
  unfold setup_subsample. destruct (Nat.ltb_spec maxpoints nsimu) as [L|L].
  - destruct (Nat.eqb_spec maxpoints 0); [discriminate|]. intros H. apply arange_spec in H as (A & E & B & C).
    set (q := nsimu / maxpoints) in *.
    assert (D := Nat.div_mod nsimu maxpoints ltac:(lia)). assert (M := Nat.mod_upper_bound nsimu maxpoints ltac:(lia)). fold q in D.
    set (r := nsimu mod maxpoints) in *. set (k := List.length ix) in *.
    assert (U : k * q < nsimu + q).
    { destruct k as [|k']; [nia|]. destruct (B k' ltac:(lia)). nia. }
    assert (G : maxpoints <= k) by nia.
    assert (H2 : k < 2 * maxpoints) by nia.
    split; [|auto]. split.
    + intros K. right. assert (k = maxpoints) by lia. nia.
    + intros [K|K]; [lia|]. nia.
  - intros H. apply arange_spec in H as (A & E & B & C). split; [|lia]. split; auto. intros _.
    assert (List.length ix <= nsimu); [|lia]. destruct (List.length ix) as [|k] eqn:K; [lia|]. destruct (B k ltac:(lia)). nia.
Qed.

(** ** Interquartile range *)

Section IQR.
Context {F : Type} `{NF : Num F}.

(** one column *)
Definition column (l : list F) : list (list F) := map (fun v => [v]) l.

Lemma sort_column l : map sort (column l) = column l.
Proof. unfold column. rewrite map_map. apply map_ext. reflexivity. Qed.

Lemma iqrange_column l : iqrange 1 (column l) =
  (column l, let* q1 := quartile 1 (List.length l) (column l) 1 in let* q3 := quartile 1 (List.length l) (column l) 3 in Ok (map2 nsub q3 q1)).
Proof.
  unfold iqrange. destruct l as [|a [|b l]].
  - reflexivity.
  - reflexivity.
  - change (column (a :: b :: l)) with ([a] :: [b] :: column l) at 1. cbv iota.
    change ([a] :: [b] :: column l) with (column (a :: b :: l)). rewrite sort_column. unfold column at 2 4. now rewrite map_length.
Qed.

Lemma nth_error_column l i : nth_error (column l) i = match nth_error l i with Some v => Some [v] | None => None end.
Proof. unfold column. rewrite nth_error_map. destruct (nth_error l i); reflexivity. Qed.

(** A column with fewer than 8 entries has no interquartile range: an index is out of range. *)
Theorem iqrange_short l : List.length l < 8 -> snd (iqrange 1 (column l)) = Err IndexError.
Proof.
  intros L. rewrite iqrange_column. cbn [snd]. unfold quartile. rewrite !nth_error_column.
  do 8 (destruct l as [|? l]; [reflexivity|]). cbn in L. lia.
Qed.

Theorem iqrange_long l : 8 <= List.length l -> exists v, snd (iqrange 1 (column l)) = Ok [v].
Proof.
  intros L. rewrite iqrange_column. cbn [snd]. unfold quartile. rewrite !nth_error_column. set (n := List.length l) in *.
  assert (D1 := Nat.div_mod (1 * (n + 1)) 4 ltac:(lia)). assert (D3 := Nat.div_mod (3 * (n + 1)) 4 ltac:(lia)).
  destruct (nth_error l (1 * (n + 1) / 4)) eqn:E1; [|apply nth_error_None in E1; lia].
  destruct (nth_error l (1 * (n + 1) / 4 + 1)) eqn:E2; [|apply nth_error_None in E2; fold n in E2; lia].
  destruct (nth_error l (3 * (n + 1) / 4)) eqn:E3; [|apply nth_error_None in E3; fold n in E3; lia].
  destruct (nth_error l (3 * (n + 1) / 4 + 1)) eqn:E4; [|apply nth_error_None in E4; fold n in E4; lia].
  cbn [of_option bind]. eexists. reflexivity.
Qed.
End IQR.

Local Open Scope R_scope.

Lemma quartile_real l num : (1 <= num <= 3)%nat -> (8 <= List.length l)%nat ->
  quartile 1 (List.length l) (column (fin l)) num = Ok [Fin (interp l (INR (num * (List.length l + 1)) / 4))].
Proof.
  intros N L. unfold quartile. rewrite !nth_error_column. set (n := List.length l) in *.
  set (t := (num * (n + 1))%nat). assert (D := Nat.div_mod t 4 ltac:(lia)). assert (M := Nat.mod_upper_bound t 4 ltac:(lia)).
  assert (T : (t <= 3 * (n + 1))%nat) by (unfold t; nia).
  assert (I : (t / 4 + 1 < n)%nat) by lia. set (i := (t / 4)%nat) in *.
  assert (E : forall k, (k < n)%nat -> nth_error (fin l) k = Some (Fin (nth k l 0))).
  { intros k K. rewrite (nth_error_nth' (fin l) (Fin 0)) by (now rewrite fin_length). now rewrite nth_fin. }
  rewrite !E by lia. cbn [of_option bind]. unfold range. cbn [seq map nth]. f_equal. f_equal.
  rewrite (interp_at_segment l i).
  - change (@nQ XR _ ?q) with (Fin (Q2R q) : XR). rewrite XR_n1, XR_nsub, !XR_nmul, XR_nadd. f_equal.
    assert (Q : Q2R (inject_Z (Z.of_nat t) / 4 - inject_Z (Z.of_nat i)) = INR t / 4 - INR i).
    { rewrite Q2R_minus, Q2R_div by discriminate. rewrite !Q2R_Z. change (Q2R 4) with (4 * / 1). rewrite !INR_IZR_INZ. field. }
    rewrite Q. ring.
  - fold n. lia.
  - apply (f_equal INR) in D. rewrite plus_INR, mult_INR in D. fold i in D. apply lt_INR in M. pose proof (pos_INR (t mod 4)).
    change (INR 4) with (1 + 1 + 1 + 1) in *. lra.
Qed.

(** For a column already in increasing order the value is a non-negative difference of interpolated values. *)
Theorem iqrange_sorted l : (8 <= List.length l)%nat -> StronglySorted Rle l ->
  exists v, iqrange 1 (column (fin l)) = (column (fin l), Ok [Fin v]) /\ 0 <= v /\
    v = interp l (3 * (INR (List.length l) + 1) / 4) - interp l ((INR (List.length l) + 1) / 4).
Proof.
  intros L S. rewrite iqrange_column, fin_length, !quartile_real by (auto; lia). cbn [bind map2]. rewrite XR_nsub.
  eexists. split; [reflexivity|]. rewrite !mult_INR, !plus_INR. change (INR 1) with 1. replace (INR 3) with 3 by (simpl; lra).
  rewrite Rmult_1_l. split; [|reflexivity]. pose proof (pos_INR (List.length l)).
  assert (interp l ((INR (List.length l) + 1) / 4) <= interp l (3 * (INR (List.length l) + 1) / 4)); [|lra].
  apply interp_mono; auto. lra.
Qed.

(** The same eight numbers in two orders. *)
Definition rising : list R := [1; 2; 3; 4; 5; 6; 7; 8].
Definition falling : list R := [8; 7; 6; 5; 4; 3; 2; 1].

Lemma interp_demo (l : list R) k v d : (k + 1 < List.length l)%nat -> INR k <= v <= INR k + 1 -> v - INR k = d ->
  interp l v = nth k l 0 + d * (nth (k + 1) l 0 - nth k l 0).
Proof. intros A B <-. now apply interp_at_segment. Qed.

Theorem iqrange_order : exists x y v w, Permutation x y /\
  snd (iqrange 1 (column (fin x))) = Ok [Fin v] /\ snd (iqrange 1 (column (fin y))) = Ok [Fin w] /\ v <> w /\ w < 0.
Proof.
  exists rising, falling, (9/2), (-9/2). split.
  { unfold rising, falling. change [8; 7; 6; 5; 4; 3; 2; 1] with (rev [1; 2; 3; 4; 5; 6; 7; 8]). apply Permutation_rev. }
  assert (G : forall l, List.length l = 8%nat -> snd (iqrange 1 (column (fin l))) =
    Ok [Fin (interp l (27 / 4) - interp l (9 / 4))]).
  { intros l L. rewrite iqrange_column, fin_length, !quartile_real by lia. rewrite L. cbn [snd bind map2]. rewrite XR_nsub.
    do 3 f_equal. f_equal; f_equal; simpl; field. }
  rewrite !G by reflexivity.
  assert (T : forall l, List.length l = 8%nat -> interp l (27 / 4) = nth 6 l 0 + 3 / 4 * (nth 7 l 0 - nth 6 l 0) /\
                                            interp l (9 / 4) = nth 2 l 0 + 1 / 4 * (nth 3 l 0 - nth 2 l 0)).
  { intros l L. split.
    - apply (interp_demo l 6); try lia; simpl; lra.
    - apply (interp_demo l 2); try lia; simpl; lra. }
  destruct (T rising eq_refl) as [-> ->]. destruct (T falling eq_refl) as [-> ->]. unfold rising, falling. cbn [nth].
  split; [do 3 f_equal; lra|]. split; [do 3 f_equal; lra|]. lra.
Qed.

(** ** Names *)

Local Open Scope nat_scope.

Lemma append_inj_l s : forall a b, (s ++ a = s ++ b)%string -> a = b.
Proof. induction s as [|c s IH]; cbn [String.append]; intros a b H; auto. injection H as H. auto. Qed.

Lemma append_inj_r a : forall b s, (a ++ s = b ++ s)%string -> a = b.
Proof.
  intros b s H.
  assert (L : String.length a = String.length b).
  { apply (f_equal String.length) in H.
    assert (A : forall u v, String.length (u ++ v) = String.length u + String.length v) by (induction u; cbn; auto; intros; now rewrite IHu).
    rewrite !A in H. lia. }
  revert b L H. induction a as [|c a IH]; intros [|d b] L H; cbn in L; try lia; auto.
  cbn [String.append] in H. injection H as -> H. f_equal. apply IH; auto.
Qed.

Lemma default_name_inj i j : default_name i = default_name j -> i = j.
Proof. unfold default_name. intros H. apply append_inj_l in H. apply append_inj_r in H. now apply dec_inj. Qed.

Lemma default_names_nodup l : NoDup l -> NoDup (map default_name l).
Proof. intros N. apply FinFun.Injective_map_NoDup; auto. intros i j. apply default_name_inj. Qed.

Theorem names_default n : NoDup (generate_default_names n) /\ List.length (generate_default_names n) = n.
Proof.
  split; [apply default_names_nodup, seq_NoDup|]. unfold generate_default_names, range. now rewrite map_length, seq_length.
Qed.

Theorem names_extended names n : exists added, extend_names_to_match_nparam (Some names) n = names ++ added /\
  List.length added = n - List.length names /\ NoDup added /\
  (NoDup names -> (forall i, List.length names <= i < n -> ~ In (default_name i) names) -> NoDup (names ++ added)).
Proof.
  unfold extend_names_to_match_nparam. eexists. split; [reflexivity|]. split; [now rewrite map_length, seq_length|].
  assert (D : NoDup (map default_name (seq (List.length names) (n - List.length names)))) by apply default_names_nodup, seq_NoDup.
  split; auto. intros N H.
  assert (G : forall u v : list string, NoDup u -> NoDup v -> (forall x, In x u -> ~ In x v) -> NoDup (u ++ v)).
  { induction u as [|a u IH]; cbn [app]; intros v Nu Nv Dj; auto. inversion Nu; subst. constructor.
    - intros I. apply in_app_or in I as [I|I]; auto. apply (Dj a); auto. now left.
    - apply IH; auto. intros; apply Dj; now right. }
  apply G; auto. intros x I J. apply in_map_iff in J as (i & <- & J). apply in_seq in J. apply (H i); auto. lia.
Qed.

Theorem names_generated n given : exists added,
  generate_names n given = match given with Some l => l | None => [] end ++ added /\
  List.length (generate_names n given) = Nat.max n (match given with Some l => List.length l | None => 0 end) /\ NoDup added.
Proof.
  unfold generate_names. destruct given as [l|].
  - destruct (Nat.eqb_spec (List.length l) n).
    + exists []. rewrite app_nil_r. repeat split; auto; [lia|constructor].
    + destruct (names_extended l n) as (added & E & L & N & _). exists added. rewrite E. repeat split; auto. rewrite app_length. lia.
  - destruct (names_default n) as [N L]. rewrite L, Nat.eqb_refl. exists (generate_default_names n). repeat split; auto. lia.
Qed.

(** Parameters declared without a name. *)
Fixpoint declare_unnamed {F} {NF : Num F} (k : nat) (ps : list (@param F)) (x lo hi mu sg : F) : list (@param F) :=
  match k with
  | O => ps
  | S k => declare_unnamed k (add_model_parameter ps None (Some x) lo hi mu sg true true) x lo hi mu sg
  end.

Theorem names_declared {F} {NF : Num F} k (x lo hi mu sg : F) :
  map a_name (declare_unnamed k [] x lo hi mu sg) = generate_default_names k.
Proof.
  assert (G : forall k ps, map a_name (declare_unnamed k ps x lo hi mu sg) = map a_name ps ++ map default_name (seq (List.length ps) k)).
  { clear k. induction k as [|k IH]; intros ps; cbn [declare_unnamed seq map]; [now rewrite app_nil_r|].
    rewrite IH. unfold add_model_parameter. rewrite map_app, app_length, <- app_assoc. cbn [map List.length app a_name].
    rewrite Nat.add_1_r. reflexivity. }
  apply (G k []).
Qed.
