(** Facts about quantiles (PlotUtil.v) on real samples. *)

From Coq Require Import ZArith QArith Qround Bool Lia List Reals Lra Arith Qreals Sorted Permutation.
From Verif Require Import Base Num ChainFiles PlotUtil RVec StatsFacts QuantSpec.
Import ListNotations.
Close Scope Q_scope.
Open Scope list_scope.
Open Scope R_scope.

(** ** Sorting *)

Fixpoint rinsert (x : R) (l : list R) : list R :=
  match l with [] => [x] | y :: t => if Rleb x y then x :: l else y :: rinsert x t end.
Definition rsort (l : list R) : list R := fold_right rinsert [] l.

Lemma insert_fin x l : insert (Fin x) (fin l) = fin (rinsert x l).
Proof.
  induction l as [|y l IH]; [reflexivity|]. cbn [insert fin map rinsert]. unfold sorted_before. rewrite XR_nle.
  change (@nisnan XR _ (Fin y)) with false. rewrite orb_false_r. destruct (Rleb x y); [reflexivity|].
  change (map Fin l) with (fin l). rewrite IH. reflexivity.
Qed.

Lemma sort_fin l : sort (fin l) = fin (rsort l).
Proof.
  induction l as [|x l IH]; [reflexivity|]. cbn [fin map sort fold_right rsort]. change (map Fin l) with (fin l).
  change (fold_right insert [] (fin l)) with (sort (fin l)). change (fold_right rinsert [] l) with (rsort l).
  rewrite IH. apply insert_fin.
Qed.

Lemma rinsert_perm x l : Permutation (x :: l) (rinsert x l).
Proof.
  induction l as [|y l IH]; cbn [rinsert]; auto. destruct (Rleb x y); auto.
  rewrite perm_swap. now constructor.
Qed.

Lemma rsort_perm l : Permutation l (rsort l).
Proof. induction l as [|x l IH]; cbn; auto. rewrite <- rinsert_perm. now constructor. Qed.

Lemma rinsert_sorted x l : StronglySorted Rle l -> StronglySorted Rle (rinsert x l).
Proof.
  induction 1 as [|y l S IH H]; cbn [rinsert]; [repeat constructor|].
  destruct (Rleb x y) eqn:E.
  - apply Rleb_true in E. constructor; [now constructor|]. constructor; auto. eapply Forall_impl; [|exact H]. intros; lra.
  - apply Rleb_false in E. constructor; auto. rewrite Forall_forall in *. intros z I.
    apply (Permutation_in _ (Permutation_sym (rinsert_perm x l))) in I. destruct I as [<-|I]; [lra|auto].
Qed.

Lemma rsort_sorted l : StronglySorted Rle (rsort l).
Proof. induction l as [|x l IH]; cbn; [constructor|now apply rinsert_sorted]. Qed.

Lemma rsort_ordered l : ordered l (rsort l).
Proof. split; [apply rsort_perm|apply rsort_sorted]. Qed.

Lemma rsort_length l : length (rsort l) = length l.
Proof. symmetry. apply Permutation_length, rsort_perm. Qed.

Lemma sorted_unique l : forall l', StronglySorted Rle l -> StronglySorted Rle l' -> Permutation l l' -> l = l'.
Proof.
  induction l as [|a l IH]; intros l' S S' P; [now apply Permutation_nil in P|].
  destruct l' as [|b l']; [symmetry in P; now apply Permutation_nil in P|].
  assert (E : a = b).
  { inversion S as [|? ? _ Fa]; subst. inversion S' as [|? ? _ Fb]; subst. rewrite Forall_forall in *.
    assert (Ia : In a (b :: l')) by (eapply Permutation_in; [exact P|now left]).
    assert (Ib : In b (a :: l)) by (eapply Permutation_in; [symmetry; exact P|now left]).
    destruct Ia as [->|Ia]; auto. destruct Ib as [->|Ib]; auto. specialize (Fa b Ib). specialize (Fb a Ia). lra. }
  subst b. f_equal. inversion S; inversion S'; subst. apply IH; auto. eapply Permutation_cons_inv; exact P.
Qed.

Lemma ordered_rsort l s : ordered l s -> s = rsort l.
Proof.
  intros [P S]. apply sorted_unique; auto using rsort_sorted.
  rewrite <- (rsort_perm l). now symmetry.
Qed.

(** ** Interpolation *)

Lemma interp_two a b y v : interp (a :: b :: y) v = if Rle_dec v 1 then a + v * (b - a) else interp (b :: y) (v - 1).
Proof. reflexivity. Qed.

Lemma interp_at_segment y : forall k v, (k + 1 < length y)%nat -> INR k <= v <= INR k + 1 ->
  interp y v = nth k y 0 + (v - INR k) * (nth (k + 1) y 0 - nth k y 0).
Proof.
  induction y as [|a y IH]; intros k v L H; [cbn in L; lia|].
  destruct y as [|b y]; [cbn in L; lia|]. rewrite interp_two.
  destruct k as [|k].
  - change (INR 0) with 0 in *. destruct (Rle_dec v 1); [|lra]. cbn [nth Nat.add]. lra.
  - rewrite S_INR in H. cbn [length] in L.
    destruct (Rle_dec v 1) as [V|V].
    + assert (INR k = 0) by (pose proof (pos_INR k); lra). assert (k = 0)%nat by (apply INR_eq; exact H0). subst k.
      change (INR 0) with 0 in H. replace v with 1 by lra. cbn [nth Nat.add]. change (INR 1) with 1. lra.
    + rewrite (IH k (v - 1)); [|cbn [length]; lia|lra]. rewrite S_INR. cbn [nth Nat.add]. f_equal. f_equal. lra.
Qed.

Lemma interp_lower a y v : StronglySorted Rle (a :: y) -> 0 <= v -> a <= interp (a :: y) v.
Proof.
  revert a v. induction y as [|b y IH]; intros a v S V; [cbn; lra|]. rewrite interp_two.
  inversion S as [|? ? S' F]; subst. inversion F as [|? ? Fb _]; subst.
  destruct (Rle_dec v 1); [nra|]. specialize (IH b (v - 1) S' ltac:(lra)). lra.
Qed.

Lemma interp_upper y v b : StronglySorted Rle y -> y <> [] -> (forall x, In x y -> x <= b) -> 0 <= v -> interp y v <= b.
Proof.
  revert v. induction y as [|a y IH]; intros v S N B V; [congruence|].
  destruct y as [|c y]; [apply B; now left|]. rewrite interp_two.
  inversion S as [|? ? S' F]; subst. inversion F as [|? ? Fb _]; subst.
  assert (a <= b) by (apply B; now left). assert (c <= b) by (apply B; right; now left).
  destruct (Rle_dec v 1); [nra|]. apply IH; auto; try discriminate; try lra. intros; apply B; now right.
Qed.

Lemma interp_mono y : forall v w, StronglySorted Rle y -> 0 <= v <= w -> interp y v <= interp y w.
Proof.
  induction y as [|a y IH]; intros v w S H; [cbn; lra|].
  destruct y as [|b y]; [cbn; lra|]. rewrite !interp_two.
  inversion S as [|? ? S' F]; subst. inversion F as [|? ? Fb _]; subst.
  destruct (Rle_dec v 1), (Rle_dec w 1); try lra.
  - nra.
  - assert (b <= interp (b :: y) (w - 1)) by (apply interp_lower; auto; lra). nra.
  - apply IH; auto. lra.
Qed.

Lemma Q2R_Z z : Q2R (inject_Z z) = IZR z.
Proof. unfold Q2R, inject_Z. cbn. field. Qed.

Lemma interp_at_fin y v : (2 <= length y)%nat -> (0 <= v)%Q -> (v <= inject_Z (Z.of_nat (length y - 1)))%Q ->
  interp_at (fin y) v = Fin (interp y (Q2R v)).
Proof.
  intros L V0 V1. unfold interp_at. rewrite fin_length. set (n := length y) in *.
  assert (C0 : (0 <= Qceiling v)%Z) by (rewrite <- (Qceiling_Z 0); apply Qceiling_resp_le, V0).
  assert (C1 : (Qceiling v <= Z.of_nat (n - 1))%Z) by (rewrite <- (Qceiling_Z (Z.of_nat (n - 1))); apply Qceiling_resp_le, V1).
  set (hi := Nat.min (Nat.max 1 (Z.to_nat (Qceiling v))) (n - 1)).
  assert (H1 : (1 <= hi <= n - 1)%nat) by (unfold hi; lia).
  replace (hi =? 0)%nat with false by (symmetry; apply Nat.eqb_neq; lia).
  assert (Hk : INR (hi - 1) <= Q2R v <= INR (hi - 1) + 1).
  { assert (U : Q2R v <= INR hi).
    { assert (Q2R v <= IZR (Qceiling v)) by (rewrite <- Q2R_Z; apply Qle_Rle, Qle_ceiling).
      assert (IZR (Qceiling v) <= INR hi) by (rewrite INR_IZR_INZ; apply IZR_le; unfold hi; lia). lra. }
    assert (W : INR hi - 1 <= Q2R v).
    { destruct (Z.le_gt_cases (Qceiling v) 1) as [E|E].
      - assert (hi = 1)%nat by (unfold hi; lia). rewrite H. simpl. apply Qle_Rle in V0. rewrite Q2R_0 in V0. lra.
      - assert (Z.of_nat hi = Qceiling v) by (unfold hi; lia). rewrite INR_IZR_INZ, H.
        assert (Y := Qceiling_lt v). apply Qlt_Rlt in Y. rewrite Q2R_Z, minus_IZR in Y. lra. }
    rewrite minus_INR by lia. simpl (INR 1). lra. }
  rewrite (interp_at_segment y (hi - 1) (Q2R v)) by (auto; fold n; lia).
  replace (hi - 1 + 1)%nat with hi by lia.
  rewrite XR_n0, !nth_fin, !XR_nnat, !XR_nsub.
  assert (D : INR hi - INR (hi - 1) = 1) by (rewrite minus_INR by lia; simpl; lra).
  rewrite D, XR_ndiv by lra. change (@nQ XR _ v) with (Fin (Q2R v) : XR).
  rewrite XR_nsub, XR_nmul, XR_nadd. f_equal. field.
Qed.

(** ** The quantiles of a real sample *)

Definition rquant (x : list (list R)) (p : Q) (j : nat) : R := interp (rsort (Rcol j x)) (INR (length x - 1) * Q2R p).

Lemma itpoint_R n p : Q2R (itpoint n p) = INR (n - 1) * Q2R p.
Proof. unfold itpoint. rewrite Q2R_mult, Q2R_Z. now rewrite <- INR_IZR_INZ. Qed.

Lemma in_grid_iff n p : (2 <= n)%nat -> in_grid n (itpoint n p) = true <-> (0 <= p)%Q /\ (p <= 1)%Q.
Proof.
  intros L. unfold in_grid. rewrite andb_true_iff, !Qle_bool_iff. unfold itpoint.
  set (m := inject_Z (Z.of_nat (n - 1))). assert (M : (0 < m)%Q).
  { unfold m. change 0%Q with (inject_Z 0). rewrite <- Zlt_Qlt. lia. }
  split; intros [A B]; split.
  - apply (Qmult_le_l _ _ m M). now rewrite Qmult_0_r.
  - apply (Qmult_le_l _ _ m M). now rewrite Qmult_1_r.
  - apply (Qmult_le_l _ _ m M) in A. now rewrite Qmult_0_r in A.
  - apply (Qmult_le_l _ _ m M) in B. now rewrite Qmult_1_r in B.
Qed.

Definition unit_interval (p : Q) : Prop := (0 <= p)%Q /\ (p <= 1)%Q.

Theorem quantile_value ncol x ps : (2 <= length x)%nat -> Forall unit_interval ps ->
  empirical_quantiles ncol (finm x) ps = Ok (finm (map (fun p => map (rquant x p) (seq 0 ncol)) ps)).
Proof.
  intros L H. unfold empirical_quantiles. rewrite finm_length.
  replace (length x =? 0)%nat with false by (symmetry; apply Nat.eqb_neq; lia).
  assert (G : forallb (fun p => in_grid (length x) (itpoint (length x) p)) ps = true).
  { apply forallb_forall. intros p I. apply in_grid_iff; auto. rewrite Forall_forall in H. now apply H. }
  rewrite G. f_equal. unfold finm. rewrite map_map. apply map_ext_in. intros p I. unfold fin, range. rewrite map_map.
  apply map_ext. intros j. rewrite Forall_forall in H. specialize (H p I).
  assert (GG : in_grid (length x) (itpoint (length x) p) = true) by (apply in_grid_iff; auto).
  unfold in_grid in GG. rewrite andb_true_iff, !Qle_bool_iff in GG.
  change (map (fun l : list R => map Fin l) x) with (finm x). rewrite col_fin, sort_fin, interp_at_fin.
  - unfold rquant. now rewrite itpoint_R.
  - now rewrite rsort_length, Rcol_length.
  - apply GG.
  - rewrite rsort_length, Rcol_length. apply GG.
Qed.

Theorem quantile_refused ncol x ps : (2 <= length x)%nat -> ~ Forall unit_interval ps ->
  empirical_quantiles ncol (finm x) ps = Err ValueError.
Proof.
  intros L H. unfold empirical_quantiles. rewrite finm_length. destruct (length x =? 0)%nat; auto.
  destruct (forallb _ ps) eqn:G; auto. exfalso. apply H. apply Forall_forall. intros p I.
  rewrite forallb_forall in G. apply (in_grid_iff (length x)); auto.
Qed.

Lemma rquant_range x p j : x <> [] -> unit_interval p -> exists a b, In a (Rcol j x) /\ In b (Rcol j x) /\ a <= rquant x p j <= b.
Proof.
  intros N [A B]. unfold rquant. set (c := Rcol j x). assert (Nc : c <> []) by (unfold c; destruct x; [congruence|discriminate]).
  assert (P := rsort_perm c). assert (S := rsort_sorted c).
  assert (V : 0 <= INR (length x - 1) * Q2R p).
  { apply Rmult_le_pos; [apply pos_INR|]. apply Qle_Rle in A. now rewrite Q2R_0 in A. }
  destruct (rsort c) as [|a y] eqn:E; [exfalso; apply Nc; apply Permutation_nil; now symmetry|].
  destruct (exists_last (l := a :: y) ltac:(discriminate)) as (t & b & Eb).
  exists a, b. split; [|split; [|split]].
  - eapply Permutation_in; [symmetry; exact P|now left].
  - eapply Permutation_in; [symmetry; exact P|]. rewrite Eb. apply in_or_app. right. now left.
  - now apply interp_lower.
  - apply interp_upper; auto; [discriminate|]. intros z I. rewrite Eb in S, I. apply in_app_or in I as [I|[<-|[]]]; [|lra].
    clear - S I. induction t as [|u t IH]; [contradiction|]. inversion S as [|? ? S' F]; subst. destruct I as [->|I]; [|auto].
    rewrite Forall_forall in F. apply F, in_or_app. right. now left.
Qed.

Lemma rquant_mono x p q j : unit_interval p -> (p <= q)%Q -> rquant x p j <= rquant x q j.
Proof.
  intros [A _] B. unfold rquant. apply interp_mono; [apply rsort_sorted|]. assert (0 <= INR (length x - 1)) by apply pos_INR.
  apply Qle_Rle in A. rewrite Q2R_0 in A. apply Qle_Rle in B. split; [now apply Rmult_le_pos|now apply Rmult_le_compat_l].
Qed.

Lemma interp_integer y k : (k < length y)%nat -> (2 <= length y)%nat -> interp y (INR k) = nth k y 0.
Proof.
  intros H L. destruct (Nat.eq_dec (k + 1) (length y)) as [E|E].
  - rewrite (interp_at_segment y (k - 1)) by (try lia; rewrite minus_INR by lia; simpl; lra).
    replace (k - 1 + 1)%nat with k by lia. rewrite minus_INR by lia. simpl (INR 1). ring.
  - rewrite (interp_at_segment y k) by (try lia; lra). ring.
Qed.

Lemma rquant_order x k j : (2 <= length x)%nat -> (k < length x)%nat ->
  forall s, ordered (Rcol j x) s -> rquant x (Z.of_nat k # Pos.of_nat (length x - 1)) j = nth k s 0.
Proof.
  intros L K s O. rewrite (ordered_rsort _ _ O). unfold rquant.
  assert (E : INR (length x - 1) * Q2R (Z.of_nat k # Pos.of_nat (length x - 1)) = INR k).
  { assert (0 < INR (length x - 1)) by (apply lt_0_INR; lia). unfold Q2R. cbn [Qnum Qden].
    rewrite <- INR_IZR_INZ. rewrite <- (positive_nat_Z (Pos.of_nat (length x - 1))), <- INR_IZR_INZ, Nat2Pos.id by lia. field. lra. }
  rewrite E. apply interp_integer; rewrite rsort_length, Rcol_length; auto.
Qed.

Lemma rquant_perm x x' p j : Permutation x x' -> rquant x' p j = rquant x p j.
Proof.
  intros P. unfold rquant. rewrite <- (Permutation_length P). f_equal.
  apply sorted_unique; try apply rsort_sorted. rewrite <- !rsort_perm. unfold Rcol. now apply Permutation_map, Permutation_sym.
Qed.

Theorem quantile_perm ncol x x' ps : Permutation x x' -> (2 <= length x)%nat ->
  empirical_quantiles ncol (finm x') ps = empirical_quantiles ncol (finm x) ps.
Proof.
  intros P L. assert (L' : (2 <= length x')%nat) by (now rewrite <- (Permutation_length P)).
  destruct (Forall_dec unit_interval (fun p => ltac:(unfold unit_interval; destruct (Qlt_le_dec p 0); [right; intros [A _]; apply Qle_not_lt in A; auto|destruct (Qlt_le_dec 1 p); [right; intros [_ A]; apply Qle_not_lt in A; auto|left; auto]])) ps) as [H|H].
  - rewrite !quantile_value by auto. do 2 f_equal. apply map_ext. intros p. apply map_ext. intros j. now apply rquant_perm.
  - now rewrite !quantile_refused.
Qed.

(** A single row: the interpolation divides 0 by 0, whatever [p] is. *)
Theorem quantile_single ncol row ps : length row = ncol ->
  empirical_quantiles ncol (finm [row]) ps = Ok (map (fun _ => repeat NaN ncol) ps).
Proof.
  intros L. unfold empirical_quantiles. cbn [finm map length Nat.eqb].
  assert (G : forallb (fun p => in_grid 1 (itpoint 1 p)) ps = true).
  { apply forallb_forall. intros p _. unfold in_grid, itpoint. cbn. reflexivity. }
  rewrite G. f_equal. apply map_ext. intros p. unfold range.
  apply (list_ext NaN); [now rewrite map_length, seq_length, repeat_length|]. intros j Hj. rewrite map_length, seq_length in Hj.
  rewrite nth_map_seq, nth_repeat by auto. change [fin row] with (finm [row]). rewrite col_fin. cbn [Rcol map fin].
  unfold sort. cbn [fold_right insert]. unfold interp_at. cbn [length]. cbn [Nat.sub].
  rewrite Nat.min_0_r. cbn [Nat.eqb nth]. rewrite !XR_nsub, !Rminus_diag_eq by reflexivity.
  rewrite !XR_nnat. change (INR 0) with 0. rewrite XR_nsub, Rminus_diag_eq by reflexivity.
  assert (E : @ndiv XR _ (Fin 0) (Fin 0) = NaN).
  { xs. unfold Reqb. destruct (Req_EM_T 0 0); [|contradiction]. unfold Rltb. destruct (Rlt_dec 0 0); [lra|]. reflexivity. }
  rewrite E. reflexivity.
Qed.
