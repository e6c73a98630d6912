(** The recursive mean/covariance update computes the sample statistics (C14). *)

From Coq Require Import ZArith QArith Bool Lia List Reals Lra.
From Verif Require Import Base Num Samplers Adapt RVec RMat StatSpec.
Import ListNotations.
Close Scope Q_scope.
Open Scope list_scope.
Open Scope R_scope.

Definition S1 (l : sample) (j : nat) : R := Rsum (map (fun p => snd p * nth j (fst p) 0) l).
Definition S2 (l : sample) (i j : nat) : R := Rsum (map (fun p => snd p * (nth i (fst p) 0 * nth j (fst p) 0)) l).

Lemma scatter_const (l : sample) i j a b :
  Rsum (map (fun p => snd p * ((nth i (fst p) 0 - a) * (nth j (fst p) 0 - b))) l)
  = S2 l i j - a * S1 l j - b * S1 l i + a * b * total l.
Proof.
  unfold S2, S1, total. induction l as [|[x w] l IH]; simpl; [lra|]. rewrite IH. ring.
Qed.
Lemma scatter_acc l i j : total l <> 0 -> scatter_sum l i j = S2 l i j - S1 l i * S1 l j / total l.
Proof.
  intros H. unfold scatter_sum. rewrite scatter_const. unfold mean. fold (S1 l i) (S1 l j). field. auto.
Qed.

Lemma heavy_total l : heavy l -> l <> [] -> 1 <= total l.
Proof.
  intros H Hn. destruct l as [|[x w] l]; [congruence|]. inversion H; subst. unfold total. simpl in *.
  assert (0 <= Rsum (map snd l)).
  { apply Rsum_nonneg. intros y Hy. apply in_map_iff in Hy as (p & <- & Hp). rewrite Forall_forall in H3. specialize (H3 _ Hp). lra. }
  lra.
Qed.

(** Total weight 1 means a single row, without scatter. *)
Lemma heavy_one l i j : heavy l -> l <> [] -> total l = 1 -> scatter_sum l i j = 0.
Proof.
  intros H Hn HT. destruct l as [|[x w] [|p l]]; [congruence| |].
  - unfold scatter_sum, mean, total in *. simpl in *. assert (w = 1) as -> by lra. field.
  - exfalso. inversion H as [|? ? H1 H2]; subst. inversion H2 as [|? ? H3 H4]; subst. simpl in *.
    assert (1 <= total (p :: l)) by (apply heavy_total; [exact H2|discriminate]).
    unfold total in *. simpl in *. lra.
Qed.
Lemma cov_back l i j : heavy l -> l <> [] -> (total l - 1) * covariance l i j = scatter_sum l i j.
Proof.
  intros H Hn. unfold covariance. destruct (Req_dec (total l) 1) as [He|He].
  - rewrite heavy_one, He by auto. lra.
  - field. lra.
Qed.

Lemma total_app l x w : total (l ++ [(x, w)]) = total l + w.
Proof. unfold total. rewrite map_app, Rsum_app. simpl. lra. Qed.
Lemma S1_app l x w j : S1 (l ++ [(x, w)]) j = S1 l j + w * nth j x 0.
Proof. unfold S1. rewrite map_app, Rsum_app. simpl. lra. Qed.
Lemma S2_app l x w i j : S2 (l ++ [(x, w)]) i j = S2 l i j + w * (nth i x 0 * nth j x 0).
Proof. unfold S2. rewrite map_app, Rsum_app. simpl. lra. Qed.

Lemma cov_row_spec n l x w : heavy l -> l <> [] -> length x = n -> 1 <= w ->
  cov_row (stats_of n l) (fin x, Fin w) = stats_of n (l ++ [(x, w)]).
Proof.
  intros HH Hn HL Hw. pose proof (heavy_total _ HH Hn) as HT.
  assert (ED : vsub (fin x) (fin (vtab n (mean l))) = fin (vtab n (fun k => nth k x 0 - mean l k))).
  { rewrite (vtab_nth x) at 1. rewrite HL. apply vsub_tab. }
  unfold stats_of, cov_row. rewrite !ED.
  assert (E1 : nadd (Fin w) (Fin (total l)) = @Fin R (w + total l)) by reflexivity. rewrite E1.
  assert (E2 : @ninv XR _ (Fin (w + total l)) = Fin (/ (w + total l))) by (apply XR_ninv; lra). rewrite E2.
  assert (E3 : nsub (Fin (w + total l)) (@n1 XR _) = Fin (w + total l - 1)) by (rewrite XR_n1; reflexivity). rewrite E3.
  assert (E4 : @ninv XR _ (Fin (w + total l - 1)) = Fin (/ (w + total l - 1))) by (apply XR_ninv; lra). rewrite E4.
  assert (E5 : nsub (Fin (total l)) (@n1 XR _) = Fin (total l - 1)) by (rewrite XR_n1; reflexivity). rewrite E5.
  assert (EM : forall a b, nmul (Fin a) (Fin b) = @Fin R (a * b)) by reflexivity. rewrite !EM.
  rewrite vscale_tab, vadd_tab, outer_tab, !mscale_tab, madd_tab, total_app.
  f_equal; [f_equal|].
  - f_equal. apply table_ext. intros i j Hi Hj.
    replace (covariance l i j * ((total l - 1) * / (w + total l - 1))) with
      (((total l - 1) * covariance l i j) / (w + total l - 1)) by (unfold Rdiv; ring).
    rewrite cov_back by auto. unfold covariance. rewrite !scatter_acc by (rewrite ?total_app; lra).
    rewrite total_app, !S1_app, S2_app. unfold mean. fold (S1 l i) (S1 l j). field. lra.
  - f_equal. apply vtab_ext. intros j Hj. unfold mean at 3. fold (S1 (l ++ [(x, w)]) j). rewrite total_app, S1_app.
    unfold mean. fold (S1 l j). field. lra.
  - f_equal. lra.
Qed.

Lemma fold_cov n : forall seg l, heavy l -> l <> [] -> heavy seg -> Forall (fun p => length (fst p) = n) seg ->
  fold_left cov_row (combine (finm (map fst seg)) (fin (map snd seg))) (stats_of n l) = stats_of n (l ++ seg).
Proof.
  induction seg as [|[x w] seg IH]; intros l HH Hn HS HL; [now rewrite app_nil_r|].
  inversion HS; inversion HL; subst. cbn [map finm fin combine fold_left fst snd] in *.
  rewrite cov_row_spec by auto. replace (l ++ (x, w) :: seg) with ((l ++ [(x, w)]) ++ seg) by now rewrite <- app_assoc.
  apply IH; auto.
  - apply Forall_app. split; auto.
  - destruct l; discriminate.
Qed.

Lemma col_sum l j : Rsum (map2 Rmult (Rcol j (map fst l)) (map snd l)) = S1 l j.
Proof. unfold S1. induction l as [|[x w] l IH]; simpl; auto. rewrite IH. lra. Qed.
Lemma dev_sum (l : sample) i j a b c :
  Rsum (map2 Rmult (map (fun x => x - a) (Rcol i (map fst l)))
    (map (fun x => x * c) (map2 Rmult (map (fun x => x - b) (Rcol j (map fst l))) (map snd l))))
  = Rsum (map (fun p => snd p * ((nth i (fst p) 0 - a) * (nth j (fst p) 0 - b))) l) * c.
Proof. induction l as [|[x w] l IH]; simpl; [lra|]. rewrite IH. lra. Qed.

Lemma scatter_sym l i j : scatter_sum l i j = scatter_sum l j i.
Proof. unfold scatter_sum. f_equal. apply map_ext. intros [x w]. simpl. ring. Qed.
Lemma cov_sym l i j : covariance l i j = covariance l j i.
Proof. unfold covariance. now rewrite scatter_sym. Qed.

Lemma init_spec n l : heavy l -> l <> [] -> Forall (fun p => length (fst p) = n) l ->
  initialize_covariance_mean_sum (finm (map fst l)) (fin (map snd l)) = stats_of n l.
Proof.
  intros HH Hn HL. pose proof (heavy_total _ HH Hn) as HT. unfold initialize_covariance_mean_sum.
  assert (HC : ncols (finm (map fst l)) = n).
  { rewrite ncols_fin. destruct l as [|p l]; [congruence|]. inversion HL; subst. reflexivity. }
  rewrite HC, vsum_fin. fold (total l).
  assert (HW : wmean (finm (map fst l)) (fin (map snd l)) (Fin (total l)) n = fin (vtab n (mean l))).
  { unfold wmean, range. rewrite fin_vtab. apply map_ext. intros j.
    rewrite col_fin, vmul_fin, vsum_fin, col_sum, XR_ninv by lra. unfold mean. fold (S1 l j). reflexivity. }
  rewrite HW. unfold stats_of. f_equal. f_equal.
  rewrite XR_n1. cbn [nlt Num_X xlt alt Arith_R]. destruct (Rltb 1 (total l)) eqn:H1.
  - apply Rltb_true in H1. rewrite finm_table. unfold range. apply map_ext_in. intros i Hi. apply in_seq in Hi.
    rewrite (fin_vtab n (covariance l i)). apply map_ext_in. intros j Hj. apply in_seq in Hj.
    assert (G : forall a b, (a < n)%nat -> (b < n)%nat ->
       cov_entry (finm (map fst l)) (fin (map snd l)) (fin (vtab n (mean l))) (Fin (total l)) a b = Fin (covariance l a b)).
    { intros a b Ha Hb. unfold cov_entry. rewrite XR_n0, !nth_fin, !nth_vtab, !col_fin by auto.
      assert (HM : forall m v, map (fun x => nsub x (Fin m)) (fin v) = fin (map (fun x => x - m) v)).
      { intros m v. unfold fin. rewrite !map_map. reflexivity. }
      rewrite !HM, XR_n1. replace (nsub (Fin (total l)) (Fin 1)) with (@Fin R (total l - 1)) by reflexivity.
      rewrite XR_ninv, vmul_fin, vscale_fin, vdot_fin by lra. unfold Rdot. rewrite dev_sum. reflexivity. }
    rewrite G by lia. f_equal. destruct (Nat.max_spec i j) as [[? ->]|[? ->]]; destruct (Nat.min_spec i j) as [[? ->]|[? ->]];
      try lia; auto using cov_sym. 
  - apply Rltb_false in H1. rewrite finm_table. unfold range. apply map_ext_in. intros i Hi.
    rewrite fin_vtab. apply map_ext_in. intros j Hj. rewrite XR_n0. f_equal. unfold covariance.
    rewrite heavy_one by (auto; lra). lra.
Qed.

Definition known (n : nat) (l : sample) : option (list (list XR) * list XR * XR) :=
  match l with [] => None | _ => Some (stats_of n l) end.

Lemma combine_split_eq {A B} (a : list A) (b : list B) : length a = length b ->
  map fst (combine a b) = a /\ map snd (combine a b) = b.
Proof.
  revert b; induction a as [|x a IH]; intros [|y b] H; simpl in H; try lia; auto.
  destruct (IH b) as [H1 H2]; [lia|]. simpl. now rewrite H1, H2.
Qed.

Lemma repeat_fin a n : repeat (@Fin R a) n = fin (repeat a n).
Proof. induction n; simpl; auto. now f_equal. Qed.

Lemma setup_w_spec n s : good_seg n s -> setup_w (fin (snd s)) (length (fst s)) = fin (map snd (seg_sample s))
  /\ map fst (seg_sample s) = fst s /\ heavy (seg_sample s) /\ Forall (fun p => length (fst p) = n) (seg_sample s).
Proof.
  intros (H1 & H2 & H3). destruct s as [x w]. unfold seg_sample. cbn [fst snd] in *.
  set (w' := weights_for (length x) w).
  assert (HL : length x = length w').
  { unfold w', weights_for. destruct w as [|a [|b w]]; simpl in *; try lia. now rewrite repeat_length. }
  destruct (combine_split_eq x w' HL) as [G1 G2]. rewrite G1, G2.
  assert (H3' : Forall (fun v => 1 <= v) w').
  { unfold w', weights_for. destruct w as [|a [|b w]]; auto. inversion H3; subst. apply Forall_forall. intros y Hy.
    apply repeat_spec in Hy. now subst. }
  repeat split; auto.
  - unfold w', weights_for. destruct w as [|a [|b w]]; auto. cbn [setup_w fin map]. rewrite XR_n1. rewrite <- repeat_fin.
    f_equal. cbn [nmul Num_X xmul amul Arith_R]. f_equal. lra.
  - apply Forall_forall. intros [r v] Hp. apply in_combine_r in Hp. rewrite Forall_forall in H3'. exact (H3' _ Hp).
  - apply Forall_forall. intros [r v] Hp. apply in_combine_l in Hp. exact (H1 _ Hp).
Qed.

Lemma update_spec n s (l : sample) : (0 < n)%nat -> good_seg n s -> heavy l ->
  update_covariance_mean_sum (finm (fst s)) (fin (snd s)) (known n l)
  = known n (l ++ seg_sample s).
Proof.
  intros Hn Hs HH. destruct (setup_w_spec n s Hs) as (G1 & G2 & G3 & G4).
  unfold update_covariance_mean_sum. rewrite finm_length.
  destruct (length (fst s)) as [|k] eqn:HL.
  - simpl. assert (seg_sample s = []) as ->; [|rewrite app_nil_r; reflexivity].
    unfold seg_sample. destruct (fst s); [reflexivity|discriminate].
  - assert (HC : ncols (finm (fst s)) = n).
    { rewrite ncols_fin. destruct Hs as [Hs _]. destruct (fst s) as [|r x]; [discriminate|]. apply Hs. left. reflexivity. }
    rewrite HC. destruct n as [|n0]; [lia|]. cbn [Nat.eqb orb]. rewrite G1, <- G2.
    assert (Hne : seg_sample s <> []).
    { intros H0. rewrite H0 in G2. simpl in G2. rewrite <- G2 in HL. discriminate. }
    destruct l as [|p l].
    + simpl app. rewrite (init_spec (S n0)) by auto. destruct (seg_sample s); [congruence|reflexivity].
    + cbn [known]. rewrite fold_cov by (auto; discriminate). reflexivity.
Qed.

(** Feeding the segments one after the other. *)
Definition feed_from (old : option (list (list XR) * list XR * XR)) (segs : list (list (list R) * list R)) :=
  fold_left (fun o s => update_covariance_mean_sum (finm (fst s)) (fin (snd s)) o) segs old.

Lemma feed_spec n segs : (0 < n)%nat -> Forall (good_seg n) segs -> forall l, heavy l ->
  feed_from (known n l) segs
  = known n (l ++ concat (map seg_sample segs)).
Proof.
  intros Hn. unfold feed_from. induction segs as [|s segs IH]; intros HS l HH; cbn [fold_left map concat].
  - rewrite app_nil_r. reflexivity.
  - inversion HS; subst. rewrite update_spec by auto.
    destruct (setup_w_spec n s H1) as (G1 & G2 & G3 & G4).
    rewrite IH; auto.
    + now rewrite <- app_assoc.
    + apply Forall_app. auto.
Qed.

(** Positive semidefinite. *)
Lemma cov_quad l n v : quad n (scatter_sum l) v =
  Rsum (map (fun p => snd p * (Sum n (fun i => v i * (nth i (fst p) 0 - mean l i))) ^ 2) l).
Proof.
  unfold quad, scatter_sum. generalize (mean l) as m. intros m.
  induction l as [|[x w] l IH]; cbn [map Rsum fold_right fst snd].
  - apply Sum_0. intros. apply Sum_0. intros. ring.
  - fold (Rsum (map (fun p => snd p * (Sum n (fun i => v i * (nth i (fst p) 0 - m i))) ^ 2) l)). rewrite <- IH.
    rewrite (Sum_ext n _ (fun i => Sum n (fun j => v i * (w * ((nth i x 0 - m i) * (nth j x 0 - m j))) * v j) +
        Sum n (fun j => v i * Rsum (map (fun p => snd p * ((nth i (fst p) 0 - m i) * (nth j (fst p) 0 - m j))) l) * v j))).
    2:{ intros i Hi. rewrite <- Sum_plus. apply Sum_ext. intros j Hj. simpl. unfold Rsum. ring. }
    rewrite Sum_plus. f_equal.
    rewrite (Sum_ext n _ (fun i => (v i * (nth i x 0 - m i)) * (w * Sum n (fun j => v j * (nth j x 0 - m j))))).
    2:{ intros i Hi. rewrite <- Sum_scal, <- Sum_scal. apply Sum_ext. intros. ring. }
    rewrite Sum_scal_r. ring.
Qed.

Lemma quad_scal n C c v : quad n (fun i j => C i j * c) v = quad n C v * c.
Proof.
  unfold quad. rewrite <- Sum_scal_r. apply Sum_ext. intros. rewrite <- Sum_scal_r. apply Sum_ext. intros. ring.
Qed.

Lemma covariance_psd n l : heavy l -> l <> [] -> psd n (covariance l).
Proof.
  intros HH Hn v. pose proof (heavy_total _ HH Hn) as HT.
  change (covariance l) with (fun i j => scatter_sum l i j * / (total l - 1)). rewrite quad_scal, cov_quad.
  assert (0 <= Rsum (map (fun p => snd p * (Sum n (fun i => v i * (nth i (fst p) 0 - mean l i))) ^ 2) l)).
  { apply Rsum_nonneg. intros y Hy. apply in_map_iff in Hy as (p & <- & Hp).
    unfold heavy in HH. rewrite Forall_forall in HH. specialize (HH _ Hp).
    apply Rmult_le_pos; [lra|]. apply pow2_ge_0. }
  destruct (Req_dec (total l) 1) as [He|He].
  - rewrite He. replace (1 - 1) with 0 by lra. rewrite Rinv_0. lra.
  - apply Rmult_le_pos; auto. left. apply Rinv_0_lt_compat. lra.
Qed.

(** Unit weights. *)
Lemma unit_total rows : total (unit_weights rows) = INR (length rows).
Proof.
  unfold total, unit_weights. rewrite map_map. induction rows as [|r rows IH]; auto.
  cbn [map length Rsum fold_right snd]. fold (Rsum (map (fun _ : list R => 1) rows)). rewrite S_INR.
  simpl in IH. rewrite IH. lra.
Qed.
Lemma unit_mean rows j : mean (unit_weights rows) j = row_mean rows j.
Proof.
  unfold mean, row_mean. rewrite unit_total. f_equal. unfold unit_weights. rewrite map_map. f_equal.
  apply map_ext. intros. simpl. lra.
Qed.
Lemma unit_cov rows i j : covariance (unit_weights rows) i j = row_cov rows i j.
Proof.
  unfold covariance, row_cov. rewrite unit_total. f_equal. unfold scatter_sum. rewrite !unit_mean.
  unfold unit_weights. rewrite map_map. f_equal. apply map_ext. intros. simpl. lra.
Qed.
Lemma unit_heavy rows : heavy (unit_weights rows).
Proof. apply Forall_forall. intros p Hp. apply in_map_iff in Hp as (r & <- & _). simpl. lra. Qed.
Lemma unit_seg rows : seg_sample (rows, [1]) = unit_weights rows.
Proof.
  unfold seg_sample, unit_weights. simpl. induction rows as [|r rows IH]; simpl; auto. now rewrite IH.
Qed.
Lemma unit_app a b : unit_weights (a ++ b) = unit_weights a ++ unit_weights b.
Proof. apply map_app. Qed.
Lemma unit_concat segs : concat (map (fun x => seg_sample (x, [1])) segs) = unit_weights (concat segs).
Proof. induction segs as [|s segs IH]; auto. simpl map. cbn [concat]. rewrite unit_app, IH, unit_seg. reflexivity. Qed.
