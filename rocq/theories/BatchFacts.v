(** Facts about the dictionary returned by [gelman_rubin], batch means and Geweke's diagnostic (ChainStats.v). *)

From Coq Require Import ZArith QArith Qround Bool Lia List Reals Lra String Arith Permutation Qreals.
From Verif Require Import Base Num Names ChainFiles ChainStats RVec StatsSpec StatsFacts.
Import ListNotations.
Close Scope Q_scope.
Open Scope list_scope.
Open Scope nat_scope.

Section Generic.
Context {F : Type} `{NF : Num F}.

(** ** [gelman_rubin] *)

Lemma dset_fresh {A} k (v : A) d : ~ In k (map fst d) -> dset k v d = d ++ [(k, v)].
Proof.
  induction d as [|[k' v'] d IH]; cbn [dset map fst In app]; intros N; auto.
  destruct (String.eqb_spec k k'); [subst; exfalso; apply N; now left|]. rewrite IH; auto.
Qed.

Lemma dget_in {A} k (v : A) d : NoDup (map fst d) -> In (k, v) d -> dget k d = Some v.
Proof.
  unfold dget. induction d as [|[k' v'] d IH]; cbn [map fst find In]; intros N I; [contradiction|].
  destruct I as [I|I].
  - injection I as -> ->. rewrite String.eqb_refl. auto.
  - inversion N; subst. destruct (String.eqb_spec k k').
    + subst. exfalso. apply H1. apply in_map_iff. now exists (k', v).
    + now apply IH.
Qed.

Lemma mapM_ok {A B} (f : A -> res B) (g : A -> B) l : (forall a, In a l -> f a = Ok (g a)) -> mapM f l = Ok (map g l).
Proof.
  induction l as [|a l IH]; intros H; cbn [mapM map]; auto. rewrite H by now left. cbn [bind].
  rewrite IH by (intros; apply H; now right). reflexivity.
Qed.

(** chains as [gelman_rubin] takes them: each an array with [n] rows and at least [w] columns *)
Definition chains_ok (n w : nat) (chains : list (nat * list (list F))) : Prop :=
  forall ch, In ch chains -> List.length (snd ch) = n /\ w <= fst ch.

Definition columns (chains : list (nat * list (list F))) (i : nat) : list (list F) := map (fun ch => col i (snd ch)) chains.

Lemma assemble_ok n chains names : forall ii par,
  chains_ok n (ii + List.length names) chains -> NoDup (map fst par ++ names) ->
  assemble n chains ii names par =
  Ok (par ++ map (fun k => (nth k names EmptyString, columns chains (ii + k))) (range (List.length names))).
Proof.
  induction names as [|name names IH]; intros ii par C D; cbn [assemble List.length].
  - unfold range. cbn. now rewrite app_nil_r.
  - rewrite (mapM_ok (copy_column n ii) (fun ch : nat * list (list F) => col ii (snd ch))).
    2:{ intros [w rows] I. destruct (C _ I) as [A B]. cbn [fst snd List.length] in *. unfold copy_column.
        replace (w <=? ii) with false by (symmetry; apply Nat.leb_gt; lia). now rewrite A, Nat.eqb_refl. }
    cbn [bind]. fold (columns chains ii). rewrite dset_fresh.
    2:{ intros I. apply NoDup_remove_2 in D. apply D, in_or_app. now left. }
    rewrite IH.
    + unfold range. cbn [seq map nth]. rewrite <- seq_shift, map_map, <- app_assoc. cbn [app].
      rewrite Nat.add_0_r. do 3 f_equal. apply map_ext. intros k. now rewrite Nat.add_succ_r.
    + intros ch I. destruct (C _ I). cbn [List.length] in *. split; auto; lia.
    + rewrite map_app. cbn [map fst]. now rewrite <- app_assoc.
Qed.

Lemma psrf_all_ok n m par names : forall (f : string -> psrf) out,
  (forall k, In k names -> exists x, dget k par = Some x /\ calculate_psrf x n m = Ok (f k)) ->
  NoDup (map fst out ++ names) ->
  psrf_all n m names par out = Ok (out ++ map (fun k => (k, f k)) names).
Proof.
  induction names as [|name names IH]; intros f out H D; cbn [psrf_all map].
  - now rewrite app_nil_r.
  - destruct (H name ltac:(now left)) as (x & G & P). rewrite G. cbn [of_option bind]. rewrite P. cbn [bind].
    rewrite dset_fresh. 2:{ intros I. apply NoDup_remove_2 in D. apply D, in_or_app. now left. }
    rewrite (IH f). + now rewrite <- app_assoc.
    + intros; apply H; now right.
    + rewrite map_app. cbn [map fst]. now rewrite <- app_assoc.
Qed.

(** The dictionary has one entry per name, in order, computed from the columns with the number of the name. *)
Theorem gelman_rubin_entries chains names rn n : names <> None \/ rn = None ->
  let nparam := match chains with [] => 0 | ch :: _ => fst ch end in
  let ns := match names with Some l => l | None => generate_default_names nparam end in
  2 <= List.length chains -> 0 < n -> chains_ok n (List.length ns) chains -> NoDup ns ->
  exists ps, gelman_rubin chains names rn = Ok (combine ns ps) /\ List.length ps = List.length ns /\
    forall i p, nth_error ps i = Some p -> calculate_psrf (columns chains i) n (List.length chains) = Ok p.
Proof.
  intros HN nparam ns M N C D. destruct chains as [|[w rows] chains]; [cbn in M; lia|].
  set (all := (w, rows) :: chains) in *. cbn [fst] in nparam.
  assert (En : match names with Some l => l | None => get_parameter_names w rn end = ns).
  { unfold ns. destruct names; auto. destruct HN as [HN|HN]; [congruence|]. subst rn. reflexivity. }
  assert (Er : List.length rows = n) by (apply (C (w, rows)); now left).
  assert (A := assemble_ok n all ns 0 [] C D). cbn [app] in A.
  assert (P : forall i, exists p, calculate_psrf (columns all i) n (List.length all) = Ok p).
  { intros i. unfold calculate_psrf. replace (n =? 0) with false by (symmetry; apply Nat.eqb_neq; lia).
    replace (List.length all =? 0) with false by (symmetry; apply Nat.eqb_neq; lia). eexists. reflexivity. }
  pose (pv := fun i => match calculate_psrf (columns all i) n (List.length all) with Ok p => p | Err _ => mkpsrf n0 n0 n0 n0 n0 end).
  assert (Pv : forall i, calculate_psrf (columns all i) n (List.length all) = Ok (pv i)).
  { intros i. unfold pv. destruct (P i) as [p E]. now rewrite E. }
  pose (idx := fun k => match find (fun i => String.eqb k (nth i ns EmptyString)) (range (List.length ns)) with Some i => i | None => 0 end).
  assert (Ix : forall i, i < List.length ns -> idx (nth i ns EmptyString) = i).
  { intros i Hi. unfold idx. destruct (find _ _) as [j|] eqn:Fj.
    - apply find_some in Fj as [I E]. apply String.eqb_eq in E. unfold range in I. apply in_seq in I.
      symmetry. apply (proj1 (NoDup_nth ns EmptyString) D); auto. lia.
    - exfalso. eapply find_none in Fj; [|unfold range; apply in_seq; split; [lia|cbn; exact Hi]].
      cbv beta in Fj. now rewrite String.eqb_refl in Fj. }
  exists (map pv (range (List.length ns))). split; [|split].
  - unfold gelman_rubin. unfold all at 1. cbv zeta. rewrite En, Er. fold all.
    replace (List.length all <? 2) with false by (symmetry; apply Nat.ltb_ge; lia).
    rewrite A. cbn [bind]. rewrite (psrf_all_ok n (List.length all) _ ns (fun k => pv (idx k)) []); auto.
    + cbn [app]. f_equal.
      apply (list_ext (EmptyString, pv 0)).
      * rewrite combine_length, !map_length. unfold range. rewrite seq_length. lia.
      * intros i Hi. rewrite map_length in Hi. rewrite combine_nth by (rewrite map_length; unfold range; now rewrite seq_length).
        unfold range. rewrite nth_map_seq by auto.
        rewrite (nth_indep _ (EmptyString, pv 0) (EmptyString, pv (idx EmptyString))) by (now rewrite map_length).
        rewrite (map_nth (fun k => (k, pv (idx k))) ns EmptyString i). now rewrite Ix.
    + intros k I. apply In_nth with (d := EmptyString) in I as (i & Hi & <-). exists (columns all i). split.
      * apply dget_in.
        -- rewrite map_map. cbn [fst]. replace (map (fun k => nth k ns EmptyString) (range (List.length ns))) with ns; auto.
           apply (list_ext EmptyString); [unfold range; now rewrite map_length, seq_length|].
           intros j Hj. unfold range. now rewrite nth_map_seq.
        -- apply in_map_iff. exists i. split; auto. unfold range. apply in_seq. lia.
      * now rewrite Ix, Pv.
  - unfold range. now rewrite map_length, seq_length.
  - intros i p H. assert (Hi : i < List.length ns).
    { apply nth_error_Some_length in H || (assert (X : nth_error (map pv (range (List.length ns))) i <> None) by congruence;
      apply nth_error_Some in X; revert X; unfold range; rewrite map_length, seq_length; auto). }
    rewrite nth_error_map in H. unfold range in H. rewrite (nth_error_nth' (seq 0 (List.length ns)) 0) in H by (now rewrite seq_length).
    rewrite seq_nth in H by auto. cbn in H. injection H as <-. apply Pv.
Qed.

Theorem gelman_rubin_single chains names rn : List.length chains = 1 -> gelman_rubin chains names rn = Err ValueError.
Proof. destruct chains as [|[w rows] [|? ?]]; cbn [List.length]; intros; try lia. reflexivity. Qed.

(** ** Batches *)

Lemma skipn_add {A} (l : list A) : forall a b, skipn a (skipn b l) = skipn (a + b) l.
Proof.
  intros a b. revert l. induction b as [|b IH]; intros l.
  - now rewrite Nat.add_0_r.
  - rewrite Nat.add_succ_r. destruct l as [|x l]; [now rewrite !skipn_nil|]. cbn [skipn]. apply IH.
Qed.

(** the windows [i*b, (i+1)*b) cut the list *)
Lemma windows_cut {A} (b : nat) : 0 < b -> forall l : list A,
  cut b l (map (fun i => slice (i * b) ((i + 1) * b) l) (range (List.length l / b))) (skipn (List.length l / b * b) l).
Proof.
  intros B l.
  assert (G : forall k, k * b <= List.length l ->
    l = List.concat (map (fun i => slice (i * b) ((i + 1) * b) l) (range k)) ++ skipn (k * b) l).
  { induction k as [|k IH]; intros H; [reflexivity|]. unfold range in *. rewrite seq_S, map_app, concat_app. cbn [map List.concat].
    rewrite app_nil_r, <- app_assoc, Nat.add_0_l. rewrite (IH ltac:(lia)) at 1. f_equal.
    unfold slice. replace ((k + 1) * b - k * b) with b by lia.
    rewrite <- (firstn_skipn b (skipn (k * b) l)) at 1. f_equal. rewrite skipn_add. reflexivity || (f_equal; lia). }
  assert (M := Nat.mul_div_le (List.length l) b ltac:(lia)). split; [|split].
  - apply G. lia.
  - apply Forall_forall. intros p I. apply in_map_iff in I as (i & <- & I). unfold range in I. apply in_seq in I.
    unfold slice. rewrite firstn_length, skipn_length. assert ((i + 1) * b <= List.length l / b * b) by nia. lia.
  - rewrite skipn_length. pose proof (Nat.mod_upper_bound (List.length l) b ltac:(lia)). rewrite Nat.mod_eq in H by lia. lia.
Qed.

Lemma col_slice j a e (m : list (list F)) : slice a e (col j m) = col j (slice a e m).
Proof. unfold slice, col. now rewrite skipn_map, firstn_map. Qed.

(** one column's estimate, from the batches and the whole chain *)
Definition column_error (j b : nat) (batches : list (list (list F))) (chain : list (list F)) : F :=
  nsqrt (nmul (ndiv (vsum (map (fun p => nsqr (nsub (mean (col j p)) (mean (col j chain)))) batches)) (nnat (List.length batches - 1))) (nnat b)).

Theorem batches npar chain ob : 
  let n := List.length chain in
  let b := match ob with Some b => b | None => Nat.max 10 (n / 20) end in
  0 < b ->
  exists parts rest, cut b chain parts rest /\ List.length parts = n / b /\
    batch_mean_standard_deviation npar chain ob =
    if List.length parts <? 2 then Err SysExit
    else Ok (map (fun j => column_error j b parts chain) (range npar)).
Proof.
  intros n b B. exists (map (fun i => slice (i * b) ((i + 1) * b) chain) (range (n / b))), (skipn (n / b * b) chain).
  split; [apply windows_cut; auto|]. split; [unfold range; now rewrite map_length, seq_length|].
  unfold batch_mean_standard_deviation. fold n. cbv zeta.
  change (match ob with Some b0 => b0 | None => default_batch n end) with b.
  replace (b =? 0) with false by (symmetry; apply Nat.eqb_neq; lia).
  assert (L : List.length (batch_indices n b) = n / b + 1) by (unfold batch_indices, range; now rewrite map_length, seq_length).
  rewrite L. replace (n / b + 1 - 1) with (n / b) by lia.
  assert (L' : List.length (map (fun i => slice (i * b) ((i + 1) * b) chain) (range (n / b))) = n / b) by (unfold range; now rewrite map_length, seq_length).
  rewrite L'. destruct (n / b <? 2); auto. f_equal. apply map_ext. intros j. unfold column_error. rewrite L'. do 4 f_equal.
  rewrite !map_map. apply map_ext_in. intros i I. unfold range in I. apply in_seq in I. do 3 f_equal.
  rewrite col_slice. f_equal. unfold batch_indices, range.
  rewrite !nth_map_seq by lia. reflexivity.
Qed.

Theorem batch_default_rejects npar chain :
  batch_mean_standard_deviation npar chain None = Err SysExit <-> List.length chain < 20.
Proof.
  set (n := List.length chain). destruct (batches npar chain None) as (parts & rest & _ & L & E); [lia|]. fold n in L, E.
  rewrite E, L. destruct (Nat.lt_ge_cases n 20) as [H|H].
  - split; auto. intros _. replace (n / Nat.max 10 (n / 20) <? 2) with true; auto. symmetry. apply Nat.ltb_lt.
    rewrite (Nat.div_small n 20) by auto. cbn [Nat.max]. apply Nat.div_lt_upper_bound; lia.
  - split; [|lia]. replace (n / Nat.max 10 (n / 20) <? 2) with false; [discriminate|]. symmetry. apply Nat.ltb_ge.
    assert (20 * (n / 20) <= n) by (apply Nat.mul_div_le; lia).
    apply Nat.div_le_lower_bound; lia.
Qed.

End Generic.
