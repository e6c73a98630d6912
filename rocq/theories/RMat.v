(** Matrices over the reals given by their entries, and the model's matrix operations on them. *)

From Coq Require Import ZArith QArith Bool Lia List Reals Lra.
From Verif Require Import Base Num Samplers RVec.
Import ListNotations.
Close Scope Q_scope.
Open Scope list_scope.
Open Scope R_scope.

(** The vector (f 0, ..., f (n-1)); the n x k matrix with entries f i j. *)
Definition vtab (n : nat) (f : nat -> R) : list R := map f (seq 0 n).
Definition table (n k : nat) (f : nat -> nat -> R) : list (list R) := map (fun i => vtab k (f i)) (seq 0 n).

Lemma vtab_length n f : length (vtab n f) = n.
Proof. unfold vtab. now rewrite map_length, seq_length. Qed.
Lemma nth_vtab n f k : (k < n)%nat -> nth k (vtab n f) 0 = f k.
Proof. apply nth_map_seq. Qed.
Lemma vtab_ext n f g : (forall k, (k < n)%nat -> f k = g k) -> vtab n f = vtab n g.
Proof. intros H. apply map_ext_in. intros k Hk. apply in_seq in Hk. apply H. lia. Qed.
Lemma vtab_nth l : l = vtab (length l) (fun k => nth k l 0).
Proof. apply (list_ext 0); [now rewrite vtab_length|]. intros k Hk. now rewrite nth_vtab. Qed.
Lemma vtab_inv n f g : vtab n f = vtab n g -> forall k, (k < n)%nat -> f k = g k.
Proof. intros H k Hk. rewrite <- (nth_vtab n f), <- (nth_vtab n g), H by auto. reflexivity. Qed.

Lemma fin_vtab n f : fin (vtab n f) = map (fun k => Fin (f k)) (seq 0 n).
Proof. unfold fin, vtab. apply map_map. Qed.

Lemma table_length n k f : length (table n k f) = n.
Proof. unfold table. now rewrite map_length, seq_length. Qed.
Lemma nth_table n k f i : (i < n)%nat -> nth i (table n k f) [] = vtab k (f i).
Proof. intros H. unfold table. exact (nth_map_seq (fun i => vtab k (f i)) n i [] H). Qed.
Lemma table_shape n k f : shape n k (table n k f).
Proof.
  split; [apply table_length|]. intros row Hr. unfold table in Hr. apply in_map_iff in Hr as (i & <- & _).
  apply vtab_length.
Qed.
Lemma ent_table n k f i j : (i < n)%nat -> (j < k)%nat -> ent (table n k f) i j = f i j.
Proof. intros Hi Hj. unfold ent. rewrite nth_table by auto. now apply nth_vtab. Qed.
Lemma table_ext n k f g : (forall i j, (i < n)%nat -> (j < k)%nat -> f i j = g i j) -> table n k f = table n k g.
Proof.
  intros H. apply map_ext_in. intros i Hi. apply in_seq in Hi. apply vtab_ext. intros j Hj. apply H; lia.
Qed.
Lemma table_ent n k M : shape n k M -> M = table n k (ent M).
Proof.
  intros HS. apply (mat_ext n k); auto using table_shape. intros i j Hi Hj. now rewrite ent_table.
Qed.
Lemma Rcols_table n k f : (0 < n)%nat -> Rcols (table n k f) = k.
Proof. intros H. apply (shape_cols n); auto using table_shape. Qed.
Lemma Rcol_table n k f j : (j < k)%nat -> Rcol j (table n k f) = vtab n (fun i => f i j).
Proof.
  intros Hj. unfold Rcol, table. rewrite map_map. apply map_ext. intros i. now apply nth_vtab.
Qed.

Lemma Rdot_vtab n f g : Rdot (vtab n f) (vtab n g) = Sum n (fun k => f k * g k).
Proof.
  rewrite Rdot_Sum by now rewrite !vtab_length. rewrite vtab_length. apply Sum_ext. intros. now rewrite !nth_vtab.
Qed.
Lemma Rsum_vtab n f : Rsum (vtab n f) = Sum n f.
Proof. rewrite Rsum_Sum, vtab_length. apply Sum_ext. intros. now rewrite nth_vtab. Qed.
Lemma map2_map {A B C D} (h : B -> C -> D) (f : A -> B) (g : A -> C) l :
  map2 h (map f l) (map g l) = map (fun x => h (f x) (g x)) l.
Proof. induction l as [|a l IH]; simpl; auto. now rewrite IH. Qed.
Lemma map2_vtab h n f g : map2 h (vtab n f) (vtab n g) = vtab n (fun k => h (f k) (g k)).
Proof. apply map2_map. Qed.
Lemma map_vtab h n f : map h (vtab n f) = vtab n (fun k => h (f k)).
Proof. unfold vtab. apply map_map. Qed.

(** ** The operations of the model *)

Lemma vadd_tab n f g : vadd (fin (vtab n f)) (fin (vtab n g)) = fin (vtab n (fun k => f k + g k)).
Proof. rewrite vadd_fin. unfold Rvadd. now rewrite map2_vtab. Qed.
Lemma vsub_tab n f g : vsub (fin (vtab n f)) (fin (vtab n g)) = fin (vtab n (fun k => f k - g k)).
Proof. rewrite vsub_fin. unfold Rvsub. now rewrite map2_vtab. Qed.
Lemma vscale_tab c n f : vscale (Fin c) (fin (vtab n f)) = fin (vtab n (fun k => f k * c)).
Proof. rewrite vscale_fin. now rewrite map_vtab. Qed.
Lemma vdot_tab n f g : vdot (fin (vtab n f)) (fin (vtab n g)) = Fin (Sum n (fun k => f k * g k)).
Proof. now rewrite vdot_fin, Rdot_vtab. Qed.

Lemma finm_table n k f : finm (table n k f) = map (fun i => fin (vtab k (f i))) (seq 0 n).
Proof. unfold finm, table. now rewrite map_map. Qed.

Lemma mscale_tab c n k f : mscale (Fin c) (finm (table n k f)) = finm (table n k (fun i j => f i j * c)).
Proof.
  rewrite !finm_table. unfold mscale. rewrite map_map. apply map_ext. intros i. apply vscale_tab.
Qed.
Lemma madd_tab n k f g : madd (finm (table n k f)) (finm (table n k g)) = finm (table n k (fun i j => f i j + g i j)).
Proof.
  rewrite !finm_table. unfold madd. rewrite map2_map. apply map_ext. intros i. apply vadd_tab.
Qed.
Lemma outer_tab n k f g : outer (fin (vtab n f)) (fin (vtab k g)) = finm (table n k (fun i j => f i * g j)).
Proof.
  rewrite finm_table. unfold outer, fin, vtab. rewrite !map_map. apply map_ext. intros i. rewrite !map_map. reflexivity.
Qed.
Lemma transpose_tab n k f : (0 < n)%nat -> transpose (finm (table n k f)) = finm (table k n (fun i j => f j i)).
Proof.
  intros Hn. unfold transpose. rewrite ncols_fin, Rcols_table by auto. unfold range.
  rewrite (finm_table k n). apply map_ext_in. intros j Hj. apply in_seq in Hj. rewrite col_fin, Rcol_table by lia. reflexivity.
Qed.
Lemma vecmat_tab n k z f : (0 < n)%nat ->
  vecmat (fin (vtab n z)) (finm (table n k f)) = fin (vtab k (fun j => Sum n (fun i => z i * f i j))).
Proof.
  intros Hn. rewrite vecmat_fin. f_equal. unfold Rvm. rewrite Rcols_table by auto. apply map_ext_in. intros j Hj.
  apply in_seq in Hj. rewrite Rcol_table by lia. apply Rdot_vtab.
Qed.
Lemma matmul_tab n k m f g : (0 < k)%nat ->
  matmul (finm (table n k f)) (finm (table k m g)) = finm (table n m (fun i j => Sum k (fun l => f i l * g l j))).
Proof.
  intros Hk. rewrite (finm_table n k), (finm_table n m). unfold matmul. rewrite map_map. apply map_ext. intros i.
  now apply vecmat_tab.
Qed.
Lemma eye_tab n : eye n = finm (table n n (fun i j => if (i =? j)%nat then 1 else 0)).
Proof.
  rewrite finm_table. unfold eye, range. apply map_ext. intros i. unfold fin, vtab. rewrite map_map. apply map_ext.
  intros j. rewrite XR_n1, XR_n0. destruct (i =? j)%nat; reflexivity.
Qed.
Lemma diagflat_tab n f : diagflat (fin (vtab n f)) = finm (table n n (fun i j => if (i =? j)%nat then f i else 0)).
Proof.
  rewrite finm_table. unfold diagflat, range. rewrite fin_length, vtab_length.
  apply map_ext_in. intros i Hi. apply in_seq in Hi. unfold fin at 2, vtab. rewrite map_map. apply map_ext.
  intros j. rewrite XR_n0. destruct (i =? j)%nat; [|reflexivity].
  change (nth i (fin (vtab n f)) (Fin 0) = Fin (f i)). rewrite nth_fin, nth_vtab by lia. reflexivity.
Qed.

Lemma finm_inj a b : finm a = finm b -> a = b.
Proof.
  revert b; induction a as [|u a IH]; intros [|v b] H; try discriminate; auto.
  cbn in H. assert (fin u = fin v) as Hu%fin_inj by congruence. assert (finm a = finm b) as Ha%IH by (unfold finm; congruence).
  congruence.
Qed.

Lemma Sum_const_nat n c : Sum n (fun _ => c) = INR n * c.
Proof. apply Sum_const. Qed.

(** Entries of a real matrix read through [finm]. *)
Lemma nth_finm i j m : nth j (nth i (finm m) []) (Fin 0) = Fin (ent m i j).
Proof.
  unfold finm, ent. change (@nil XR) with (fin []). rewrite map_nth. apply nth_fin.
Qed.
