(** Linear algebra for C93: triangular factors reach every point. *)

From Coq Require Import ZArith QArith Bool Lia List Reals Lra.
From Verif Require Import Base Num Samplers Adapt Settings Simulator RunSpec CompleteSpec NumberSpec ReachSpec.
From Verif Require Import SamplerFacts RVec RMat NumberFacts.
Import ListNotations.
Close Scope Q_scope.
Open Scope list_scope.
Open Scope R_scope.

(** Square matrices of numbers are tables. *)
Lemma square_table n P : square n P -> every number P -> exists f, P = finm (table n n f).
Proof.
  intros [H1 H2] H3. exists (fun i j => match nth j (nth i P []) NaN with Fin v => v | _ => 0 end).
  rewrite finm_table. apply (list_ext []); [rewrite map_length, seq_length; exact H1|]. intros i Hi.
  rewrite H1 in Hi. assert (Hr : In (nth i P []) P) by (apply nth_In; rewrite H1; exact Hi).
  rewrite (nth_map_seq (fun i => fin (vtab n (fun j => match nth j (nth i P []) NaN with Fin v => v | _ => 0 end))) n i [] Hi).
  rewrite fin_vtab. rewrite Forall_forall in H2. specialize (H2 _ Hr). cbv beta in H2. unfold every in H3. rewrite Forall_forall in H3. specialize (H3 _ Hr). cbv beta in H3.
  apply (list_ext (@NaN R)); [rewrite map_length, seq_length; exact H2|]. intros j Hj. rewrite H2 in Hj.
  rewrite (nth_map_seq (fun k => Fin (match nth k (nth i P []) NaN with Fin v => v | _ => 0 end)) n j NaN Hj).
  rewrite Forall_forall in H3. destruct (H3 (nth j (nth i P []) NaN)) as [v ->]; [apply nth_In; rewrite H2; exact Hj|reflexivity].
Qed.

Lemma table_square n f : square n (finm (table n n f)).
Proof.
  split; [now rewrite finm_length, table_length|]. rewrite finm_table. apply Forall_forall. intros r Hr. apply in_map_iff in Hr as (i & <- & _).
  now rewrite fin_length, vtab_length.
Qed.
Lemma table_numbers n f : every number (finm (table n n f)).
Proof.
  apply Forall_forall. intros r Hr. unfold finm in Hr. apply in_map_iff in Hr as (l & <- & _). apply Forall_forall. intros x Hx.
  unfold fin in Hx. apply in_map_iff in Hx as (v & <- & _). exists v. reflexivity.
Qed.

(** The same in coordinates. *)
Definition solvable (n : nat) (f : nat -> nat -> R) : Prop :=
  forall b : nat -> R, exists z : nat -> R, (forall j, (j < n)%nat -> Sum n (fun i => z i * f i j) = b j) /\
    forall z', (forall j, (j < n)%nat -> Sum n (fun i => z' i * f i j) = b j) -> forall i, (i < n)%nat -> z' i = z i.

Lemma vtab_of n (x : list R) : length x = n -> exists g, x = vtab n g.
Proof. intros <-. eexists. apply vtab_nth. Qed.
Lemma solvable_reaches n f : (0 < n)%nat -> solvable n f <-> reaches n (finm (table n n f)).
Proof.
  intros Hn. split.
  - intros H x y Hx Hy. apply vtab_of in Hx as [g ->]. apply vtab_of in Hy as [h ->].
    destruct (H (fun j => h j - g j)) as (z & Z1 & Z2). exists (vtab n z). split; [split|].
    + apply vtab_length.
    + rewrite vecmat_tab, vadd_tab by auto. f_equal. apply vtab_ext. intros k Hk. rewrite Z1 by auto. lra.
    + intros z' Hz' HE. apply vtab_of in Hz' as [w ->]. rewrite vecmat_tab, vadd_tab in HE by auto.
      apply fin_inj in HE. pose proof (vtab_inv _ _ _ HE) as HE'. clear HE.
      apply vtab_ext. apply Z2. intros j Hj. specialize (HE' j Hj). cbv beta in HE'. lra.
  - intros H b. destruct (H (vtab n (fun _ => 0)) (vtab n b)) as (z & (Z1 & Z2) & Z3); [apply vtab_length|apply vtab_length|].
    apply vtab_of in Z1 as [w ->]. rewrite vecmat_tab, vadd_tab in Z2 by auto. apply fin_inj in Z2. pose proof (vtab_inv _ _ _ Z2) as Z2'. cbv beta in Z2'.
    exists w. split.
    + intros j Hj. specialize (Z2' j Hj). lra.
    + intros z' Hz' i Hi. apply (vtab_inv n); auto. apply Z3; [apply vtab_length|].
      rewrite vecmat_tab by auto. rewrite vadd_tab. f_equal. apply vtab_ext. intros k Hk. rewrite Hz' by auto. lra.
Qed.

(** Forward substitution. *)
Lemma triangular_solvable n f : (forall i j, (j < i)%nat -> (i < n)%nat -> f i j = 0) -> (forall i, (i < n)%nat -> f i i <> 0) -> solvable n f.
Proof.
  revert f. induction n as [|n IH]; intros f Hl Hd b.
  - exists (fun _ => 0). split; [intros; lia|intros; lia].
  - destruct (IH f) with (b := b) as (z & Z1 & Z2).
    { intros i j Hj Hi. apply Hl; lia. }
    { intros i Hi. apply Hd; lia. }
    set (zn := (b n - Sum n (fun i => z i * f i n)) / f n n).
    assert (Hn : f n n <> 0) by (apply Hd; lia).
    exists (fun i => if (i =? n)%nat then zn else z i). split.
    + intros j Hj. change (Sum (S n) ?g) with (Sum n g + g n). cbv beta. rewrite Nat.eqb_refl.
      rewrite (Sum_ext n _ (fun i => z i * f i j)) by (intros k Hk; destruct (Nat.eqb_spec k n); [lia|reflexivity]).
      destruct (Nat.eq_dec j n) as [->|Hjn].
      * unfold zn. field. exact Hn.
      * rewrite (Hl n j) by lia. rewrite Z1 by lia. lra.
    + intros z' Hz' i Hi.
      assert (Hz : forall k, (k < n)%nat -> z' k = z k).
      { apply Z2. intros j Hj. rewrite <- (Hz' j) by lia. change (Sum (S n) ?g) with (Sum n g + g n). cbv beta. rewrite (Hl n j) by lia. lra. }
      destruct (Nat.eqb_spec i n) as [->|Hin]; [|apply Hz; lia].
      specialize (Hz' n ltac:(lia)). change (Sum (S n) ?g) with (Sum n g + g n) in Hz'. cbv beta in Hz'.
      rewrite (Sum_ext n _ (fun i => z i * f i n)) in Hz' by (intros k Hk; now rewrite Hz).
      unfold zn. rewrite <- Hz'. field. exact Hn.
Qed.

Lemma solvable_scaled n c f : c <> 0 -> solvable n f -> solvable n (fun i j => f i j * c).
Proof.
  intros Hc H b. destruct (H (fun j => b j / c)) as (z & Z1 & Z2). exists z. split.
  - intros j Hj. rewrite (Sum_ext n _ (fun i => (z i * f i j) * c)) by (intros; lra). rewrite Sum_scal_r, Z1 by auto. field. exact Hc.
  - intros z' Hz' i Hi. apply Z2; auto. intros j Hj. specialize (Hz' j Hj). rewrite (Sum_ext n _ (fun i => (z' i * f i j) * c)) in Hz' by (intros; lra).
    rewrite Sum_scal_r in Hz'. rewrite <- Hz'. field. exact Hc.
Qed.

Section Class.
Variable n : nat.
Hypothesis Hn : (0 < n)%nat.

Lemma regular_triangle f : (forall i j, (j < i)%nat -> (i < n)%nat -> f i j = 0) -> (forall i, (i < n)%nat -> f i i <> 0) -> regular n (finm (table n n f)).
Proof.
  intros H1 H2. split; [apply table_square|]. split; [apply table_numbers|]. apply solvable_reaches; auto. now apply triangular_solvable.
Qed.
Lemma regular_scaled c P : nonzero c -> regular n P -> regular n (mscale c P).
Proof.
  intros (v & -> & Hv) (H1 & H2 & H3). destruct (square_table n P H1 H2) as [f ->]. rewrite mscale_tab.
  split; [apply table_square|]. split; [apply table_numbers|]. apply solvable_reaches; auto. apply solvable_scaled; auto. now apply solvable_reaches.
Qed.
End Class.
