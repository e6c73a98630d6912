(** Common vocabulary: Python outcomes as values, list and array helpers.

    Nothing in this file models a particular line of the repository; these are
    the Python / numpy primitives that the model files use. *)

From Coq Require Import Arith Bool Lia List Sorted.
Import ListNotations.

(** ** Outcomes of a Python computation *)

(** Kinds of abnormal termination.  [SysExit] is [sys.exit(...)];
    [OutOfFuel] stands for a loop that has not stopped within the fuel given. *)
Inductive err : Type :=
| SysExit | AttributeError | TypeError | IndexError | ValueError
| UnboundLocal | LinAlgError | KeyError | FileNotFound | ZeroDivision | OutOfFuel.

Inductive res (A : Type) : Type :=
| Ok (a : A)
| Err (e : err).
Arguments Ok {A} a.
Arguments Err {A} e.

Definition bind {A B} (m : res A) (k : A -> res B) : res B :=
  match m with Ok a => k a | Err e => Err e end.

Declare Scope res_scope.
Delimit Scope res_scope with res.
Notation "'let*' x ':=' m 'in' k" := (bind m (fun x => k))
  (at level 200, x pattern, m at level 100, k at level 200, right associativity) : res_scope.
Open Scope res_scope.

Definition of_option {A} (e : err) (o : option A) : res A :=
  match o with Some a => Ok a | None => Err e end.

(** ** Lists as one-dimensional arrays *)

(** [x[i] = v] on a list; out of range leaves the list alone
    (callers check the range when Python would raise). *)
Fixpoint set_nth {A} (i : nat) (v : A) (l : list A) : list A :=
  match l, i with
  | [], _ => []
  | _ :: t, O => v :: t
  | h :: t, S j => h :: set_nth j v t
  end.

(** [x[i] = v] raising IndexError when [i] is not an index. *)
Definition write {A} (i : nat) (v : A) (l : list A) : res (list A) :=
  if i <? length l then Ok (set_nth i v l) else Err IndexError.

(** [x[a:b]] for [0 <= a]. *)
Definition slice {A} (a b : nat) (l : list A) : list A :=
  firstn (b - a) (skipn a l).

Definition map2 {A B C} (f : A -> B -> C) : list A -> list B -> list C :=
  fix go l1 l2 :=
    match l1, l2 with
    | a :: t1, b :: t2 => f a b :: go t1 t2
    | _, _ => []
    end.

(** Fancy indexing [x[ix]]; every index must be in range. *)
Fixpoint gather {A} (x : list A) (ix : list nat) : res (list A) :=
  match ix with
  | [] => Ok []
  | i :: t =>
      let* v := of_option IndexError (nth_error x i) in
      let* r := gather x t in
      Ok (v :: r)
  end.

(** [x[ix] = v] for index list [ix] (later entries win on repeated indices). *)
Fixpoint scatter {A} (x : list A) (ix : list nat) (v : list A) : list A :=
  match ix, v with
  | i :: ti, a :: tv => scatter (set_nth i a x) ti tv
  | _, _ => x
  end.

Definition natlist_sum (l : list nat) : nat := fold_right plus 0 l.

(** First [n] natural numbers, increasing: [range(n)]. *)
Definition range (n : nat) : list nat := seq 0 n.

(** [np.flatnonzero] of a list of booleans. *)
Fixpoint flatnonzero_from (k : nat) (l : list bool) : list nat :=
  match l with
  | [] => []
  | true :: t => k :: flatnonzero_from (S k) t
  | false :: t => flatnonzero_from (S k) t
  end.
Definition flatnonzero (l : list bool) : list nat := flatnonzero_from 0 l.

(** ** Elementary facts used everywhere *)

Lemma set_nth_length {A} (i : nat) (v : A) l : length (set_nth i v l) = length l.
Proof. revert i; induction l as [|h t IH]; intros [|i]; simpl; auto. Qed.

Lemma set_nth_same {A} (i : nat) (v : A) l :
  i < length l -> nth_error (set_nth i v l) i = Some v.
Proof.
  revert i; induction l as [|h t IH]; intros [|i] H; simpl in *; try lia; auto.
  apply IH; lia.
Qed.

Lemma set_nth_other {A} (i j : nat) (v : A) l :
  i <> j -> nth_error (set_nth i v l) j = nth_error l j.
Proof.
  revert i j; induction l as [|h t IH]; intros [|i] [|j] H; simpl; auto; try lia.
Qed.

Lemma map2_length {A B C} (f : A -> B -> C) l1 l2 :
  length (map2 f l1 l2) = Nat.min (length l1) (length l2).
Proof. revert l2; induction l1 as [|a t IH]; intros [|b t2]; simpl; auto. Qed.

Lemma map2_nth_error {A B C} (f : A -> B -> C) l1 l2 i :
  nth_error (map2 f l1 l2) i =
  match nth_error l1 i, nth_error l2 i with
  | Some a, Some b => Some (f a b)
  | _, _ => None
  end.
Proof.
  revert l2 i; induction l1 as [|a t IH]; intros [|b t2] [|i]; simpl; auto.
  - destruct (nth_error t i); auto.
Qed.

Lemma bind_ok {A B} (m : res A) (k : A -> res B) b :
  bind m k = Ok b -> exists a, m = Ok a /\ k a = Ok b.
Proof. destruct m as [a|e]; simpl; intros H; [exists a; auto | discriminate]. Qed.

Lemma write_ok {A} i (v : A) l l' :
  write i v l = Ok l' -> i < length l /\ l' = set_nth i v l.
Proof.
  unfold write. destruct (Nat.ltb_spec i (length l)); intros H'; inversion H'; auto.
Qed.

Lemma gather_length {A} (x : list A) ix r : gather x ix = Ok r -> length r = length ix.
Proof.
  revert r; induction ix as [|i t IH]; simpl; intros r H.
  - inversion H; auto.
  - apply bind_ok in H as (v & _ & H). apply bind_ok in H as (r' & Hr & H).
    inversion H; simpl; f_equal; auto.
Qed.

Lemma gather_nth {A} (x : list A) ix r k :
  gather x ix = Ok r -> k < length ix ->
  nth_error r k = nth_error x (nth k ix 0) /\ nth k ix 0 < length x.
Proof.
  revert r k; induction ix as [|i t IH]; simpl; intros r k H Hk; [lia|].
  apply bind_ok in H as (v & Hv & H). apply bind_ok in H as (r' & Hr & H).
  inversion H; subst r; clear H.
  unfold of_option in Hv. destruct (nth_error x i) eqn:E; inversion Hv; subst.
  destruct k as [|k]; simpl.
  - split; auto. apply nth_error_Some. congruence.
  - apply IH; auto; lia.
Qed.

Lemma scatter_length {A} ix (x v : list A) : length (scatter x ix v) = length x.
Proof.
  revert x v; induction ix as [|i t IH]; intros x [|a v]; simpl; auto.
  rewrite IH. apply set_nth_length.
Qed.

Lemma scatter_other {A} ix (x v : list A) j :
  ~ In j ix -> nth_error (scatter x ix v) j = nth_error x j.
Proof.
  revert x v; induction ix as [|i t IH]; intros x [|a v] H; simpl in *; auto.
  rewrite IH by tauto. apply set_nth_other. intros ->; tauto.
Qed.

Lemma scatter_in {A} ix (x v : list A) k :
  NoDup ix -> k < length ix -> length v = length ix ->
  (forall i, In i ix -> i < length x) ->
  nth_error (scatter x ix v) (nth k ix 0) = nth_error v k.
Proof.
  revert x v k; induction ix as [|i t IH]; intros x v k ND Hk Hl Hr; simpl in *; [lia|].
  destruct v as [|a v]; simpl in *; [lia|].
  inversion ND; subst.
  destruct k as [|k]; simpl.
  - rewrite scatter_other by auto. apply set_nth_same. apply Hr; auto.
  - apply IH; auto; try lia. intros j Hj. rewrite set_nth_length. apply Hr; auto.
Qed.

Lemma scatter_twice {A} ix (x v w : list A) :
  NoDup ix -> length v = length ix -> length w = length ix ->
  (forall i, In i ix -> i < length x) ->
  scatter (scatter x ix v) ix w = scatter x ix w.
Proof.
  intros ND Hv Hw Hr.
  assert (Hext : forall (a b : list A), length a = length b ->
             (forall j, nth_error a j = nth_error b j) -> a = b).
  { induction a as [|p a IH]; intros [|q b] HL HN; simpl in *; try lia; auto.
    f_equal. - specialize (HN 0); simpl in HN; congruence.
    - apply IH; [lia|]. intros j; apply (HN (S j)). }
  apply Hext.
  - now rewrite !scatter_length.
  - intros j. destruct (in_dec Nat.eq_dec j ix) as [Hin|Hout].
    + apply (In_nth _ _ 0) in Hin as (k & Hk & <-).
      rewrite !scatter_in; auto.
      intros i Hi. rewrite scatter_length. auto.
    + now rewrite !scatter_other.
Qed.

Lemma flatnonzero_from_spec l k i :
  In i (flatnonzero_from k l) <-> (k <= i /\ nth_error l (i - k) = Some true).
Proof.
  revert k i; induction l as [|b t IH]; intros k i; simpl.
  - split; [tauto|]. intros [_ H]. destruct (i - k); discriminate.
  - assert (Hs : In i (flatnonzero_from (S k) t) <->
                 (S k <= i /\ nth_error t (i - S k) = Some true)) by apply IH.
    destruct b; simpl; rewrite Hs; clear Hs IH.
    + split.
      * intros [->|[H1 H2]].
        -- split; [lia|]. now rewrite Nat.sub_diag.
        -- split; [lia|]. replace (i - k) with (S (i - S k)) by lia. auto.
      * intros [H1 H2]. destruct (Nat.eq_dec i k) as [->|Hn]; [left; auto|right].
        split; [lia|]. replace (i - k) with (S (i - S k)) in H2 by lia. auto.
    + split.
      * intros [H1 H2]. split; [lia|]. replace (i - k) with (S (i - S k)) by lia. auto.
      * intros [H1 H2]. destruct (Nat.eq_dec i k) as [->|Hn].
        -- rewrite Nat.sub_diag in H2. discriminate.
        -- split; [lia|]. replace (i - k) with (S (i - S k)) in H2 by lia. auto.
Qed.

Lemma flatnonzero_spec l i : In i (flatnonzero l) <-> nth_error l i = Some true.
Proof.
  unfold flatnonzero. rewrite flatnonzero_from_spec, Nat.sub_0_r.
  split; [tauto|]. intros; split; auto; lia.
Qed.

Lemma flatnonzero_from_NoDup l k : NoDup (flatnonzero_from k l).
Proof.
  revert k; induction l as [|b t IH]; intros k; simpl; [constructor|].
  destruct b; auto. constructor; auto.
  rewrite flatnonzero_from_spec. lia.
Qed.

Lemma flatnonzero_NoDup l : NoDup (flatnonzero l).
Proof. apply flatnonzero_from_NoDup. Qed.

Lemma flatnonzero_from_sorted l k :
  Sorted.StronglySorted lt (flatnonzero_from k l).
Proof.
  revert k; induction l as [|b t IH]; intros k; simpl; [constructor|].
  destruct b; auto. constructor; auto.
  apply Forall_forall. intros i Hi. apply flatnonzero_from_spec in Hi. lia.
Qed.
