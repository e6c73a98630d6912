(** Decimal notation, as produced by Python's [str] and [format] for integers >= 0, and the order of strings. *)

From Coq Require Import Arith NArith Nnat Bool Lia List String Ascii.
From Verif Require Import Base.
Import ListNotations.
Open Scope list_scope.
Open Scope nat_scope.

(** Decimal digits, most significant first; no leading zeros except for 0 itself. *)
Fixpoint digits_fuel (fuel n : nat) : list nat :=
  match fuel with
  | O => []
  | S f => if n <? 10 then [n] else digits_fuel f (n / 10) ++ [n mod 10]
  end.
Definition digits (n : nat) : list nat := digits_fuel (S n) n.

Definition digit_char (d : nat) : ascii := ascii_of_nat (48 + d).
Definition string_of (l : list ascii) : string := fold_right String EmptyString l.
Definition dec (n : nat) : string := string_of (map digit_char (digits n)).

(** ** Facts *)

Definition value (l : list nat) : nat := fold_left (fun a d => 10 * a + d) l 0.

Lemma value_snoc l d : value (l ++ [d]) = 10 * value l + d.
Proof. unfold value. now rewrite fold_left_app. Qed.

Lemma digits_fuel_enough n : forall f, n < f -> digits_fuel f n = digits n.
Proof.
  induction n as [n IH] using lt_wf_ind. intros [|f] L; [lia|]. unfold digits. cbn [digits_fuel].
  destruct (n <? 10) eqn:D; auto. apply Nat.ltb_ge in D.
  assert (n / 10 < n) by (apply Nat.div_lt; lia). rewrite (IH (n / 10)), (IH (n / 10)) by lia. reflexivity.
Qed.

Lemma digits_step n : digits n = if n <? 10 then [n] else digits (n / 10) ++ [n mod 10].
Proof.
  unfold digits at 1. cbn [digits_fuel]. destruct (n <? 10) eqn:D; auto. apply Nat.ltb_ge in D.
  rewrite digits_fuel_enough; auto. apply Nat.div_lt; lia.
Qed.

Lemma digits_spec n : value (digits n) = n /\ Forall (fun d => d < 10) (digits n) /\ digits n <> [].
Proof.
  induction n as [n IH] using lt_wf_ind. rewrite digits_step. destruct (n <? 10) eqn:D.
  - apply Nat.ltb_lt in D. split; [cbn; lia|split; [auto|discriminate]].
  - apply Nat.ltb_ge in D. destruct (IH (n / 10)) as (A & B & C); [apply Nat.div_lt; lia|].
    rewrite value_snoc, A. pose proof (Nat.div_mod n 10 ltac:(lia)). pose proof (Nat.mod_upper_bound n 10 ltac:(lia)).
    repeat split; [lia| |intros X; apply app_eq_nil in X as [_ X]; discriminate].
    apply Forall_app. auto.
Qed.

Lemma digits_length n k : 10 ^ k <= n < 10 ^ S k -> List.length (digits n) = S k.
Proof.
  revert n. induction k; intros n H; rewrite digits_step.
  - cbn in H. destruct (n <? 10) eqn:D; auto. apply Nat.ltb_ge in D. lia.
  - assert (10 ^ S k = 10 * 10 ^ k) by reflexivity. assert (10 ^ S (S k) = 10 * 10 ^ S k) by reflexivity.
    assert (0 < 10 ^ k) by (apply Nat.neq_0_lt_0, Nat.pow_nonzero; lia).
    destruct (n <? 10) eqn:D; [apply Nat.ltb_lt in D; lia|].
    rewrite app_length, IHk; [cbn; lia|]. split.
    + apply Nat.div_le_lower_bound; lia.
    + apply Nat.div_lt_upper_bound; lia.
Qed.

Lemma digit_char_nat d : d < 10 -> nat_of_ascii (digit_char d) = 48 + d.
Proof. intros. unfold digit_char. apply nat_ascii_embedding. lia. Qed.

Lemma digit_char_inj a b : a < 10 -> b < 10 -> digit_char a = digit_char b -> a = b.
Proof. intros A B H. apply (f_equal nat_of_ascii) in H. rewrite !digit_char_nat in H by auto. lia. Qed.

Lemma ascii_compare_nat a b : Ascii.compare a b = Nat.compare (nat_of_ascii a) (nat_of_ascii b).
Proof. unfold Ascii.compare, nat_of_ascii. apply N2Nat.inj_compare. Qed.

Lemma append_nil_r s : append s EmptyString = s.
Proof. induction s; cbn; congruence. Qed.
Lemma append_assoc a b c : append (append a b) c = append a (append b c).
Proof. induction a; cbn; auto; f_equal; auto. Qed.
Lemma string_of_app a b : string_of (a ++ b) = append (string_of a) (string_of b).
Proof. induction a; cbn; auto; f_equal; auto. Qed.
Lemma append_inj_l p a b : append p a = append p b -> a = b.
Proof. induction p; cbn; auto. intros H. injection H; auto. Qed.

Lemma dec_inj a b : dec a = dec b -> a = b.
Proof.
  intros H. destruct (digits_spec a) as (A1 & A2 & _), (digits_spec b) as (B1 & B2 & _).
  rewrite <- A1, <- B1. f_equal. unfold dec in H. clear A1 B1.
  revert H B2. generalize (digits b). induction A2 as [|x l X HL IH]; intros [|y r] H HB; cbn [map string_of fold_right] in H; try discriminate H; auto.
  injection H as H1 H2. inversion HB; subst. f_equal; auto. now apply digit_char_inj.
Qed.

(** Same number of digits: the order of the strings is the order of the numbers. *)
Lemma compare_prefix p a b : String.compare (append p a) (append p b) = String.compare a b.
Proof. induction p; cbn; auto. rewrite ascii_compare_nat, Nat.compare_refl. auto. Qed.

Lemma value_app l : forall r, value (l ++ r) = value l * 10 ^ List.length r + value r.
Proof.
  unfold value. assert (G : forall r x, fold_left (fun a d => 10 * a + d) r x = x * 10 ^ List.length r + fold_left (fun a d => 10 * a + d) r 0).
  { induction r; intros x; cbn [fold_left List.length]; [cbn; lia|]. rewrite IHr, (IHr (10 * 0 + a)). cbn [Nat.pow]. lia. }
  intros r. rewrite fold_left_app, G. reflexivity.
Qed.

Lemma value_bound l : Forall (fun d => d < 10) l -> value l < 10 ^ List.length l.
Proof.
  induction l using rev_ind; intros H; [cbn; lia|]. apply Forall_app in H as [H1 H2]. inversion H2; subst.
  rewrite value_snoc, app_length. cbn [List.length]. rewrite Nat.add_1_r. cbn [Nat.pow]. specialize (IHl H1). lia.
Qed.

Lemma value_cons d l : value (d :: l) = d * 10 ^ List.length l + value l.
Proof. change (d :: l) with ([d] ++ l). rewrite value_app. cbn. lia. Qed.

Lemma compare_digits x : forall y s t, List.length x = List.length y ->
  Forall (fun d => d < 10) x -> Forall (fun d => d < 10) y -> value x < value y ->
  String.compare (append (string_of (map digit_char x)) s) (append (string_of (map digit_char y)) t) = Lt.
Proof.
  induction x as [|a x IH]; intros [|b y] s t L X Y V; cbn [List.length] in L; try discriminate; [cbn in V; lia|].
  inversion X as [|? ? A1 A2]; inversion Y as [|? ? B1 B2]; subst. rewrite !value_cons in V.
  pose proof (value_bound _ A2). pose proof (value_bound _ B2). injection L as L. rewrite L in V, H.
  cbn [map string_of fold_right append String.compare]. rewrite ascii_compare_nat, !digit_char_nat by auto.
  destruct (Nat.compare (48 + a) (48 + b)) eqn:C.
  - apply Nat.compare_eq in C. assert (a = b) by lia. subst. apply IH; auto. lia.
  - reflexivity.
  - apply Nat.compare_gt_iff in C. assert (10 ^ List.length y * S b <= 10 ^ List.length y * a) by (apply Nat.mul_le_mono_l; lia). lia.
Qed.

Lemma dec_lt k a b s t : 10 ^ k <= a < 10 ^ S k -> 10 ^ k <= b < 10 ^ S k -> a < b ->
  String.compare (append (dec a) s) (append (dec b) t) = Lt.
Proof.
  intros A B L. destruct (digits_spec a) as (A1 & A2 & _), (digits_spec b) as (B1 & B2 & _).
  apply compare_digits; auto; [now rewrite !(digits_length _ k)|lia].
Qed.

(** The first digit of a positive number is not 0. *)
Lemma digits_head n : 1 <= n -> exists d r, digits n = d :: r /\ 1 <= d < 10.
Proof.
  induction n as [n IH] using lt_wf_ind. intros H. rewrite digits_step. destruct (n <? 10) eqn:D.
  - apply Nat.ltb_lt in D. exists n, []. auto.
  - apply Nat.ltb_ge in D. destruct (IH (n / 10)) as (d & r & E & B); [apply Nat.div_lt; lia|apply Nat.div_le_lower_bound; lia|].
    exists d, (r ++ [n mod 10]). now rewrite E.
Qed.

Lemma dec_0_lt b s t : 1 <= b -> String.compare (append (dec 0) s) (append (dec b) t) = Lt.
Proof.
  intros H. destruct (digits_head b H) as (d & r & E & B). unfold dec. rewrite E.
  change (digits 0) with [0]. cbn [map string_of fold_right append String.compare].
  rewrite ascii_compare_nat, !digit_char_nat by lia.
  destruct (Nat.compare (48 + 0) (48 + d)) eqn:C; auto.
  - apply Nat.compare_eq in C. lia. - apply Nat.compare_gt_iff in C. lia.
Qed.
