(** Vocabulary for the error variance draws: the rejection method of Marsaglia and Tsang on a given stream of
    normal ([nrm]) and uniform ([unif]) numbers.  Plain mathematics over the reals; positions count the draws. *)

From Coq Require Import ZArith QArith Bool Lia List Reals Lra.
From Verif Require Import Num.
Import ListNotations.
Close Scope Q_scope.
Open Scope R_scope.

Section Gamma.
Variables (nrm unif : nat -> R).

(** The normal number at [q] can be used; [q] is the first such position from [p] on. *)
Definition usable (c : R) (q : nat) : Prop := 0 < 1 + c * nrm q.
Definition first_usable (c : R) (p q : nat) : Prop :=
  (p <= q)%nat /\ usable c q /\ forall r, (p <= r < q)%nat -> ~ usable c r.

(** The pair of the normal number at [q] and the uniform number right after it is accepted. *)
Definition cubed (c : R) (q : nat) : R := (1 + c * nrm q) ^ 3.
Definition pair_ok (c d : R) (q : nat) : Prop :=
  let x := nrm q in let u := unif (S q) in let v := cubed c q in
  u < 1 - 331 / 10000 * x ^ 4 \/ u = 0 \/ ln u < 1 / 2 * x ^ 2 + d * (1 - v + ln v).

(** From position [p] on, the first accepted pair gives [v], and [p'] is the position after it. *)
Inductive first_accepted (c d : R) : nat -> R -> nat -> Prop :=
| take p q : first_usable c p q -> pair_ok c d q -> first_accepted c d p (cubed c q) (S (S q))
| next p q v p' : first_usable c p q -> ~ pair_ok c d q -> first_accepted c d (S (S q)) v p' -> first_accepted c d p v p'.

(** A draw with shape [a] >= 1 and scale [b]. *)
Definition draw_ge1 (a b : R) (p : nat) (y : R) (p' : nat) : Prop :=
  let d := a - 1 / 3 in
  exists v, first_accepted (/ sqrt (9 * d)) d p v p' /\ y = b * d * v.

(** A draw with shape [a] > 0: for a < 1 a draw with shape a + 1 times a uniform number to the power 1/a. *)
Definition gamma_draw (a b : R) (p : nat) (y : R) (p' : nat) : Prop :=
  if Rlt_dec a 1 then
    exists y1 p1, draw_ge1 (1 + a) b p y1 p1 /\ p' = S p1 /\
      y = y1 * (if Rlt_dec 0 (unif p1) then Rpower (unif p1) (/ a) else 0)
  else draw_ge1 a b p y p'.

(** A new error variance: 1 / Gamma((N0 + N)/2, 2/(N0 S20 + SS)); [PInf] if the gamma draw is zero. *)
Definition variance_draw (N0 S20 N sos : R) (p : nat) (v : XR) (p' : nat) : Prop :=
  exists y, gamma_draw ((N0 + N) / 2) (2 / (N0 * S20 + sos)) p y p' /\ v = (if Req_EM_T y 0 then PInf else Fin (/ y)).

(** One draw per component, one after the other; a component is (N0, S20, N, SS). *)
Inductive variance_draws : list (R * R * R * R) -> nat -> list XR -> nat -> Prop :=
| vd_nil p : variance_draws [] p [] p
| vd_cons N0 S20 N sos rest p v p1 vs p' : variance_draw N0 S20 N sos p v p1 -> variance_draws rest p1 vs p' ->
    variance_draws ((N0, S20, N, sos) :: rest) p (v :: vs) p'.

End Gamma.

(** The components of four lists. *)
Definition components (N0 S20 N sos : list R) (n : nat) : list (R * R * R * R) :=
  map (fun i => (nth i N0 0, nth i S20 0, nth i N 0, nth i sos 0)) (seq 0 n).

(** Positive shape and positive scale. *)
Definition proper (c : R * R * R * R) : Prop :=
  let '(prior_n, prior_s, obs, sos) := c in 0 < prior_n + obs /\ 0 < prior_n * prior_s + sos.
