(** Vocabulary for the acceptance rules: posterior density, Gaussian proposal density, probability flow
    along a path of tries.  Plain mathematics over the reals, independent of the samplers. *)

From Coq Require Import ZArith QArith Bool Lia List Reals Lra.
From Verif Require Import Base Num Samplers RVec.
Import ListNotations.
Close Scope Q_scope.
Open Scope list_scope.
Open Scope R_scope.

(** Log of the (unnormalised) posterior with error variances [sg]: Gaussian likelihood
    exp(-ss/(2 sg)) for every component, prior contribution exp(-prior/2). *)
Definition log_post (sg ss : list R) (prior : R) : R :=
  - (1 / 2) * (Rsum (map2 Rdiv ss sg) + prior).

(** A point of a path of tries: its parameter values, its sums of squares ([None]: the point is
    outside the limits and has posterior density 0) and its prior term. *)
Record point : Type := mkpoint { pt_x : list R; pt_ss : option (list R); pt_prior : R }.

Definition post (sg : list R) (q : point) : R :=
  match pt_ss q with Some ss => exp (log_post sg ss (pt_prior q)) | None => 0 end.

(** The density at [y] of [x + z P], [z] standard normal, where [iP] is the inverse of [P] and
    [c] the normalising constant. *)
Definition gauss (c : R) (iP : list (list R)) (x y : list R) : R :=
  c * exp (- (1 / 2) * Rsq (Rvm (Rvsub y x) iP)).

Definition start (pts : list point) : point := hd (mkpoint [] None 0) pts.
Definition tries (pts : list point) : nat := (length pts - 1)%nat.
Definition pt (pts : list point) (i : nat) : point := nth i pts (mkpoint [] None 0).

(** Density of drawing the tries of the path one after the other, the i-th with the i-th factor, all
    centred at the starting point. *)
Definition proposing (c : nat -> R) (iP : list (list (list R))) (pts : list point) : R :=
  Prod (tries pts) (fun i => gauss (c i) (nth i iP []) (pt_x (start pts)) (pt_x (pt pts (S i)))).

(** Probability that all tries but the last are rejected, if [a] gives the acceptance probability of
    the last point of a path. *)
Definition surviving (a : list point -> R) (pts : list point) : R :=
  Prod (tries pts - 1) (fun k => 1 - a (firstn (k + 2) pts)).

(** Probability flow from the first to the last point of the path. *)
Definition flow (sg : list R) (c : nat -> R) (iP : list (list (list R))) (a : list point -> R)
    (pts : list point) : R :=
  post sg (start pts) * proposing c iP pts * surviving a pts * a pts.

(** [p] is the data structure the samplers keep for the point [q]. *)
Definition represents (sg : list R) (p : pset XR) (q : point) : Prop :=
  p_theta p = fin (pt_x q) /\ p_sigma2 p = fin sg /\ p_prior p = Fin (pt_prior q) /\
  match pt_ss q with
  | Some ss => p_ss p = fin ss /\ length ss = length sg
  | None => p_ss p = [PInf]
  end.

(** The outside world behaves: sums of squares and priors are finite, with one sum of squares per error
    variance; normal draws are finite; uniform draws lie in [0,1). *)
Record finite_env (E : env XR) (sg : list R) : Prop := {
  fe_sos : forall v, exists ss, e_sos E v = fin ss /\ length ss = length sg;
  fe_prior : forall t m s, exists p, e_prior E t m s = Fin p;
  fe_normal : forall k, exists z, s_normal (e_str E) k = Fin z;
  fe_unif : forall k, exists u, s_unif (e_str E) k = Fin u /\ 0 <= u < 1
}.

(** Some entry is below its lower or above its upper limit. *)
Definition outside_limits {F} `{Num F} (lower upper theta : list F) : Prop :=
  exists i t, nth_error theta i = Some t /\
    ((exists l, nth_error lower i = Some l /\ nlt t l = true) \/
     (exists u, nth_error upper i = Some u /\ nlt u t = true)).

(** The candidate drawn from [x] with factor [R] and the [n] normal draws at position [pos]: x + z R. *)
Definition candidate {F} `{Num F} (E : env F) (n : nat) (x : list F) (R : list (list F)) (pos : nat) : list F :=
  vadd x (vecmat (map (s_normal (e_str E)) (seq pos n)) R).

(** Not a number, or +inf. *)
Definition bad (x : XR) : Prop := x = NaN \/ x = PInf.

(** [iP] is the inverse of the n x n matrix [P] (P iP = I). *)
Definition inverse_of (n : nat) (P iP : list (list R)) : Prop :=
  shape n n P /\ shape n n iP /\
  forall i j, (i < n)%nat -> (j < n)%nat ->
    Sum n (fun k => ent P i k * ent iP k j) = if (i =? j)%nat then 1 else 0.

(** [a], the acceptance probability of the last point of a path, balances the flow of every path with the
    flow of the reversed path, for all positive normalising constants. *)
Definition balancing (sg : list R) (iP : list (list (list R))) (a : list point -> R) : Prop :=
  (forall pts, 0 <= a pts <= 1) /\
  forall c pts, (2 <= length pts)%nat -> (forall i, 0 < c i) -> flow sg c iP a pts = flow sg c iP a (rev pts).

(** The k-th point of the path was accepted ([b]) or rejected by comparing [a] of the path up to it with a
    uniform draw consumed between the positions [lo] and [hi]. *)
Definition judged_by (E : env XR) (a : list point -> R) (pts : list point) (lo hi k : nat) (b : bool) : Prop :=
  exists pos u, (lo <= pos <= hi)%nat /\ s_unif (e_str E) pos = Fin u /\
    (b = true <-> u < a (firstn (S k) pts)).
