(** Number structures.

    The simulator is written over an arbitrary structure of float operations
    ([Num]) without any law; numerical theorems use the instance [X R]
    (reals with +inf, -inf, NaN), examples use [X Q]. *)

From Coq Require Import ZArith QArith Qround Bool Reals Lra Lia Qreals List.
Close Scope Q_scope.
From Verif Require Import Base.
Import ListNotations.
Open Scope nat_scope.

(** Ordered-field-like operations (no special values). *)
Class Arith (A : Type) : Type := {
  aQ   : Q -> A;                 (** a literal *)
  aadd : A -> A -> A;
  asub : A -> A -> A;
  amul : A -> A -> A;
  adiv : A -> A -> A;
  aabs : A -> A;
  asqrt : A -> A;
  aexp : A -> A;
  aln  : A -> A;
  apow : A -> A -> A;            (** [x ** y], used for [x > 0] *)
  alt  : A -> A -> bool;
  ale  : A -> A -> bool;
  aeq  : A -> A -> bool
}.

(** Float operations as numpy offers them. *)
Class Num (F : Type) : Type := {
  nQ   : Q -> F;
  nadd : F -> F -> F;
  nsub : F -> F -> F;
  nmul : F -> F -> F;
  ndiv : F -> F -> F;
  nabs : F -> F;
  nsqrt : F -> F;
  nexp : F -> F;
  nlog : F -> F;
  npow : F -> F -> F;
  nlt  : F -> F -> bool;
  nle  : F -> F -> bool;
  neq  : F -> F -> bool;
  nisnan : F -> bool;
  nisinf : F -> bool;
  ninf : F;
  nnan : F
}.

(** ** Vectors and matrices (row-major lists of rows) *)

Section LinAlg.
Context {F : Type} `{NF : Num F}.

Definition n0 : F := nQ 0.
Definition n1 : F := nQ 1.
Definition nnat (n : nat) : F := nQ (inject_Z (Z.of_nat n)).
(** [x ** (-1)] *)
Definition ninv (x : F) : F := ndiv n1 x.
Definition nsqr (x : F) : F := nmul x x.
(** Python's [min(a, b)]: keeps [a] unless [b < a]. *)
Definition pymin (a b : F) : F := if nlt b a then b else a.
Definition pymax (a b : F) : F := if nlt a b then b else a.

Definition vec := list F.
Definition mat := list (list F).

Definition vadd : vec -> vec -> vec := map2 nadd.
Definition vsub : vec -> vec -> vec := map2 nsub.
Definition vmul : vec -> vec -> vec := map2 nmul.
Definition vscale (c : F) (v : vec) : vec := map (fun x => nmul x c) v.
Definition vsum (v : vec) : F := fold_left nadd v n0.
Definition vdot (u v : vec) : F := vsum (vmul u v).

(** Column [j]; entries missing in a ragged row read as 0 (shapes are checked by callers). *)
Definition col (j : nat) (m : mat) : vec := map (fun r => nth j r n0) m.
Definition ncols (m : mat) : nat := match m with [] => 0 | r :: _ => length r end.
Definition transpose (m : mat) : mat := map (fun j => col j m) (range (ncols m)).
(** [np.dot(z, M)] for a row vector [z]. *)
Definition vecmat (z : vec) (m : mat) : vec := map (fun j => vdot z (col j m)) (range (ncols m)).
Definition matmul (a b : mat) : mat := map (fun r => vecmat r b) a.
Definition mscale (c : F) (m : mat) : mat := map (vscale c) m.
Definition madd : mat -> mat -> mat := map2 vadd.
Definition eye (n : nat) : mat :=
  map (fun i => map (fun j => if i =? j then n1 else n0) (range n)) (range n).
Definition outer (u v : vec) : mat := map (fun x => map (fun y => nmul x y) v) u.
Definition is_square (n : nat) (m : mat) : bool :=
  (length m =? n) && forallb (fun r => length r =? n) m.
(** [np.diagflat] of a vector *)
Definition diagflat (v : vec) : mat :=
  map (fun i => map (fun j => if i =? j then nth i v n0 else n0) (range (length v))) (range (length v)).
(** [M[np.ix_(ix, ix)]] *)
Definition submat (m : mat) (ix : list nat) : res mat :=
  let* rows := gather m ix in
  fold_right (fun r acc => let* g := gather r ix in let* t := acc in Ok (g :: t)) (Ok []) rows.
(** numpy broadcasting of a 1-d binary operation *)
Definition bcast2 (f : F -> F -> F) (x y : vec) : res vec :=
  if length x =? length y then Ok (map2 f x y)
  else match x, y with
       | [a], _ => Ok (map (f a) y)
       | _, [b] => Ok (map (fun a => f a b) x)
       | _, _ => Err ValueError
       end.
(** numpy assignment of a vector into a row with [n] columns *)
Definition fit_row (n : nat) (x : vec) : res vec :=
  if length x =? n then Ok x
  else match x with [a] => Ok (repeat a n) | _ => Err ValueError end.

End LinAlg.

(** ** Adding the special values to any [Arith] structure *)

Inductive X (A : Type) : Type := Fin (a : A) | PInf | NInf | NaN.
Arguments Fin {A} a.
Arguments PInf {A}.
Arguments NInf {A}.
Arguments NaN {A}.

Section Ext.
Context {A : Type} `{AA : Arith A}.

(** IEEE-754 rules for the special values; zeros are unsigned
    (a division by zero behaves as a division by +0). *)
Definition a0 : A := aQ 0.
Definition xneg (x : X A) : X A :=
  match x with Fin a => Fin (asub a0 a) | PInf => NInf | NInf => PInf | NaN => NaN end.
Definition xadd (x y : X A) : X A :=
  match x, y with
  | NaN, _ | _, NaN => NaN
  | PInf, NInf | NInf, PInf => NaN
  | PInf, _ | _, PInf => PInf
  | NInf, _ | _, NInf => NInf
  | Fin a, Fin b => Fin (aadd a b)
  end.
Definition xsub (x y : X A) : X A :=
  match x, y with
  | Fin a, Fin b => Fin (asub a b)
  | _, _ => xadd x (xneg y)
  end.
(** [a * inf] for finite [a] *)
Definition xsgninf (a : A) : X A :=
  if alt a0 a then PInf else if alt a a0 then NInf else NaN.
Definition xmul (x y : X A) : X A :=
  match x, y with
  | NaN, _ | _, NaN => NaN
  | Fin a, Fin b => Fin (amul a b)
  | Fin a, PInf | PInf, Fin a => xsgninf a
  | Fin a, NInf | NInf, Fin a => xneg (xsgninf a)
  | PInf, PInf | NInf, NInf => PInf
  | PInf, NInf | NInf, PInf => NInf
  end.
Definition xdiv (x y : X A) : X A :=
  match x, y with
  | NaN, _ | _, NaN => NaN
  | Fin a, Fin b => if aeq b a0 then xsgninf a else Fin (adiv a b)
  | Fin _, PInf | Fin _, NInf => Fin a0
  | PInf, Fin b => if alt b a0 then NInf else PInf
  | NInf, Fin b => if alt b a0 then PInf else NInf
  | _, _ => NaN
  end.
Definition xabs (x : X A) : X A :=
  match x with Fin a => Fin (aabs a) | PInf | NInf => PInf | NaN => NaN end.
Definition xsqrt (x : X A) : X A :=
  match x with
  | Fin a => if alt a a0 then NaN else Fin (asqrt a)
  | PInf => PInf | NInf => NaN | NaN => NaN
  end.
Definition xexp (x : X A) : X A :=
  match x with Fin a => Fin (aexp a) | PInf => PInf | NInf => Fin a0 | NaN => NaN end.
Definition xlog (x : X A) : X A :=
  match x with
  | Fin a => if alt a0 a then Fin (aln a) else if alt a a0 then NaN else NInf
  | PInf => PInf | NInf => NaN | NaN => NaN
  end.
(** [x ** y] with real exponent; non-positive bases: 0 ** positive = 0,
    0 ** negative = inf, 0 ** 0 = 1, negative base gives NaN
    (integer powers are written as products in the model). *)
Definition xpow (x y : X A) : X A :=
  match x, y with
  | Fin a, Fin b =>
      if alt a0 a then Fin (apow a b)
      else if alt a a0 then NaN
      else if alt a0 b then Fin a0 else if alt b a0 then PInf else Fin (aQ 1)
  | PInf, Fin b => if alt a0 b then PInf else if alt b a0 then Fin a0 else Fin (aQ 1)
  | Fin a, PInf => if alt a0 a then (if alt a (aQ 1) then Fin a0 else PInf)
                   else if alt a a0 then NaN else Fin a0
  | _, _ => NaN
  end.
Definition xlt (x y : X A) : bool :=
  match x, y with
  | NaN, _ | _, NaN => false
  | Fin a, Fin b => alt a b
  | NInf, NInf => false | NInf, _ => true
  | PInf, _ => false
  | Fin _, PInf => true | Fin _, NInf => false
  end.
Definition xle (x y : X A) : bool :=
  match x, y with
  | NaN, _ | _, NaN => false
  | Fin a, Fin b => ale a b
  | NInf, _ => true
  | _, PInf => true
  | _, _ => false
  end.
Definition xeq (x y : X A) : bool :=
  match x, y with
  | Fin a, Fin b => aeq a b
  | PInf, PInf | NInf, NInf => true
  | _, _ => false
  end.
Definition xisnan (x : X A) : bool := match x with NaN => true | _ => false end.
Definition xisinf (x : X A) : bool := match x with PInf | NInf => true | _ => false end.

Global Instance Num_X : Num (X A) := {
  nQ q := Fin (aQ q); nadd := xadd; nsub := xsub; nmul := xmul; ndiv := xdiv;
  nabs := xabs; nsqrt := xsqrt; nexp := xexp; nlog := xlog; npow := xpow;
  nlt := xlt; nle := xle; neq := xeq; nisnan := xisnan; nisinf := xisinf;
  ninf := PInf; nnan := NaN }.

End Ext.

(** ** Real numbers *)

Definition Rltb (x y : R) : bool := if Rlt_dec x y then true else false.
Definition Rleb (x y : R) : bool := if Rle_dec x y then true else false.
Definition Reqb (x y : R) : bool := if Req_EM_T x y then true else false.

Global Instance Arith_R : Arith R := {
  aQ := Q2R; aadd := Rplus; asub := Rminus; amul := Rmult; adiv := Rdiv;
  aabs := Rabs; asqrt := R_sqrt.sqrt; aexp := exp; aln := ln; apow := Rpower;
  alt := Rltb; ale := Rleb; aeq := Reqb }.

Notation XR := (X R).

(** ** Rationals, for running the model.

    [exp], [ln], [sqrt] are rational approximations; they only serve to execute
    examples and are not used in any theorem about real arithmetic. *)

Open Scope Q_scope.
(** round to a multiple of 10^-6, to keep numbers small *)
Definition Qrnd (q : Q) : Q := Qred (Qmake (Qfloor (q * 1000000)) 1000000).
Definition Qsqrt (q : Q) : Q :=
  Qred (Qmake (Z.sqrt (Qfloor (q * 1000000000000))) 1000000).
Fixpoint Qexp_series (n : nat) (k : Q) (x term acc : Q) : Q :=
  match n with
  | O => acc
  | S m => let t := Qrnd (term * x / k) in Qexp_series m (k + 1) x t (acc + t)
  end.
Fixpoint Qpow_nat (q : Q) (n : nat) : Q :=
  match n with O => 1 | S m => Qrnd (q * Qpow_nat q m) end.
Definition Qexp (q : Q) : Q :=
  let h := Qrnd (Qexp_series 12 1 (q / 16) 1 1) in
  let p := Qpow_nat h 16 in if Qle_bool p 0 then 0 else p.
Fixpoint Qln_newton (n : nat) (x y : Q) : Q :=
  match n with
  | O => y
  | S m => let e := Qexp y in
           if Qle_bool e 0 then y else Qln_newton m x (Qrnd (y + 2 * (x - e) / (x + e)))
  end.
Definition Qln (q : Q) : Q := Qln_newton 12 q 0.
Definition Qltb (x y : Q) : bool := negb (Qle_bool y x).
Definition Qabs' (q : Q) : Q := if Qle_bool 0 q then q else - q.

Global Instance Arith_Q : Arith Q := {
  aQ q := q; aadd x y := Qred (x + y); asub x y := Qred (x - y);
  amul x y := Qred (x * y); adiv x y := Qred (x / y);
  aabs := Qabs'; asqrt := Qsqrt; aexp := Qexp; aln := Qln;
  apow x y := Qexp (Qrnd (y * Qln x));
  alt := Qltb; ale := Qle_bool; aeq := Qeq_bool }.
Close Scope Q_scope.

Notation XQ := (X Q).
