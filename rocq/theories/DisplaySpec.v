(** What the lines with rejection statistics ought to say, in terms of the iterations of a run. *)

From Coq Require Import ZArith QArith Bool Lia List Arith.
From Verif Require Import Base Num Samplers Adapt Settings Simulator RunSpec Display.
Import ListNotations.
Close Scope Q_scope.
Open Scope list_scope.
Open Scope nat_scope.

(** Number of iterations since the proposal was last adapted, up to and including iteration [i] (adaptation, if any,
    comes every [adaptint] iterations, after the line has been printed). *)
Definition since_adapted (adaptint : Z) (i : nat) : nat :=
  if (0 <? adaptint)%Z then (i - 1) mod Z.to_nat adaptint + 1 else i.

(** Iterations after which a line is due. *)
Definition line_due (printint : option Z) (i : nat) : bool :=
  match printint with
  | Some p => (0 <? p)%Z && (i mod Z.to_nat p =? 0)
  | None => false
  end.

Section DisplaySpec.
Context {F : Type} `{NF : Num F}.

Definition outside_ev (e : event F) : bool := rejected_ev e && ev_outb e.

(** The line for iteration [i], given the iterations [evs] of the run in time order: share of rejected ones so far, of
    rejected ones since the last adaptation, and of those rejected because of the limits. *)
Definition line_for (evs : list (event F)) (adaptint : Z) (i : nat) : line F :=
  let past := firstn i evs in
  let k := since_adapted adaptint i in
  mkline i (percent (count rejected_ev past) i)
           (percent (count rejected_ev (skipn (i - k) past)) k)
           (percent (count outside_ev past) i).

Definition lines_for (evs : list (event F)) (adaptint : Z) (printint : option Z) : list (line F) :=
  map (line_for evs adaptint) (filter (line_due printint) (seq 1 (List.length evs))).

End DisplaySpec.
