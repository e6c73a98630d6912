(** What is asked of a parallel run, in terms that do not refer to how it is carried out. *)

From Coq Require Import ZArith QArith Bool Lia List String Permutation.
From Verif Require Import Base Num Settings Simulator.
Import ListNotations.
Close Scope Q_scope.
Open Scope list_scope.
Open Scope nat_scope.

(** [l] is made of the lists [ls], each in its own order. *)
Inductive interleaved {A} : list (list A) -> list A -> Prop :=
| inter_nil ls : Forall (fun x => x = []) ls -> interleaved ls []
| inter_cons pre x t post l : interleaved (pre ++ t :: post) l -> interleaved (pre ++ (x :: t) :: post) (x :: l).

Section Spec.
Context {F : Type} `{NF : Num F}.

Definition op_path (op : fop F) : path :=
  match op with FLog p _ _ | FH5 p _ _ _ | FTxt p _ | FJson p _ => p end.
Definition op_dir (op : fop F) : string := fst (fst (op_path op)).

(** The operations on one file, in order; they determine its content. *)
Definition on_file (p : path) (l : fs F) : fs F := filter (fun op => path_eqb p (op_path op)) l.

(** A value between the limits of a parameter. *)
Definition admits (p : param F) (v : F) : Prop := nlt v (a_min p) = false /\ nlt (a_max p) v = false.

(** Every chain is given to exactly one worker, and no worker goes back. *)
Definition schedules (n : nat) (w : list (list nat)) : Prop :=
  Permutation (List.concat w) (seq 0 n) /\ Forall (fun t => forall i j a b, nth_error t i = Some a -> nth_error t j = Some b -> i < j -> a < b) w.
End Spec.
