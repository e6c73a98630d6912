(** Model of the settings of the bands drawn by propagation.py: limits, colours and labels (221-248, 357-382, 584-674),
    and of the outlines drawn in three dimensions (389-404, 406-422).

    Lists of limits are objects of the caller, which are sorted in place: [objs r] is the content of the list object [r].
    A colour is one given by the caller, or the value of a colour map of matplotlib at a limit scaled from [vmin, vmax] to
    [0, 1]; colour maps and given colours are referred to by name. *)

From Coq Require Import ZArith QArith Bool List String.
From Verif Require Import Base Num ChainFiles PlotUtil Propagation.
Import ListNotations.
Close Scope Q_scope.
Open Scope list_scope.
Open Scope nat_scope.
Open Scope res_scope.

(** propagation.py 594-604, 660-674 *)
Inductive colour : Type :=
| Given (name : string)
| Mapped (cmap : string) (vmin vmax limit : Q).

(** propagation.py 136-274, 650-657: the entries of [ciset] and [piset] that are read.  A missing entry and the entry None have the
    same effect (lines 635-639, 668-674, 606). *)
Record iset : Type := mkiset { is_limits : option nat; is_cmap : option string; is_colors : option (list string) }.

(** propagation.py 664: Python's [min] and [max] of a list, the first of equal values; of an empty list: ValueError *)
Definition qmin (l : list Q) : res Q :=
  match l with [] => Err ValueError | a :: t => Ok (fold_left (fun m x => if negb (Qle_bool m x) then x else m) t a) end.
(** propagation.py 664 *)
Definition qmax (l : list Q) : res Q :=
  match l with [] => Err ValueError | a :: t => Ok (fold_left (fun m x => if negb (Qle_bool x m) then x else m) t a) end.

(** propagation.py 660-665 *)
Definition setup_cmap_norm (limits : list Q) : res (Q * Q) :=
  match limits with
  | [_] => Ok (0, 100)%Q
  | _ => let* a := qmin limits in let* b := qmax limits in Ok (a, b)
  end.

(** propagation.py 668-674, called with 'ci' and 'pi' *)
Definition setup_default_cmap (cmap : option string) (ci : bool) : string :=
  match cmap with Some c => c | None => if ci then "autumn"%string else "winter"%string end.

(** propagation.py 584-621 (the note printed left out) *)
Definition setup_interval_colors (limits : list Q) (cmap : option string) (colors : option (list string)) (ci : bool)
  : res (list colour) :=
  let* (vmin, vmax) := setup_cmap_norm limits in
  let mapped := map (Mapped (setup_default_cmap cmap ci) vmin vmax) limits in
  match colors with
  | None => Ok mapped
  | Some cs => if List.length cs =? List.length limits then Ok (map Given cs) else Ok mapped
  end.

(** propagation.py 635-639: the list object [r] sorted in place *)
Definition sort_object (r : nat) (objs : nat -> list Q) : nat -> list Q :=
  fun q => if q =? r then sort_down (objs r) else objs q.

(** propagation.py 243-254: label, quantiles and colour of a band *)
Record band : Type := mkband { b_label : string; b_range : list Q; b_colour : colour }.

(** propagation.py 243-247, 250-254: entry [ii] of labels and colours for every pair of quantiles *)
Definition bands_of (fmt : Q -> string) (ty : string) (limits : list Q) (colours : list colour) : res (list band) :=
  mapM (fun e => let '(ii, range) := e in
                 let* c := of_option IndexError (nth_error colours ii) in
                 let* l := of_option IndexError (nth_error (setup_labels fmt limits ty) ii) in
                 Ok (mkband l range c))
       (combine (seq 0 (List.length limits)) (convert_limits limits)).

(** propagation.py 205-254 (the same lines in 357-404): the bands of [piset] and [ciset] in the order they are drawn, and
    the list objects afterwards. [deflt] is the object given as [limits]. *)
Definition band_settings (fmt : Q -> string) (objs : nat -> list Q) (deflt : nat) (ciset piset : iset)
  : res (list band * list band * (nat -> list Q)) :=
  let ci := match is_limits ciset with Some r => r | None => deflt end in
  let pi := match is_limits piset with Some r => r | None => deflt end in
  let objs := sort_object pi (sort_object ci objs) in
  let* cc := setup_interval_colors (objs ci) (is_cmap ciset) (is_colors ciset) true in
  let* pc := setup_interval_colors (objs pi) (is_cmap piset) (is_colors piset) false in
  let* pb := bands_of fmt "PI" (objs pi) pc in
  let* cb := bands_of fmt "CI" (objs ci) cc in
  Ok (pb, cb, objs).

Section Outline.
Context {F : Type}.
(** propagation.py 392, 394-396: [x[rev]] for [rev = arange(n-1, -1, -1)] *)
Definition reversed (n : nat) (x : list F) : res (list F) :=
  gather x (rev (seq 0 n)).
(** propagation.py 392-397, 410-415: the corners of the outline of a band; [zip] stops at the end of the shortest *)
Definition outline (time1 time2 lower upper : list F) : res (list (F * F * F)) :=
  let n := List.length time1 in
  let* r1 := reversed n time1 in
  let* r2 := reversed n time2 in
  let* r3 := reversed n upper in
  Ok (combine (combine (time1 ++ r1) (time2 ++ r2)) (lower ++ r3)).
End Outline.
