(** Vocabulary for stating what a results file holds, independent of how it is produced. *)

From Coq Require Import ZArith QArith Bool Lia List String Ascii.
From Verif Require Import Base Num Samplers Adapt Settings Simulator Names ChainFiles Results.
Import ListNotations.
Close Scope Q_scope.
Open Scope list_scope.
Open Scope nat_scope.

(** Membership in a list of keys; the entries of a dictionary with other keys. *)
Definition mem (keys : list string) (k : string) : bool := existsb (String.eqb k) keys.
Definition without {A} (keys : list string) (d : list (string * A)) := filter (fun e => negb (mem keys (fst e))) d.

Section Spec.
Context {F : Type} `{NF : Num F}.

(** Every dictionary object that existed in [h] is still the same in [h']. *)
Definition kept (h h' : store F) := forall r d, nth_error h r = Some d -> nth_error h' r = Some d.

(** What reading a json file gives for a value written to it: arrays come back as lists, everything else as it was;
    a dictionary comes back with the same keys. *)
Inductive reads_as : pyval F -> pyval F -> Prop :=
| ra_none : reads_as PNone PNone
| ra_bool b : reads_as (PBool b) (PBool b)
| ra_int z : reads_as (PInt z) (PInt z)
| ra_float x : reads_as (PFloat x) (PFloat x)
| ra_str s : reads_as (PStr s) (PStr s)
| ra_arr l : reads_as (PArr l) (PList (map PFloat l))
| ra_mat l : reads_as (PMat l) (PList (map (fun r => PList (map PFloat r)) l))
| ra_arrz l : reads_as (PArrZ l) (PList (map PInt l))
| ra_list l l' : Forall2 reads_as l l' -> reads_as (PList l) (PList l')
| ra_dict d d' :
    (forall k, lookup k d = None -> lookup k d' = None) ->
    (forall k v, lookup k d = Some v -> exists w, lookup k d' = Some w /\ reads_as v w) ->
    reads_as (PDict d) (PDict d').

(** No function handle and no numpy integer scalar anywhere in a value. *)
Inductive plain : pyval F -> Prop :=
| pl_none : plain PNone
| pl_bool b : plain (PBool b)
| pl_int z : plain (PInt z)
| pl_float x : plain (PFloat x)
| pl_str s : plain (PStr s)
| pl_arr l : plain (PArr l)
| pl_mat l : plain (PMat l)
| pl_arrz l : plain (PArrZ l)
| pl_list l : Forall plain l -> plain (PList l)
| pl_dict d : Forall (fun e => plain (snd e)) d -> plain (PDict d).

(** Dictionaries have different keys, at every level. *)
Inductive wf : pyval F -> Prop :=
| wf_list l : Forall wf l -> wf (PList l)
| wf_dict d : NoDup (map fst d) -> Forall (fun e => wf (snd e)) d -> wf (PDict d)
| wf_other v : (forall l, v <> PList l) -> (forall d, v <> PDict d) -> wf v.

(** [s] is the default settings [d] overridden by the user's settings: the user's value counts where there is one,
    nested defaults are overridden entry by entry, everything else keeps its default. *)
Inductive merged : pydict F -> pyval F -> pydict F -> Prop :=
| merged_none d : merged d PNone d
| merged_dict d u s :
    (forall k, lookup k u = None -> lookup k s = lookup k d) ->
    (forall k v, lookup k u = Some v -> (forall sub, lookup k d <> Some (PDict sub)) -> lookup k s = Some v) ->
    (forall k v sub, lookup k u = Some v -> lookup k d = Some (PDict sub) ->
       exists s', lookup k s = Some (PDict s') /\ merged sub v s') ->
    merged d (PDict u) s.

(** Where the default is a dictionary, the user's value is one as well, or None. *)
Inductive matching : pydict F -> pyval F -> Prop :=
| matching_none d : matching d PNone
| matching_dict d u :
    (forall k v sub, lookup k u = Some v -> lookup k d = Some (PDict sub) -> matching sub v) -> matching d (PDict u).

(** The values of options and settings that play no part in the simulator. *)
Definition option_values (x : optextra F) : list (pyval F) :=
  [ox_adaptend x; ox_debug x; ox_priorupdatestart x; ox_stats x; ox_skip x; ox_maxiter x; ox_maxmem x].
Definition model_values (x : modextra F) : list (pyval F) :=
  [mx_sos x; mx_prior x; mx_prior_update x; mx_prior_pars x; mx_model x; mx_Nshape x].
End Spec.
