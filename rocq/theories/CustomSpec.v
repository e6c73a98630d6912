(** Vocabulary for statements about custom samplers: what one sampler has been asked for, and which outputs a stored sum of
    squares belongs to.  Nothing here refers to the loop that calls them. *)

From Coq Require Import Bool List String.
From Verif Require Import Base Num Samplers Simulator Custom.
Import ListNotations.
Open Scope list_scope.
Open Scope nat_scope.

Section Spec.
Context {F St Out : Type}.

(** What a call of [update] was given, and what it returned. *)
Record request : Type := mkreq { q_accept : bool; q_isimu : nat; q_set : pset F; q_out : Out }.

(** [answers cs st l st']: called in turn with the arguments in [l], the sampler [cs] returned the outputs in [l] and went
    from state [st] to state [st'].  Nothing is said about where in the random stream the calls were made. *)
Inductive answers (cs : sampler F St Out) : St -> list request -> St -> Prop :=
| answers_nil st : answers cs st [] st
| answers_cons st r pos cur pos' st1 l st2 :
    cs_update cs (q_accept r) (q_isimu r) (q_set r) pos st = (q_out r, cur, pos', st1) ->
    answers cs st1 l st2 -> answers cs st (r :: l) st2.

(** The sampler leaves the parameter set it is shown as it is. *)
Definition keeps (cs : sampler F St Out) : Prop :=
  forall acc i cur pos st, exists o pos' st', cs_update cs acc i cur pos st = (o, cur, pos', st').

(** The outputs the latest accepted point was evaluated with; nothing if none was accepted.  [l]: for every iteration, in
    order, whether a point was accepted and the outputs in force. *)
Definition in_force (l : list (bool * list Out)) : option (list Out) :=
  fold_left (fun (cur : option (list Out)) (x : bool * list Out) => if fst x then Some (snd x) else cur) l None.

(** For every call in turn: whether a point was accepted in that iteration, and the outputs in force then, which are those
    of the call before ([first]: of the set-up). *)
Fixpoint ledger (first : list Out) (calls : list (ucall F Out)) : list (bool * list Out) :=
  match calls with
  | [] => []
  | c :: t => (uc_accept c, first) :: ledger (uc_out c) t
  end.

(** The requests [reqs] made to the [j]-th sampler, among the calls of all samplers. *)
Definition requests_of (j : nat) (reqs : list request) (calls : list (ucall F Out)) : Prop :=
  Forall2 (fun r c => q_accept r = uc_accept c /\ q_isimu r = uc_isimu c /\ q_set r = uc_set c /\ nth_error (uc_out c) j = Some (q_out r)) reqs calls.
(** The files a custom sampler may write to, and operations on them. *)
Definition custom_file (l : list (sampler F St Out)) (f : string) : Prop :=
  exists cs st m, In cs l /\ cs_save_chain cs = true /\ In (f, m) (cs_chains cs st).
Definition custom_op (l : list (sampler F St Out)) (op : fop F) : Prop :=
  match op with
  | FH5 (_, f, _) _ _ _ => custom_file l f
  | FTxt (_, f, _) _ => custom_file l f
  | _ => False
  end.

(** A custom sampler that draws no numbers from numpy's stream and leaves the parameter set as it is. *)
Definition quiet (cs : sampler F St Out) : Prop :=
  (forall pos st, exists o st', cs_setup cs pos st = (o, pos, st')) /\
  (forall acc i cur pos st, exists o st', cs_update cs acc i cur pos st = (o, cur, pos, st')).

(** Sampler [cs] keeps the chain with file name [f], and no other of that name, in the part [M] of its state. *)
Definition has_chain (cs : sampler F St Out) (f : string) (M : St -> list (list F)) : Prop :=
  forall st, exists l r, cs_chains cs st = l ++ (f, M st) :: r /\ ~ In f (map fst l) /\ ~ In f (map fst r).
(** An update in iteration [i] leaves the rows before row [i] as they are. *)
Definition rows_stay (cs : sampler F St Out) (M : St -> list (list F)) : Prop :=
  forall acc i cur pos st o cur' pos' st', cs_update cs acc i cur pos st = (o, cur', pos', st') -> firstn i (M st') = firstn i (M st).
(** No other sampler that saves its chains uses the name [f]. *)
Definition only_one (samplers : list (sampler F St Out)) (j : nat) (f : string) : Prop :=
  forall k cs st, nth_error samplers k = Some cs -> k <> j -> cs_save_chain cs = true -> ~ In f (map fst (cs_chains cs st)).

(** [handed_on acc i l cur cur']: shown the set [cur] in iteration [i], the samplers [l] in turn left it as [cur']; each may
    have been in any state and anywhere in the random stream. *)
Inductive handed_on (acc : bool) (i : nat) : list (sampler F St Out) -> pset F -> pset F -> Prop :=
| handed_nil cur : handed_on acc i [] cur cur
| handed_cons cs l cur pos st o cur1 pos' st' cur2 :
    cs_update cs acc i cur pos st = (o, cur1, pos', st') -> handed_on acc i l cur1 cur2 -> handed_on acc i (cs :: l) cur cur2.
(** The sampler leaves a parameter vector with the property [P] with that property. *)
Definition respects (P : list F -> Prop) (cs : sampler F St Out) : Prop :=
  forall acc i cur pos st o cur' pos' st', cs_update cs acc i cur pos st = (o, cur', pos', st') -> P (p_theta cur) -> P (p_theta cur').
(** The sampler does not change the numbers of parameters and of sums of squares. *)
Definition same_shape (cs : sampler F St Out) : Prop :=
  forall acc i cur pos st o cur' pos' st', cs_update cs acc i cur pos st = (o, cur', pos', st') ->
    List.length (p_theta cur') = List.length (p_theta cur) /\ List.length (p_ss cur') = List.length (p_ss cur).

End Spec.
Arguments request F Out : clear implicits.
