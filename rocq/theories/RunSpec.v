(** Vocabulary in which the properties of runs are stated.  Nothing here refers to the samplers or to
    the loop; only to declared parameters, to rows of numbers, and to sequences of user actions. *)

From Coq Require Import ZArith QArith Bool Lia List String.
From Verif Require Import Base Num Samplers Adapt Settings Simulator.
Import ListNotations.
Open Scope list_scope.
Open Scope nat_scope.
Open Scope res_scope.

Section RunSpec.
Context {F : Type} `{NF : Num F}.

(** The declared parameters that are sampled. *)
Definition sampled_params (ps : list (param F)) : list (param F) := filter (@a_sample F) ps.

(** [theta] has one entry per sampled parameter and none lies outside its limits. *)
Definition inside (ps : list (param F)) (theta : list F) : Prop :=
  Forall2 (fun p t => nlt t (a_min p) = false /\ nlt (a_max p) t = false) (sampled_params ps) theta.

(** The full parameter vector: sampled positions from [theta], the others from the declared values. *)
Fixpoint fill (ps : list (param F)) (theta : list F) : list F :=
  match ps with
  | [] => []
  | p :: t =>
      if a_sample p then
        match theta with
        | v :: r => v :: fill t r
        | [] => a_theta0 p :: fill t []
        end
      else a_theta0 p :: fill t theta
  end.

(** A vector that the user's functions may be called with. *)
Definition admissible (ps : list (param F)) (v : list F) : Prop :=
  exists theta, inside ps theta /\ v = fill ps theta.

(** User actions on an object; [Run false] is run_simulation(), [Run true] is
    run_simulation(use_previous_results=True). *)
Inductive action : Type :=
| SetOptions (o : simopts F)
| SetModel (ms : modset F)
| Run (use_prev : bool).

Definition with_opts (m : mcmc F) (o : simopts F) : mcmc F :=
  mkmcmc (m_params m) (m_data m) (m_model m) o (m_RDR m) (m_status m) (m_chain m) (m_sschain m)
         (m_s2chain m) (m_index m) (m_chains m) (m_pos m) (m_calls m) (m_fs m) (m_results m) (m_trace m).
Definition with_model (m : mcmc F) (ms : modset F) : mcmc F :=
  mkmcmc (m_params m) (m_data m) ms (m_opts m) (m_RDR m) (m_status m) (m_chain m) (m_sschain m)
         (m_s2chain m) (m_index m) (m_chains m) (m_pos m) (m_calls m) (m_fs m) (m_results m) (m_trace m).

Variable E : env F.

Definition act (a : action) (m : mcmc F) : res (mcmc F) :=
  match a with
  | SetOptions o => Ok (with_opts m o)
  | SetModel ms => Ok (with_model m ms)
  | Run b => run_simulation E b m
  end.

Fixpoint acts (l : list action) (m : mcmc F) : res (mcmc F) :=
  match l with
  | [] => Ok m
  | a :: t => let* m' := act a m in acts t m'
  end.

(** [m'] is what a session on freshly declared parameters [ps] may look like. *)
Definition session (ps : list (param F)) (m : mcmc F) : Prop :=
  exists d ms o pos l acs, acts acs (new_mcmc ps d ms o pos l) = Ok m.

(** ** The course of a run

    A run is described by one [event] per iteration: the proposal factors in force, the position in the
    random stream when the iteration begins, the stage at which a candidate was accepted
    (0: all rejected; 1: the first, Metropolis candidate; j >= 2: the j-th try of delayed
    rejection), and whether the last candidate lay outside the limits. *)

(** The proposal factor used at a stage. *)
Definition factor_in_force (cov : covst F) (stage : nat) (P : list (list F)) : Prop :=
  (stage = 1 /\ P = c_R cov) \/
  (2 <= stage /\ exists l, c_RDR cov = RSome l /\ nth_error l (stage - 1) = Some P).

(** How a chain row follows from the one before: the same row if every candidate was rejected,
    otherwise the old row plus a vector of fresh standard normals times the proposal factor in force
    for the stage.  [hi] is the position of the random stream when the iteration ends: the block of
    draws used lies between the start and the end of the iteration, and after the block used for the
    first candidate if it belongs to a later try. *)
Definition follows (npar : nat) (e : event F) (hi : nat) (row row' : list F) : Prop :=
  (ev_stage e = 0 -> row' = row) /\
  (ev_stage e <> 0 -> exists P pos, factor_in_force (ev_cov e) (ev_stage e) P /\
      (ev_stage e = 1 -> pos = ev_pos e) /\
      (2 <= ev_stage e -> ev_pos e + npar <= pos) /\
      pos + npar <= hi /\
      row' = vadd row (vecmat (map (s_normal (e_str E)) (seq pos npar)) P)).

Definition rejected_ev (e : event F) : bool := ev_stage e =? 0.
Definition accepted_at (j : nat) (e : event F) : bool := ev_stage e =? j.
Definition count {A} (p : A -> bool) (l : list A) : nat := List.length (filter p l).

(** The course of one run that took object [m] to [m'], for declared parameters [ps]:
    [evs] are its iterations in time order, [start] the row it started from. *)
Record course (ps : list (param F)) (resumed : bool) (m m' : mcmc F) (start : nat) (evs : list (event F)) : Prop := {
  co_start : start = if resumed then m_index m else 0;
  co_iterations : List.length evs = o_nsimu (m_opts m) - 1;
  co_length : List.length (m_chain m') = start + o_nsimu (m_opts m) /\
              List.length (m_sschain m') = start + o_nsimu (m_opts m) /\
              (forall s2, m_s2chain m' = Some s2 -> List.length s2 = start + o_nsimu (m_opts m));
  co_old : resumed = true -> forall k, k <= start ->
              nth_error (m_chain m') k = nth_error (m_chain m) k /\
              nth_error (m_sschain m') k = nth_error (m_sschain m) k /\
              (forall s2, m_s2chain m' = Some s2 -> exists s2', m_s2chain m = Some s2' /\ nth_error s2 k = nth_error s2' k);
  co_moves : forall k e, nth_error evs k = Some e ->
             exists row row', nth_error (m_chain m') (start + k) = Some row /\
               nth_error (m_chain m') (start + S k) = Some row' /\
               follows (List.length (sampled_params ps)) e (nth (S k) (map (@ev_pos F) evs) (m_pos m')) row row';
  co_stage : forall e, In e evs -> ev_stage e <= Nat.max 1 (o_ntry (m_opts m))
}.

End RunSpec.
Arguments action F : clear implicits.
