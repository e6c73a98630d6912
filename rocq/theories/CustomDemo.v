(** Concrete runs with custom samplers. *)

From Coq Require Import ZArith QArith Bool Lia List String.
From Verif Require Import Base Num Samplers Adapt Settings Simulator RunSpec LogFacts Demo Custom CustomSpec CustomFacts.
Import ListNotations.
Close Scope Q_scope.
Open Scope list_scope.
Open Scope nat_scope.

(** A sampler with a chain of its own: row [i] is the iteration and the first parameter of the current set; it returns the
    iteration. *)
Definition recorder : sampler XQ (list (list XQ)) Q :=
  mksampler (fun pos st => (0%Q, pos, repeat [n0; n0] 8))
            (fun acc i cur pos st => (inject_Z (Z.of_nat i), cur, pos, set_nth i [nnat i; nth 0 (p_theta cur) n0] st))
            true (fun st => [("record"%string, st)]).
(** A sampler without chains that draws a number from the stream and returns it. *)
Definition noisy : sampler XQ (list (list XQ)) Q :=
  mksampler (fun pos st => (1%Q, pos, st))
            (fun acc i cur pos st => (match demo_unif pos with Fin q => q | _ => 0%Q end, cur, S pos, st))
            false (fun st => []).

(** A function that takes no notice of the samplers, and one that adds their outputs to the sum of squares. *)
Definition deaf : usersos XQ Q := mkusersos (fun _ _ => None) demo_sos.
Definition hearing : usersos XQ Q :=
  mkusersos (fun o v => match o with Some l => Some (map (fun x => nadd x (Fin (fold_right Qplus 0%Q l))) (demo_sos v)) | None => None end) demo_sos.

(** Samplers without chains that change the parameters: one adds one to each, the other resets them to 1/2. *)
Definition changer (f : XQ -> XQ) : sampler XQ (list (list XQ)) Q :=
  mksampler (fun pos st => (1%Q, pos, st))
            (fun acc i cur pos st => (1%Q, mkpset (map f (p_theta cur)) (p_ss cur) (p_prior cur) (p_sigma2 cur) (p_alpha cur), pos, st))
            false (fun st => []).
Definition pusher := changer (nadd (Fin 1%Q)).
Definition resetter := changer (fun _ => Fin (1 # 2)%Q).
Lemma changer_shape f : same_shape (changer f).
Proof. intros acc i cur pos st o cur' pos' st' H. cbn in H. injection H as <- <- <- <-. cbn. now rewrite map_length. Qed.

Definition quiet_run := crun_simulation demo_env deaf [recorder] false (demo 8 DRAM) [[]].
Definition loud_run := crun_simulation demo_env hearing [recorder; noisy] false (demo_s2 8 MH) [[]; []].

Lemma recorder_quiet : quiet recorder.
Proof. split; intros; cbn; eauto. Qed.
Lemma recorder_keeps : keeps recorder.
Proof. intros acc i cur pos st. cbn. eauto. Qed.
Lemma noisy_keeps : keeps noisy.
Proof. intros acc i cur pos st. cbn. eauto. Qed.
Lemma recorder_has : has_chain recorder "record" (fun st => st).
Proof. intros st. exists [], []. cbn. auto. Qed.
Lemma recorder_stays : rows_stay recorder (fun st => st).
Proof. intros acc i cur pos st o cur' pos' st' H. cbn in H. injection H as <- <- <- <-. apply firstn_set_nth. lia. Qed.
Lemma recorder_one : only_one [recorder; noisy] 0 "record".
Proof. intros [|[|k]] cs st H Hk HS; cbn in H; [lia| |destruct k; discriminate]. injection H as <-. discriminate. Qed.
Lemma hearing_length : forall o o' v v', List.length (sos_call hearing o v) = List.length (sos_call hearing o' v').
Proof. intros [o|] [o'|] v v'; reflexivity. Qed.
