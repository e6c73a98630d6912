(** C96: limits that are not reached have no influence.

    In any arithmetic: a session is compared with the session in which the same parameters are declared with narrower limits. *)

From Coq Require Import ZArith QArith Bool Lia List String Reals Lra.
From Verif Require RVec.
From Verif Require Import Base Num Samplers Adapt Settings Simulator RunSpec RunLift LimitsSpec LimitsFacts Prop_Run Demo.
Import ListNotations.
Close Scope Q_scope.
Open Scope list_scope.
Open Scope nat_scope.

(** With narrower limits the session is the same, but for the limits recorded in it, exactly if every vector that the sum of squares
    has been called with lies within the narrower limits. *)
Theorem C96_unreached_limits : forall {F} `{NF : Num F} (E : env F) ps qs d ms o pos l actions m,
  Forall2 narrower ps qs -> acts E actions (new_mcmc qs d ms o pos l) = Ok m ->
  (acts E actions (new_mcmc ps d ms o pos l) = Ok (session_relimit ps m) <-> Forall (within_limits ps) (m_calls m)).
Proof.
  intros F NF E ps qs d ms o pos l actions m HN HA. split; intros H.
  - assert (S : session E ps (session_relimit ps m)) by (exists d, ms, o, pos, l, actions; exact H).
    apply Forall_forall. intros v Hv. destruct (C02_user_functions_see_admissible_vectors F NF E ps _ S v Hv) as (theta & I & ->).
    clear -I. unfold inside, sampled_params, within_limits in *. revert theta I. induction ps as [|p ps IH]; intros theta I; cbn [fill filter] in *; [constructor|].
    destruct (a_sample p) eqn:Sp; [|constructor; [congruence|now apply IH]]. inversion I as [|a x b t Hx I']. subst. constructor; [auto|now apply IH].
  - assert (EQ : new_mcmc ps d ms o pos l = session_relimit ps (new_mcmc qs d ms o pos l)).
    { unfold new_mcmc, session_relimit. cbn. f_equal. clear -HN. unfold relimit. induction HN as [|p q ps qs [Hpq _] _ IH]; [reflexivity|]. cbn [map2]. rewrite <- IH. f_equal.
      destruct p as [a1 a2 a3 a4 a5 a6 a7 a8]. cbn in *. injection Hpq as -> -> -> -> -> ->. reflexivity. }
    rewrite EQ. assert (L : lok ps (new_mcmc qs d ms o pos l)).
    { unfold lok. cbn. clear -HN. induction HN as [|p q ps qs [A B] _ IH]; constructor; [|exact IH]. split; [now injection A|]. intros S. destruct (B S) as (X & Y & Z). split; [exact X|]. split; [exact Y|exact Z]. }
    destruct (acts_lim ps E actions _ m L HA) as (_ & _ & X). now apply X.
Qed.
Print Assumptions C96_unreached_limits.

(** Over the extended reals limits are narrower if they are limits of a smaller interval. *)
Theorem C96_smaller_intervals : forall p q : param XR,
  (a_name p, a_theta0 p, a_mu p, a_sigma p, a_sample p, a_adapt p) = (a_name q, a_theta0 q, a_mu q, a_sigma q, a_sample q, a_adapt q) ->
  nle (a_min q) (a_min p) = true -> nle (a_min p) (a_max p) = true -> nle (a_max p) (a_max q) = true -> narrower p q.
Proof.
  intros p q HE H1 H2 H3. split; [exact HE|]. intros _. split; [exact H2|].
  assert (T : forall x y z : XR, nlt x y = true -> nle y z = true -> nlt x z = true).
  { intros [x| | |] [y| | |] [z| | |]; cbn; try discriminate; auto. rewrite RVec.Rltb_true, RVec.Rleb_true, RVec.Rltb_true. lra. }
  assert (T' : forall x y z : XR, nle x y = true -> nlt y z = true -> nlt x z = true).
  { intros [x| | |] [y| | |] [z| | |]; cbn; try discriminate; auto. rewrite RVec.Rltb_true, RVec.Rleb_true, RVec.Rltb_true. lra. }
  split; intros x Hx; [exact (T _ _ _ Hx H1)|exact (T' _ _ _ H3 Hx)].
Qed.
Print Assumptions C96_smaller_intervals.

(** The demonstration problem with no limits for the first parameter, and with the declared ones. *)
Definition wide_params : list (param XQ) :=
  map (fun p : param XQ => if String.eqb (a_name p) "a" then mkparam (a_name p) (a_theta0 p) NInf PInf (a_mu p) (a_sigma p) (a_sample p) (a_adapt p) else p) demo_params.
Definition wide_actions : list (action XQ) := [Run false; SetOptions (demo_opts_s2 4 DR); Run true].
Definition wide_end : mcmc XQ := Eval vm_compute in
  match acts demo_env wide_actions (new_mcmc wide_params demo_data demo_model (demo_opts_s2 6 DR) 0 []) with Ok m => m | Err _ => demo_s2 4 AM end.
Lemma wide_end_ok : acts demo_env wide_actions (new_mcmc wide_params demo_data demo_model (demo_opts_s2 6 DR) 0 []) = Ok wide_end.
Proof. vm_compute. reflexivity. Qed.
Fixpoint within_b (ps : list (param XQ)) (v : list XQ) : bool :=
  match ps, v with
  | [], [] => true
  | p :: ps, x :: v => (negb (a_sample p) || (negb (nlt x (a_min p)) && negb (nlt (a_max p) x))) && within_b ps v
  | _, _ => false
  end.
Lemma within_b_ok ps : forall v, within_b ps v = true -> within_limits ps v.
Proof.
  unfold within_limits. induction ps as [|p ps IH]; intros [|x v] H; cbn [within_b] in H; try discriminate; [constructor|]. apply andb_true_iff in H as [A B]. constructor; [|now apply IH].
  intros S. rewrite S in A. cbn in A. apply andb_true_iff in A as [A C]. split; now apply negb_true_iff.
Qed.
(** Limits that are left: the first parameter at least 49/100. *)
Definition tight_params : list (param XQ) :=
  map (fun p : param XQ => if String.eqb (a_name p) "a" then mkparam (a_name p) (a_theta0 p) (Fin (49 # 100)%Q) (a_max p) (a_mu p) (a_sigma p) (a_sample p) (a_adapt p) else p) demo_params.
Example C96_case : Forall2 narrower demo_params wide_params /\ Forall (within_limits demo_params) (m_calls wide_end) /\
  acts demo_env wide_actions (demo_s2 6 DR) = Ok (session_relimit demo_params wide_end) /\ List.length (m_chain wide_end) = 9 /\
  map (@a_max XQ) (m_params wide_end) <> map (@a_max XQ) demo_params /\
  Forall2 narrower tight_params wide_params /\ acts demo_env wide_actions (new_mcmc tight_params demo_data demo_model (demo_opts_s2 6 DR) 0 []) <> Ok (session_relimit tight_params wide_end).
Proof.
  assert (N1 : Forall2 narrower demo_params wide_params).
  { repeat constructor; intros x Hx; try exact Hx; destruct x; cbn in *; try discriminate; auto. }
  assert (N2 : Forall2 narrower tight_params wide_params).
  { repeat constructor; intros x Hx; try exact Hx; destruct x; cbn in *; try discriminate; auto. }
  assert (W : Forall (within_limits demo_params) (m_calls wide_end)) by (apply Forall_forall; intros v Hv; apply within_b_ok; revert v Hv; apply forallb_forall; vm_compute; reflexivity).
  split; [exact N1|]. split; [exact W|]. split; [apply (C96_unreached_limits demo_env demo_params wide_params demo_data demo_model _ 0 [] _ _ N1 wide_end_ok); exact W|].
  split; [reflexivity|]. split; [discriminate|]. split; [exact N2|]. intros X.
  apply (C96_unreached_limits demo_env tight_params wide_params demo_data demo_model _ 0 [] _ _ N2 wide_end_ok) in X.
  assert (B : existsb (fun v => match v with x :: _ => nlt x (Fin (49 # 100)%Q : XQ) | [] => false end) (m_calls wide_end) = true) by (vm_compute; reflexivity).
  apply existsb_exists in B as (v & Iv & Hv). rewrite Forall_forall in X. specialize (X v Iv). inversion X as [|p x l t Hp _]. subst. destruct (Hp eq_refl) as [Hq _]. cbn in Hv, Hq. congruence.
Qed.
