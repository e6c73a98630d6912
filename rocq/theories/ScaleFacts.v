(** A run in other units goes through the same iterations. *)

From Coq Require Import ZArith QArith Bool Lia List String Reals.
From Verif Require Import Base Num Samplers Adapt Settings Simulator SamplerFacts RunSpec ScaleNum ScaleSpec.
Import ListNotations.
Close Scope Q_scope.
Close Scope R_scope.
Open Scope list_scope.
Open Scope nat_scope.
Open Scope res_scope.

Lemma out_bind {A B C D} (R : A -> B -> Prop) (S : C -> D -> Prop) x y f g :
  outcomes R x y -> (forall a b, R a b -> outcomes S (f a) (g b)) -> outcomes S (bind x f) (bind y g).
Proof. destruct x, y; cbn; intros H K; try contradiction; auto. Qed.
Lemma out_eq {A} (x y : res A) : x = y -> outcomes eq x y.
Proof. intros <-. destruct x; reflexivity. Qed.
Lemma out_same {A C D} (S : C -> D -> Prop) (x : res A) f g :
  (forall a, x = Ok a -> outcomes S (f a) (g a)) -> outcomes S (bind x f) (bind x g).
Proof. destruct x; cbn; intros K; auto. Qed.
Lemma out_weaken {A B} (R S : A -> B -> Prop) x y : (forall a b, R a b -> S a b) -> outcomes R x y -> outcomes S x y.
Proof. destruct x, y; cbn; auto. Qed.

Section Scale.
Variables k b : R.
Hypothesis Hk : (0 < k)%R.
Variable E : env XR.
Hypothesis Hsos : forall v, e_sos E v <> [].
Notation E' := (rescaled_env k b E).
Notation "$ v" := (map (sc k) v) (at level 9).
Notation "$$ v" := (map (map (sc k)) v) (at level 9).

(** ** Parameter sets *)
Definition weak (p q : pset XR) : Prop :=
  p_theta q = p_theta p /\ p_ss q = $ (p_ss p) /\ p_sigma2 q = $ (p_sigma2 p) /\ p_alpha q = p_alpha p /\ p_sigma2 p <> [] /\
  (p_prior q = sh b (p_prior p) \/ p_ss p = [PInf] /\ p_prior q = p_prior p).
Definition strict (p q : pset XR) : Prop := weak p q /\ p_prior q = sh b (p_prior p).

Lemma map2_sc x y : map2 ndiv ($ x) ($ y) = map2 ndiv x y.
Proof. revert y. induction x as [|a x IH]; intros [|c y]; cbn [map map2]; try reflexivity. now rewrite sc_div, IH. Qed.
Lemma div_all_l a y : map (ndiv (sc k a)) ($ y) = map (ndiv a) y.
Proof. rewrite map_map. apply map_ext. intros. now apply sc_div. Qed.
Lemma div_all_r c x : map (fun a => ndiv a (sc k c)) ($ x) = map (fun a => ndiv a c) x.
Proof. rewrite map_map. apply map_ext. intros. now apply sc_div. Qed.
Lemma bcast_sc x y : bcast2 ndiv ($ x) ($ y) = bcast2 ndiv x y.
Proof.
  unfold bcast2. rewrite !map_length. destruct (_ =? _); [now rewrite map2_sc|].
  destruct x as [|a [|a' x]].
  - destruct y as [|c [|c' y]]; [reflexivity| |reflexivity]. apply f_equal, (div_all_r c []).
  - apply f_equal, (div_all_l a y).
  - destruct y as [|c [|c' y]]; [reflexivity| |reflexivity]. apply f_equal, (div_all_r c (a :: a' :: x)).
Qed.
Lemma loglik_sc ss s2 : loglik ($ ss) ($ s2) = loglik ss s2.
Proof. unfold loglik. now rewrite bcast_sc. Qed.
Lemma loglik_weak p q : weak p q -> loglik (p_ss q) (p_sigma2 q) = loglik (p_ss p) (p_sigma2 p).
Proof. intros (_ & -> & -> & _). apply loglik_sc. Qed.

(** The prior does not matter where the sum of squares is infinite. *)
Lemma loglik_inf s2 l : s2 <> [] -> loglik [PInf] s2 = Ok l -> unbounded l.
Proof.
  intros N H. unfold loglik in H. assert (X : bcast2 ndiv [PInf] s2 = Ok (map (ndiv PInf) s2)).
  { unfold bcast2. destruct s2 as [|a [|c s2]]; [congruence|reflexivity|]. reflexivity. }
  rewrite X in H. cbn [bind] in H. inversion H; subst. apply half_unbounded, sum_unbounded.
  - apply Forall_forall. intros x Hx. apply in_map_iff in Hx as (y & <- & _). apply inf_div.
  - destruct s2; [congruence|discriminate].
Qed.
Lemma post_shift p q l : weak p q -> loglik (p_ss p) (p_sigma2 p) = Ok l ->
  nadd l (nmul mhalf (p_prior q)) = sh (-1 / 2 * b) (nadd l (nmul mhalf (p_prior p))).
Proof.
  intros (_ & _ & _ & _ & N & [P|[P1 P2]]) H.
  - rewrite P. unfold mhalf. now rewrite half_shift, add_shift.
  - rewrite P2. rewrite P1 in H. apply loglik_inf in H; [|exact N]. symmetry. apply unbounded_shift, add_unbounded, H.
Qed.
Lemma ratio_same p q p' q' l l' : weak p q -> weak p' q' -> loglik (p_ss p) (p_sigma2 p) = Ok l -> loglik (p_ss p') (p_sigma2 p') = Ok l' ->
  calculate_log_posterior_ratio l' l (nmul mhalf (p_prior q')) (nmul mhalf (p_prior q)) =
  calculate_log_posterior_ratio l' l (nmul mhalf (p_prior p')) (nmul mhalf (p_prior p)).
Proof.
  intros H H' L L'. unfold calculate_log_posterior_ratio. rewrite (post_shift p q l H L), (post_shift p' q' l' H' L'). apply sub_shift.
Qed.

Lemma sos_same V theta s : evaluate_sos_function E' V theta s = ($ (fst (evaluate_sos_function E V theta s)), snd (evaluate_sos_function E V theta s)).
Proof. reflexivity. Qed.
Lemma cand_same n old R s : sample_candidate E' n old R s = sample_candidate E n old R s.
Proof. reflexivity. Qed.

Definition mrel (x y : mstep (F := XR)) : Prop :=
  let '(acc, new, outb, z, s) := x in let '(acc', new', outb', z', s') := y in
  acc' = acc /\ outb' = outb /\ z' = z /\ s' = s /\ weak new new' /\ (acc = true -> strict new new').

Lemma outside_weak theta pr s2 al : s2 <> [] -> weak (set_outside_bounds (mkpset theta [] pr s2 al)) (set_outside_bounds (mkpset theta [] pr ($ s2) al)).
Proof. intros N. unfold weak, set_outside_bounds. cbn [p_theta p_ss p_sigma2 p_alpha p_prior]. repeat (split; [reflexivity || exact N|]). right. split; reflexivity. Qed.

Lemma metropolis_same V R old old' s : strict old old' -> outcomes mrel (run_metropolis_step E V R old s) (run_metropolis_step E' V R old' s).
Proof.
  intros [W P]. unfold run_metropolis_step. destruct W as (T & SS & S2 & A & N & _). rewrite T, cand_same.
  apply out_same. intros [[newpar z] s1] _. destruct (is_sample_outside_bounds newpar (v_lower V) (v_upper V)).
  - cbn [outcomes mrel]. rewrite S2. do 4 (split; [reflexivity|]). split; [now apply outside_weak|discriminate].
  - unfold evaluate_sos_function, evaluate_prior. cbn [rescaled_env e_sos e_prior].
    set (v := scatter _ _ _). rewrite SS, S2, !loglik_sc. apply out_same. intros l1 L1. apply out_same. intros l2 L2.
    set (new := mkpset newpar (e_sos E v) (e_prior E newpar (v_mu V) (v_sigma V)) (p_sigma2 old) None).
    set (new' := mkpset newpar ($ (e_sos E v)) (sh b (e_prior E newpar (v_mu V) (v_sigma V))) ($ (p_sigma2 old)) None).
    assert (Wn : weak new new') by (unfold weak, new, new'; cbn; repeat (split; [reflexivity || exact N|]); now left).
    assert (Wo : weak old old') by (unfold weak; repeat (split; [assumption|]); now left).
    pose proof (ratio_same old old' new new' l2 l1 Wo Wn L2 L1) as X. cbn [new new' p_prior] in X. rewrite X.
    set (alpha := calculate_log_posterior_ratio _ _ _ _). unfold log_posterior_ratio_acceptance_test, rand.
    cbn [rescaled_env e_str outcomes mrel]. do 4 (split; [reflexivity|]).
    assert (Y : strict (mkpset newpar (e_sos E v) (e_prior E newpar (v_mu V) (v_sigma V)) (p_sigma2 old) (Some alpha))
                  (mkpset newpar ($ (e_sos E v)) (sh b (e_prior E newpar (v_mu V) (v_sigma V))) ($ (p_sigma2 old)) (Some alpha))).
    { split; [|reflexivity]. unfold weak. cbn. repeat (split; [reflexivity || exact N|]). now left. }
    split; [apply Y|intros _; exact Y].
Qed.

(** ** Delayed rejection *)
Lemma nth_weak (l m : list (pset XR)) i : Forall2 weak l m ->
  match nth_error l i, nth_error m i with Some p, Some q => weak p q | None, None => True | _, _ => False end.
Proof. intros H. revert i. induction H as [|p q l m H1 H2 IH]; intros [|i]; cbn [nth_error]; [exact I|exact I|exact H1|apply IH]. Qed.
Lemma len_weak (l m : list (pset XR)) : Forall2 weak l m -> List.length m = List.length l.
Proof. intros H. induction H; cbn; congruence. Qed.
Lemma theta_weak (l m : list (pset XR)) i : Forall2 weak l m ->
  (let* p := of_option IndexError (nth_error m i) in Ok (p_theta p)) = (let* p := of_option IndexError (nth_error l i) in Ok (p_theta p)).
Proof.
  intros H. pose proof (nth_weak l m i H) as X. destruct (nth_error l i), (nth_error m i); try contradiction; [|reflexivity].
  destruct X as (T & _). cbn. now rewrite T.
Qed.
Lemma extract_same iq stage l m : Forall2 weak l m -> extract_state_elements iq stage m = extract_state_elements iq stage l.
Proof. intros H. unfold extract_state_elements. now rewrite !(theta_weak l m) by exact H. Qed.
Lemma proposal_same iq l m invR : Forall2 weak l m -> nth_stage_log_proposal_ratio iq m invR = nth_stage_log_proposal_ratio iq l invR.
Proof.
  intros H. unfold nth_stage_log_proposal_ratio. rewrite (len_weak l m H). destruct (_ =? _); [reflexivity|].
  destruct (of_option IndexError (nth_error invR iq)); [|reflexivity]. cbn [bind]. now rewrite (extract_same _ _ l m H).
Qed.
Lemma exponent_same l m invR : Forall2 weak l m -> alpha_exponent m invR = alpha_exponent l invR.
Proof.
  intros H. unfold alpha_exponent. rewrite (len_weak l m H).
  pose proof (nth_weak l m 0 H) as X1. pose proof (nth_weak l m (List.length l - 1) H) as X2.
  destruct (nth_error l 0) as [x1|], (nth_error m 0) as [y1|]; try contradiction; [|reflexivity]. cbn [of_option bind].
  destruct (nth_error l (List.length l - 1)) as [x2|], (nth_error m (List.length l - 1)) as [y2|]; try contradiction; [|reflexivity]. cbn [of_option bind].
  rewrite (loglik_weak _ _ X1), (loglik_weak _ _ X2).
  destruct (loglik (p_ss x2) (p_sigma2 x2)) as [l2|] eqn:L2; [|reflexivity]. cbn [bind].
  destruct (loglik (p_ss x1) (p_sigma2 x1)) as [l1|] eqn:L1; [|reflexivity]. cbn [bind].
  rewrite (ratio_same x1 y1 x2 y2 l1 l2 X1 X2 L1 L2).
  set (y := calculate_log_posterior_ratio _ _ _ _). generalize (Ok y). induction (range (List.length l - 1)) as [|i t IH]; intros acc; cbn [fold_left]; [reflexivity|].
  rewrite (proposal_same i l m invR H). apply IH.
Qed.
Lemma firstn_weak n (l m : list (pset XR)) : Forall2 weak l m -> Forall2 weak (firstn n l) (firstn n m).
Proof. intros H. revert n. induction H; intros [|n]; cbn; constructor; auto. Qed.
Lemma rev_weak (l m : list (pset XR)) : Forall2 weak l m -> Forall2 weak (rev l) (rev m).
Proof. intros H. induction H; cbn; [constructor|]. apply Forall2_app; [assumption|]. constructor; [assumption|constructor]. Qed.
Lemma loop_same (rec : list (pset XR) -> res XR) l m ks : (forall u v, Forall2 weak u v -> rec v = rec u) -> Forall2 weak l m ->
  forall a1 a2, alpha_loop rec m ks a1 a2 = alpha_loop rec l ks a1 a2.
Proof.
  intros Hr H. induction ks as [|i t IH]; intros a1 a2; cbn [alpha_loop]; [reflexivity|].
  rewrite (Hr _ _ (firstn_weak (i + 2) _ _ H)), (Hr _ _ (firstn_weak (i + 2) _ _ (rev_weak _ _ H))).
  destruct (rec (firstn (i + 2) l)); [|reflexivity]. cbn [bind]. destruct (rec (firstn (i + 2) (rev l))); [|reflexivity]. cbn [bind].
  destruct (neq _ _); [reflexivity|]. apply IH.
Qed.
Lemma alpha_same fuel : forall invR l m, Forall2 weak l m -> alphafun fuel invR m = alphafun fuel invR l.
Proof.
  induction fuel as [|f IH]; intros invR l m H; cbn [alphafun]; [reflexivity|].
  rewrite (len_weak l m H), (loop_same (alphafun f invR) l m _ (IH invR) H). destruct (alpha_loop _ l _ _ _) as [[[a1 a2]|]|]; try reflexivity. cbn [bind].
  now rewrite (exponent_same l m invR H).
Qed.

Definition drel (x y : drstep (F := XR)) : Prop :=
  let '(acc, out, outb, iacce, path, s) := x in let '(acc', out', outb', iacce', path', s') := y in
  acc' = acc /\ outb' = outb /\ iacce' = iacce /\ s' = s /\ Forall2 weak path path' /\ strict out out'.

Lemma dr_same V RDR invR old old' new new' n : strict old old' -> p_sigma2 new' = $ (p_sigma2 new) -> p_sigma2 new <> [] ->
  forall itry path path' iacce acc outb out out' s, Forall2 weak path path' -> strict out out' ->
  outcomes drel (dr_loop E V RDR invR old new n itry path iacce (acc, out, outb) s)
                (dr_loop E' V RDR invR old' new' n itry path' iacce (acc, out', outb) s).
Proof.
  intros So S2 N. induction n as [|n IH]; intros itry path path' iacce acc outb out out' s Hp Ho; cbn [dr_loop].
  - cbn [outcomes drel]. repeat (split; [reflexivity|]). split; assumption.
  - apply out_same. intros P _. replace (p_theta old') with (p_theta old) by (symmetry; apply So). rewrite cand_same.
    apply out_same. intros [[theta z] s1] _. destruct (is_sample_outside_bounds theta (v_lower V) (v_upper V)).
    + apply IH; [|exact So]. rewrite S2. apply Forall2_app; [exact Hp|]. constructor; [now apply outside_weak|constructor].
    + unfold evaluate_sos_function, evaluate_prior. cbn [rescaled_env e_sos e_prior]. set (v := scatter _ _ _). rewrite S2.
      set (pr := e_prior E theta (v_mu V) (v_sigma V)).
      assert (Wn : forall al, strict (mkpset theta (e_sos E v) pr (p_sigma2 new) al) (mkpset theta ($ (e_sos E v)) (sh b pr) ($ (p_sigma2 new)) al)).
      { intros al. split; [|reflexivity]. unfold weak. cbn. repeat (split; [reflexivity || exact N|]). now left. }
      assert (Wp : forall al, Forall2 weak (path ++ [mkpset theta (e_sos E v) pr (p_sigma2 new) al])
                                       (path' ++ [mkpset theta ($ (e_sos E v)) (sh b pr) ($ (p_sigma2 new)) al])).
      { intros al. apply Forall2_app; [exact Hp|]. constructor; [apply Wn|constructor]. }
      rewrite (len_weak _ _ (Wp None)), (alpha_same _ invR _ _ (Wp None)). apply out_same. intros alpha _.
      unfold posterior_ratio_acceptance_test, rand. cbn [rescaled_env e_str].
      set (o := if nle n1 alpha then _ else _). assert (Eo : o = o) by reflexivity. destruct o as [accept s3]. clear Eo.
      apply out_same. intros cnt _.
      assert (Wu : strict (update_set_based_on_acceptance accept old (mkpset theta (e_sos E v) pr (p_sigma2 new) (Some alpha)))
                     (update_set_based_on_acceptance accept old' (mkpset theta ($ (e_sos E v)) (sh b pr) ($ (p_sigma2 new)) (Some alpha)))).
      { unfold update_set_based_on_acceptance. destruct accept; [apply Wn|exact So]. }
      destruct accept.
      * cbn [outcomes drel]. do 4 (split; [reflexivity|]). split; [apply Wp|exact Wu].
      * apply IH; [apply Wp|exact Wu].
Qed.

(** ** Error variances *)
Lemma mt_same a c d s : gammar_mt1 E' a c s = gammar_mt1 E a c s /\ gamma_mt_loop E' (e_fuel E') d c s = gamma_mt_loop E (e_fuel E) d c s.
Proof. split; reflexivity. Qed.

Definition same_rng (f : XR -> XR) (x y : XR * io XR) : Prop := fst y = f (fst x) /\ snd y = snd x.
Lemma pos_inv : (0 < / k)%R. Proof. now apply Rinv_0_lt_compat. Qed.
Lemma gamma_same a c s : outcomes (same_rng (sc (/ k))) (gammar E a c s) (gammar E' a (sc (/ k) c) s).
Proof.
  pose proof pos_inv as Hi.
  assert (G : forall a s, outcomes (same_rng (sc (/ k))) (gammar_ge1 E a c s) (gammar_ge1 E' a (sc (/ k) c) s)).
  { clear a s. intros a s. unfold gammar_ge1.
    change (gamma_mt_loop E' (e_fuel E')) with (gamma_mt_loop E (e_fuel E)).
    apply out_same. intros [v s1] _. split; cbn [fst snd]; [|reflexivity]. now rewrite !sc_mul_l. }
  unfold gammar. destruct (nle a n0); [split; cbn [fst snd]; [now rewrite sc_0|reflexivity]|].
  unfold gammar_mt1. destruct (nlt a n1); [|apply G].
  eapply out_bind; [apply G|]. intros [y s1] [y' s1'] [H1 H2]. cbn [fst snd] in H1, H2. subst y' s1'. unfold rand. cbn [rescaled_env e_str].
  split; cbn [fst snd]; [now rewrite sc_mul_l|reflexivity].
Qed.
Lemma draw_same N0 S20 N sos s : outcomes (same_rng (sc k)) (draw_sigma2 E N0 S20 N sos s) (draw_sigma2 E' N0 (sc k S20) N (sc k sos) s).
Proof.
  unfold draw_sigma2. rewrite sc_mul_r, sc_add, sc_inv, sc_mul_r by (exact Hk || apply pos_inv).
  eapply out_bind; [apply gamma_same|]. intros [y s1] [y' s1'] [H1 H2]. cbn [fst snd] in H1, H2. subst y' s1'.
  split; cbn [fst snd]; [now apply sc_inv_back|reflexivity].
Qed.
Lemma nth_sc (l : list XR) i : nth_error ($ l) i = option_map (sc k) (nth_error l i).
Proof. revert i. induction l; intros [|i]; cbn; auto. Qed.
Lemma set_sc i v (l : list XR) : set_nth i (sc k v) ($ l) = $ (set_nth i v l).
Proof. revert i. induction l; intros [|i]; cbn; [reflexivity..|]. now rewrite IHl. Qed.
Lemma write_sc i v (l : list XR) : outcomes (fun a c => c = $ a) (write i v l) (write i (sc k v) ($ l)).
Proof. unfold write. rewrite map_length. destruct (_ <? _); cbn; [now rewrite set_sc|reflexivity]. Qed.

Definition vrel (x y : list XR * list XR * io XR) : Prop :=
  let '(s2, s0, s) := x in let '(s2', s0', s') := y in s2' = $ s2 /\ s0' = $ s0 /\ s' = s.
Lemma variance_same alias N0 N sos : forall n jj s2 s0 s,
  outcomes vrel (update_error_variance E alias N0 N sos jj n s2 s0 s) (update_error_variance E' alias N0 N ($ sos) jj n ($ s2) ($ s0) s).
Proof.
  induction n as [|n IH]; intros jj s2 s0 s; cbn [update_error_variance]; [repeat split|].
  apply out_same. intros n0v _. apply out_same. intros nv _. rewrite !nth_sc.
  destruct (nth_error s0 jj) as [s20|]; [|reflexivity]. cbn [option_map of_option bind].
  destruct (nth_error sos jj) as [sj|]; [|reflexivity]. cbn [option_map of_option bind].
  eapply out_bind; [apply draw_same|]. intros [v s1] [v' s1'] [H1 H2]. cbn [fst snd] in H1, H2. subst v' s1'.
  eapply out_bind; [apply write_sc|]. intros a c ->. replace (if alias then set_nth jj (sc k v) ($ s0) else $ s0) with ($ (if alias then set_nth jj v s0 else s0)).
  - apply IH.
  - destruct alias; [now rewrite set_sc|reflexivity].
Qed.
End Scale.
