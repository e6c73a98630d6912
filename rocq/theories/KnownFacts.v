(** Runs with a given error variance. *)

From Coq Require Import ZArith QArith Bool Lia List String.
From Verif Require Import Base Num Samplers Adapt Settings Simulator RunSpec KnownSpec.
Import ListNotations.
Close Scope Q_scope.
Open Scope list_scope.
Open Scope nat_scope.
Open Scope res_scope.

Section Known.
Context {F : Type} `{NF : Num F}.
Variable E : env F.

(** ** Outcomes *)
Lemma refused_bind {A B C D} (R : A -> B -> Prop) (S : C -> D -> Prop) x y f g :
  unless_refused R x y -> (forall a b, R a b -> unless_refused S (f a) (g b)) -> unless_refused S (bind x f) (bind y g).
Proof.
  intros H K. destruct x as [a|e], y as [b|e']; cbn in *; auto.
  - subst. destruct (f a); cbn; auto.
  - subst. destruct (g b); cbn; auto.
Qed.
Lemma refused_same {A C D} (S : C -> D -> Prop) (x : res A) f g : (forall a, x = Ok a -> unless_refused S (f a) (g a)) -> unless_refused S (bind x f) (bind x g).
Proof. intros K. destruct x; cbn; auto. Qed.
Definition exits {A} (x : res A) : Prop := match x with Ok _ => True | Err e => e = SysExit end.
Lemma refused_any {A B} (R : A -> B -> Prop) (x : res A) (y : res B) : exits x -> exits y -> (forall a b, x = Ok a -> y = Ok b -> R a b) -> unless_refused R x y.
Proof. intros H K L. destruct x, y; cbn in *; auto. Qed.

(** ** Settings *)
Lemma size_exits x n : exits (check_size_of_setting (x : list F) n).
Proof. unfold check_size_of_setting. destruct x as [|a [|b x]]; try exact I; repeat match goal with |- context [if ?c then _ else _] => destruct c end; exact I || reflexivity. Qed.
Lemma observations_exits x n : exits (check_size_of_observations (x : list F) n).
Proof. unfold check_size_of_observations. destruct x as [|a [|b x]]; try exact I; repeat match goal with |- context [if ?c then _ else _] => destruct c end; exact I || reflexivity. Qed.
Lemma number_exits x d : exits (check_number_of_observations (x : list F) d).
Proof. unfold check_number_of_observations. repeat match goal with |- context [if ?c then _ else _] => destruct c | |- context [match ?c with _ => _ end] => destruct c end; exact I || reflexivity. Qed.
Lemma exits_bind {A B} (x : res A) (f : A -> res B) : exits x -> (forall a, exits (f a)) -> exits (bind x f).
Proof. intros H K. destruct x; cbn in *; auto. Qed.
Lemma dependent_exits (m : modset F) d : exits (check_dependent_model_settings m d).
Proof.
  unfold check_dependent_model_settings. apply exits_bind; [destruct (ms_N m); [apply number_exits|exact I]|]. intros N.
  destruct (ms_N0 m), (ms_sigma2 m); destruct (existsb _ _); exact I.
Qed.
Lemma nsos_exits (m : modset F) n : exits (check_wrt_nsos m n).
Proof.
  unfold check_wrt_nsos. apply exits_bind; [apply size_exits|]. intros a. apply exits_bind; [apply size_exits|]. intros b.
  apply exits_bind; [apply size_exits|]. intros c. apply exits_bind; [apply observations_exits|]. intros e. exact I.
Qed.
Lemma dependent_alike (m m' : modset F) d d' r r' : given_alike m m' ->
  check_dependent_model_settings m d = Ok r -> check_dependent_model_settings m' d' = Ok r' -> ms_sigma2 r' = ms_sigma2 r.
Proof.
  intros (H & H1 & H2). unfold check_dependent_model_settings. rewrite H, H1, H2.
  destruct (match ms_N m with Some u => _ | None => _ end); [|discriminate]. destruct (match ms_N m' with Some u => _ | None => _ end); [|discriminate]. cbn [bind].
  destruct (ms_sigma2 m); destruct (existsb nisnan (ms_S20 m)), (existsb nisnan (ms_S20 m')); intros X Y; inversion X; inversion Y; reflexivity.
Qed.
Lemma nsos_alike (m m' : modset F) n r r' : ms_sigma2 m' = ms_sigma2 m -> check_wrt_nsos m n = Ok r -> check_wrt_nsos m' n = Ok r' -> ms_sigma2 r' = ms_sigma2 r.
Proof.
  intros H. unfold check_wrt_nsos. rewrite H. set (s := check_size_of_setting match ms_sigma2 m with Some s => s | None => [] end n).
  destruct (check_size_of_setting (ms_S20 m) n); [|discriminate]. destruct (check_size_of_setting (ms_S20 m') n); [|discriminate]. cbn [bind].
  destruct (check_size_of_setting match ms_N0 m with Some s => s | None => [] end n); [|discriminate]. destruct (check_size_of_setting match ms_N0 m' with Some s => s | None => [] end n); [|discriminate]. cbn [bind].
  destruct s; [|discriminate]. cbn [bind].
  destruct (check_size_of_observations match ms_N m with Some s => s | None => [] end n); [|discriminate]. destruct (check_size_of_observations match ms_N m' with Some s => s | None => [] end n); [|discriminate]. cbn [bind].
  intros X Y. inversion X. inversion Y. reflexivity.
Qed.

(** ** The loop *)
Definition put (x : list F) (t : rstate F) : rstate F :=
  mkst (r_index t) (r_iiadapt t) (r_savecount t) (r_lastbin t) (r_old t) (r_rej t) (r_rejin t) (r_rejout t)
       (r_chain t) (r_ss t) (r_s2 t) (r_cov t) (r_sigma2 t) x (r_iacce t) (r_io t) (r_fs t) (r_trace t).
Definition lift {A} (f : A -> A) (x : res A) : res A := match x with Ok a => Ok (f a) | Err e => Err e end.
Definition kgiven (K K' : rconst F) : Prop :=
  k_opts K' = k_opts K /\ o_updatesigma (k_opts K) = false /\ k_view K' = k_view K /\ k_nsos K' = k_nsos K /\ k_chains K' = k_chains K.
Lemma put_logged K K' x t : kgiven K K' -> logged K' (put x t) = logged K t.
Proof. intros (_ & _ & _ & _ & H). unfold logged. rewrite H. apply map_ext. intros [n r]. destruct r; reflexivity. Qed.
Lemma put_sample K K' x t : kgiven K K' -> sample_step E K' (put x t) = sample_step E K t.
Proof. intros (HO & _ & HV & _). unfold sample_step, delayed_rejection_call. rewrite HO, HV. reflexivity. Qed.
Lemma put_update K K' x t s : kgiven K K' -> update_chain K' (put x t) s = lift (put x) (update_chain K t s).
Proof.
  intros (_ & _ & HV & HS & _). destruct s as [[[[[st new] outb] z] ia] u]. unfold update_chain. rewrite HV, HS. cbn [r_old r_chain r_ss put r_index].
  destruct (fit_row _ _); [|reflexivity]. cbn [bind]. destruct (write _ _ _); [|reflexivity]. cbn [bind]. destruct (fit_row _ _); [|reflexivity]. cbn [bind].
  destruct (write _ _ _); reflexivity.
Qed.
Lemma put_adapt K K' i u al x t : kgiven K K' -> adapt_step E K' i u al (put x t) = lift (put x) (adapt_step E K i u al t).
Proof.
  intros (HO & _ & HV & _). unfold adapt_step. rewrite HO, HV. cbn [r_iiadapt put r_cov r_rejin r_chain r_index]. destruct (_ && _)%bool; [|reflexivity].
  destruct (run_adaptation _ _ _ _ _ _ _ _ _ _ _); reflexivity.
Qed.
Lemma put_sigma K K' x t : kgiven K K' -> sigma_step E K' (put x t) = lift (put x) (sigma_step E K t).
Proof. intros (HO & HU & _). unfold sigma_step. rewrite HO, HU. reflexivity. Qed.
Lemma put_save K K' i x t : kgiven K K' -> save_step K' i (put x t) = lift (put x) (save_step K i t).
Proof.
  intros HK. unfold save_step. rewrite (put_logged _ _ _ _ HK). destruct HK as (HO & _). rewrite HO. cbn [r_savecount r_fs put]. destruct (_ =? _)%Z; [|reflexivity].
  destruct (save_to_log_file _ _ _ _ _); [|reflexivity]. cbn [bind]. change (proposal_cov (put x t)) with (proposal_cov t). destruct (save_covmtx _ _ _ _ _); reflexivity.
Qed.
Lemma put_step K K' i x t : kgiven K K' -> step E K' i (put x t) = lift (put x) (step E K i t).
Proof.
  intros HK. unfold step. rewrite (put_sample _ _ _ _ HK). destruct (sample_step E K t) as [[[[[[st new] outb] z] ia] u]|]; [|reflexivity]. cbn [bind].
  rewrite (put_update _ _ _ _ _ HK). destruct (update_chain _ _ _); [|reflexivity]. cbn [bind lift].
  rewrite (put_adapt _ _ _ _ _ _ _ HK). destruct (adapt_step _ _ _ _ _ _); [|reflexivity]. cbn [bind lift].
  rewrite (put_sigma _ _ _ _ HK). destruct (sigma_step _ _ _); [|reflexivity]. cbn [bind lift]. now apply put_save.
Qed.
Lemma put_iterate K K' x l : kgiven K K' -> forall t, iterate E K' l (put x t) = lift (put x) (iterate E K l t).
Proof.
  intros HK. induction l as [|i l IH]; intros t; cbn [iterate]; [reflexivity|]. rewrite (put_step _ _ _ _ _ HK). destruct (step E K i t); [|reflexivity]. cbn [bind lift]. apply IH.
Qed.
Lemma put_execute K K' x t : kgiven K K' -> execute E K' (put x t) = lift (put x) (execute E K t).
Proof.
  intros HK. unfold execute. rewrite (put_iterate _ _ _ _ HK). pose proof HK as (HO & _). rewrite HO. destruct (iterate _ _ _ _) as [u|]; [|reflexivity]. cbn [bind lift].
  destruct (_ <=? _); [reflexivity|]. rewrite (put_logged _ _ _ _ HK). cbn [r_fs put r_lastbin]. destruct (save_to_log_file _ _ _ _ _); [|reflexivity]. cbn [bind].
  change (proposal_cov (put x u)) with (proposal_cov u). destruct (save_covmtx _ _ _ _ _); reflexivity.
Qed.

(** ** Runs *)
Definition igiven (I I' : initrec F) : Prop :=
  i_opts I' = i_opts I /\ o_updatesigma (i_opts I) = false /\ ms_sigma2 (i_model I') = ms_sigma2 (i_model I) /\ i_op I' = i_op I /\ i_cov I' = i_cov I /\
  i_set I' = i_set I /\ i_nsos I' = i_nsos I /\ i_iacce I' = i_iacce I /\ i_io I' = i_io I.
Lemma init_given ps d d' ms ms' o rdr pos calls : given_alike ms ms' -> o_updatesigma o = false ->
  unless_refused igiven (initialize_simulation E ps d ms o rdr pos calls) (initialize_simulation E ps d' ms' o rdr pos calls).
Proof.
  intros H HU. unfold initialize_simulation. pose proof H as (_ & -> & ->).
  apply refused_bind with (R := fun a b => ms_sigma2 b = ms_sigma2 a).
  { apply refused_any; [apply dependent_exits|apply dependent_exits|]. intros a b Ha Hb. exact (dependent_alike _ _ _ _ _ _ H Ha Hb). }
  intros m1 m1' H1. apply refused_same. intros _ _. apply refused_same. intros _ _. apply refused_same. intros c _.
  destruct (evaluate_sos_function E _ _ _) as [ss s1].
  apply refused_bind with (R := fun a b => ms_sigma2 b = ms_sigma2 a).
  { apply refused_any; [apply nsos_exits|apply nsos_exits|]. intros a b Ha Hb. exact (nsos_alike _ _ _ _ _ H1 Ha Hb). }
  intros m2 m2' H2. cbn [unless_refused]. unfold igiven. cbn [i_opts i_model i_op i_cov i_set i_nsos i_iacce i_io]. rewrite H1.
  repeat (split; [exact H2 || exact HU || reflexivity|]). reflexivity.
Qed.
Lemma chains_given I I' s : igiven I I' -> initialize_chains I' s = initialize_chains I s.
Proof. intros (HO & _ & _ & Hp & _ & Hs & Hn & _). unfold initialize_chains. now rewrite HO, Hp, Hs, Hn. Qed.
Lemma prepared_given m m' ps I I' i x : m_fs m' = m_fs m -> m_trace m' = m_trace m -> igiven I I' ->
  unless_refused same_sampling (run_prepared E m ps I i x) (run_prepared E m' ps I' i x).
Proof.
  intros Hf Ht (HO & HU & Hm & Hp & Hc & Hs & Hn & Hi & Hio). destruct x as [[[ch ss] s2] l]. unfold run_prepared.
  replace (start_state I' i ch ss s2 (m_fs m')) with (put (ms_S20 (i_model I')) (start_state I i ch ss s2 (m_fs m)))
    by (unfold start_state, put; cbn; rewrite Hi, Hio, Hm, Hs, Hc, Hf; reflexivity).
  rewrite (put_execute (make_const I l) (make_const I' l)); [|unfold kgiven, make_const; cbn [k_opts k_view k_nsos k_chains]; rewrite HO, Hp, Hn; auto].
  destruct (execute E (make_const I l) _) as [t|]; cbn [lift bind unless_refused]; [|now left].
  constructor; cbn [m_params m_data m_model m_opts m_RDR m_status m_chain m_sschain m_s2chain m_index m_chains m_pos m_calls m_fs m_results m_trace ms_sigma2]; auto.
  - rewrite HO. reflexivity.
  - cbn [option_map]. f_equal. unfold apart_from_model, generate_results. cbn [rr_theta rr_parind rr_total_rejected rr_outside rr_R rr_qcov rr_cov rr_mean rr_names rr_allnames rr_lower rr_upper rr_nsimu rr_iacce rr_opts rr_chain rr_model rr_sschain rr_s2chain ms_sigma2].
    rewrite Hp, HO. reflexivity.
  - now rewrite Ht.
Qed.
Lemma run_given m m' : m_params m' = m_params m -> m_opts m' = m_opts m -> m_RDR m' = m_RDR m -> m_pos m' = m_pos m -> m_calls m' = m_calls m -> m_fs m' = m_fs m ->
  m_trace m' = m_trace m -> given_alike (m_model m) (m_model m') -> o_updatesigma (m_opts m) = false ->
  unless_refused same_sampling (run_simulation E false m) (run_simulation E false m').
Proof.
  intros Hp HO HR Hpos Hc Hf Ht H HU. unfold run_simulation. rewrite Hp, HO, HR, Hpos, Hc.
  apply refused_bind with (R := fun a b => b = a /\ o_updatesigma (snd a) = false).
  - destruct (o_restart (m_opts m)); [|cbn; auto]. destruct (results_to_params _ _); cbn; auto.
  - intros [ps o] y [-> Ho]. cbn [snd] in Ho. eapply refused_bind; [apply init_given; [exact H|exact Ho]|]. intros I I' HI.
    replace (ms_sigma2 (i_model I')) with (ms_sigma2 (i_model I)) by (symmetry; apply HI). rewrite (chains_given _ _ _ HI). apply refused_same. intros x _. now apply prepared_given.
Qed.
End Known.
