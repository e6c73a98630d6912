(** Simulated observations over the real numbers: specification and lemmas.  propagation.py 21-132, 446-493 and
    plotting/PredictionIntervals.py 131-584 (modelled in Propagation.v and PredInt.v). *)

From Coq Require Import ZArith QArith Qround Bool Lia List Reals Lra Arith String.
From Verif Require Import Base Num ChainFiles Results PlotUtil Propagation PredInt RVec RMat QuantSpec QuantFacts PropagFacts.
Import ListNotations.
Close Scope Q_scope.
Close Scope R_scope.
Open Scope list_scope.
Open Scope nat_scope.

(** ** Specification *)

(** Response [y], standard normal [z], variance [s]: the observation on the scale number [scale]
    (0: as it is, 1: square root, 2: logarithm) *)
Definition observed (scale : nat) (y z s : R) : R :=
  match scale with
  | 0 => y + z * sqrt s
  | 1 => (sqrt y + z * sqrt s) * (sqrt y + z * sqrt s)
  | _ => y * exp (z * sqrt s)
  end%R.
(** responses that have a value on this scale *)
Definition on_scale (scale : nat) (y : R) : Prop := scale <= 2 /\ (scale = 1 -> (0 <= y)%R).

(** [n] points of [p] responses with entries [f i j]; one response may come as a vector *)
Definition response (y : @yval XR) (n p : nat) (f : nat -> nat -> R) : Prop :=
  y = Y2 p (finm (table n p f)) \/ p = 1 /\ y = Y1 (fin (vtab n (fun i => f i 0))).

(** The ways of giving variances for [p] responses and a chain with [nsimu] rows; [sv k j] is the one for row [k] and response [j] *)
Definition variances (s2 : @s2val XR) (nsimu p : nat) (sv : nat -> nat -> R) : Prop :=
  (exists s, s2 = S2float (Fin s) /\ forall k j, sv k j = s) \/
  (exists f, s2 = S2vec (fin (vtab nsimu f)) /\ forall k j, sv k j = f k) \/
  (exists f, s2 = S2vec (fin (vtab p f)) /\ p <> nsimu /\ forall k j, sv k j = f j) \/
  s2 = S2mat p (finm (table nsimu p sv)) \/
  (exists f, s2 = S2mat 1 (finm (table nsimu 1 f)) /\ forall k j, sv k j = f k 0).

(** Columns of the variance chain in PredictionIntervals: one for everything, one for each response of each data set, or one for
    each data set *)
Definition total (nd : nat) (ncol : nat -> nat) : nat := natlist_sum (map ncol (seq 0 nd)).
Definition layout (n nd : nat) (ncol : nat -> nat) (c : nat -> nat -> nat) : Prop :=
  (n = 1 /\ forall ii jj, c ii jj = 0) \/
  (n = total nd ncol /\ forall ii jj, c ii jj = total ii ncol + jj) \/
  (n = nd /\ forall ii jj, c ii jj = ii).

(** ** One array *)

Lemma noisy_fin scale y z s : (0 <= s)%R -> on_scale scale y -> noisy scale (Fin y : XR) (Fin z) (Fin s) = Fin (observed scale y z s).
Proof.
  intros S [L P]. unfold noisy, observed. destruct scale as [|[|[|?]]]; [| | |lia]; rewrite !XR_nsqrt by auto; reflexivity.
Qed.

Lemma map_seq_ext {A} (f g : nat -> A) a n : (forall k, a <= k < a + n -> f k = g k) -> map f (seq a n) = map g (seq a n).
Proof. intros H. apply map_ext_in. intros k I. apply in_seq in I. apply H. lia. Qed.
Lemma nth_fin_vtab n f k d : k < n -> nth k (fin (vtab n f)) d = Fin (f k).
Proof. intros H. rewrite (nth_indep _ d (Fin 0%R)) by now rewrite fin_length, vtab_length. rewrite nth_fin, nth_vtab by auto. reflexivity. Qed.
Lemma nth_finm_table n p f k d : k < n -> nth k (finm (table n p f)) d = fin (vtab p (f k)).
Proof.
  intros H. rewrite finm_table. rewrite (nth_indep _ d (fin (vtab p (f 0)))) by now rewrite map_length, seq_length.
  rewrite (map_nth (fun i => fin (vtab p (f i))) (seq 0 n) 0 k). now rewrite seq_nth by auto.
Qed.
Lemma bdim_one n : bdim n 1 = Some n.
Proof. unfold bdim. destruct (Nat.eqb_spec n 1) as [->|]; auto. Qed.

Section Arrays.
Context (zr : nat -> R) (scale : nat).
Let z : nat -> XR := fun i => Fin (zr i).

Lemma sample_vector n f s pos : (0 <= s)%R -> (forall i, i < n -> on_scale scale (f i)) -> scale <= 2 ->
  observation_sample scale [Fin s] (Y1 (fin (vtab n f))) z pos = Ok (fin (vtab n (fun i => observed scale (f i) (zr (pos + i)) s))).
Proof.
  intros S H L. unfold observation_sample. replace (2 <? scale) with false by (symmetry; apply Nat.ltb_ge; auto).
  rewrite fin_length, vtab_length. cbn [List.length]. rewrite bdim_one. cbn [range seq map List.concat]. rewrite app_nil_r. f_equal.
  rewrite (fin_vtab n (fun i => observed _ _ _ _)). apply map_seq_ext. intros j J. cbn [nth].
  assert (E : bpos n j = j) by (unfold bpos; destruct (Nat.eqb_spec n 1); lia). rewrite E, nth_fin_vtab by lia.
  replace (pos + 0 * n + j) with (pos + j) by lia. cbn [bpos Nat.eqb nth]. unfold z. apply noisy_fin; auto. apply H. lia.
Qed.
Lemma concat_singles {A B} (f : A -> B) l : List.concat (map (fun a => [f a]) l) = map f l.
Proof. induction l as [|a l IH]; cbn; [reflexivity|]. now rewrite IH. Qed.
Lemma sample_column n f s pos : (0 <= s)%R -> (forall i, i < n -> on_scale scale (f i 0)) -> scale <= 2 ->
  observation_sample scale [Fin s] (Y2 1 (finm (table n 1 f))) z pos = Ok (fin (vtab n (fun i => observed scale (f i 0) (zr (pos + i)) s))).
Proof.
  intros S H L. unfold observation_sample. replace (2 <? scale) with false by (symmetry; apply Nat.ltb_ge; auto).
  rewrite finm_length, table_length. cbn [List.length]. rewrite bdim_one. change (range 1) with [0]. cbn [map]. rewrite concat_singles.
  f_equal. rewrite fin_vtab. apply map_seq_ext. intros i I. rewrite nth_finm_table by lia. change (bpos 1 0) with 0. rewrite nth_fin_vtab by lia.
  replace (pos + i * 1 + 0) with (pos + i) by lia. unfold z. cbn [nth]. apply noisy_fin; auto. apply H. lia.
Qed.
Lemma sample_one y n f s pos : response y n 1 f -> (0 <= s)%R -> (forall i, i < n -> on_scale scale (f i 0)) -> scale <= 2 ->
  observation_sample scale [Fin s] y z pos = Ok (fin (vtab n (fun i => observed scale (f i 0) (zr (pos + i)) s))).
Proof. intros [->|[_ ->]] S H L; [now apply sample_column|]. now apply (sample_vector n (fun i => f i 0)). Qed.
Lemma response_flat y n f : response y n 1 f -> flat y = fin (vtab n (fun i => f i 0)) /\ ysize y = n.
Proof.
  intros [->|[_ ->]]; cbn [flat ysize]; [|now rewrite fin_length, vtab_length]. rewrite finm_length, table_length, Nat.mul_1_r. split; auto.
  rewrite finm_table. rewrite (map_ext _ (fun i => [Fin (f i 0)])) by (intros; reflexivity). now rewrite concat_singles, fin_vtab.
Qed.
End Arrays.

(** ** The variances *)

Lemma repeat_seq {A} (x : A) n : repeat x n = map (fun _ => x) (seq 0 n).
Proof. assert (forall a, repeat x n = map (fun _ => x) (seq a n)) as H; [|apply H]. induction n as [|n IH]; intros a; cbn; f_equal; auto. Qed.
Lemma nth_error_seq_map {A} (f : nat -> A) n k : k < n -> nth_error (map f (seq 0 n)) k = Some (f k).
Proof.
  intros H. rewrite (nth_error_nth' _ (f 0)) by now rewrite map_length, seq_length. f_equal.
  rewrite (map_nth f (seq 0 n) 0 k), seq_nth; auto.
Qed.
Lemma cell_of_vec (f : nat -> R) nsimu p k j : k < nsimu -> s2cell (S2vec (fin (vtab nsimu f))) p k j = Ok [Fin (f k)] /\
  s2row (S2vec (fin (vtab nsimu f))) k = Ok [Fin (f k)].
Proof. intros K. cbn [s2cell s2row]. rewrite fin_vtab, nth_error_seq_map by auto. split; reflexivity. Qed.
Lemma cell_of_mat (f : nat -> nat -> R) nsimu p k j : k < nsimu -> j < p -> s2cell (S2mat p (finm (table nsimu p f))) p k j = Ok [Fin (f k j)].
Proof.
  intros K J. cbn [s2cell]. rewrite Nat.eqb_refl, finm_table, nth_error_seq_map by auto. cbn [of_option bind].
  rewrite fin_vtab, nth_error_seq_map by auto. reflexivity.
Qed.
Lemma row_of_mat (f : nat -> nat -> R) nsimu k : k < nsimu -> s2row (S2mat 1 (finm (table nsimu 1 f))) k = Ok [Fin (f k 0)].
Proof. intros K. cbn [s2row]. rewrite finm_table, nth_error_seq_map by auto. reflexivity. Qed.
Lemma cell_of_column (f : nat -> nat -> R) nsimu p k j : k < nsimu -> j < p -> s2cell (S2mat 1 (finm (table nsimu 1 f))) p k j = Ok [Fin (f k 0)].
Proof.
  intros K J. destruct (Nat.eq_dec p 1) as [->|N].
  - rewrite (cell_of_mat f nsimu 1) by auto. replace j with 0 by lia. reflexivity.
  - transitivity (s2row (S2mat 1 (finm (table nsimu 1 f))) k); [|now apply row_of_mat]. unfold s2cell.
    replace (1 =? p) with false by (symmetry; apply Nat.eqb_neq; auto). reflexivity.
Qed.

Lemma variances_read s2 nsimu p sv : variances s2 nsimu p sv ->
  exists s2', check_s2chain s2 nsimu = Ok s2' /\ is_none s2' = false /\
    forall k, k < nsimu -> (forall j, j < p -> s2cell s2' p k j = Ok [Fin (sv k j)]) /\ (p = 1 -> s2row s2' k = Ok [Fin (sv k 0)]).
Proof.
  intros [(s & -> & E)|[(f & -> & E)|[(f & -> & N & E)|[->|(f & -> & E)]]]].
  - exists (S2vec (fin (vtab nsimu (fun _ => s)))). split; [|split; auto].
    + cbn [check_s2chain]. rewrite fin_vtab, repeat_seq. do 2 f_equal. apply map_ext. intros _. rewrite XR_n1. change (@nmul XR _ (Fin ?a) (Fin ?b)) with (Fin (a * b)%R). f_equal. lra.
    + intros k K. split; intros; rewrite E; now apply (cell_of_vec _ _ p k 0).
  - exists (S2vec (fin (vtab nsimu f))). split; [|split; auto].
    + cbn [check_s2chain]. now rewrite fin_length, vtab_length, Nat.eqb_refl.
    + intros k K. split; intros; rewrite E; now apply (cell_of_vec _ _ p k 0).
  - exists (S2mat p (finm (table nsimu p (fun _ j => f j)))). split; [|split; auto].
    + cbn [check_s2chain]. rewrite fin_length, vtab_length. replace (p =? nsimu) with false by (symmetry; apply Nat.eqb_neq; auto).
      rewrite finm_table, repeat_seq. do 2 f_equal. apply map_ext. intros _. rewrite !fin_vtab, map_map. apply map_ext. intros j.
      rewrite XR_n1. change (@nmul XR _ (Fin ?a) (Fin ?b)) with (Fin (a * b)%R). f_equal. lra.
    + intros k K. split; [intros j J; rewrite E; now apply (cell_of_mat (fun _ j => f j))|].
      intros ->. rewrite E. now apply (row_of_mat (fun _ j => f j)).
  - exists (S2mat p (finm (table nsimu p sv))). split; [|split; auto].
    + cbn [check_s2chain]. now rewrite finm_length, table_length, Nat.eqb_refl.
    + intros k K. split; [intros j J; now apply cell_of_mat|]. intros ->. now apply row_of_mat.
  - exists (S2mat 1 (finm (table nsimu 1 f))). split; [|split; auto].
    + cbn [check_s2chain]. now rewrite finm_length, table_length, Nat.eqb_refl.
    + intros k K. split; [intros j J; rewrite E; now apply cell_of_column|]. intros ->. rewrite E. now apply row_of_mat.
Qed.

(** ** propagation.py: the loop *)

Lemma nth_error_ext_list {A} (a b : list A) : (forall i, nth_error a i = nth_error b i) -> a = b.
Proof.
  revert b. induction a as [|x a IH]; intros [|y b] H; auto; try (specialize (H 0); discriminate).
  f_equal; [specialize (H 0); now injection H|]. apply IH. intros i. apply (H (S i)).
Qed.
Lemma nth_error_set_nth_same {A} i (x : A) l : i < List.length l -> nth_error (set_nth i x l) i = Some x.
Proof. intros H. now apply set_nth_same. Qed.
Lemma nth_error_set_nth_other {A} i j (x : A) l : i <> j -> nth_error (set_nth j x l) i = nth_error l i.
Proof. intros H. apply set_nth_other. auto. Qed.
Lemma mapM_tab {B} (f : nat -> res B) (h : nat -> B) n : (forall j, j < n -> f j = Ok (h j)) -> mapM f (seq 0 n) = Ok (map h (seq 0 n)).
Proof.
  intros H. assert (G : forall a m, a + m <= n -> mapM f (seq a m) = Ok (map h (seq a m))); [|now apply G].
  intros a m. revert a. induction m as [|m IH]; intros a A; cbn [seq mapM map]; auto. rewrite H by lia. cbn [bind]. rewrite IH by lia. reflexivity.
Qed.

Section Loop.
Context (theta : list XR) (parind : list nat) (chain : list (list XR)) (model : list XR -> @yval XR) (zr : nat -> R) (scale n p : nat)
  (g : list XR -> nat -> nat -> R) (s2 : @s2val XR) (sv : nat -> nat -> R).
Hypothesis FT : fits theta parind chain.
Hypothesis HM : forall row t, In row chain -> holds_row theta parind row t ->
  response (model t) n p (g t) /\ forall i j, i < n -> j < p -> on_scale scale (g t i j).
Hypothesis HS : scale <= 2.
Let z : nat -> XR := fun i => Fin (zr i).
Definition pt (k : nat) : list XR := point theta parind (nth k chain []).

Lemma pt_row k : k < List.length chain -> nth_error chain k = Some (nth k chain []) /\ List.length (nth k chain []) = List.length parind /\
  holds_row theta parind (nth k chain []) (pt k).
Proof.
  intros K. destruct FT as (N & B & L). assert (LR : List.length (nth k chain []) = List.length parind).
  { rewrite Forall_forall in L. apply L. now apply nth_In. }
  split; [now apply nth_error_nth'|]. split; auto. unfold pt. now apply scatter_holds.
Qed.
Lemma pt_model k : k < List.length chain -> response (model (pt k)) n p (g (pt k)) /\ forall i j, i < n -> j < p -> on_scale scale (g (pt k) i j).
Proof. intros K. destruct (pt_row k K) as (_ & _ & H). apply (HM (nth k chain [])); auto. now apply nth_In. Qed.

Section One.
Hypothesis P1 : p = 1.
Hypothesis N2 : is_none s2 = false.
Hypothesis R2 : forall k, k < List.length chain -> s2row s2 k = Ok [Fin (sv k 0)].
Hypothesis V2 : forall k, k < List.length chain -> (0 <= sv k 0)%R.

Lemma not_multiple k (v : @vars XR) : k < List.length chain -> v_multiple v = false ->
  (let '(multiple, ncol) :=
    match model (pt k) with
    | Y1 _ => (v_multiple v, v_ncol v)
    | Y2 c rows => (if negb (List.length rows =? List.length rows * c) && negb (c =? List.length rows * c) then true else v_multiple v, c)
    end in multiple) = false.
Proof.
  intros K M. destruct (pt_model k K) as [R _]. subst p. destruct R as [->|[_ ->]]; auto.
  now rewrite Nat.mul_1_r, Nat.eqb_refl.
Qed.

Lemma one_step k v s : k < List.length chain -> good theta parind (i_theta s) -> v_multiple v = false ->
  exists v', interval_step chain parind model s2 z scale k v s = (mkist (pt k) (i_pos s + n) (i_calls s ++ [(0, pt k)]), Ok v') /\
    v_multiple v' = false /\ v_ci v' = v_ci v ++ [fin (vtab n (fun i => g (pt k) i 0))] /\
    v_pi v' = v_pi v ++ [fin (vtab n (fun i => observed scale (g (pt k) i 0) (zr (i_pos s + i)) (sv k 0)))].
Proof.
  intros K G M. pose proof (not_multiple k v K M) as NM. destruct (pt_row k K) as (E & L & _). destruct (pt_model k K) as [R O]. subst p.
  unfold interval_step. unfold andthen at 1, lift at 1. rewrite E. cbn [of_option].
  unfold andthen at 1, assign. rewrite (put_good theta parind) by (auto; apply FT). fold (point theta parind (nth k chain [])). fold (pt k).
  unfold andthen at 1, evaluate. cbn [i_theta i_pos i_calls].
  destruct (match model (pt k) with Y1 _ => _ | Y2 _ _ => _ end) as [multiple ncol]. subst multiple. cbn [negb].
  rewrite N2. unfold andthen at 1, lift. rewrite R2 by auto. unfold andthen, observe. cbn [i_pos i_theta i_calls].
  destruct (response_flat _ _ _ R) as [RF RY].
  pose proof (sample_one zr scale (model (pt k)) n (g (pt k)) (sv k 0) (i_pos s) R (V2 k K)) as SO. fold z in SO. rewrite SO; auto.
  rewrite RF, RY. eexists. split; [reflexivity|]. split; [reflexivity|]. split; reflexivity.
Qed.

Lemma one_loop m : forall a v s, a + m <= List.length chain -> good theta parind (i_theta s) -> v_multiple v = false -> i_pos s = a * n ->
  exists v' s', interval_loop chain parind model s2 z scale (seq a m) v s = (s', Ok v') /\ i_calls s' = i_calls s ++ map (fun k => (0, pt k)) (seq a m) /\
    v_multiple v' = false /\ v_ci v' = v_ci v ++ map (fun k => fin (vtab n (fun i => g (pt k) i 0))) (seq a m) /\
    v_pi v' = v_pi v ++ map (fun k => fin (vtab n (fun i => observed scale (g (pt k) i 0) (zr (k * n + i)) (sv k 0)))) (seq a m).
Proof.
  induction m as [|m IH]; intros a v s A G M P; cbn [seq interval_loop map].
  - exists v, s. rewrite !app_nil_r. repeat split; auto.
  - destruct (one_step a v s ltac:(lia) G M) as (v1 & E1 & M1 & C1 & P1').
    destruct (pt_row a ltac:(lia)) as (_ & L & _).
    assert (G' : good theta parind (pt a)) by (unfold pt; destruct FT as (FN & FB & _); now apply good_scatter).
    destruct (IH (S a) v1 (mkist (pt a) (i_pos s + n) (i_calls s ++ [(0, pt a)])) ltac:(lia) G' M1 ltac:(cbn [i_pos]; lia))
      as (v2 & s2' & E2 & K2 & M2 & C2 & P2).
    exists v2, s2'. unfold andthen. rewrite E1, E2. split; auto. cbn [i_calls] in K2. rewrite K2, C2, P2, C1, P1', <- !app_assoc, P.
    repeat split; auto.
Qed.
End One.

Section Several.
Hypothesis PN : 2 <= n /\ 2 <= p.
Hypothesis N2 : is_none s2 = false.
Hypothesis R2 : forall k j, k < List.length chain -> j < p -> s2cell s2 p k j = Ok [Fin (sv k j)].
Hypothesis V2 : forall k j, k < List.length chain -> j < p -> (0 <= sv k j)%R.

Lemma append_tab {A} (C : nat -> list A) j (x : A) : j < p ->
  append_at j x (map C (seq 0 p)) = Ok (map (fun i => if i =? j then C i ++ [x] else C i) (seq 0 p)).
Proof.
  intros J. unfold append_at. rewrite nth_error_seq_map by auto. cbn [of_option bind]. f_equal.
  apply nth_error_ext_list. intros i. destruct (Nat.eq_dec i j) as [->|N].
  - rewrite nth_error_set_nth_same, nth_error_seq_map by (auto; now rewrite map_length, seq_length). now rewrite Nat.eqb_refl.
  - rewrite nth_error_set_nth_other by auto. destruct (Nat.lt_ge_cases i p) as [I|I].
    + rewrite !nth_error_seq_map by auto. replace (i =? j) with false by (symmetry; now apply Nat.eqb_neq). reflexivity.
    + rewrite !(proj2 (nth_error_None _ _)) by (now rewrite map_length, seq_length). reflexivity.
Qed.

Definition cred (t : list XR) (j : nat) : list XR := fin (vtab n (fun i => g t i j)).
Definition obs (k pos j : nat) : list XR := fin (vtab n (fun i => observed scale (g (pt k) i j) (zr (pos + i)) (sv k j))).

Lemma columns_stored k : k < List.length chain -> forall w j (C P : nat -> list (list XR)) s, j + w = p ->
  store_columns z scale s2 (model (pt k)) p k (seq j w) (map C (seq 0 p)) (map P (seq 0 p)) s =
  (mkist (i_theta s) (i_pos s + w * n) (i_calls s),
   Ok (map (fun i => if i <? j then C i else C i ++ [cred (pt k) i]) (seq 0 p),
       map (fun i => if i <? j then P i else P i ++ [obs k (i_pos s + (i - j) * n) i]) (seq 0 p))).
Proof.
  intros K. destruct (pt_model k K) as [R O]. destruct R as [R|[-> _]]; [|lia]. induction w as [|w IH]; intros j C P s J; cbn [seq store_columns].
  - unfold ret. replace (i_pos s + 0 * n) with (i_pos s) by lia. destruct s as [th po ca]. cbn [i_theta i_pos i_calls]. do 3 f_equal; apply map_seq_ext; intros i I;
      replace (i <? j) with true by (symmetry; apply Nat.ltb_lt; lia); reflexivity.
  - rewrite R. unfold andthen at 1, lift at 1. cbn [column_of]. replace (j <? p) with true by (symmetry; apply Nat.ltb_lt; lia). cbn [bind].
    assert (EC : col j (finm (table n p (g (pt k)))) = cred (pt k) j) by (unfold cred; rewrite col_fin, Rcol_table by lia; reflexivity).
    rewrite EC, append_tab by lia. cbn [bind]. rewrite N2. unfold andthen at 1, lift at 1. rewrite R2 by lia.
    unfold andthen at 1, observe.
    pose proof (sample_vector zr scale n (fun i => g (pt k) i j) (sv k j) (i_pos s)) as SV. fold z in SV. fold (cred (pt k) j) in SV.
    rewrite SV by (auto; try apply V2; auto; try lia; intros; apply O; lia). clear SV. unfold andthen at 1, lift at 1.
    rewrite append_tab by lia. rewrite <- R. rewrite IH by lia. cbn [i_theta i_pos i_calls ysize].
    assert (LC : List.length (cred (pt k) j) = n) by (unfold cred; now rewrite fin_length, vtab_length). rewrite LC.
    replace (i_pos s + n + w * n) with (i_pos s + S w * n) by (cbn [Nat.mul]; lia). do 3 f_equal; apply map_seq_ext; intros i I.
    + destruct (Nat.ltb_spec i (S j)), (Nat.ltb_spec i j), (Nat.eqb_spec i j); try lia; auto. now subst.
    + destruct (Nat.ltb_spec i (S j)), (Nat.ltb_spec i j), (Nat.eqb_spec i j); try lia; auto.
      * subst. unfold obs. replace (i_pos s + (j - j) * n) with (i_pos s) by lia. reflexivity.
      * replace (i - j) with (S (i - S j)) by lia. replace (i_pos s + S (i - S j) * n) with (i_pos s + n + (i - S j) * n) by (cbn [Nat.mul]; lia). reflexivity.
Qed.

Definition creds (m : nat) : list (list (list XR)) := map (fun j => map (fun k => cred (pt k) j) (seq 0 m)) (seq 0 p).
Definition obss (m : nat) : list (list (list XR)) := map (fun j => map (fun k => obs k (k * (n * p) + j * n) j) (seq 0 m)) (seq 0 p).

Lemma several_step k v s : k < List.length chain -> good theta parind (i_theta s) -> i_pos s = k * (n * p) ->
  (0 < k -> v_lists v = Some (creds k, obss k)) ->
  interval_step chain parind model s2 z scale k v s =
  (mkist (pt k) (S k * (n * p)) (i_calls s ++ [(0, pt k)]), Ok (mkvars (v_ci v) (v_pi v) true p (Some (creds (S k), obss (S k))))).
Proof.
  intros K G P LS. destruct (pt_row k K) as (E & L & _). destruct (pt_model k K) as [R O]. destruct R as [R|[-> _]]; [|lia].
  unfold interval_step. unfold andthen at 1, lift at 1. rewrite E. cbn [of_option].
  unfold andthen at 1, assign. rewrite (put_good theta parind) by (auto; apply FT). fold (point theta parind (nth k chain [])). fold (pt k).
  unfold andthen at 1, evaluate. cbn [i_theta i_pos i_calls].
  assert (EM : match model (pt k) with
               | Y1 _ => (v_multiple v, v_ncol v)
               | Y2 c rows => (if negb (List.length rows =? List.length rows * c) && negb (c =? List.length rows * c) then true else v_multiple v, c)
               end = (true, p)).
  { rewrite R, finm_length, table_length.
    replace (n =? n * p) with false by (symmetry; apply Nat.eqb_neq; nia). replace (p =? n * p) with false by (symmetry; apply Nat.eqb_neq; nia).
    reflexivity. }
  rewrite EM. cbn [negb andb].
  assert (EL : (if k =? 0 then Some (repeat [] p, repeat [] p) else v_lists v) = Some (creds k, obss k)).
  { destruct (Nat.eqb_spec k 0) as [->|NK]; [|apply LS; lia]. unfold creds, obss. rewrite !repeat_seq. reflexivity. }
  rewrite EL. unfold andthen. unfold creds at 1, obss at 1, range. rewrite columns_stored by (auto; lia). cbn [i_theta i_pos i_calls]. unfold ret. rewrite P.
  replace (k * (n * p) + p * n) with (S k * (n * p)) by (cbn [Nat.mul]; lia). do 5 f_equal; apply map_seq_ext; intros j J; rewrite seq_S, map_app; cbn [map Nat.add].
  - reflexivity.
  - cbn [Nat.ltb Nat.leb]. rewrite Nat.sub_0_r. reflexivity.
Qed.

Lemma several_loop m : forall a v s, a + m <= List.length chain -> good theta parind (i_theta s) -> i_pos s = a * (n * p) ->
  (0 < a -> v_multiple v = true /\ v_ncol v = p /\ v_lists v = Some (creds a, obss a)) ->
  exists v' s', interval_loop chain parind model s2 z scale (seq a m) v s = (s', Ok v') /\ i_calls s' = i_calls s ++ map (fun k => (0, pt k)) (seq a m) /\
    (0 < a + m -> v_multiple v' = true /\ v_ncol v' = p /\ v_lists v' = Some (creds (a + m), obss (a + m))).
Proof.
  induction m as [|m IH]; intros a v s A G P LS; cbn [seq interval_loop map].
  - exists v, s. rewrite app_nil_r, Nat.add_0_r. repeat split; auto; now apply LS.
  - pose proof (several_step a v s ltac:(lia) G P ltac:(intros; now apply LS)) as E1.
    destruct (pt_row a ltac:(lia)) as (_ & L & _).
    assert (G' : good theta parind (pt a)) by (unfold pt; destruct FT as (FN & FB & _); now apply good_scatter).
    destruct (IH (S a) (mkvars (v_ci v) (v_pi v) true p (Some (creds (S a), obss (S a)))) (mkist (pt a) (S a * (n * p)) (i_calls s ++ [(0, pt a)])) ltac:(lia) G' eq_refl)
      as (v2 & s2' & E2 & K2 & M2).
    { intros _. cbn. auto. }
    exists v2, s2'. unfold andthen. rewrite E1, E2. split; auto. cbn [i_calls] in K2. rewrite K2, <- app_assoc. split; auto.
    rewrite <- plus_n_Sm. exact M2.
Qed.
End Several.
End Loop.

(** Quantity [j]: what is returned for the parameter vectors [pts] *)
Definition returned (scale n : nat) (g : list XR -> nat -> nat -> R) (zr : nat -> R) (sv : nat -> nat -> R) (place : nat -> nat -> nat -> nat)
    (pts : list (list XR)) (j : nat) : @interval XR :=
  mkinterval (map (fun t => fin (vtab n (fun i => g t i j))) pts)
    (Some (map (fun k => fin (vtab n (fun i => observed scale (g (nth k pts []) i j) (zr (place k i j)) (sv k j)))) (seq 0 (List.length pts)))).

Theorem propagation_noise chain results model s2 nsample scale us zr theta parind n p g sv :
  stores results theta parind -> fits theta parind chain -> scale <= 2 -> (p = 1 \/ 2 <= n /\ 2 <= p /\ 0 < nsample /\ chain <> []) ->
  (forall row t, In row chain -> holds_row theta parind row t ->
     response (model t) n p (g t) /\ forall i j, i < n -> j < p -> on_scale scale (g t i j)) ->
  variances s2 (List.length chain) p sv -> (forall k j, k < List.length chain -> j < p -> (0 <= sv k j)%R) ->
  exists results' pts place,
    calculate_intervals chain results model s2 nsample scale us (fun i => Fin (zr i)) =
      (results', pts, Ok (if p =? 1 then One (returned scale n g zr sv place pts 0) else Many (map (returned scale n g zr sv place pts) (seq 0 p)))) /\
    Forall2 (holds_row theta parind) (firstn nsample chain) pts /\
    (forall k i j k' i' j', i < n -> i' < n -> j < p -> j' < p -> place k i j = place k' i' j' -> k = k' /\ i = i' /\ j = j').
Proof.
  intros S FT HS HP HM HV PV. destruct (stores_theta _ _ _ S) as [ST SP].
  destruct (variances_read _ _ _ _ HV) as (s2' & EC & EN & ER).
  unfold calculate_intervals. rewrite SP, ST, EC. cbn [bind].
  pose proof (sample_length us nsample (List.length chain)) as [A _]. destruct (define_sample_points us nsample (List.length chain)) as [ix nn].
  cbn [fst] in A. rewrite A. set (m := Nat.min nsample (List.length chain)).
  set (pts := map (pt theta parind chain) (seq 0 m)).
  assert (HF : Forall2 (holds_row theta parind) (firstn nsample chain) pts).
  { rewrite <- (firstn_min chain nsample). fold m. unfold pts. pose proof (items_points theta parind chain m ltac:(unfold m; lia)) as IP.
    apply (f_equal (map (fun x => snd (fst x)))) in IP. rewrite !map_map in IP. cbn [fst snd] in IP. unfold range in IP. unfold pt. rewrite IP.
    apply points_hold, fits_firstn, FT. }
  assert (LP : List.length pts = m) by (unfold pts; now rewrite map_length, seq_length).
  assert (NP : forall k, k < m -> nth k pts [] = pt theta parind chain k).
  { intros k K. unfold pts. rewrite (nth_indep _ [] (pt theta parind chain 0)) by now rewrite map_length, seq_length. rewrite map_nth, seq_nth; auto. }
  destruct HP as [->|(N & P & SN & CN)].
  - destruct (one_loop theta parind chain model zr scale n 1 g s2' sv FT HM HS eq_refl EN ltac:(intros; now apply ER) ltac:(intros; apply PV; lia) m 0 vars0 (mkist theta 0 [])
      ltac:(unfold m; lia) (good_base theta parind) eq_refl eq_refl) as (v' & s' & E & K & M & CI & PI).
    unfold andthen, range. rewrite E. cbn [lift]. eexists _, pts, (fun k i j => k * n + i). split; [|split; auto].
    + rewrite K. cbn [i_calls app]. rewrite map_map. cbn [snd]. rewrite map_ext with (g := pt theta parind chain) by reflexivity. fold pts.
      f_equal. unfold lift. unfold collect. rewrite M, EN. cbn [negb]. rewrite CI, PI. cbn [vars0 v_ci v_pi app]. cbn [Nat.eqb]. unfold returned. do 3 f_equal.
      * unfold pts. now rewrite map_map.
      * rewrite LP. f_equal. apply map_seq_ext. intros k KK. rewrite NP by lia. reflexivity.
    + intros k i j k' i' j' I I' J J' H. pose proof (Nat.div_mod_unique n k k' i i' I I' ltac:(lia)). lia.
  - assert (M0 : 0 < m). { unfold m. destruct chain; [easy|]. cbn [List.length]. lia. }
    destruct (several_loop theta parind chain model zr scale n p g s2' sv FT HM HS (conj N P) EN ltac:(intros; now apply ER) ltac:(intros; apply PV; lia) m 0 vars0 (mkist theta 0 [])
      ltac:(unfold m; lia) (good_base theta parind) eq_refl ltac:(lia)) as (v' & s' & E & K & M).
    cbn [Nat.add] in M. destruct (M M0) as (M1 & M2 & M3). unfold andthen, range. rewrite E. cbn [lift]. eexists _, pts, (fun k i j => k * (n * p) + j * n + i). split; [|split; auto].
    + rewrite K. cbn [i_calls app]. rewrite map_map. cbn [snd]. rewrite map_ext with (g := pt theta parind chain) by reflexivity. fold pts.
      f_equal. unfold lift, collect. rewrite M1, M2, M3. cbn [negb]. replace (p =? 1) with false by (symmetry; apply Nat.eqb_neq; lia).
      rewrite (mapM_tab _ (returned scale n g zr sv (fun k i j => k * (n * p) + j * n + i) pts)); auto.
      intros j J. unfold creds, obss. rewrite !nth_error_seq_map by auto. cbn [of_option bind]. rewrite EN. unfold returned. do 2 f_equal.
      * unfold pts. now rewrite map_map.
      * rewrite LP. f_equal. apply map_seq_ext. intros k KK. rewrite NP by lia. unfold obs. reflexivity.
    + intros k i j k' i' j' I I' J J' H.
      assert (H1 : n * p * k + (n * j + i) = n * p * k' + (n * j' + i')) by nia.
      destruct (Nat.div_mod_unique (n * p) k k' (n * j + i) (n * j' + i')) as [H2 H3]; auto; try nia.
      destruct (Nat.div_mod_unique n j j' i i') as [H4 H5]; auto.
Qed.
