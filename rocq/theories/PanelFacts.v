(** Facts on the panels of plots. *)

From Coq Require Import ZArith QArith Bool Lia List String Arith.
From Verif Require Import Base Num Names ChainFiles ChainStats PlotUtil StatsSpec QuantFacts UtilFacts Panels.
Import ListNotations.
Close Scope Q_scope.
Open Scope list_scope.
Open Scope nat_scope.

(** The name to show for parameter [i]: the one given, or a default one. *)
Definition shown_name (given : option (list string)) (i : nat) : string :=
  match nth_error (match given with Some l => l | None => [] end) i with Some s => s | None => default_name i end.
(** [v] is column [i] of the chain. *)
Definition is_column {F} (ch : list (list F)) (i : nat) (v : list F) : Prop := Forall2 (fun row x => nth_error row i = Some x) ch v.
(** [v] is column [i] of the rows [inds] of the chain. *)
Definition is_rows {F} (ch : list (list F)) (inds : list nat) (i : nat) (v : list F) : Prop :=
  Forall2 (fun k x => exists row, nth_error ch k = Some row /\ nth_error row i = Some x) inds v.
Definition width {F} (n : nat) (ch : list (list F)) : Prop := Forall (fun row => List.length row = n) ch.

Lemma names_nth n given i : i < n -> nth_error (generate_names n given) i = Some (shown_name given i).
Proof.
  intros H. unfold shown_name, generate_names. destruct given as [l|].
  - assert (X : nth_error (extend_names_to_match_nparam (Some l) n) i = Some match nth_error l i with Some s => s | None => default_name i end).
    { unfold extend_names_to_match_nparam. destruct (nth_error l i) as [s|] eqn:E.
      - rewrite nth_error_app1; [exact E|]. apply nth_error_Some. congruence.
      - apply nth_error_None in E. rewrite nth_error_app2 by exact E.
        rewrite (map_nth_error _ _ _ (d := i)); [reflexivity|].
        rewrite (nth_error_nth' _ 0) by (rewrite seq_length; lia). rewrite seq_nth by lia. f_equal. lia. }
    destruct (Nat.eqb_spec (List.length l) n) as [E|E]; [|exact X].
    destruct (nth_error l i) as [s|] eqn:G; [reflexivity|]. apply nth_error_None in G. lia.
  - destruct (names_default n) as [_ L]. rewrite L, Nat.eqb_refl. unfold generate_default_names, range.
    rewrite (map_nth_error _ _ _ (d := i)); [destruct i; reflexivity|].
    rewrite (nth_error_nth' _ 0) by (rewrite seq_length; lia). now rewrite seq_nth by lia.
Qed.

Lemma mapM_rel {A B} (f : A -> res B) (P : A -> B -> Prop) l :
  (forall a, In a l -> exists b, f a = Ok b /\ P a b) -> exists r, mapM f l = Ok r /\ Forall2 P l r.
Proof.
  induction l as [|a l IH]; intros H; cbn [mapM]; [exists []; split; [reflexivity|constructor]|].
  destruct (H a (or_introl eq_refl)) as (b & H1 & H2). rewrite H1. cbn [bind].
  destruct IH as (r & H3 & H4); [intros; apply H; now right|]. rewrite H3. cbn [bind]. exists (b :: r). split; [reflexivity|constructor; assumption].
Qed.

Lemma whole_column_is {F} n (ch : list (list F)) i : width n ch -> i < n -> exists v, whole_column ch i = Ok v /\ is_column ch i v.
Proof.
  intros W H. unfold whole_column. apply mapM_rel. intros row Hr. apply (proj1 (Forall_forall _ _) W) in Hr.
  destruct (nth_error row i) as [x|] eqn:E; [exists x; split; reflexivity|]. apply nth_error_None in E. lia.
Qed.
Lemma some_rows_is {F} n (ch : list (list F)) inds i : width n ch -> Forall (fun k => k < List.length ch) inds -> i < n ->
  exists v, some_rows ch inds i = Ok v /\ is_rows ch inds i v.
Proof.
  intros W I H. unfold some_rows. apply mapM_rel. intros k Hk. apply (proj1 (Forall_forall _ _) I) in Hk.
  destruct (nth_error ch k) as [row|] eqn:R; [|apply nth_error_None in R; lia]. cbn [of_option bind].
  assert (Hr : List.length row = n) by (apply (proj1 (Forall_forall _ _) W); eapply nth_error_In; eauto).
  destruct (nth_error row i) as [x|] eqn:E; [exists x; split; [reflexivity|exists row; auto]|]. apply nth_error_None in E. lia.
Qed.

Lemma room n : 1 <= n -> (ceil_sqrt n - 1) * round_sqrt n < n <= ceil_sqrt n * round_sqrt n.
Proof.
  intros H. unfold ceil_sqrt, round_sqrt. destruct (Nat.sqrt_spec n (Nat.le_0_l n)) as [A B]. set (k := Nat.sqrt n) in *.
  destruct (Nat.eqb_spec (k * k) n), (Nat.leb_spec n (k * k + k)); nia.
Qed.
Lemma subplot_ok r c i : 1 <= i <= r * c -> subplot r c i = Ok tt.
Proof. intros H. unfold subplot. destruct (Nat.leb_spec 1 i), (Nat.leb_spec i (r * c)); try lia. reflexivity. Qed.

(** A grid of [r] rows and [c] columns has room for [n] panels, and no empty row. *)
Definition grid_for (n r c : nat) : Prop := n <= r * c /\ (1 <= n -> (r - 1) * c < n).
(** The panel [p] is number [i] of the grid, filled row by row. *)
Definition in_place {F} (r c i : nat) (p : panel F) : Prop := p_rows p = r /\ p_cols p = c /\ p_at p = i + 1 /\ p_title p = ""%string.

Lemma placed n i : i < n -> 1 <= i + 1 <= ceil_sqrt n * round_sqrt n.
Proof. intros H. pose proof (room n). lia. Qed.
Lemma the_grid n : grid_for n (ceil_sqrt n) (round_sqrt n).
Proof. unfold grid_for. destruct n; [cbn; lia|]. pose proof (room (S n)). lia. Qed.

Lemma density_ok {F} n (ch : list (list F)) names h : width n ch -> exists r c, grid_for n r c /\ exists ps, snd (plot_density_panel n ch names h) = Ok ps /\
  Forall2 (fun i p => in_place r c i p /\ p_xlabel p = shown_name names i /\ p_ylabel p = ("$\pi$(" ++ shown_name names i ++ "$|M^{data}$)")%string /\
    exists v, is_column ch i v /\ p_draw p = (if h then [Histogram v; Density v] else [Density v])) (seq 0 n) ps.
Proof.
  intros W. unfold plot_density_panel, generate_subplot_grid. cbn [snd]. exists (ceil_sqrt n), (round_sqrt n). split; [apply the_grid|]. unfold range. apply mapM_rel. intros i Hi. apply in_seq in Hi as [_ Hi]. cbn in Hi.
  destruct (whole_column_is n ch i W Hi) as (v & H1 & H2). pose proof (placed n i Hi) as P1.
  rewrite H1. cbn [bind]. rewrite subplot_ok by exact P1. cbn [bind]. rewrite names_nth by exact Hi. cbn [of_option bind].
  eexists. split; [reflexivity|]. cbn. split; [repeat split|]. split; [reflexivity|]. split; [reflexivity|]. exists v. split; [exact H2|]. destruct h; reflexivity.
Qed.
Lemma histogram_ok {F} n (ch : list (list F)) names : width n ch -> exists r c, grid_for n r c /\ exists ps, snd (plot_histogram_panel n ch names) = Ok ps /\
  Forall2 (fun i p => in_place r c i p /\ p_xlabel p = shown_name names i /\ exists v, is_column ch i v /\ p_draw p = [Histogram v]) (seq 0 n) ps.
Proof.
  intros W. unfold plot_histogram_panel, generate_subplot_grid. cbn [snd]. exists (ceil_sqrt n), (round_sqrt n). split; [apply the_grid|]. unfold range. apply mapM_rel. intros i Hi. apply in_seq in Hi as [_ Hi]. cbn in Hi.
  destruct (whole_column_is n ch i W Hi) as (v & H1 & H2). pose proof (placed n i Hi) as P1.
  rewrite H1. cbn [bind]. rewrite subplot_ok by exact P1. cbn [bind]. rewrite names_nth by exact Hi. cbn [of_option bind].
  eexists. split; [reflexivity|]. cbn. split; [repeat split|]. split; [reflexivity|]. exists v. split; [exact H2|reflexivity].
Qed.
Lemma chain_ok {F} n (ch : list (list F)) names skip mx inds : width n ch -> setup_subsample skip mx (List.length ch) = Ok inds ->
  Forall (fun k => k < List.length ch) inds -> let (r, c) := generate_subplot_grid n in exists ps, snd (plot_chain_panel n ch names skip mx) = Ok ps /\
  Forall2 (fun i p => in_place r c i p /\ p_ylabel p = shown_name names i /\
    (exists v, is_rows ch inds i v /\ p_draw p = [Trace inds v]) /\
    p_xlabel p = (if i <? (r - 1) * c then ""%string else "Iteration"%string)) (seq 0 n) ps.
Proof.
  intros W S I. unfold plot_chain_panel, generate_subplot_grid. cbn [snd]. rewrite S. cbn [bind]. unfold range. apply mapM_rel. intros i Hi. apply in_seq in Hi as [_ Hi]. cbn in Hi.
  destruct (some_rows_is n ch inds i W I Hi) as (v & H1 & H2). pose proof (placed n i Hi) as P1.
  rewrite H1. cbn [bind]. rewrite subplot_ok by exact P1. cbn [bind]. rewrite names_nth by exact Hi. cbn [of_option bind].
  eexists. split; [reflexivity|]. cbn [p_xlabel p_ylabel p_draw p_rows p_cols]. split; [repeat split|]. split; [reflexivity|].
  split; [exists v; split; [exact H2|reflexivity]|].
  rewrite Nat.mul_sub_distr_r, Nat.mul_1_l.
  destruct (Nat.leb_spec (i + 1) (ceil_sqrt n * round_sqrt n - round_sqrt n)), (Nat.ltb_spec i (ceil_sqrt n * round_sqrt n - round_sqrt n)); try lia; reflexivity.
Qed.

(** ** Pairs *)
(** The panel for the columns [i] and [j]: it is in row [j] - 1 and column [i] of a square grid. *)
Definition shows_pair {F} (n : nat) (ch : list (list F)) (inds : list nat) (name : nat -> string) (ij : nat * nat) (p : panel F) : Prop :=
  let (i, j) := ij in
  p_rows p = n - 1 /\ p_cols p = n - 1 /\ p_at p = (j - 1) * (n - 1) + (i + 1) /\
  (exists x y, is_rows ch inds i x /\ is_rows ch inds j y /\ p_draw p = [Dots x y]) /\
  p_ylabel p = (if i =? 0 then name j else ""%string) /\
  (if n =? 2 then p_xlabel p = name i /\ p_title p = ""%string
   else p_xlabel p = ""%string /\ p_title p = (if i =? j - 1 then name i else ""%string)) /\
  (p_xticks p = true <-> j = n - 1) /\ (p_yticks p = true <-> i = 0).

Lemma pair_ok {F} n (ch : list (list F)) inds names i j : width n ch -> Forall (fun k => k < List.length ch) inds -> i < j < n ->
  exists p, pair_panel n ch (generate_names n names) inds (j + 1) (i + 1) = Ok p /\ shows_pair n ch inds (shown_name names) (i, j) p.
Proof.
  intros W I H. unfold pair_panel. replace (i + 1 - 1) with i by lia. replace (j + 1 - 1) with j by lia. replace (j + 1 - 2) with (j - 1) by lia.
  destruct (some_rows_is n ch inds i W I) as (x & X1 & X2); [lia|]. destruct (some_rows_is n ch inds j W I) as (y & Y1 & Y2); [lia|].
  rewrite X1, Y1. cbn [bind]. rewrite subplot_ok by nia. cbn [bind]. rewrite !names_nth by lia. cbn [of_option].
  assert (E0 : (i + 1 =? 1) = (i =? 0)) by (destruct (Nat.eqb_spec (i + 1) 1), (Nat.eqb_spec i 0); try lia; reflexivity).
  assert (E1 : (i + 1 =? j) = (i =? j - 1)) by (destruct (Nat.eqb_spec (i + 1) j), (Nat.eqb_spec i (j - 1)); try lia; reflexivity).
  rewrite E0, E1.
  destruct (Nat.eqb_spec n 2) as [N|N].
  - assert (i = 0 /\ j = 1) as [-> ->] by lia. cbn [Nat.eqb Nat.sub andb negb bind].
    eexists. split; [reflexivity|]. cbn [shows_pair]. subst n. cbn. repeat split; try lia; auto.
    exists x, y. auto.
  - destruct (Nat.eqb_spec i 0) as [Z|Z], (Nat.eqb_spec i (j - 1)) as [Q|Q]; cbn [andb negb bind].
    all: eexists; split; [reflexivity|]; unfold shows_pair; cbn [p_rows p_cols p_at p_draw p_ylabel p_xlabel p_title p_xticks p_yticks];
      rewrite (proj2 (Nat.eqb_neq n 2) N).
    all: repeat (split; [reflexivity|]).
    all: split; [exists x, y; auto|].
    all: try rewrite (proj2 (Nat.eqb_eq _ _) Z); try rewrite (proj2 (Nat.eqb_neq _ _) Z);
         try rewrite (proj2 (Nat.eqb_eq _ _) Q); try rewrite (proj2 (Nat.eqb_neq _ _) Q).
    all: split; [reflexivity|]; split; [split; reflexivity|].
    all: split; [rewrite Nat.eqb_eq; lia|split; congruence || (intros; lia)].
Qed.

Lemma forall2_right {A B} (P : A -> B -> Prop) : forall l r, Forall2 P l r -> forall b, In b r -> exists a, In a l /\ P a b.
Proof. intros l r H. induction H as [|a b l r H1 H2 IH]; intros x Hx; [destruct Hx|destruct Hx as [->|Hx]; [exists a; split; [now left|exact H1]|]]. destruct (IH x Hx) as (y & U & V). exists y. split; [now right|exact V]. Qed.
Lemma forall2_left {A B} (P : A -> B -> Prop) : forall l r, Forall2 P l r -> forall a, In a l -> exists b, In b r /\ P a b.
Proof. intros l r H. induction H as [|a b l r H1 H2 IH]; intros x Hx; [destruct Hx|destruct Hx as [->|Hx]; [exists b; split; [now left|exact H1]|]]. destruct (IH x Hx) as (y & U & V). exists y. split; [now right|exact V]. Qed.

(** All pairs of the parameters below [n]. *)
Definition all_pairs (n : nat) (l : list (nat * nat)) : Prop := NoDup l /\ forall i j, In (i, j) l <-> i < j < n.
(** In the order in which the panels are drawn. *)
Definition row_of_pairs (j : nat) : list (nat * nat) := map (fun i => (i, j)) (seq 0 j).
Definition pair_list (n : nat) : list (nat * nat) := flat_map row_of_pairs (seq 1 (n - 1)).
Lemma pair_list_all n : all_pairs n (pair_list n).
Proof.
  split.
  - unfold pair_list. generalize (seq_NoDup (n - 1) 1). induction (seq 1 (n - 1)) as [|j l IH]; intros N; [constructor|].
    inversion N as [|? ? N1 N2]; subst. cbn [flat_map].
    assert (G : forall u v : list (nat * nat), NoDup u -> NoDup v -> (forall x, In x u -> ~ In x v) -> NoDup (u ++ v)).
    { induction u as [|a u IHu]; cbn [app]; intros v Nu Nv Dj; auto. inversion Nu; subst. constructor.
      - intros I. apply in_app_or in I as [I|I]; auto. apply (Dj a); auto. now left.
      - apply IHu; auto. intros; apply Dj; now right. }
    apply G; [|apply IH, N2|].
    + apply FinFun.Injective_map_NoDup; [intros a b E; now inversion E|apply seq_NoDup].
    + intros [a b] H1 H2. apply in_map_iff in H1 as (i & H1 & _). inversion H1; subst. apply in_flat_map in H2 as (j' & J & H2).
      apply in_map_iff in H2 as (i' & H2 & _). inversion H2; subst. now apply N1.
  - intros i j. unfold pair_list. rewrite in_flat_map. split.
    + intros (j' & J & H). apply in_seq in J. apply in_map_iff in H as (i' & H & I). apply in_seq in I. inversion H; subst. lia.
    + intros H. exists j. split; [apply in_seq; lia|]. apply in_map_iff. exists i. split; [reflexivity|apply in_seq; lia].
Qed.

Lemma Forall2_concat {A B} (P : A -> B -> Prop) (f : nat -> list A) : forall l r, Forall2 (fun j ps => Forall2 P (f j) ps) l r -> Forall2 P (flat_map f l) (List.concat r).
Proof. intros l r H. induction H; cbn; [constructor|]. now apply Forall2_app. Qed.
Lemma Forall2_map_left {A B C} (P : A -> B -> Prop) (f : C -> A) : forall l r, Forall2 (fun c b => P (f c) b) l r -> Forall2 P (map f l) r.
Proof. intros l r H. induction H; cbn; constructor; auto. Qed.
Lemma seq_up k n : seq (S k) n = map (fun i => i + 1) (seq k n).
Proof. rewrite <- seq_shift. apply map_ext. intros. lia. Qed.
Lemma mapM_map {A B C} (f : B -> res C) (g : A -> B) l : mapM f (map g l) = mapM (fun a => f (g a)) l.
Proof. induction l; cbn; [reflexivity|]. now rewrite IHl. Qed.

Lemma pairs_ok {F} n (ch : list (list F)) names skip mx inds : width n ch -> setup_subsample skip mx (List.length ch) = Ok inds ->
  Forall (fun k => k < List.length ch) inds -> exists ps, snd (plot_pairwise_correlation_panel n ch names skip mx) = Ok ps /\
  Forall2 (shows_pair n ch inds (shown_name names)) (pair_list n) ps.
Proof.
  intros W S I. unfold plot_pairwise_correlation_panel. rewrite S. cbn [snd].
  rewrite (seq_up 1), mapM_map.
  match goal with |- context [mapM ?f (seq 1 (n - 1))] =>
    destruct (mapM_rel f (fun j ps => Forall2 (shows_pair n ch inds (shown_name names)) (row_of_pairs j) ps) (seq 1 (n - 1))) as (r & R1 & R2) end.
  { intros j Hj. apply in_seq in Hj. replace (j + 1 - 1) with j by lia. rewrite (seq_up 0), mapM_map.
    match goal with |- exists b, mapM ?f ?l = _ /\ _ =>
      destruct (mapM_rel f (fun i p => shows_pair n ch inds (shown_name names) (i, j) p) l) as (q & Q1 & Q2) end.
    { intros i Hi. apply in_seq in Hi. apply pair_ok; auto. lia. }
    exists q. split; [exact Q1|]. apply Forall2_map_left, Q2. }
  rewrite R1. cbn [bind]. eexists. split; [reflexivity|]. apply Forall2_concat, R2.
Qed.

(** Different pairs are in different places. *)
Lemma places_apart n i j i' j' : i < j < n -> i' < j' < n -> (j - 1) * (n - 1) + (i + 1) = (j' - 1) * (n - 1) + (i' + 1) -> i = i' /\ j = j'.
Proof.
  intros H H' E. assert (j - 1 = j' - 1).
  { destruct (Nat.lt_trichotomy (j - 1) (j' - 1)) as [L|[L|L]]; [exfalso|exact L|exfalso]; nia. }
  nia.
Qed.
Lemma nodup_places {F} n (ch : list (list F)) inds nm : forall l ps, Forall2 (shows_pair n ch inds nm) l ps -> NoDup l -> (forall i j, In (i, j) l -> i < j < n) ->
  NoDup (map (@p_at F) ps).
Proof.
  intros l ps H. induction H as [|[i j] p l ps H1 H2 IH]; intros N R; cbn [map]; [constructor|]. inversion N as [|? ? N1 N2]; subst. constructor.
  - intros I. apply in_map_iff in I as (q & E & Q).
    assert (X : exists ij, In ij l /\ shows_pair n ch inds nm ij q).
    { clear -H2 Q. induction H2 as [|a b l m A B IH]; [destruct Q|]. destruct Q as [->|Q]; [exists a; split; [now left|exact A]|].
      destruct (IH Q) as (ij & U & V). exists ij. split; [now right|exact V]. }
    destruct X as ([i' j'] & U & V). destruct H1 as (_ & _ & H1 & _). destruct V as (_ & _ & V & _). rewrite H1, V in E.
    destruct (places_apart n i' j' i j) as [-> ->]; [apply R; now right|apply R; now left|exact E|]. now apply N1.
  - apply IH; [exact N2|]. intros; apply R; now right.
Qed.
