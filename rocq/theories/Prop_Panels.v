(** Properties of the panels of plots. *)

From Coq Require Import ZArith QArith Bool Lia List String Arith.
From Verif Require Import Base Num Names ChainFiles ChainStats PlotUtil UtilFacts OpeningFacts Panels PanelFacts Demo.
Import ListNotations.
Close Scope Q_scope.
Open Scope list_scope.
Open Scope nat_scope.

Lemma subsample_inside skip mx nsimu inds : setup_subsample skip mx nsimu = Ok inds -> Forall (fun k => k < nsimu) inds.
Proof.
  intros H. destruct (subsample_stride _ _ _ _ H) as (_ & A & _). apply Forall_forall. intros k Hk.
  apply (In_nth _ _ 0) in Hk as (i & L & <-). destruct (A i L) as [-> B]. exact B.
Qed.

(** ** C83: panels *)

(** One panel for each parameter, filled into the grid in order, with the whole chain of the parameter and its name. *)
Theorem C83_density_panels :
  forall F n (chains : list (list F)) names hist_on, width n chains ->
  exists r c, grid_for n r c /\ exists ps, snd (plot_density_panel n chains names hist_on) = Ok ps /\
  Forall2 (fun i p => in_place r c i p /\ p_xlabel p = shown_name names i /\ p_ylabel p = ("$\pi$(" ++ shown_name names i ++ "$|M^{data}$)")%string /\
    exists v, is_column chains i v /\ p_draw p = (if hist_on then [Histogram v; Density v] else [Density v])) (seq 0 n) ps.
Proof. intros. now apply density_ok. Qed.
Print Assumptions C83_density_panels.

Theorem C83_histogram_panels :
  forall F n (chains : list (list F)) names, width n chains ->
  exists r c, grid_for n r c /\ exists ps, snd (plot_histogram_panel n chains names) = Ok ps /\
  Forall2 (fun i p => in_place r c i p /\ p_xlabel p = shown_name names i /\ exists v, is_column chains i v /\ p_draw p = [Histogram v]) (seq 0 n) ps.
Proof. intros. now apply histogram_ok. Qed.
Print Assumptions C83_histogram_panels.

(** The chain panels show the rows that were picked, against their numbers. *)
Theorem C83_chain_panels :
  forall F n (chains : list (list F)) names skip maxpoints inds, width n chains ->
  setup_subsample skip maxpoints (List.length chains) = Ok inds ->
  exists r c, grid_for n r c /\ exists ps, snd (plot_chain_panel n chains names skip maxpoints) = Ok ps /\
  Forall2 (fun i p => in_place r c i p /\ p_ylabel p = shown_name names i /\ exists v, is_rows chains inds i v /\ p_draw p = [Trace inds v]) (seq 0 n) ps.
Proof.
  intros F n ch names skip mx inds W S. destruct (chain_ok n ch names skip mx inds W S (subsample_inside _ _ _ _ S)) as (ps & H1 & H2).
  exists (ceil_sqrt n), (round_sqrt n). split; [apply the_grid|]. exists ps. split; [exact H1|]. eapply forall2_weaken; [|exact H2]. cbn. intros i p (A & B & C & D). auto.
Qed.
Print Assumptions C83_chain_panels.

(** One panel for each pair of parameters, all in different places of the grid.  The panel of [i] < [j] is in row [j] - 1 and
    column [i], shows the same rows of both, and the names are beside the row, and above the column or, if there is one panel, below it. *)
Theorem C83_pair_panels :
  forall F n (chains : list (list F)) names skip maxpoints inds, width n chains ->
  setup_subsample skip maxpoints (List.length chains) = Ok inds ->
  exists pairs ps, snd (plot_pairwise_correlation_panel n chains names skip maxpoints) = Ok ps /\
  all_pairs n pairs /\ Forall2 (shows_pair n chains inds (shown_name names)) pairs ps /\ NoDup (map (@p_at F) ps).
Proof.
  intros F n ch names skip mx inds W S. destruct (pairs_ok n ch names skip mx inds W S (subsample_inside _ _ _ _ S)) as (ps & H1 & H2).
  destruct (pair_list_all n) as [N A]. exists (pair_list n), ps. split; [exact H1|]. split; [split; assumption|]. split; [exact H2|].
  eapply nodup_places; [exact H2|exact N|]. intros i j I. now apply A.
Qed.
Print Assumptions C83_pair_panels.

(** A list of names that is too short is not only completed for the plot: the list of the caller is. *)
Theorem C83_names_of_the_caller :
  forall F n (chains : list (list F)) given hist_on, List.length given < n ->
  exists added, fst (plot_density_panel n chains (Some given) hist_on) = given ++ added /\ added <> [] /\
    fst (plot_histogram_panel n chains (Some given)) = given ++ added.
Proof.
  intros F n ch given h L. unfold plot_density_panel, plot_histogram_panel, generate_subplot_grid. cbn [fst].
  destruct (names_generated n (Some given)) as (added & E & K & _). exists added. rewrite E in *. rewrite app_length in K.
  split; [reflexivity|]. split; [|reflexivity]. intros ->. cbn in K. lia.
Qed.
Print Assumptions C83_names_of_the_caller.

(** ** C84: labels of chain plots

    [beneath p q]: the panel [q] is just below the panel [p]. *)
Definition beneath {F} (p q : panel F) : Prop := p_at q = p_at p + p_cols p.


Theorem C84_label_of_the_last_row_partial :
  forall F n (chains : list (list F)) names skip maxpoints ps, width n chains ->
  snd (plot_chain_panel n chains names skip maxpoints) = Ok ps ->
  exists r c, grid_for n r c /\
  Forall (fun p => (p_xlabel p = "Iteration"%string <-> (r - 1) * c < p_at p) /\
                   (p_xlabel p = "Iteration"%string -> forall q, In q ps -> ~ beneath p q) /\
                   (n = r * c -> (forall q, In q ps -> ~ beneath p q) -> p_xlabel p = "Iteration"%string)) ps.
Proof.
  intros F n ch names skip mx ps W H.
  destruct (setup_subsample skip mx (List.length ch)) as [inds|e] eqn:S.
  2:{ unfold plot_chain_panel, generate_subplot_grid in H. cbn [snd] in H. rewrite S in H. discriminate. }
  destruct (chain_ok n ch names skip mx inds W S (subsample_inside _ _ _ _ S)) as (ps' & H1 & H2). rewrite H in H1. injection H1 as <-.
  destruct (the_grid n) as [G1 G2]. set (r := ceil_sqrt n) in *. set (c := round_sqrt n) in *. exists r, c. split; [split; assumption|].
  assert (Of : forall q, In q ps -> exists i, i < n /\ in_place r c i q /\ p_xlabel q = (if i <? (r - 1) * c then ""%string else "Iteration"%string)).
  { intros q Hq. destruct (forall2_right _ _ _ H2 q Hq) as (i & I & A & _ & _ & D). apply in_seq in I. exists i. split; [lia|]. auto. }
  assert (Ex : forall k, k < n -> exists q, In q ps /\ p_at q = k + 1).
  { intros k Hk. destruct (forall2_left _ _ _ H2 k) as (q & Q & (_ & _ & A & _) & _); [apply in_seq; lia|]. eauto. }
  apply Forall_forall. intros p Hp. destruct (Of p Hp) as (i & Hi & (P1 & P2 & P3 & _) & E). unfold beneath. rewrite P2, P3, E.
  assert (G3 : (r - 1) * c < n) by (apply G2; lia).
  destruct (Nat.ltb_spec i ((r - 1) * c)) as [L|L].
  - split; [split; [discriminate|intros; lia]|]. split; [discriminate|]. intros Hn No. exfalso.
    destruct (Ex (i + c)) as (q & Q1 & Q2). { destruct r; [cbn in L; lia|]. cbn [Nat.sub] in L. rewrite Nat.sub_0_r in L. cbn in Hn. lia. }
    apply (No q Q1). lia.
  - split; [split; [lia|reflexivity]|]. split; [|reflexivity]. intros _ q Hq Hb. destruct (Of q Hq) as (k & Hk & (_ & _ & Q3 & _) & _).
    destruct r; [cbn in G1; lia|]. cbn [Nat.sub] in L. rewrite Nat.sub_0_r in L. cbn in G1. lia.
Qed.
Print Assumptions C84_label_of_the_last_row_partial.

(** If the last row of the grid is not full, there is a column of panels without the label. *)
Theorem C84_refuted_label_of_each_column :
  forall F n (chains : list (list F)) names skip maxpoints ps, width n chains ->
  snd (plot_chain_panel n chains names skip maxpoints) = Ok ps ->
  fst (generate_subplot_grid n) * snd (generate_subplot_grid n) <> n ->
  exists p, In p ps /\ (forall q, In q ps -> ~ beneath p q) /\ p_xlabel p <> "Iteration"%string.
Proof.
  intros F n ch names skip mx ps W H Hf.
  destruct (setup_subsample skip mx (List.length ch)) as [inds|e] eqn:Sub.
  2:{ unfold plot_chain_panel, generate_subplot_grid in H. cbn [snd] in H. rewrite Sub in H. discriminate. }
  destruct (chain_ok n ch names skip mx inds W Sub (subsample_inside _ _ _ _ Sub)) as (ps' & H1 & H2). rewrite H in H1. injection H1 as <-.
  destruct (the_grid n) as [G1 G2]. cbn [generate_subplot_grid fst snd] in Hf.
  destruct n as [|[|n]]; [now elim Hf|now elim Hf|]. set (m := S (S n)) in *.
  assert (R : 2 <= ceil_sqrt m /\ 1 <= round_sqrt m).
  { unfold ceil_sqrt, round_sqrt. destruct (Nat.sqrt_spec m (Nat.le_0_l m)) as [A B]. set (k := Nat.sqrt m) in *.
    assert (1 <= k) by (destruct k; [unfold m in B; cbn in B; lia|lia]).
    destruct (Nat.eqb_spec (k * k) m), (Nat.leb_spec m (k * k + k)); try lia; destruct k as [|[|k]]; unfold m in *; try lia. }
  specialize (G2 ltac:(unfold m; lia)). set (r := ceil_sqrt m) in *. set (c := round_sqrt m) in *.
  assert (K : (r - 1) * c >= 1) by nia.
  destruct (forall2_left _ _ _ H2 ((r - 1) * c - 1)) as (p & P & (P1 & P2 & P3 & _) & _ & _ & E); [apply in_seq; lia|].
  exists p. split; [exact P|]. split.
  - intros q Hq Hb. unfold beneath in Hb. destruct (forall2_right _ _ _ H2 q Hq) as (i & I & (_ & _ & Q & _) & _). apply in_seq in I.
    rewrite P2, P3, Q in Hb. assert (r * c = (r - 1) * c + c) by nia. lia.
  - rewrite E. destruct (Nat.ltb_spec ((r - 1) * c - 1) ((r - 1) * c)); [discriminate|lia].
Qed.
Print Assumptions C84_refuted_label_of_each_column.

(** The plot of a single chain shows the name given; an empty name fails. *)
Theorem C84_name_of_the_chain :
  forall F (chain : list F) name,
  (name <> ""%string -> exists p q, plot_chain_metrics chain (Some name) = Ok (("Chain metrics for " ++ name)%string, [p; q]) /\
    p_ylabel p = (name ++ "-chain")%string /\ p_xlabel q = name /\ p_ylabel q = ("Histogram of " ++ name ++ "-chain")%string /\ p_xlabel p = "Iterations"%string /\
    p_at p = 1 /\ p_at q = 2 /\ p_draw p = [Trace (seq 0 (List.length chain)) chain] /\ p_draw q = [Histogram chain]) /\
  plot_chain_metrics chain (Some ""%string) = Err AttributeError.
Proof.
  intros F chain name. split; [|reflexivity]. intros H. unfold plot_chain_metrics, metrics_name.
  destruct name as [|a s]; [congruence|]. destruct (Nat.eqb_spec (String.length (String a s)) 1); [|cbn [String.length Nat.sub Nat.eqb]].
  all: do 2 eexists; split; [reflexivity|]; repeat split.
Qed.
Print Assumptions C84_name_of_the_chain.

(** Without a name the title shows a list, with brackets and quotes, in place of the default name. *)
Theorem C84_refuted_default_name :
  forall F (chain : list F), exists title panels, plot_chain_metrics chain None = Ok (title, panels) /\
  title = "Chain metrics for ['$p_{0}$']"%string /\ title <> ("Chain metrics for " ++ default_name 0)%string.
Proof. intros F chain. do 2 eexists. split; [reflexivity|]. split; [reflexivity|]. vm_compute. discriminate. Qed.
Print Assumptions C84_refuted_default_name.

Definition three_chains : list (list XQ) := [[qx 1; qx 2; qx 3]; [qx 4; qx 5; qx 6]; [qx 7; qx 8; qx 9]; [qx 1; qx 1; qx 1]].
Example C83_case : width 3 three_chains /\ setup_subsample 2 10 (List.length three_chains) = Ok [0; 2] /\ List.length ["a"%string] < 3 /\
  (exists a b c, snd (plot_pairwise_correlation_panel 3 three_chains (Some ["a"%string]) 2 10) = Ok [a; b; c] /\
    p_at b = 3 /\ p_draw b = [Dots [qx 1; qx 7] [qx 3; qx 9]] /\ p_ylabel b = "$p_{2}$"%string /\ p_title c = "$p_{1}$"%string) /\
  exists ps, snd (plot_density_panel 3 three_chains (Some ["a"%string]) true) = Ok ps /\ map (@p_xlabel XQ) ps = ["a"; "$p_{1}$"; "$p_{2}$"]%string.
Proof.
  split; [repeat constructor|]. split; [reflexivity|]. split; [cbn; lia|]. split.
  - do 3 eexists. split; [reflexivity|]. repeat split.
  - eexists. split; reflexivity.
Qed.
Example C84_case : width 3 three_chains /\ fst (generate_subplot_grid 3) * snd (generate_subplot_grid 3) <> 3 /\ "b"%string <> ""%string /\
  exists ps, snd (plot_chain_panel 3 three_chains None 1 10) = Ok ps /\ map (@p_at XQ) ps = [1; 2; 3] /\
    map (@p_cols XQ) ps = [2; 2; 2] /\ map (@p_xlabel XQ) ps = [""; ""; "Iteration"]%string.
Proof. split; [repeat constructor|]. split; [discriminate|]. split; [discriminate|]. eexists. split; [reflexivity|]. repeat split. Qed.
