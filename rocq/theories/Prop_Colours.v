(** C73 and C74: limits, colours and outlines of the bands of propagation.py. *)

From Coq Require Import ZArith QArith Bool Lia List String Sorted Permutation.
From Verif Require Import Base Num ChainFiles PlotUtil Propagation Colours BandFacts ColourFacts.
Import ListNotations.
Close Scope Q_scope.
Open Scope list_scope.
Open Scope nat_scope.

(** The list of limits that a set of interval settings ends up with. *)
Definition limits_object (deflt : nat) (s : iset) : nat := match is_limits s with Some r => r | None => deflt end.

(** * C73 *)

(** Whatever the settings, there is one band for each limit of the list in descending order, with the label and the
    quantiles of its limit; the i-th colour given goes to the i-th limit of that order if there are as many colours as
    limits, and otherwise a band has the colour of the map at its own limit, scaled by the least and greatest limit. The
    lists of limits have been sorted in place, and no other list is touched.
    Missing: that the i-th colour given goes to the i-th limit given (see the refutation below). *)
Theorem C73_bands_and_colours_partial : forall fmt objs deflt ciset piset,
  let ci := limits_object deflt ciset in
  let pi := limits_object deflt piset in
  objs ci <> [] -> objs pi <> [] ->
  exists pb cb objs', band_settings fmt objs deflt ciset piset = Ok (pb, cb, objs') /\
    (forall q, Permutation (objs q) (objs' q) /\
               (q = ci \/ q = pi -> StronglySorted (fun a b => (b <= a)%Q) (objs' q)) /\
               (q <> ci -> q <> pi -> objs' q = objs q)) /\
    bands_are fmt "CI" (objs' ci) (match is_cmap ciset with Some m => m | None => "autumn"%string end) (is_colors ciset) cb /\
    bands_are fmt "PI" (objs' pi) (match is_cmap piset with Some m => m | None => "winter"%string end) (is_colors piset) pb.
Proof.
  intros fmt objs deflt ciset piset ci pi Hc Hp.
  destruct (settings_spec fmt objs deflt ciset piset Hc Hp) as (pb & cb & o & H1 & H2 & H3 & H4).
  exists pb, cb, o. split; [exact H1|]. split; [|split; [exact H3|exact H4]].
  intros q. destruct (H2 q) as (A & B & C & _). auto.
Qed.
Print Assumptions C73_bands_and_colours_partial.

(** With limits already in descending order and as many colours, every limit has the colour given for it, and the
    caller's lists are left as they are. *)
Theorem C73_descending_limits : forall fmt objs deflt ciset piset cs,
  let ci := limits_object deflt ciset in
  let pi := limits_object deflt piset in
  objs ci <> [] -> objs pi <> [] ->
  StronglySorted (fun a b => (b <= a)%Q) (objs ci) -> StronglySorted (fun a b => (b <= a)%Q) (objs pi) ->
  is_colors ciset = Some cs -> List.length cs = List.length (objs ci) ->
  exists pb cb objs', band_settings fmt objs deflt ciset piset = Ok (pb, cb, objs') /\
    (forall q, objs' q = objs q) /\ List.length cb = List.length (objs ci) /\
    forall i l name, nth_error (objs ci) i = Some l -> nth_error cs i = Some name ->
      exists b, nth_error cb i = Some b /\ b_label b = (fmt l ++ "% CI")%string /\ b_colour b = Given name.
Proof.
  intros fmt objs deflt ciset piset cs ci pi Hc Hp Sc Sp Hcs HL.
  destruct (settings_spec fmt objs deflt ciset piset Hc Hp) as (pb & cb & o & H1 & H2 & H3 & H4).
  change (afterwards objs o ci pi) in H2. change (bands_are fmt "CI" (o ci) (setup_default_cmap (is_cmap ciset) true) (is_colors ciset) cb) in H3.
  assert (E : forall q, o q = objs q).
  { intros q. destruct (H2 q) as (_ & _ & C & D). destruct (Nat.eq_dec q ci) as [->|Nc]; [now apply D|].
    destruct (Nat.eq_dec q pi) as [->|Np]; [now apply D|now apply C]. }
  exists pb, cb, o. split; [exact H1|]. split; [exact E|]. destruct H3 as [L3 B3]. rewrite E in *. split; [exact L3|].
  intros i l name Hl Hn. destruct (B3 i l Hl) as (b & B1 & B2 & _ & B4). exists b. split; [exact B1|]. split; [exact B2|].
  rewrite Hcs in B4. unfold colour_of in B4. rewrite HL, Nat.eqb_refl in B4. destruct B4 as (nm & N1 & ->). congruence.
Qed.
Print Assumptions C73_descending_limits.

(** Without a limit there is no figure but a ValueError. *)
Theorem C73_no_limits : forall fmt objs deflt ciset piset,
  objs (limits_object deflt ciset) = [] \/ objs (limits_object deflt piset) = [] ->
  band_settings fmt objs deflt ciset piset = Err ValueError.
Proof. exact settings_empty. Qed.
Print Assumptions C73_no_limits.

(** The full statement is false: limits [50, 90] (the docstring's example, line 156) with the colours red and green put
    red on the 90% band, and the caller's list becomes [90, 50]. *)
Theorem C73_refuted_colour_of_given_limit : exists objs ciset piset r cs,
  is_limits ciset = Some r /\ is_colors ciset = Some cs /\ objs r = [50; 90]%Q /\ cs = ["red"; "green"]%string /\
  forall fmt, exists pb cb objs' b, band_settings fmt objs 0 ciset piset = Ok (pb, cb, objs') /\ In b cb /\
    b_label b = (fmt 90%Q ++ "% CI")%string /\ b_colour b = Given "red" /\ objs' r = [90; 50]%Q.
Proof.
  exists (fun q => if q =? 1 then [50; 90]%Q else [95]%Q), (mkiset (Some 1) None (Some ["red"; "green"]%string)),
         (mkiset None None None), 1, ["red"; "green"]%string.
  do 4 (split; [reflexivity|]). intros fmt. cbv [band_settings]. cbn [is_limits is_cmap is_colors].
  do 4 eexists. split; [reflexivity|]. split; [left; reflexivity|]. repeat split; reflexivity.
Qed.
Print Assumptions C73_refuted_colour_of_given_limit.

(** Three descending limits with three colours for the credible intervals, and three limits in the order 50, 99, 90 with
    the colour map for the prediction intervals. *)
Definition objs_ex (q : nat) : list Q := if q =? 1 then [99; 90; 50]%Q else if q =? 2 then [50; 99; 90]%Q else [95]%Q.
Definition ciset_ex : iset := mkiset (Some 1) None (Some ["a"; "b"; "c"]%string).
Definition piset_ex : iset := mkiset (Some 2) (Some "cool"%string) (Some ["x"]%string).
Definition fmt_ex (q : Q) : string := if Qle_bool 99 q then "99"%string else if Qle_bool 90 q then "90"%string else "50"%string.
Example C73_case :
  objs_ex (limits_object 0 ciset_ex) <> [] /\ objs_ex (limits_object 0 piset_ex) <> [] /\
  StronglySorted (fun a b => (b <= a)%Q) (objs_ex (limits_object 0 ciset_ex)) /\
  match band_settings fmt_ex objs_ex 0 ciset_ex piset_ex with
  | Ok (pb, cb, o) =>
      map b_label cb = ["99% CI"; "90% CI"; "50% CI"]%string /\ map b_colour cb = [Given "a"; Given "b"; Given "c"] /\
      map b_label pb = ["99% PI"; "90% PI"; "50% PI"]%string /\
      map b_colour pb = [Mapped "cool" 50 99 99; Mapped "cool" 50 99 90; Mapped "cool" 50 99 50] /\
      o 2 = [99; 90; 50]%Q /\ o 0 = [95]%Q
  | Err _ => False
  end.
Proof.
  split; [discriminate|]. split; [discriminate|]. split.
  - repeat constructor; unfold Qle; cbn; lia.
  - vm_compute. repeat split; reflexivity.
Qed.

(** * C74 *)

(** The outline of a band in three dimensions goes along its lower edge and back along its upper edge: corner [k] is at the
    k-th point of the plane and the lower edge there, and corner [k] from the end at the same point and the upper edge. *)
Theorem C74_outline : forall (A : Type) (time1 time2 lower upper : list A),
  let n := List.length time1 in
  List.length time2 = n -> List.length lower = n -> List.length upper = n ->
  exists corners, outline time1 time2 lower upper = Ok corners /\ List.length corners = 2 * n /\
    forall k a b l u, nth_error time1 k = Some a -> nth_error time2 k = Some b ->
      nth_error lower k = Some l -> nth_error upper k = Some u ->
      nth_error corners k = Some (a, b, l) /\ nth_error corners (2 * n - 1 - k) = Some (a, b, u).
Proof. intros A. exact outline_spec. Qed.
Print Assumptions C74_outline.

(** Intervals at fewer points than the times given are refused, not drawn over the wrong points. *)
Theorem C74_too_few_points : forall (A : Type) (time1 time2 lower upper : list A),
  List.length time2 = List.length time1 -> List.length upper < List.length time1 ->
  outline time1 time2 lower upper = Err IndexError.
Proof.
  intros A t1 t2 lo up H1 H2. unfold outline.
  destruct (reversed_ok (List.length t1) t1 ltac:(lia)) as (r1 & -> & _).
  destruct (reversed_ok (List.length t1) t2 ltac:(lia)) as (r2 & -> & _).
  now rewrite reversed_fails.
Qed.
Print Assumptions C74_too_few_points.

Example C74_case :
  outline [1; 2; 3] [4; 5; 6] [10; 11; 12] [20; 21; 22] =
    Ok [(1, 4, 10); (2, 5, 11); (3, 6, 12); (3, 6, 22); (2, 5, 21); (1, 4, 20)] /\
  outline [1; 2; 3] [4; 5; 6] [10; 11] [20; 21] = Err IndexError.
Proof. split; reflexivity. Qed.
