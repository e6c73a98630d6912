(** Reading log files back: pymcmcstat/chain/ChainProcessing.py.

    Left out: [print_log_files] (lines 15-51, printing), the listing of directory contents by
    [read_in_savedir_files] (its variable [bf] is never used), warnings and printed messages. *)

From Coq Require Import ZArith QArith Qround Bool Lia List String.
From Verif Require Import Base Num Settings Simulator Names.
Import ListNotations.
Close Scope Q_scope.
Open Scope list_scope.
Open Scope nat_scope.
Open Scope res_scope.

(** MCMC.py 522, 552: the name of a dataset, 'nsimu_{}_{}'. *)
Definition dataset_name (a b : nat) : string := ("nsimu_" ++ dec a ++ "_" ++ dec b)%string.

(** chain/ChainProcessing.py 267-269 *)
Fixpoint mapM {A B} (f : A -> res B) (l : list A) : res (list B) :=
  match l with
  | [] => Ok []
  | x :: t => let* y := f x in let* r := mapM f t in Ok (y :: r)
  end.

(** chain/ChainProcessing.py 264, 245.  Insertion sort on a string key: h5py lists the members of a file in the order of
    their names
    (byte order), and list.sort() orders strings in the same way. *)
Fixpoint insert_by {A} (key : A -> string) (x : A) (l : list A) : list A :=
  match l with
  | [] => [x]
  | y :: t => if String.leb (key x) (key y) then x :: l else y :: insert_by key x t
  end.
(** chain/ChainProcessing.py 264, 245 *)
Definition sort_by {A} (key : A -> string) (l : list A) : list A := fold_right (insert_by key) [] l.

Section ChainFiles.
Context {F : Type} `{NF : Num F}.

(** chain/ChainProcessing.py 281: numpy's [out[a:b, :] = r] for [a <= b]: rows are clipped at the end of the array; one row is
    repeated; a single column is repeated; any other difference in shape raises ValueError. *)
Definition assign_rows (a b : nat) (r out : list (list F)) (nc : nat) : res (list (list F)) :=
  let t := Nat.min b (List.length out) - Nat.min a (List.length out) in
  let* rows := mapM (fit_row nc) r in
  let* rows := (if List.length rows =? t then Ok rows
                else match rows with [x] => Ok (repeat x t) | _ => Err ValueError end) in
  Ok (firstn a out ++ rows ++ skipn (a + t) out).

(** chain/ChainProcessing.py 274-281: [a] and [b] both advance by the number of rows of the previous dataset. *)
Fixpoint fill_sets (a b nc : nat) (prev : option nat) (ds : list (list (list F))) (out : list (list F))
  : res (list (list F)) :=
  match ds with
  | [] => Ok out
  | r :: t =>
      let '(a', b') := match prev with None => (0, List.length r) | Some k => (a + k, b + k) end in
      let* out' := assign_rows a' b' r out nc in
      fill_sets a' b' nc (Some (List.length r)) t out'
  end.

(** chain/ChainProcessing.py 249-290, from the datasets of a file in order of creation.  Any exception gives the empty list;
    an absent file or a file without datasets does as well. *)
Definition read_in_bin_file (sets : list (nat * nat * list (list F))) : list (list F) :=
  let ds := map snd (sort_by (fun e => dataset_name (fst (fst e)) (snd (fst e))) sets) in
  match ds with
  | [] => []
  | r :: _ =>
      match fill_sets 0 0 (ncols r) None ds
              (repeat (repeat n0 (ncols r)) (fold_right (fun x k => List.length x + k) 0 ds)) with
      | Ok out => out
      | Err _ => []
      end
  end.

(** chain/ChainProcessing.py 293-315.  The conversion of numbers to decimal text and back is not modelled: the values read are
    taken to be the values written.  [np.loadtxt] drops dimensions of size one; the result here keeps them. *)
Definition read_in_txt_file (rows : list (list F)) : list (list F) := rows.

(** chain/ChainProcessing.py 136-178: the four logs of a directory after the operations [l], ((chain, sschain), (s2chain,
    covchain)). *)
Definition read_in_savedir_files (h5 : bool) (dir chainfile sschainfile s2chainfile covchainfile : string) (l : fs F) :=
  let get f := if h5 then read_in_bin_file (h5_sets (dir, f, "h5"%string) l)
               else read_in_txt_file (txt_rows (dir, f, "txt"%string) l) in
  ((get chainfile, get sschainfile), (get s2chainfile, get covchainfile)).

(** chain/ChainProcessing.py 391, 415: [int(nsimu*pct/100)] for a percentage >= 0 is the quotient rounded down
    (the division is a float division in the source; exact here). *)
Definition burnin (nsimu : nat) (pct : Q) : nat := Z.to_nat (Qfloor (inject_Z (Z.of_nat nsimu) * pct / 100)).

(** chain/ChainProcessing.py 402-417, each result given by its ['nsimu'] and ['chain'] *)
Definition generate_chain_list (pct : Q) (pres : list (nat * list (list F))) : list (list (list F)) :=
  map (fun pr => skipn (burnin (fst pr) pct) (snd pr)) pres.

(** chain/ChainProcessing.py 389-397; [concatenate] needs equal widths.  With an empty [pres] the name [combined_chain] is
    unbound. *)
Fixpoint combine_loop (pct : Q) (ii : nat) (pres : list (nat * list (list F))) (acc : option (list (list F))) (index : list string)
  : res (list (list F) * list string) :=
  match pres with
  | [] => match acc with Some c => Ok (c, index) | None => Err UnboundLocal end
  | pr :: t =>
      let part := skipn (burnin (fst pr) pct) (snd pr) in
      let* acc' := (match acc with
                    | None => Ok part
                    | Some c => if (ncols (snd pr) =? ncols c) || (List.length c =? 0) || (List.length part =? 0)
                                then Ok (c ++ part) else Err ValueError
                    end) in
      combine_loop pct (S ii) t (Some acc') (index ++ repeat ("Chain " ++ dec ii)%string (List.length part))
  end.
(** chain/ChainProcessing.py 378-398 *)
Definition generate_combined_chain_with_index (pct : Q) (pres : list (nat * list (list F))) :=
  combine_loop pct 0 pres None [].

(** chain/ChainProcessing.py 242: the directories whose name contains 'chain_', in string order. *)
Fixpoint contains (sub s : string) : bool :=
  String.prefix sub s || match s with EmptyString => false | String _ t => contains sub t end.
(** chain/ChainProcessing.py 229-246 *)
Definition check_parallel_directory_contents (dirs : list string) : list string :=
  sort_by (fun x => x) (filter (contains "chain_") dirs).
End ChainFiles.
