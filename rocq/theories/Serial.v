(** Model of the loading of the results of a serial run: chain/ChainProcessing.py 56-96. *)

From Coq Require Import ZArith QArith Bool List String.
From Verif Require Import Base Num Samplers Adapt Settings Simulator Names ChainFiles Results Parallel.
Import ListNotations.
Close Scope Q_scope.
Open Scope list_scope.
Open Scope nat_scope.
Open Scope res_scope.

(** chain/ChainProcessing.py 73: [item.endswith('.json')] *)
Fixpoint ends_with (suf s : string) : bool :=
  String.eqb suf s || match s with EmptyString => false | String _ t => ends_with suf t end.

Section Serial.
Context {F : Type} `{NF : Num F}.

(** chain/ChainProcessing.py 71-75: the first item of the directory listing with that extension replaces the file asked for. *)
Definition results_file_to_load (items : list string) (json_file : option string) : option string :=
  match find (ends_with ".json") items with Some i => Some i | None => json_file end.

(** chain/ChainProcessing.py 56-96.  [items] is the listing of the directory, [json f] the content of the file [f] in it if
    there is such a file, [out] what read_in_savedir_files returns.  The comparison of the chain with the empty list, which
    decides about a warning, is left out. *)
Definition load_serial_simulation_results (items : list string) (json_file : option string)
    (json : string -> option (pydict F)) (out : logs (F := F)) : res (pydict F) :=
  let* results := match results_file_to_load items json_file with
                  | Some f => of_option FileNotFound (json f)
                  | None => Ok []
                  end in
  let results := map (fun e => (fst e, to_array (snd e))) results in
  if existsb (fun k => String.eqb k "chain"%string) (map fst results) then Ok results
  else Ok (setkey "covchain"%string (PMat (snd (snd out)))
          (setkey "s2chain"%string (PMat (fst (snd out)))
          (setkey "sschain"%string (PMat (snd (fst out)))
          (setkey "chain"%string (PMat (fst (fst out))) results)))).
End Serial.
