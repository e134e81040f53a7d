(* The blocks of a PandA, the names they are found by, and how changes reach them:
   pandablocks/controllers/pandamanagercontroller.py 160-202, 288-312. *)
From Coq Require Import String Bool Arith List.
From Verif Require Import Base Hdf_Model PField_Model.
Import ListNotations.
Local Open Scope string_scope.
Local Open Scope list_scope.
Local Open Scope nat_scope.

(* get_blocks_data (pandablocksclient.py 241-289): for each root its number of blocks and, for each field, its
   type.  The other data of the fields is left out. *)
Definition blocks_data := dict (nat * dict string).

(* block_names: pandamanagercontroller.py 167-172. *)
Definition block_names (root : string) (number : nat) : list string :=
  if Nat.eqb number 1 then [root] else map (fun i => root +++ str (i + 1)) (seq 0 number).
(* What is put in _child_controllers for one root, in order; the controllers are named by the block that they
   are of: pandamanagercontroller.py 173-187. *)
Definition entries (root : string) (number : nat) : list (string * string) :=
  flat_map (fun n => (n, n) :: if Nat.eqb number 1 then [(n +++ "1", n)] else []) (block_names root number).
(* All the block names, which are those of the controllers and of the parts: pandamanagercontroller.py
   166-183. *)
Definition all_names (b : blocks_data) : list string := flat_map (fun e => block_names (fst e) (fst (snd e))) b.
(* _child_controllers: pandamanagercontroller.py 161, 166-187. *)
Definition controllers (b : blocks_data) : dict string :=
  fold_left (fun m kv => dset (fst kv) (snd kv) m) (flat_map (fun e => entries (fst e) (fst (snd e))) b) [].
(* pos_names: pandamanagercontroller.py 174-177. *)
Definition pos_names (b : blocks_data) : list string :=
  flat_map (fun e => flat_map (fun n => flat_map (fun f => if String.eqb (snd f) "pos_out" then [n +++ "." +++ fst f] else [])
                                          (snd (snd e)))
                       (block_names (fst e) (fst (snd e)))) b.
(* _bus_fields: pandamanagercontroller.py 197-207; bits: the names of the bits table; words: the PCAP bit
   fields.  The order of a set does not matter. *)
Definition bus_fields (b : blocks_data) (bits words : list string) : list string :=
  pos_names b ++ flat_map (fun p => map (fun s => p +++ "." +++ s) ["CAPTURE"; "UNITS"; "SCALE"; "OFFSET"]) (pos_names b)
  ++ bits ++ words.

(* The calls of handle_changes of the blocks, and whether all were made; else there was a KeyError:
   pandamanagercontroller.py 311-312. *)
Fixpoint deliver (m : dict string) (bc : dict (dict string)) : list (string * dict string) * bool :=
  match bc with
  | [] => ([], true)
  | (bn, d) :: r => match dget bn m with
                    | None => ([], false)
                    | Some c => let (l, ok) := deliver m r in ((c, d) :: l, ok)
                    end
  end.
(* handle_changes: pandamanagercontroller.py 288-312, without the bits (Bus_Model) and busses. *)
Definition handle (b : blocks_data) (cs : list (string * string)) : list (string * dict string) * bool :=
  match route_all [] cs with
  | None => ([], false)
  | Some bc => deliver (controllers b) bc
  end.
