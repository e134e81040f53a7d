(* Puts, calls and channels of the pvAccess server: pva/controllers/pvaservercomms.py 42-169,
   197-219, 265-362, and the calls of its client, pvaclientcomms.py 124-166. *)
From Coq Require Import String Ascii Bool Arith List.
From Verif Require Import Base Pva_Model.
Import ListNotations.
Local Open Scope string_scope.
Local Open Scope list_scope.

(* ---- Put ---- *)
(* MethodModel.typeid, BlockMeta.typeid: models.py 1212, 1259; pvaservercomms.py 206. *)
Definition unputtable_ids : list string := ["malcolm:core/Method:1.1"; "malcolm:core/BlockMeta:1.0"].
(* v.getID() (p4p, external), pvaservercomms.py 208-212: only a structure has it, None is an AttributeError. *)
Definition getID (v : pv) : option string := match v with VStruct id _ => Some id | _ => None end.
(* put_paths: pvaservercomms.py 207-216.  A dotted name is the list of its parts: a field name of p4p
   has no dot in it.  An item that is no structure raises (None). *)
Fixpoint all_paths (fs : list (string * pv)) : option (list (list string)) :=
  match fs with
  | [] => Some []
  | (x, v) :: r => match getID v, all_paths r with
                   | Some id, Some ps => Some (if smem id unputtable_ids then ps else [x; "value"] :: ps)
                   | _, _ => None
                   end
  end.
(* pvaservercomms.py 197-219. *)
Definition put_paths (field : option string) (v : pv) : option (list (list string)) :=
  match v with
  | VStruct id fs => match field with
                     | None => all_paths fs
                     | Some _ => Some (if smem id unputtable_ids then [] else [["value"]])
                     end
  | _ => None
  end.
(* changedSet(parents=True, expand=False) (p4p, external), from the fields that are marked as changed (pvaservercomms.py 125):
   each with all that it is in. *)
Fixpoint prefixes (p : list string) : list (list string) :=
  match p with [] => [] | x :: r => [x] :: map (cons x) (prefixes r) end.
(* pvaservercomms.py 125. *)
Definition changed_inc_parents (marked : list (list string)) : list (list string) := flat_map prefixes marked.
(* Two dotted names are the same (Python semantics, pvaservercomms.py 129). *)
Fixpoint path_eqb (p q : list string) : bool :=
  match p, q with [], [] => true | x :: r, y :: s => String.eqb x y && path_eqb r s | _, _ => false end.

(* A request to the controller: core/request.py 62-129 (the parts used here). *)
Inductive request := Put (path : list string) (value : out) | Post (path : list string) (parameters : out).
(* d[k] of what convert_value_to_dict gave (Python semantics, pvaservercomms.py 155). *)
Definition oitem (k : string) (o : out) : option out := match o with ODict _ fs => dget k fs | _ => None end.
(* op.value()[k] (p4p, external), pvaservercomms.py 154. *)
Definition vitem (k : string) (v : pv) : option pv := match v with VStruct _ fs => dget k fs | _ => None end.
(* put: pvaservercomms.py 115-169; None is an exception, which p4p tells the client.  [paths] is
   self.put_paths, [value] is op.value() and [marked] what is marked in it. *)
Definition put (mri : string) (field : option string) (paths : list (list string)) (value : pv) (marked : list (list string)) : option request :=
  match filter (fun p => existsb (path_eqb p) (changed_inc_parents marked)) paths with
  | [changed] =>
      match field with
      | Some f => if path_eqb changed ["value"]
                  then match oitem "value" (unconv value) with Some x => Some (Put [mri; f; "value"] x) | None => None end
                  else None
      | None => match changed with
                | [a; v] => if String.eqb v "value"
                            then match vitem a value with
                                 | Some w => match oitem "value" (unconv w) with Some x => Some (Put [mri; a; v] x) | None => None end
                                 | None => None
                                 end
                            else None
                | _ => None
                end
      end
  | _ => None
  end.

(* ---- RPC ---- *)
(* What a client can send: an NTURI or another structure (pvaservercomms.py 43-63). *)
Inductive call := Uri (scheme path : string) (query : pv) | Other (v : pv).
(* s[len(prefix):] if s.startswith(prefix) (Python semantics, pvaservercomms.py 47-51). *)
Fixpoint after_prefix (prefix s : string) : option string :=
  match prefix, s with
  | EmptyString, _ => Some s
  | String a p, String b r => if Ascii.eqb a b then after_prefix p r else None
  | _, _ => None
  end.
(* rpc: pvaservercomms.py 42-75, 112-113: the Post that is made, None is an exception.  [methods] are the fields
   of the block that are Methods, with whether their return is unpacked; [req] is the method of the
   pvRequest, if any. *)
Definition rpc (mri : string) (methods : dict bool) (field : option string) (req : option string) (c : call) : option request :=
  match (match c with
         | Uri scheme path query => if String.eqb scheme "pva"
                                    then match after_prefix (mri ++ ".")%string path with Some m => Some (m, unconv query) | None => None end
                                    else None
         | Other v => match field with
                      | Some f => Some (f, unconv v)
                      | None => match req with
                                | Some m => if String.eqb m "" then None else Some (m, unconv v)
                                | None => None
                                end
                      end
         end) with
  | Some (m, ps) => if dmem m methods then Some (Post [mri; m] ps) else None
  | None => None
  end.
(* handle_post_response for a Return: pvaservercomms.py 77-96. *)
Definition reply (unpacked : bool) (x : py) : option pv :=
  convert_dict_to_value (if unpacked then YDict [("return", x)] else x).
(* send_post: pvaclientcomms.py 150-166.  NTURI (p4p, external) puts the parameters into query. *)
Definition send_post (mri method : string) (params : list (string * py)) : option call :=
  match conv (YDict params) with
  | Some q => Some (Uri "pva" (mri ++ "." ++ method)%string q)
  | None => None
  end.
(* What send_post returns for the reply: pvaclientcomms.py 166. *)
Definition returned (v : pv) : out := unconv v.

(* ---- channels ---- *)
(* s.rsplit(c, 1) (Python semantics) if c is in s: pvaservercomms.py 283-285, 305-307. *)
Fixpoint rsplit1 (c : ascii) (s : string) : option (string * string) :=
  match s with
  | EmptyString => None
  | String x r => match rsplit1 c r with
                  | Some (a, b) => Some (String x a, b)
                  | None => if Ascii.eqb x c then Some ("", r) else None
                  end
  end.
(* PvaServerComms: pvaservercomms.py 268-276.  The pvs are kept by mri and field; each is given a
   number when it is made. *)
Record server := mkServer { running : bool; published : list string; pvs : list ((string * option string) * nat); made : nat }.
(* testChannel: pvaservercomms.py 279-289. *)
Definition test_channel (s : server) (name : string) : bool :=
  if smem name s.(published) then true
  else match rsplit1 "."%char name with Some (mri, _) => smem mri s.(published) | None => false end.
(* _make_channel: pvaservercomms.py 301-309: what a name stands for. *)
Definition resolve (s : server) (name : string) : option (string * option string) :=
  if smem name s.(published) then Some (name, None)
  else match rsplit1 "."%char name with Some (mri, f) => Some (mri, Some f) | None => None end.
(* Equality of two keys of _pvs (no code of its own; pvaservercomms.py 273, 311-313). *)
Definition key_eqb (a b : string * option string) : bool :=
  String.eqb (fst a) (fst b) && match snd a, snd b with Some x, Some y => String.eqb x y | None, None => true | _, _ => false end.
(* pvaservercomms.py 311-313. *)
Fixpoint pvget (k : string * option string) (l : list ((string * option string) * nat)) : option nat :=
  match l with [] => None | (k', n) :: r => if key_eqb k k' then Some n else pvget k r end.
(* _make_channel: pvaservercomms.py 299-325.  The controller of a published block is in the process
   (core/process.py 104-140), get_controller does not fail. *)
Definition make_channel (s : server) (name : string) : option (server * nat) :=
  match resolve s name with
  | None => None
  | Some k => match pvget k s.(pvs) with
              | Some n => Some (s, n)
              | None => Some (mkServer s.(running) s.(published) (s.(pvs) ++ [(k, s.(made))]) (S s.(made)), s.(made))
              end
  end.
(* publish: pvaservercomms.py 347-354, with disconnect_pv_clients 356-362. *)
Definition publish (ps : list string) (s : server) : server :=
  mkServer s.(running) ps (if s.(running) then filter (fun p => smem (fst (fst p)) ps) s.(pvs) else s.(pvs)) s.(made).
(* do_init and do_disable: pvaservercomms.py 327-345. *)
Definition do_init (s : server) : server := mkServer true s.(published) s.(pvs) s.(made).
(* pvaservercomms.py 335-345. *)
Definition do_disable (s : server) : server := if s.(running) then mkServer false s.(published) [] s.(made) else s.
(* A client connects to a channel (p4p, external): a running server is asked testChannel, then
   makeChannel (pvaservercomms.py 291-297); nothing is published in between here. *)
Definition connect (s : server) (name : string) : server * option nat :=
  if s.(running) && test_channel s name
  then match make_channel s name with Some (s', n) => (s', Some n) | None => (s, None) end
  else (s, None).
(* __init__: pvaservercomms.py 268-276. *)
Definition new_server : server := mkServer false [] [] 0.
