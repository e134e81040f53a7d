(* The pvAccess client of a proxy block: pva/controllers/pvaclientcomms.py 15-148.  The values are those
   of Notify_Model; what p4p and pvaconvert.py do to them is in Pva_Model. *)
From Coq Require Import String Bool ZArith List.
From Verif Require Import Base Notify_Model Proxy_Model Pva2_Model.
Import ListNotations.
Local Open Scope string_scope.
Local Open Scope list_scope.

(* isinstance(v, Model) (Python semantics). *)
Definition is_model (v : val) : bool := match v with VObj (KModel _) _ => true | _ => false end.
(* _update_settable_fields: pvaclientcomms.py 34-48: the dotted paths below ob, without its own.  ob[k]
   is the first item called k. *)
Fixpoint terminals (ob : val) : list path :=
  let below := fix below (past : list string) (fs : list (string * val)) : list path :=
    match fs with
    | [] => []
    | (k, x) :: r => (if smem k past then [] else map (cons k) (terminals x)) ++ below (k :: past) r
    end in
  match ob with
  | VObj (KModel _) fs => below [] fs
  | VObj KMap fs => if forallb (fun kv => is_model (snd kv)) fs then below [] fs else [[]]
  | _ => [[]]
  end.

(* What sync_proxy keeps: pvaclientcomms.py 58-60: the block, update_fields, and how many Nones are in
   the queue. *)
Record client := mkClient { c_block : list (string * val); c_update : list path; c_queue : nat }.

(* One turn of the second loop of _regenerate_block: pvaclientcomms.py 93-111.  The fields are set as
   the websocket client does it (see set_field; v["value"] of p4p and value.items() are those of the
   serialized block). *)
Definition regen_field (names : list string -> val) (s : list (string * val) * list path) (nv : string * val)
  : upto (list (string * val) * list path) :=
  match set_field names (fst s) nv with
  | Raised b => Raised (b, snd s)
  | Fine b => match dget (fst nv) b with
              | Some x => Fine (b, snd s ++ map (cons (fst nv)) (terminals x))
              | None => Raised (b, snd s)
              end
  end.
(* _regenerate_block: pvaclientcomms.py 85-111. *)
Definition regen (names : list string -> val) (b : list (string * val)) (v : val) : upto (list (string * val) * list path) :=
  let b' := clear_fields names b in
  match v with
  | VObj _ fs => loop (regen_field names) fs (b', [])
  | _ => Raised (b', [])
  end.

(* value[k] (p4p, external), k a dotted path: pvaclientcomms.py 85-122. *)
Fixpoint vget (v : val) (p : path) : option val :=
  match p with
  | [] => Some v
  | n :: r => match v with VObj _ fs => match dget n fs with Some c => vget c r | None => None end | _ => None end
  end.
(* block.apply_change(k.split("."), v): models.py 131-141 for the block, which has no setters. *)
Definition block_apply (b : list (string * val)) (p : path) (v : val) : upto (list (string * val)) :=
  match p with
  | n :: r => match r with
              | [] => Raised b
              | _ => match dget n b with
                     | Some c => match apply_change r (Some v) c with
                                 | Some c' => Fine (dset n c' b)
                                 | None => Raised b
                                 end
                     | None => Raised b
                     end
              end
  | [] => Raised b
  end.
(* _update_block: pvaclientcomms.py 113-122.  [order] is the order in which Python goes through the set. *)
Definition update_block (order : list path -> list path) (value : val) (marked : list path) (update : list path) (b : list (string * val))
  : upto (list (string * val)) :=
  loop (fun b k => match vget value k with Some v => block_apply b k v | None => Raised b end)
       (order (filter (fun k => existsb (path_eqb k) (changed_inc_parents marked)) update)) b.

(* What the monitor calls back with: a value and what is marked in it, a Disconnected, another
   exception: pvaclientcomms.py 62-83. *)
Inductive event := Value (v : val) (marked : list path) | Disconnected | Broken.
(* callback: pvaclientcomms.py 62-79.  The health shown while disconnected: its value, alarm and time
   stamp are given.  After an exception in the callback what was done stays (p4p logs it, external). *)
Definition callback (names : list string -> val) (order : list path -> list path) (down : val * val * val) (s : client) (e : event) : client :=
  match e with
  | Value v marked =>
      match s.(c_update) with
      | [] => match regen names s.(c_block) v with
              | Fine (b, u) => mkClient b u (S s.(c_queue))
              | Raised (b, u) => mkClient b u s.(c_queue)
              end
      | _ => mkClient (after (update_block order v marked s.(c_update) s.(c_block))) s.(c_update) s.(c_queue)
      end
  | Disconnected =>
      mkClient (match set_health (VObj KMap [("value", fst (fst down)); ("alarm", snd (fst down)); ("timeStamp", snd down)]) s.(c_block) with
                | Some b => b
                | None => s.(c_block)
                end) [] s.(c_queue)
  | Broken => s
  end.
(* done_queue.get: pvaclientcomms.py 83, 145: None if it would wait. *)
Definition queue_get (s : client) : option client :=
  match s.(c_queue) with O => None | S n => Some (mkClient s.(c_block) s.(c_update) n) end.
(* send_put: pvaclientcomms.py 124-148, from the call of put on: [error] tells whether it raised a
   RemoteError.  The conversion of the value is in Pva_Model. *)
Inductive put_end := Returned (s : client) | Remote_error | Waits.
(* pvaclientcomms.py 124-148. *)
Definition send_put (attribute_name : string) (error : bool) (s : client) : put_end :=
  if error then
    if String.eqb attribute_name "exports"
    then match queue_get s with Some s' => Returned s' | None => Waits end
    else Remote_error
  else Returned s.
