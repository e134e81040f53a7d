(* The websocket server's handler of one connection and the websocket client. *)
From Coq Require Import String Bool ZArith NArith List.
From Verif Require Import Base.
Import ListNotations.
Local Open Scope list_scope.

(* ======== server ======== *)

(* An interface's address and netmask as the validator closes over them
   (websocketserverpart.py 51-59).  Addresses are the unsigned numbers that
   struct.unpack("!I") gives. *)
Record iface := mkIf { if_addr : N; if_mask : N }.

(* validator: websocketserverpart.py 56-57. *)
Definition validator (i : iface) (remote : N) : bool :=
  N.eqb (N.land remote (if_mask i)) (N.land (if_addr i) (if_mask i)).

(* The peer as request.remote_ip shows it: an IPv4 address, the IPv6 loopback, or
   some text that socket.inet_aton refuses (websocketserverpart.py 83-87). *)
Inductive peer := V4 (a : N) | V6Loopback | NotV4.

(* websocketserverpart.py 84-87: "::1" is read as 127.0.0.1; None when inet_aton raises. *)
Definition remoteaddr (p : peer) : option N :=
  match p with V4 a => Some a | V6Loopback => Some 2130706433%N | NotV4 => None end.

(* on_report_handlers, websocketserverpart.py 196-214: one validator for each interface
   that is up and whose addresses can be read; the assertion (None) when subnet validation
   is on and there is none.  [up] is the list of those interfaces. *)
Definition report_handlers (subnet_validation : bool) (up : list iface) : option (list iface) :=
  if subnet_validation then match up with [] => None | _ => Some up end else Some [].

(* The requests that deserialize_object can make of a message (core/request.py 66-149);
   a PathRequest has a path with at least one element (request.py 71-77), here its first
   element and the rest.  Values and parameters are left out. *)
Inductive request :=
| Get (mri : string) (rest : list string)
| Put (mri : string) (rest : list string)
| Post (mri : string) (rest : list string)
| Subscribe (mri : string) (rest : list string)
| Unsubscribe.

(* What a message holds: text that json_decode refuses or that is not a JSON object
   (NotDict), an object without "id" (NoId), an object with an id from which no request
   can be made (BadRequest), or a request (websocketserverpart.py 102-107).  Ids are
   integers; other JSON values as ids are not modelled. *)
Inductive message :=
| NotDict
| NoId
| BadRequest (id : Z)
| Req (id : Z) (r : request).

(* The exceptions raised while a message is handled (websocketserverpart.py 102-120). *)
Inductive werr := DecodeErr | FieldErr | DeserialErr | DuplicateId | UnknownId | Forbidden | NoController.

(* What the handler does: gives a request to the controller called [mri]
   (update_request_received, web/controllers/httpservercomms.py 79-88; this schedules
   controller.handle_request), writes an Error message, or raises out of on_message
   (websocketserverpart.py 87). *)
Inductive out :=
| Dispatch (mri : string) (id : Z) (r : request)
| Answer (id : Z) (e : werr)
| Raised.

(* {id: mri} with integer keys (websocketserverpart.py 75). *)
Fixpoint zget (k : Z) (d : list (Z * string)) : option string :=
  match d with [] => None | (k', v) :: r => if Z.eqb k k' then Some v else zget k r end.
(* d[k] = v for a key that is not there (websocketserverpart.py 113). *)
Definition zset (k : Z) (v : string) (d : list (Z * string)) : list (Z * string) := d ++ [(k, v)].
(* d.pop(k, None) (websocketserverpart.py 149). *)
Fixpoint zpop (k : Z) (d : list (Z * string)) : list (Z * string) :=
  match d with [] => [] | (k', v) :: r => if Z.eqb k k' then r else (k', v) :: zpop k r end.

(* The handler's variables: _writeable and _id_to_mri (websocketserverpart.py 65-78). *)
Record handler := mkH { h_writeable : option bool; h_ids : list (Z * string) }.
(* initialize: websocketserverpart.py 72-78. *)
Definition initialize : handler := mkH None [].

Section server.
  (* The connection's validators and peer, and the mris that process.get_controller
     knows (websocketserverpart.py 72-79, core/process.py get_controller). *)
  Variable validators : list iface.
  Variable remote : peer.
  Variable known : string -> bool.

  (* websocketserverpart.py 82-93: worked out at the first message; None when inet_aton
     raises.  [max] of booleans is "some is True". *)
  Definition work_out_writeable (h : handler) : option bool :=
    match h_writeable h with
    | Some b => Some b
    | None => match remoteaddr remote with
              | None => None
              | Some a => match validators with
                          | [] => Some true
                          | _ => Some (existsb (fun v => validator v a) validators)
                          end
              end
    end.

  (* update_request_received: httpservercomms.py 79-88: "." is the server itself, other
     mris are looked up in the process, which raises for an unknown one. *)
  Definition report (mri : string) (id : Z) (r : request) : result werr out :=
    if (String.eqb mri "." || known mri)%bool then Ok (Dispatch mri id r) else Err NoController.

  (* isinstance(request, (Put, Post)): websocketserverpart.py 118. *)
  Definition is_write (r : request) : bool :=
    match r with Put _ _ | Post _ _ => true | _ => false end.

  (* The try block of on_message from line 107 on, for a request with its id
     (websocketserverpart.py 107-120); the ids as they are left. *)
  Definition handle (w : bool) (ids : list (Z * string)) (id : Z) (r : request)
    : list (Z * string) * result werr out :=
    match r with
    | Subscribe mri _ =>
        match zget id ids with
        | Some _ => (ids, Err DuplicateId)
        | None => (zset id mri ids, report mri id r)
        end
    | Unsubscribe =>
        match zget id ids with
        | None => (ids, Err UnknownId)
        | Some mri => (ids, report mri id r)
        end
    | Get mri _ => (ids, report mri id r)
    | Put mri _ | Post mri _ =>
        if is_write r && negb w then (ids, Err Forbidden) else (ids, report mri id r)
    end.

  (* on_message: websocketserverpart.py 80-125. *)
  Definition on_message (h : handler) (m : message) : handler * list out :=
    match work_out_writeable h with
    | None => (h, [Raised])
    | Some w =>
        match m with
        | NotDict => (mkH (Some w) (h_ids h), [Answer (-1) DecodeErr])
        | NoId => (mkH (Some w) (h_ids h), [Answer (-1) FieldErr])
        | BadRequest id => (mkH (Some w) (h_ids h), [Answer id DeserialErr])
        | Req id r =>
            let '(ids, res) := handle w (h_ids h) id r in
            (mkH (Some w) ids, [match res with Ok o => o | Err e => Answer id e end])
        end
    end.

  (* _on_response when write_message raises WebSocketError (websocketserverpart.py
     141-157): [stream] says whether the response is a Delta or an Update.  An exception
     of report here goes to tornado; the empty mri is false. *)
  Definition response_to_dead (h : handler) (id : Z) (stream : bool) : handler * list out :=
    if stream then
      match zget id (h_ids h) with
      | None => (h, [])
      | Some mri =>
          (mkH (h_writeable h) (zpop id (h_ids h)),
           if String.eqb mri "" then []
           else match report mri id Unsubscribe with Ok o => [o] | Err _ => [Raised] end)
      end
    else (h, []).

  (* What happens on a connection: a message comes in, or a response can not be written
     because the connection is dead (websocketserverpart.py 80, 136). *)
  Inductive wop := Message (m : message) | DeadResponse (id : Z) (stream : bool).
  (* One of them: websocketserverpart.py 80-160. *)
  Definition wstep (h : handler) (o : wop) : handler * list out :=
    match o with Message m => on_message h m | DeadResponse id s => response_to_dead h id s end.
  (* Any sequence of them, with what each did (websocketserverpart.py 80-160). *)
  Fixpoint wrun (h : handler) (os : list wop) : handler * list (list out) :=
    match os with
    | [] => (h, [])
    | o :: r => let '(h1, x) := wstep h o in let '(h2, xs) := wrun h1 r in (h2, x :: xs)
    end.
End server.

(* ======== client ======== *)

(* A response from the server: its id and whether it is the last one for the request,
   i.e. a Return or an Error (websocketclientcomms.py 104-111).  The contents are left
   out. *)
Inductive response := Final (id : nat) | Stream (id : nat).
(* response.id (core/response.py). *)
Definition resp_id (r : response) : nat := match r with Final i | Stream i => i end.

(* What can be seen of the client: a request written to the connection, a request that
   could not be written since there is no connection (the AttributeError of
   websocketclientcomms.py 274 goes to tornado's log), a server's response handed to a
   request's callback (113), the Error "Server disconnected" handed to a callback
   (127-131), a message for an unknown id logged (117). *)
Inductive cev (R : Type) :=
| Written (id : nat) (r : R)
| Unwritten (id : nat) (r : R)
| Handed (r : R) (resp : response)
| Disconnected (r : R) (id : nat)
| Logged (id : nat).
Arguments Written {R}. Arguments Unwritten {R}. Arguments Handed {R}.
Arguments Disconnected {R}. Arguments Logged {R}.

(* {id: request} (websocketclientcomms.py 55-56). *)
Fixpoint lget {R} (k : nat) (d : list (nat * R)) : option R :=
  match d with [] => None | (k', v) :: r => if Nat.eqb k k' then Some v else lget k r end.
(* pop(id) of a key that is there (websocketclientcomms.py 106, 126). *)
Fixpoint lpop {R} (k : nat) (d : list (nat * R)) : list (nat * R) :=
  match d with [] => [] | (k', v) :: r => if Nat.eqb k k' then r else (k', v) :: lpop k r end.

(* The client's variables: _request_lookup, _next_id, whether _conn is set, the items in
   _connected_queue, the connections being made (recv_loop before line 85), the
   _report_fault callbacks scheduled and not begun, and for one that is in its loop the
   ids still to do (websocketclientcomms.py 54-58, 78-134). *)
Record client (R : Type) := mkCl {
  cl_lookup : list (nat * R); cl_next : nat; cl_conn : bool; cl_tokens : nat;
  cl_connecting : nat; cl_faults : nat; cl_loop : list nat }.
Arguments mkCl {R}. Arguments cl_lookup {R}. Arguments cl_next {R}. Arguments cl_conn {R}.
Arguments cl_tokens {R}. Arguments cl_connecting {R}. Arguments cl_faults {R}. Arguments cl_loop {R}.

(* __init__: websocketclientcomms.py 54-58. *)
Definition new_client {R} : client R := mkCl [] 1 false 0 0 0 [].

(* The steps of the two threads.  Send: _send_request (267-274).  Receive: on_message
   (94-117).  Lost: read_message gives None (88-91).  FaultBegin, FaultNext: _report_fault
   up to the list of ids, and one turn of its loop (119-134); the two threads are real
   threads, so others may come in between.  StartCall: _start_client up to the wait (71-72).
   Connected: websocket_connect succeeds (82-85).  StartGot: the wait of _start_client
   ends (73); the Send of the root subscription follows it as a separate step.
   (All lines of websocketclientcomms.py.) *)
Inductive cop (R : Type) :=
| Send (r : R) | Receive (resp : response) | Lost | FaultBegin | FaultNext
| StartCall | Connected | StartGot.
Arguments Send {R}. Arguments Receive {R}. Arguments Lost {R}. Arguments FaultBegin {R}.
Arguments FaultNext {R}. Arguments StartCall {R}. Arguments Connected {R}. Arguments StartGot {R}.

Section client.
  Context {R : Type}.

  (* _send_request: websocketclientcomms.py 267-274: the request is remembered before it is
     written. *)
  Definition send_request (c : client R) (r : R) : client R * list (cev R) :=
    let id := cl_next c in
    (mkCl (cl_lookup c ++ [(id, r)]) (S id) (cl_conn c) (cl_tokens c) (cl_connecting c) (cl_faults c) (cl_loop c),
     [if cl_conn c then Written id r else Unwritten id r]).

  (* on_message: websocketclientcomms.py 94-117. *)
  Definition receive (c : client R) (resp : response) : client R * list (cev R) :=
    match lget (resp_id resp) (cl_lookup c) with
    | None => (c, [Logged (resp_id resp)])
    | Some r =>
        (match resp with
         | Final id => mkCl (lpop id (cl_lookup c)) (cl_next c) (cl_conn c) (cl_tokens c)
                            (cl_connecting c) (cl_faults c) (cl_loop c)
         | Stream _ => c
         end, [Handed r resp])
    end.

  (* One turn of the loop of _report_fault: websocketclientcomms.py 125-134; pop raises if
     the id has gone, which ends the loop.  Exceptions of the callback are caught. *)
  Definition fault_next (c : client R) : client R * list (cev R) :=
    match cl_loop c with
    | [] => (c, [])
    | id :: rest =>
        match lget id (cl_lookup c) with
        | None => (mkCl (cl_lookup c) (cl_next c) (cl_conn c) (cl_tokens c) (cl_connecting c) (cl_faults c) [], [])
        | Some r => (mkCl (lpop id (cl_lookup c)) (cl_next c) (cl_conn c) (cl_tokens c)
                          (cl_connecting c) (cl_faults c) rest, [Disconnected r id])
        end
    end.

  (* One step; None where the step can not happen in that state (websocketclientcomms.py
     69-134).  Two connections or two fault loops at a time are not modelled.
     _stop_client (136-141) closes the connection, which is a Lost. *)
  Definition cstep (c : client R) (o : cop R) : option (client R * list (cev R)) :=
    match o with
    | Send r => Some (send_request c r)
    | Receive resp => if cl_conn c then Some (receive c resp) else None
    | Lost =>
        if cl_conn c
        then Some (mkCl (cl_lookup c) (cl_next c) false (cl_tokens c) (cl_connecting c) (S (cl_faults c)) (cl_loop c), [])
        else None
    | FaultBegin =>
        match cl_faults c, cl_loop c with
        | S n, [] => Some (mkCl (cl_lookup c) (cl_next c) (cl_conn c) (S (cl_tokens c)) (cl_connecting c) n
                                (map fst (cl_lookup c)), [])
        | _, _ => None
        end
    | FaultNext => match cl_loop c with [] => None | _ => Some (fault_next c) end
    | StartCall =>
        if cl_conn c then None
        else Some (mkCl (cl_lookup c) (cl_next c) (cl_conn c) (cl_tokens c) (S (cl_connecting c)) (cl_faults c) (cl_loop c), [])
    | Connected =>
        match cl_connecting c with
        | S n => if cl_conn c then None
                 else Some (mkCl (cl_lookup c) (cl_next c) true (S (cl_tokens c)) n (cl_faults c) (cl_loop c), [])
        | O => None
        end
    | StartGot =>
        match cl_tokens c with
        | S n => Some (mkCl (cl_lookup c) (cl_next c) (cl_conn c) n (cl_connecting c) (cl_faults c) (cl_loop c), [])
        | O => None
        end
    end.

  (* A history of such steps with what was seen (websocketclientcomms.py 69-134); None if
     some step could not happen. *)
  Fixpoint crun (c : client R) (os : list (cop R)) : option (client R * list (cev R)) :=
    match os with
    | [] => Some (c, [])
    | o :: r => match cstep c o with
                | None => None
                | Some (c1, e) => match crun c1 r with None => None | Some (c2, e2) => Some (c2, e ++ e2) end
                end
    end.
End client.
