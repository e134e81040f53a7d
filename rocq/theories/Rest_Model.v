(* Model of the server of HTTP GET and POST requests:
   /repo/malcolm/modules/web/parts/restfulserverpart.py 16-65 with
   /repo/malcolm/modules/web/controllers/httpservercomms.py 79-88; the blocks behind it are those
   of Req_Model. *)
From Coq Require Import String Ascii Bool Arith Lia List.
From Verif Require Import Base Meta_Model Req_Model.
Import ListNotations.
Local Open Scope list_scope.

(* endpoint_str.split("/"): restfulserverpart.py 27, 37 *)
Fixpoint slashes (s : string) : list string :=
  match s with
  | EmptyString => [EmptyString]
  | String c r =>
    if Ascii.eqb c "/"%char then EmptyString :: slashes r
    else match slashes r with
         | w :: l => String c w :: l
         | [] => [String c EmptyString]
         end
  end.

(* the two methods there are; the body of a POST as json_decode gives it, None: it raises.
   Bodies that are JSON but not of a mapping are left out: restfulserverpart.py 25, 35-38 *)
Inductive method := GET | POST (body : option (list (string * pv))).
(* why a request fails: the Error response of the block, another kind of response, or an exception
   in the handler itself (no such controller, process.py 249-254; a body that is not JSON).  Only
   the cause is kept, not how tornado words it: restfulserverpart.py 52-65 *)
Inductive cause := FromBlock (e : rexn) | UnknownResponse | NoController | BadBody.
(* what the HTTP client gets: 200 and json_encode of the value, or 500; json_encode is taken to
   work on what a block returns: restfulserverpart.py 52-65 *)
Inductive reply := Status200 (v : option pv) | Status500 (c : cause).
(* restfulserverpart.py 52-65 handle_response *)
Definition handle_response (r : response) : reply :=
  match r with
  | Return v => Status200 v
  | Error e => Status500 (FromBlock e)
  | Update | Delta => Status500 UnknownResponse
  end.

(* a RestfulHandler, one for each HTTP request (tornado): the responses in its queue that are not
   read, and what it has replied; None: it is at `yield self._queue.get()`:
   restfulserverpart.py 18-33 *)
Record handler := mkHandler { h_queue : list response; h_reply : option reply }.
(* the controllers by mri; the handlers in the order of their requests; requests on their way to
   a controller (cothread.Callback, then a thread of their own: they can overtake each other,
   controller.py 124-127); IOLoopHelper.call: what the loop of tornado has still to do, in order:
   httpservercomms.py 79-88, restfulserverpart.py 48-50 *)
Record world := mkW {
  w_blocks : list (string * st);
  w_handlers : list handler;
  w_todo : list (string * request);
  w_loop : list (nat * response)
}.
(* callbacks have numbers (request.py 59-63): 2n is queue_response of the handler n, the odd ones
   those of other clients; a request has id 0 unless it is given one (request.py 36): 41-50 of
   restfulserverpart.py *)
Definition key_of (n : nat) : key := (2 * n, 0).
(* the handler whose queue_response a callback is: restfulserverpart.py 48-50 *)
Definition handler_of (k : key) : option nat :=
  if Nat.even (fst k) then Some (Nat.div2 (fst k)) else None.

(* which controller: httpservercomms.py 82-87; self_mri: that of the server *)
Definition target (self_mri mri : string) : string := if String.eqb mri "." then self_mri else mri.
(* restfulserverpart.py 27-28, 37-39: the request of a handler, with the mri taken off its path;
   None: json_decode raises *)
Definition request_of (n : nat) (m : method) (endpoint : string) : option request :=
  match m with
  | GET => Some (Get (key_of n) (tl (slashes endpoint)))
  | POST (Some ps) => Some (Post (key_of n) (tl (slashes endpoint)) ps)
  | POST None => None
  end.

(* HTTP: a request arrives; Serve i: a request on its way gets to its controller; Other: another
   client's request, the end of a function or a change of a block; Loop: the loop of tornado does
   the next thing: restfulserverpart.py 25-65 *)
Inductive rop :=
| HTTP (m : method) (endpoint : string)
| Serve (i : nat)
| Other (mri : string) (o : op)
| Loop.

(* what the callbacks called put into the loop: restfulserverpart.py 48-50 *)
Definition to_loop (ev : list event) : list (nat * response) :=
  flat_map (fun e => match e with
                     | Answer k r => match handler_of k with Some n => [(n, r)] | None => [] end
                     | Ran _ _ => []
                     end) ev.
(* tornado's Queue.put: the handler waiting takes it and replies; otherwise it stays:
   restfulserverpart.py 32-33, 43-44 *)
Definition put_queue (h : handler) (r : response) : handler :=
  match h_reply h with
  | None => mkHandler (h_queue h) (Some (handle_response r))
  | Some x => mkHandler (h_queue h ++ [r]) (Some x)
  end.
(* replace the n-th: restfulserverpart.py 48-50 *)
Fixpoint at_nth {A} (n : nat) (f : A -> A) (l : list A) : list A :=
  match l, n with
  | [], _ => []
  | x :: r, 0 => f x :: r
  | x :: r, S n' => x :: at_nth n' f r
  end.

Section Steps.
Variable read : list (string * field) -> list string -> option pv.
Variable self_mri : string.

(* a controller does something: controller.py 129-153 *)
Definition at_block (w : world) (todo : list (string * request)) (mri : string) (o : op) : world :=
  match dget mri (w_blocks w) with
  | None => w
  | Some s =>
    let (s', ev) := step read s o in
    mkW (dset mri s' (w_blocks w)) (w_handlers w) todo (w_loop w ++ to_loop ev)
  end.

(* one step: restfulserverpart.py 25-65, httpservercomms.py 79-88 *)
Definition rstep (w : world) (o : rop) : world :=
  match o with
  | HTTP m ep =>
    let fails c := mkW (w_blocks w) (w_handlers w ++ [mkHandler [] (Some (Status500 c))]) (w_todo w) (w_loop w) in
    match request_of (length (w_handlers w)) m ep with
    | None => fails BadBody
    | Some r =>
      let mri := target self_mri (hd EmptyString (slashes ep)) in
      if dmem mri (w_blocks w)
      then mkW (w_blocks w) (w_handlers w ++ [mkHandler [] None]) (w_todo w ++ [(mri, r)]) (w_loop w)
      else fails NoController
    end
  | Serve i =>
    match nth_error (w_todo w) i with
    | Some (mri, r) => at_block w (without i (w_todo w)) mri (Handle r)
    | None => w
    end
  | Other mri o => at_block w (w_todo w) mri o
  | Loop =>
    match w_loop w with
    | [] => w
    | (n, r) :: l => mkW (w_blocks w) (at_nth n (fun h => put_queue h r) (w_handlers w)) (w_todo w) l
    end
  end.
(* a history: restfulserverpart.py 25-65 *)
Definition rrun (w : world) (os : list rop) : world := fold_left rstep os w.
End Steps.
