(** Requests sent by this device: mctp_interface_send_request_message, the check of response packets and
    mctp_interface_handle_response_message in core/mctp/mctp_interface.c, at the granularity of their locks.

    One receiving thread processes packets; any number of threads send requests and are serialised
    by request_lock.  Each label below is one critical section or one unsynchronised step; any interleaving
    of enabled labels is a schedule.  Requests are numbered in the order in which they get request_lock; request [i]
    has its own response descriptor.  The semaphore is abstracted: the wait can end at
    any time, by a post or a timeout. *)
From Coq Require Import List NArith Bool Arith.
From Verif Require Import Base Mctp_Model.
Import ListNotations.
Local Open Scope nat_scope.

(** Where the thread that holds request_lock is. *)
Inductive phase :=
| Locked                       (* request_lock taken, 222 *)
| Sending (wait : bool)        (* response expectation set up, 255 *)
| Waiting                      (* waiting for the semaphore, 273 *)
| Ending.                      (* at unlock_tx, 296 *)

Record astate := {
  a_rsp : rsp_state;
  a_tag : N;                   (* response_msg_tag *)
  a_next : N;                  (* next_msg_tag *)
  a_msg : option nat;          (* response_msg: whose descriptor, None for NULL *)
  a_req : option (nat * phase);
  a_count : nat;               (* requests started so far *)
  a_rx : option N              (* a response packet with this tag passed the check, 754-761 *)
}.

Inductive label :=
| Begin                        (* platform_mutex_lock (request_lock), 222 *)
| BuildFails                   (* 224-230 *)
| Register (wait : bool)       (* 238-260; [wait] is timeout_ms != 0 *)
| SendFails                    (* 262-270 *)
| Sent                         (* 262, 272-277 *)
| WakeUp                       (* 277-294 *)
| Return                       (* 296-300 *)
| Check (tag : N)              (* mctp_interface_is_expected_response for a response packet, 319-375 *)
| RxDone                       (* the packet does not complete a message *)
| Handle (fits : bool).        (* the packet completes it: mctp_interface_handle_response_message, 384-423 *)

Inductive aevent :=
| Nothing
| Returned (i : nat)
| Registered (i : nat) (tag : N)   (* request i is about to be sent with this tag *)
| Accepted (tag : N)           (* the packet passed the check *)
| Wrote (i : nat) (tag : N)    (* response with this tag copied to the descriptor of request i *)
| TooBigFor (i : nat) (tag : N)
| NullDereference.

Definition set_a (s : astate) (rsp : rsp_state) (msg : option nat) (req : option (nat * phase)) (rx : option N) : astate :=
  {| a_rsp := rsp; a_tag := a_tag s; a_next := a_next s; a_msg := msg; a_req := req; a_count := a_count s; a_rx := rx |}.

Definition ainit : astate :=
  {| a_rsp := RspIdle; a_tag := 0; a_next := 0; a_msg := None; a_req := None; a_count := 0; a_rx := None |}.

(** None: the label is not enabled. *)
Definition astep (s : astate) (l : label) : option (astate * aevent) :=
  match l, a_req s, a_rx s with
  | Begin, None, rx =>
    Some ({| a_rsp := a_rsp s; a_tag := a_tag s; a_next := a_next s; a_msg := a_msg s; a_req := Some (a_count s, Locked);
             a_count := S (a_count s); a_rx := rx |}, Nothing)
  | BuildFails, Some (i, Locked), rx => Some (set_a s (a_rsp s) (a_msg s) (Some (i, Ending)) rx, Nothing)
  | Register wait, Some (i, Locked), rx =>
    Some ({| a_rsp := if wait then RspWaiting else RspPending; a_tag := a_next s; a_next := ((a_next s + 1) mod 8)%N;
             a_msg := if wait then Some i else None;      (* response may be NULL only if timeout_ms is 0, 198-200 *)
             a_req := Some (i, Sending wait); a_count := a_count s; a_rx := rx |}, Registered i (a_next s))
  | SendFails, Some (i, Sending _), rx => Some (set_a s RspIdle (a_msg s) (Some (i, Ending)) rx, Nothing)
  | Sent, Some (i, Sending false), rx => Some (set_a s (a_rsp s) (a_msg s) (Some (i, Ending)) rx, Nothing)
  | Sent, Some (i, Sending true), rx => Some (set_a s (a_rsp s) (a_msg s) (Some (i, Waiting)) rx, Nothing)
  | WakeUp, Some (i, Waiting), rx => Some (set_a s RspIdle (a_msg s) (Some (i, Ending)) rx, Nothing)
  | Return, Some (i, Ending), rx => Some (set_a s (a_rsp s) None None rx, Returned i)
  | Check t, req, None =>
    if (match a_rsp s with RspWaiting | RspPending => true | _ => false end) && (t =? a_tag s)%N
    then Some (set_a s (a_rsp s) (a_msg s) req (Some t), Accepted t)
    else Some (s, Nothing)
  | RxDone, req, Some t => Some (set_a s (a_rsp s) (a_msg s) req None, Nothing)
  | Handle fits, req, Some t =>
    match a_rsp s with
    | RspPending => Some (set_a s RspIdle (a_msg s) req None, Nothing)
    | _ =>
      match a_msg s with
      | None => Some (set_a s (a_rsp s) None req None, NullDereference)
      | Some i =>
        if fits then Some (set_a s RspSuccess (a_msg s) req None, Wrote i t)
        else Some (set_a s RspTooBig (a_msg s) req None, TooBigFor i t)
      end
    end
  | _, _, _ => None
  end.

(** A schedule and what happened at each of its steps; None if a label was not enabled. *)
Fixpoint arun (s : astate) (l : list label) : option (astate * list aevent) :=
  match l with
  | [] => Some (s, [])
  | x :: l =>
    match astep s x with
    | None => None
    | Some (s1, e) =>
      match arun s1 l with
      | None => None
      | Some (s2, es) => Some (s2, e :: es)
      end
    end
  end.
