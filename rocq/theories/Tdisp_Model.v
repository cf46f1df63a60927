(** * Model of the TDISP responder (assigning device interfaces to virtual machines)

    core/pcisig/tdisp/cmd_interface_tdisp_responder.c:33-128 and
    core/pcisig/tdisp/tdisp_commands.c: all seven requests and the error
    reply, byte by byte, with every check in its order; and the nonces kept by the
    context manager (tdisp_tdi_context_manager.c:16-48).

    External: the driver (what its calls return, and which contexts it clears
    while it is called), the random number generator, and failures of the
    context manager.

    Simplified: of a context only the nonce is kept, present if its bit in the
    mask is set, which is all the responder uses.  A request is its payload;
    the reply is the payload afterwards, whose length is compared with the room
    by a theorem.  Pointers are not null. *)
From Coq Require Import List NArith Bool Arith.
From Verif Require Import Base BufferUtil_Model.
Import ListNotations.
Local Open Scope nat_scope.

(** tdisp_protocol.h: TDISP_VERSION_1_0, message types (22-53) and error codes (503-512) *)
Definition VERSION_1_0 : N := 0x10.
Definition T_ERROR : N := 0x7f.
Definition REQ_VERSION : N := 0x81.
Definition REQ_CAPS : N := 0x82.
Definition REQ_LOCK : N := 0x83.
Definition REQ_REPORT : N := 0x84.
Definition REQ_STATE : N := 0x85.
Definition REQ_START : N := 0x86.
Definition REQ_STOP : N := 0x87.
Definition E_INVALID_REQUEST : N := 0x01.
Definition E_INVALID_STATE : N := 0x04.
Definition E_UNSPECIFIED : N := 0x05.
Definition E_UNSUPPORTED : N := 0x07.
Definition E_VERSION : N := 0x41.
Definition E_INVALID_INTERFACE : N := 0x101.
Definition E_INVALID_NONCE : N := 0x102.

(** Sizes of the structures: struct tdisp_header, and what the requests and
    replies add to it. *)
Definition HEADER : nat := 16.
Definition NONCE : nat := 32.
Definition PARAM : nat := 20.
Definition CAPS : nat := 28.

(** cmd_interface_tdisp_responder.c:22-30 *)
Definition supported : list N := [REQ_VERSION; REQ_CAPS; REQ_LOCK; REQ_REPORT; REQ_STATE; REQ_START; REQ_STOP].

(** Fields of struct tdisp_header *)
Definition version_of (p : list N) : N := nth 0 p 0%N.
Definition type_of (p : list N) : N := nth 1 p 0%N.
Definition id_of (p : list N) : list N := window 4 4 p.
Definition bdf_of (p : list N) : N := le_value (window 4 2 p).
(** A cleared header with version, type and function. *)
Definition header (type : N) (id : list N) : list N := [VERSION_1_0; type; 0%N; 0%N] ++ id ++ repeat 0%N 8.

(** tdisp_generate_error_response (tdisp_commands.c:24-37) *)
Definition error_reply (id : list N) (code : N) : list N := header T_ERROR id ++ le32 code ++ le32 0.

(** Errors of the driver the responder tells apart (tdisp_driver.h) *)
Inductive driver_error := InvalidArgument | InvalidInterface | InvalidState | NotSecure | Other.

(** Calls of the driver that change an interface or are told of the requester. *)
Inductive call := CapsOf (requester : list N) | Lock (f : N) (param : list N) | Start (f : N) | Stop (f : N)
| Report (f offset length room : N) | State (f : N).

(** What happens outside during a request: results of the driver, the random
    bytes (None: an error), failures of the context manager, and the
    contexts the driver clears. *)
Record env := Env {
  e_caps : option (list N); e_lock : option driver_error; e_report : list N * N + driver_error; e_state : option N;
  e_start : option driver_error; e_stop : option driver_error; e_random : option (list N);
  e_get : bool; e_set : bool; e_clears : N -> bool }.

(** The nonces the context manager has. *)
Definition contexts := N -> option (list N).
Definition driver_clears (e : env) (c : contexts) : contexts := fun f => if e_clears e f then None else c f.

(** CMD_INTERFACE_TDISP_RESPONDER_SECURE_SPDM_REQUIRED, _INVALID_MSG_SIZE, or a reply *)
Inductive result := SecureRequired | InvalidSize | Reply (p : list N).

Section MODEL.
(** get_function_index of the driver, and the versions the responder was given *)
Variable index : N -> option N.
Variable versions : list N.

Definition outcome : Type := result * list call * contexts.
Definition err (p : list N) (code : N) (t : list call) (c : contexts) : outcome := (Reply (error_reply (id_of p) code), t, c).
(** The length of the request is wrong: the function is not known. *)
Definition bad_length (c : contexts) : outcome := (Reply (error_reply (repeat 0%N 4) E_INVALID_REQUEST), [], c).

(** The checks all requests start with: length, version, and [need] bytes for the
    reply if that is checked. *)
Definition checked (p : list N) (c : contexts) (size : nat) (need room : nat) (k : outcome) : outcome :=
  if negb (length p =? size) then bad_length c
  else if negb (version_of p =? VERSION_1_0)%N then err p E_VERSION [] c
  else if room <? need then err p E_UNSPECIFIED [] c
  else k.
Definition with_index (p : list N) (c : contexts) (k : N -> outcome) : outcome :=
  match index (bdf_of p) with None => err p E_INVALID_INTERFACE [] c | Some f => k f end.

(** tdisp_get_version (tdisp_commands.c:49-113) *)
Definition get_version (room : nat) (p : list N) (c : contexts) : outcome :=
  checked p c HEADER (HEADER + 1 + length versions) room
    (with_index p c (fun _ =>
      (Reply (header 0x01%N (id_of p) ++ [N.of_nat (length versions)] ++ versions), [], c))).

(** Lines 171-174: bits in the mask of 16 bytes at offset 4. *)
Definition set_bit (caps : list N) (m : N) : list N :=
  let b := (m - 0x80)%N in let i := 4 + N.to_nat (b / 8) in
  splice caps i [N.lor (nth i caps 0%N) (N.shiftl 1 (b mod 8))].

(** tdisp_get_capabilities (125-191): the header is that of the request but for the
    type, and the version and function written again. *)
Definition get_capabilities (e : env) (room : nat) (p : list N) (c : contexts) : outcome :=
  checked p c (HEADER + 4) (HEADER + CAPS) room
    (let t := [CapsOf (window HEADER 4 p)] in let c := driver_clears e c in
     match e_caps e with
     | None => err p E_UNSPECIFIED t c
     | Some caps =>
         (Reply (splice (firstn HEADER p) 1 [0x02%N] ++ fold_left set_bit supported caps), t, c)
     end).

(** tdisp_lock_interface (203-307) *)
Definition lock_interface (e : env) (room : nat) (p : list N) (c : contexts) : outcome :=
  checked p c (HEADER + PARAM) (HEADER + NONCE) room
    (with_index p c (fun f =>
      if negb (e_get e) then err p E_INVALID_INTERFACE [] c
      else
        match c f, e_random e with
        | Some _, _ => err p E_INVALID_STATE [] c
        | None, None => err p E_UNSPECIFIED [] c
        | None, Some nonce =>
            let t := [Lock f (window HEADER PARAM p)] in let c := driver_clears e c in
            match e_lock e with
            | Some NotSecure => err p E_INVALID_REQUEST t c
            | Some _ => err p E_UNSPECIFIED t c
            | None =>
                if negb (e_set e) then err p E_UNSPECIFIED t c
                else (Reply (header 0x03%N (id_of p) ++ nonce), t, fun g => if (g =? f)%N then Some nonce else c g)
            end
        end)).

(** tdisp_get_device_interface_report (317-407): [e_report] is the portion the
    driver wrote, no longer than it was told, and what remains. *)
Definition get_report (e : env) (room : nat) (p : list N) (c : contexts) : outcome :=
  checked p c (HEADER + 4) (HEADER + 4) room
    (with_index p c (fun f =>
      let space := N.min 0xffff (N.of_nat (room - (HEADER + 4))) in
      let t := [Report f (le_value (window HEADER 2 p)) (le_value (window (HEADER + 2) 2 p)) space] in
      let c := driver_clears e c in
      match e_report e with
      | inr InvalidArgument => err p E_INVALID_REQUEST t c
      | inr InvalidInterface => err p E_INVALID_INTERFACE t c
      | inr InvalidState => err p E_INVALID_STATE t c
      | inr _ => err p E_UNSPECIFIED t c
      | inl (portion, remainder) =>
          (Reply (header 0x04%N (id_of p) ++ le16 (N.of_nat (length portion)) ++ le16 remainder ++ portion), t, c)
      end)).

(** tdisp_get_device_interface_state (417-480) *)
Definition get_state (e : env) (room : nat) (p : list N) (c : contexts) : outcome :=
  checked p c HEADER (HEADER + 1) room
    (with_index p c (fun f =>
      let c := driver_clears e c in
      match e_state e with
      | None => err p E_INVALID_INTERFACE [State f] c
      | Some s => (Reply (header 0x05%N (id_of p) ++ [s]), [State f], c)
      end)).

(** tdisp_start_interface (491-575).  The reply is the header of the request with
    another type; the nonce in the context is left. *)
Definition start_interface (e : env) (p : list N) (c : contexts) : outcome :=
  checked p c (HEADER + NONCE) 0 0
    (with_index p c (fun f =>
      if negb (e_get e) then err p E_UNSPECIFIED [] c
      else
        match c f with
        | None => err p E_INVALID_STATE [] c
        | Some nonce =>
            if negb (buffer_compare (N.ones 8) (Some (window HEADER NONCE p)) (Some nonce) NONCE) then err p E_INVALID_NONCE [] c
            else
              let c := driver_clears e c in
              match e_start e with
              | Some InvalidState => err p E_INVALID_STATE [Start f] c
              | Some _ => err p E_UNSPECIFIED [Start f] c
              | None => (Reply (splice (firstn HEADER p) 1 [0x06%N]), [Start f], c)
              end
        end)).

(** tdisp_stop_interface (585-637) *)
Definition stop_interface (e : env) (p : list N) (c : contexts) : outcome :=
  checked p c HEADER 0 0
    (with_index p c (fun f =>
      let c := driver_clears e c in
      match e_stop e with
      | Some _ => err p E_UNSPECIFIED [Stop f] c
      | None => (Reply (splice (firstn HEADER p) 1 [0x07%N]), [Stop f], c)
      end)).

(** cmd_interface_tdisp_responder_process_request
    (cmd_interface_tdisp_responder.c:33-128).  [room] is the largest payload of a
    reply. *)
Definition process (encrypted : bool) (room : nat) (e : env) (p : list N) (c : contexts) : outcome :=
  if negb encrypted then (SecureRequired, [], c)
  else if length p <? HEADER then (InvalidSize, [], c)
  else if (type_of p =? REQ_VERSION)%N then get_version room p c
  else if (type_of p =? REQ_CAPS)%N then get_capabilities e room p c
  else if (type_of p =? REQ_LOCK)%N then lock_interface e room p c
  else if (type_of p =? REQ_REPORT)%N then get_report e room p c
  else if (type_of p =? REQ_STATE)%N then get_state e room p c
  else if (type_of p =? REQ_START)%N then start_interface e p c
  else if (type_of p =? REQ_STOP)%N then stop_interface e p c
  else (Reply (error_reply (repeat 0%N 4) E_UNSUPPORTED), [], c).

(** A history: requests, and contexts the driver clears by itself (as when a
    function is reset).  What was observed is kept, the latest first. *)
Inductive event := Request (encrypted : bool) (room : nat) (e : env) (p : list N) | Cleared (fs : N -> bool).
Record observation := Seen { o_event : event; o_result : option result; o_calls : list call }.

Definition step (c : contexts) (v : event) : observation * contexts :=
  match v with
  | Request encrypted room e p => let '(r, t, c) := process encrypted room e p c in (Seen v (Some r) t, c)
  | Cleared fs => (Seen v None [], fun f => if fs f then None else c f)
  end.
Fixpoint run (c : contexts) (seen : list observation) (l : list event) : contexts * list observation :=
  match l with
  | [] => (c, seen)
  | v :: l => let '(o, c) := step c v in run c (o :: seen) l
  end.
Definition init : contexts := fun _ => None.
End MODEL.
