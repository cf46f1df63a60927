(** * Model of the DOE mailbox of PCIe devices

    core/pcisig/doe/doe_interface.c (doe_interface_init,
    doe_interface_process_message and what it calls) and
    core/pcisig/doe/doe_cmd_channel.c:18-47 (receive, process, send).

    Modelled: every check in its order, the message in its buffer with the
    payload at an offset (struct cmd_interface_msg, as in SpdmSession_Model),
    the discovery protocol, and the header written for a response.  The buffer
    has the size given by the platform (doe_interface.h:21-24).

    External: the SPDM responder, which gets the message and may do anything to
    its buffer, payload and length; SpdmSession_Model is one.  Receiving and
    sending may fail.

    Simplified: pointers are not null; the length a responder leaves is far
    from the end of the address space (doe_interface.c:71). *)
From Coq Require Import List NArith Bool Arith.
From Verif Require Import Base.
From Verif Require SpdmSession_Model.
Import ListNotations.
Local Open Scope nat_scope.

Notation msg := SpdmSession_Model.msg.
Notation Msg := SpdmSession_Model.Msg.
Notation buf := SpdmSession_Model.buf.
Notation off := SpdmSession_Model.off.
Notation plen := SpdmSession_Model.plen.
Notation maxr := SpdmSession_Model.maxr.

(** doe_base_protocol.h:14-15, 30, 99-100, 105, 110, 115-117 *)
Definition SPEC_MAX_BYTES : N := 0x100000.
Definition SPEC_MAX_DWORDS : N := 0x40000.
Definition MIN_DWORDS : N := 3.
Definition VENDOR_PCISIG : N := 1.
Definition TYPE_DISCOVERY : N := 0.
Definition TYPE_SPDM : N := 1.
Definition TYPE_SECURED : N := 2.
(** sizeof (struct doe_base_protocol_transport_header) *)
Definition HEADER : nat := 8.

(** DOE_INTERFACE_*; [External] is an error of the responder or the channel. *)
Inductive code := Ok | InvalidArgument | UnsupportedType | InvalidSize | InvalidVendor | InvalidIndex | External (e : N).
Definition is_ok (c : code) : bool := match c with Ok => true | _ => false end.

(** The fields of struct doe_base_protocol_transport_header. *)
Definition vendor_of (b : list N) : N := le_value (window 0 2 b).
Definition type_of (b : list N) : N := nth 2 b 0%N.
Definition length_of (b : list N) : N := le_value (window 4 4 b).

(** doe_interface_init (doe_interface.c:21-43): the first entry has to be
    discovery.  Entries are vendor and type. *)
Definition init (protocols : list (N * N)) : code :=
  match protocols with
  | [] => InvalidArgument
  | (v, t) :: _ => if (v =? VENDOR_PCISIG)%N && (t =? TYPE_DISCOVERY)%N then Ok else InvalidArgument
  end.

(** doe_interface_decode_message (doe_interface.c:164-224) with
    doe_interface_msg_init (141-154): whether the message is encrypted, and
    the message past the header.  The size in bytes does not wrap, the length
    being below 0x40000 when it is multiplied. *)
Definition decode (b : list N) : code + (bool * msg) :=
  let len := length_of b in
  if negb (len =? 0)%N && ((len <? MIN_DWORDS)%N || (SPEC_MAX_DWORDS <=? len)%N) then inl InvalidSize
  else
    let size := (if (len =? 0) then SPEC_MAX_BYTES else len * 4)%N in
    if (N.of_nat (length b) <? size)%N then inl InvalidSize
    else if negb (vendor_of b =? VENDOR_PCISIG)%N then inl InvalidVendor
    else if (type_of b =? TYPE_SECURED)%N && (size <=? N.of_nat HEADER + 4)%N then inl InvalidSize
    else inr ((type_of b =? TYPE_SECURED)%N, Msg b HEADER (N.to_nat size - HEADER) (length b)).

(** doe_interface_process_doe_discovery_request (doe_interface.c:103-132). *)
Definition discovery (protocols : list (N * N)) (m : msg) : code * msg :=
  let index := N.to_nat (nth (off m) (buf m) 0%N) in
  match nth_error protocols index with
  | None => (InvalidIndex, m)
  | Some (v, t) =>
      let next := if index =? length protocols - 1 then 0%N else ((N.of_nat index + 1) mod 256)%N in
      (Ok, Msg (splice (buf m) (off m) (le16 (v mod 65536) ++ [t mod 256; next]%N)) (off m) 4 (maxr m))
  end.

(** doe_interface_encode_message (doe_interface.c:63-93): the header in front
    of [n] bytes.  The type is left as it is. *)
Definition encode (b : list N) (n : nat) : code * list N :=
  let size := (n + 3) / 4 * 4 + HEADER in
  if length b <? size then (InvalidSize, b)
  else
    let len := (if (N.of_nat size =? SPEC_MAX_BYTES) then 0 else N.of_nat size / 4)%N in
    (Ok, splice b 0 (le16 VENDOR_PCISIG ++ [nth 2 b 0%N; 0%N] ++ le32 len)).

Section MODEL.
Variable protocols : list (N * N).
(** process_request of the SPDM responder, for an encrypted message or not. *)
Variable respond : bool -> msg -> code * msg.

(** doe_interface_process_message (doe_interface.c:234-279): the status and
    the buffer afterwards. *)
Definition process (b : list N) : code * list N :=
  match decode b with
  | inl e => (e, b)
  | inr (encrypted, m) =>
      let t := type_of b in
      let '(status, m) :=
        if (t =? TYPE_SPDM)%N || (t =? TYPE_SECURED)%N then respond encrypted m
        else if (t =? TYPE_DISCOVERY)%N then discovery protocols m
        else (UnsupportedType, m) in
      if is_ok status then encode (buf m) (plen m) else (status, buf m)
  end.

(** doe_cmd_channel_receive_and_process (doe_cmd_channel.c:18-47): [received]
    is a message or an error, [sending] the status of sending.  The status,
    and the message sent if any. *)
Definition receive_and_process (received : N + list N) (sending : code) : code * option (list N) :=
  match received with
  | inl e => (External e, None)
  | inr b =>
      let '(status, b) := process b in
      if is_ok status then (sending, Some b) else (status, None)
  end.
End MODEL.
