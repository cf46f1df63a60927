(** MCTP over SMBus: core/mctp/mctp_base_protocol.c, core/mctp/mctp_interface.c (receive path and
    packetising), the transmission unit of core/cmd_interface/device_manager.c and the packet loop of
    core/cmd_interface/cmd_channel.c.

    Simplifications: NULL-pointer checks and logging are dropped; SMBus addresses and EIDs are
    numbers; the request handler, and the question which message types it supports, are parameters; the command
    timeout adjustment and the channel number are left out.  The requester's side of
    mctp_interface_send_request_message, with its locks, is modelled in MctpAsync_Model.v; here it
    appears as the fields saying which response is expected. *)
From Coq Require Import List NArith Bool Arith.
From Verif Require Import Base Crc8_Model.
Import ListNotations.
Local Open Scope nat_scope.

Definition HDR : nat := 7.             (* sizeof (struct mctp_base_protocol_transport_header), mctp_base_protocol.h 172-185 *)
Definition OVERHEAD : nat := 8.        (* MCTP_BASE_PROTOCOL_PACKET_OVERHEAD, 73-74 *)
Definition MAX_UNIT : nat := 247.      (* MCTP_BASE_PROTOCOL_MAX_TRANSMISSION_UNIT, 17 *)
Definition MIN_UNIT : nat := 64.       (* MCTP_BASE_PROTOCOL_MIN_TRANSMISSION_UNIT, 31 *)
Definition MAX_BODY : nat := 4096.     (* MCTP_BASE_PROTOCOL_MAX_MESSAGE_BODY, 20 *)
Definition MSG_BUFFER : nat := 4608.   (* MCTP_BASE_PROTOCOL_MAX_MESSAGE_LEN, 98-100: 64 packets of 72 bytes *)
Definition REQ_OFFSET : nat := 512.    (* req_buffer.data in msg_buffer, mctp_interface.c 94-95 *)
Definition NULL_EID : N := 0.

Inductive mctp_error :=
| PktTooShort | InvalidPkt | LengthMismatch | BadChecksum | BadBufferLength | BufTooSmall
| NoSom | UnexpectedPkt | InvalidEid | OutOfSequence | MiddlePktLength | MsgTooLarge | UnsupportedMsg.

(** What mctp_base_protocol_interpret reports about a packet. *)
Record packet := {
  p_source_addr : N;
  p_som : bool;
  p_eom : bool;
  p_src_eid : N;
  p_dest_eid : N;
  p_payload : list N;
  p_tag : N;
  p_seq : N;
  p_type : N;     (* set only for a start packet; 0 otherwise, mctp_interface.c:739 *)
  p_owner : N
}.

(** Byte [i] of the received data. *)
Definition at_ (i : nat) (buf : list N) : N := nth i buf 0%N.

(** mctp_base_protocol_interpret, mctp_base_protocol.c 38-111.  The transport header is
    cmd_code, byte_count, source_addr, version:4|rsvd:4, destination_eid, source_eid,
    msg_tag:3|tag_owner:1|packet_seq:2|eom:1|som:1 (mctp_base_protocol.h 172-185).  The outputs filled in on
    an error are only logged by the caller and are dropped here. *)
Definition interpret (buf : list N) (dest_addr : N) : packet + mctp_error :=
  if length buf <? HDR then inr PktTooShort
  else
    let flags := at_ 6 buf in
    let som := N.testbit flags 7 in
    if negb (at_ 0 buf =? 0x0F)%N || negb (at_ 3 buf / 16 =? 0)%N || negb (at_ 3 buf mod 16 =? 1)%N
       || (at_ 4 buf =? at_ 5 buf)%N then inr InvalidPkt
    else
      let packet_len := N.to_nat (at_ 1 buf) + 2 in
      if packet_len <=? HDR then inr PktTooShort
      else if length buf <? packet_len then inr LengthMismatch
      else
        let payload := window HDR (packet_len - HDR) buf in
        let p := {| p_source_addr := (at_ 2 buf / 2)%N; p_som := som; p_eom := N.testbit flags 6;
                    p_src_eid := at_ 5 buf; p_dest_eid := at_ 4 buf; p_payload := payload;
                    p_tag := (flags mod 8)%N; p_seq := ((flags / 16) mod 4)%N;
                    p_type := if som then (at_ 0 payload mod 128)%N else 0%N;
                    p_owner := ((flags / 8) mod 2)%N |} in
        if packet_len <? length buf then
          if (crc8 ((2 * dest_addr) mod 256) (Some buf) packet_len =? at_ packet_len buf)%N then inl p
          else inr BadChecksum
        else inl p.

Definition bit (b : bool) : N := if b then 1%N else 0%N.

(** The transport header filled in by mctp_base_protocol_construct, 158-169, for [n] payload bytes.
    Assignments to bit fields keep the low bits. *)
Definition transport_header (n : nat) (source_addr dest_eid source_eid : N) (som eom : bool)
  (packet_seq msg_tag tag_owner : N) : list N :=
  [0x0F; N.of_nat (n + 5) mod 256; (2 * source_addr + 1) mod 256; 1; dest_eid; source_eid;
   msg_tag mod 8 + 8 * (tag_owner mod 2) + 16 * (packet_seq mod 4) + 64 * bit eom + 128 * bit som]%N.

(** mctp_base_protocol_construct, 133-175.  Payload and packet are both in [mem] and may overlap: [n]
    bytes at [src] become a packet at [out].  [room] is out_buf_len.  Returns the new memory and the
    packet length. *)
Definition construct (mem : list N) (src n out room : nat) (source_addr dest_eid source_eid : N)
  (som eom : bool) (packet_seq msg_tag tag_owner dest_addr : N) : (list N * nat) + mctp_error :=
  if (n =? 0) || (MAX_UNIT <? n) then inr BadBufferLength
  else
    let out_len := OVERHEAD + n in
    if room <? out_len then inr BufTooSmall
    else
      let mem := splice mem (out + HDR) (window src n mem) in
      let mem := splice mem out (transport_header n source_addr dest_eid source_eid som eom packet_seq msg_tag tag_owner) in
      let pec := crc8 ((2 * dest_addr) mod 256) (Some (skipn out mem)) (out_len - 1) in
      inl (splice mem (out + HDR + n) [pec], out_len).

(** The loop of mctp_interface_generate_packets_from_payload, mctp_interface.c 38-84: [len] payload
    bytes left at [src]; packets written so far end at [base + i].  Returns the memory, the total
    length of the packets and the length of the first.  Every iteration that does not stop
    uses up at least one payload byte, so [fuel] = payload length + 1 is enough. *)
Fixpoint generate (fuel : nat) (mem : list N) (unit src len base i max_list : nat)
  (dest_eid dest_addr src_eid src_addr tag owner : N) (som : bool) (seq : N) (first : nat)
  : (list N * nat * nat) + mctp_error :=
  match fuel with
  | O => inl (mem, i, first)
  | S fuel =>
    if len =? 0 then inl (mem, i, first)
    else
      let '(eom, n) := if unit <? len then (false, unit) else (true, len) in
      match construct mem src n (base + i) (max_list - i) src_addr dest_eid src_eid som eom seq tag owner dest_addr with
      | inr e => inr e
      | inl (mem, k) =>
        generate fuel mem unit (src + n) (len - n) base (i + k) max_list dest_eid dest_addr src_eid src_addr tag owner
          false ((seq + 1) mod 4)%N (if som then k else first)
      end
  end.

(** mctp_interface_generate_packets_from_payload, 38-84. *)
Definition generate_packets (mem : list N) (unit src len base max_list : nat)
  (dest_eid dest_addr src_eid src_addr tag owner : N) : (list N * nat * nat) + mctp_error :=
  generate (S len) mem unit src len base 0 max_list dest_eid dest_addr src_eid src_addr tag owner true 0%N 0.

(** device_manager_get_max_transmission_unit, device_manager.c 897-914: [local] and [remote] are the
    max_packet_size capabilities, [remote] as announced by the device, None for an unknown device
    (926-936). *)
Definition max_transmission_unit (local : nat) (remote : option nat) : nat :=
  match remote with
  | None => MIN_UNIT
  | Some r => Nat.min local (if r =? 0 then MIN_UNIT else r)
  end.

(** cmd_channel_send_packets, cmd_channel.c 160-220, with a channel that accepts every packet: the
    packetised message cut into pieces of pkt_size. *)
Fixpoint send_packets (fuel : nat) (data : list N) (pkt_size : nat) : list (list N) :=
  match fuel with
  | O => []
  | S fuel =>
    match data with
    | [] => []
    | _ => firstn pkt_size data :: send_packets fuel (skipn pkt_size data) pkt_size
    end
  end.

(** enum mctp_interface_response_state, mctp_interface.h 20-26. *)
Inductive rsp_state := RspIdle | RspWaiting | RspPending | RspTooBig | RspSuccess.

(** The message being assembled and what response is expected: struct mctp_interface_state,
    mctp_interface.h 31-53.  [m_start] is start_packet_len; [m_data], [m_src_eid], [m_src_addr] and
    [m_dest_eid] are the contents of req_buffer. *)
Record mctp := {
  m_start : nat;
  m_seq : N;
  m_tag : N;
  m_owner : N;
  m_src_eid : N;
  m_src_addr : N;
  m_dest_eid : N;
  m_data : list N;
  r_state : rsp_state;
  r_tag : N;
  r_type : N;
  r_max : nat     (* response_msg->max_response *)
}.

(** mctp_interface_reset_message_assembly, mctp_interface.c 92-100. *)
Definition reset_assembly (s : mctp) : mctp :=
  {| m_start := 0; m_seq := m_seq s; m_tag := m_tag s; m_owner := m_owner s; m_src_eid := 0; m_src_addr := 0;
     m_dest_eid := 0; m_data := []; r_state := r_state s; r_tag := r_tag s; r_type := r_type s; r_max := r_max s |}.

Definition set_rsp (s : mctp) (r : rsp_state) : mctp :=
  {| m_start := m_start s; m_seq := m_seq s; m_tag := m_tag s; m_owner := m_owner s; m_src_eid := m_src_eid s;
     m_src_addr := m_src_addr s; m_dest_eid := m_dest_eid s; m_data := m_data s;
     r_state := r; r_tag := r_tag s; r_type := r_type s; r_max := r_max s |}.

(** The state for a start packet, mctp_interface.c 800-808. *)
Definition start_message (s : mctp) (p : packet) : mctp :=
  {| m_start := length (p_payload p); m_seq := p_seq p; m_tag := p_tag p; m_owner := p_owner p;
     m_src_eid := p_src_eid p; m_src_addr := p_source_addr p; m_dest_eid := p_dest_eid p; m_data := [];
     r_state := r_state s; r_tag := r_tag s; r_type := r_type s; r_max := r_max s |}.

(** cmd_interface_msg_add_payload_data and the next sequence number, 866-867. *)
Definition add_payload (s : mctp) (d : list N) : mctp :=
  {| m_start := m_start s; m_seq := ((m_seq s + 1) mod 4)%N; m_tag := m_tag s; m_owner := m_owner s;
     m_src_eid := m_src_eid s; m_src_addr := m_src_addr s; m_dest_eid := m_dest_eid s; m_data := m_data s ++ d;
     r_state := r_state s; r_tag := r_tag s; r_type := r_type s; r_max := r_max s |}.

(** A complete message as the handler sees it. *)
Record message := { g_src_eid : N; g_src_addr : N; g_dest_eid : N; g_tag : N; g_owner : N; g_data : list N }.

Definition current (s : mctp) : message :=
  {| g_src_eid := m_src_eid s; g_src_addr := m_src_addr s; g_dest_eid := m_dest_eid s; g_tag := m_tag s;
     g_owner := m_owner s; g_data := m_data s |}.

(** What the processing of one packet did. *)
Inductive event :=
| Ignored                     (* not for this device, or an unexpected response *)
| Dropped (e : mctp_error)
| Stored                      (* added to the message being assembled *)
| Request (m : message)       (* a complete request, passed to the request handler *)
| Response (m : message)      (* a complete response, copied to the waiting requester *)
| TooBig (m : message)        (* a complete response, larger than the requester's buffer *)
| Unwanted (m : message).     (* a complete response nobody is waiting for *)

Section Interface.
Variable self_eid : N.
Variable supported : N -> bool.     (* req_handler->is_message_type_supported *)

(** mctp_interface_is_expected_response, 319-375. *)
Definition is_expected_response (s : mctp) (tag : N) (som : bool) (msg_type : N) : bool :=
  match r_state s with
  | RspWaiting | RspPending => (tag =? r_tag s)%N && negb (som && negb (msg_type =? r_type s)%N)
  | _ => false
  end.

(** mctp_interface_handle_response_message, 384-423. *)
Definition handle_response (s : mctp) : mctp * event :=
  match r_state s with
  | RspPending => (reset_assembly (set_rsp s RspIdle), Unwanted (current s))
  | _ =>
    if length (m_data s) <=? r_max s then (reset_assembly (set_rsp s RspSuccess), Response (current s))
    else (reset_assembly (set_rsp s RspTooBig), TooBig (current s))
  end.

(** mctp_interface_handle_request_message, 436-485: the handler is called and message
    assembly is reset on every path.  The packetising of its answer is [generate_packets]. *)
Definition handle_request (s : mctp) : mctp * event := (reset_assembly s, Request (current s)).

(** The end of mctp_interface_process_packet, 853-883. *)
Definition add_packet (s : mctp) (p : packet) : mctp * event :=
  if MAX_BODY <? length (p_payload p) + length (m_data s) then (reset_assembly s, Dropped MsgTooLarge)
  else
    let s := add_payload s (p_payload p) in
    if p_eom p then
      if (p_owner p =? 0)%N then handle_response s else handle_request s
    else (s, Stored).

(** Message assembly, 789-851. *)
Definition assemble (s : mctp) (p : packet) : mctp * event :=
  let len := length (p_payload p) in
  if p_som p then add_packet (start_message s p) p
  else if m_start s =? 0 then (s, Dropped NoSom)
  else if negb (p_tag p =? m_tag s)%N || negb (p_owner p =? m_owner s)%N then (s, Dropped UnexpectedPkt)
  else if negb (p_src_eid p =? m_src_eid s)%N then (s, Dropped InvalidEid)
  else if negb (p_seq p =? m_seq s)%N then (reset_assembly s, Dropped OutOfSequence)
  else if negb (len =? m_start s) && negb (p_eom p && (len <? m_start s)) then (reset_assembly s, Dropped MiddlePktLength)
  else add_packet s p.

(** mctp_interface_process_packet, 728-884. *)
Definition process_packet (s : mctp) (buf : list N) (dest_addr : N) : mctp * event :=
  match interpret buf dest_addr with
  | inr e => (s, Dropped e)
  | inl p =>
    if negb (p_dest_eid p =? self_eid)%N && negb (p_dest_eid p =? NULL_EID)%N then (s, Ignored)
    else if (p_owner p =? 0)%N then
      if is_expected_response s (p_tag p) (p_som p) (p_type p) then assemble s p else (s, Ignored)
    else if p_som p && negb (supported (p_type p)) then (s, Dropped UnsupportedMsg)
    else assemble s p
  end.

(** Packets received one after the other, with what each of them did. *)
Fixpoint receive (s : mctp) (l : list (list N * N)) : mctp * list event :=
  match l with
  | [] => (s, [])
  | (buf, addr) :: l =>
    let '(s1, e) := process_packet s buf addr in
    let '(s2, es) := receive s1 l in
    (s2, e :: es)
  end.
End Interface.
