(** What MCTP message transfer means, without reference to how packets are processed. *)
From Coq Require Import List NArith Bool Arith.
From Verif Require Import Base Crc8_Model Mctp_Model.
Import ListNotations.
Local Open Scope nat_scope.

(** The endpoints and the transaction a packet belongs to. *)
Definition terminus (p : packet) : N * N * N := (p_src_eid p, p_tag p, p_owner p).

(** Packets [p0; p1; ...; pn] that together carry one message: a start packet and the packets that continue
    it, in sequence, the last one marked as the end, all of the size of the first except
    perhaps a shorter last one, at most 4096 bytes altogether. *)
Record one_message (l : list packet) : Prop := {
  om_start : exists p0 rest, l = p0 :: rest /\ p_som p0 = true /\ Forall (fun p => p_som p = false) rest;
  om_terminus : forall p q, In p l -> In q l -> terminus p = terminus q;
  om_sequence : forall i p q, nth_error l i = Some p -> nth_error l (S i) = Some q -> p_seq q = ((p_seq p + 1) mod 4)%N;
  om_end : forall i p, nth_error l i = Some p -> (p_eom p = true <-> S i = length l);
  om_size : forall p0 i p, nth_error l 0 = Some p0 -> nth_error l i = Some p ->
    length (p_payload p) <= length (p_payload p0) /\
    (S i < length l -> length (p_payload p) = length (p_payload p0));
  om_total : length (concat (map p_payload l)) <= 4096
}.

(** The message those packets carry. *)
Definition carried (l : list packet) (m : message) : Prop :=
  g_data m = concat (map p_payload l) /\
  forall p, In p l -> (g_src_eid m, g_tag m, g_owner m) = terminus p.

(** What happens at the interface: a packet arrives, or the requesting side changes which response
    it expects. *)
Inductive op :=
| Rx (buf : list N) (dest_addr : N)
| Expect (st : rsp_state) (tag msg_type : N) (max : nat).

(** The response the requesting side waits for: its state, the message tag and the message type. *)
Definition expectation : Type := (rsp_state * N * N)%type.
Definition expecting (s : mctp) : expectation := (r_state s, r_tag s, r_type s).

Definition awaited (x : expectation) (p : packet) : Prop :=
  let '(st, tag, ty) := x in
  (st = RspWaiting \/ st = RspPending) /\ p_tag p = tag /\ (p_som p = true -> p_type p = ty).

(** A received packet that does not take part in the message of endpoint [t]: malformed, for another
    device, a response that is not awaited, the start of a message of an unsupported type, or the continuation
    of a different message. *)
Definition foreign (self_eid : N) (supported : N -> bool) (x : expectation) (t : N * N * N) (buf : list N) (addr : N) : Prop :=
  match interpret buf addr with
  | inr _ => True
  | inl p =>
    (p_dest_eid p <> self_eid /\ p_dest_eid p <> NULL_EID) \/ (p_owner p = 0%N /\ ~ awaited x p) \/
    (p_owner p <> 0%N /\ p_som p = true /\ supported (p_type p) = false) \/
    (p_som p = false /\ terminus p <> t)
  end.

(** [l] consists of the packets [frs], all for this device, with only foreign packets in between; [x] is
    the response expected at the beginning. *)
Inductive interleaved (self_eid : N) (supported : N -> bool) (t : N * N * N) : expectation -> list packet -> list op -> Prop :=
| il_nil : forall x, interleaved self_eid supported t x [] []
| il_take : forall x buf addr p frs l,
    interpret buf addr = inl p -> p_dest_eid p = self_eid \/ p_dest_eid p = NULL_EID ->
    interleaved self_eid supported t x frs l -> interleaved self_eid supported t x (p :: frs) (Rx buf addr :: l)
| il_skip : forall x buf addr frs l, foreign self_eid supported x t buf addr ->
    interleaved self_eid supported t x frs l -> interleaved self_eid supported t x frs (Rx buf addr :: l)
| il_expect : forall x st tag ty max frs l,
    interleaved self_eid supported t (st, tag, ty) frs l -> interleaved self_eid supported t x frs (Expect st tag ty max :: l).

(** One operation, and a history of them, of the modelled interface. *)
Definition expect (s : mctp) (st : rsp_state) (tag ty : N) (max : nat) : mctp :=
  {| m_start := m_start s; m_seq := m_seq s; m_tag := m_tag s; m_owner := m_owner s; m_src_eid := m_src_eid s;
     m_src_addr := m_src_addr s; m_dest_eid := m_dest_eid s; m_data := m_data s;
     r_state := st; r_tag := tag; r_type := ty; r_max := max |}.

Definition op_step (self_eid : N) (supported : N -> bool) (s : mctp) (o : op) : mctp * event :=
  match o with
  | Rx buf addr => process_packet self_eid supported s buf addr
  | Expect st tag ty max => (expect s st tag ty max, Ignored)
  end.

Fixpoint op_run (self_eid : N) (supported : N -> bool) (s : mctp) (l : list op) : mctp * list event :=
  match l with
  | [] => (s, [])
  | o :: l =>
    let '(s1, e) := op_step self_eid supported s o in
    let '(s2, es) := op_run self_eid supported s1 l in (s2, e :: es)
  end.

(** Events that hand a message on. *)
Definition delivers (e : event) : option message :=
  match e with
  | Request m | Response m | TooBig m | Unwanted m => Some m
  | _ => None
  end.

(** The state after initialisation: mctp_interface_init_state clears everything. *)
Definition fresh (s : mctp) : Prop := m_start s = 0.

(** A message cut into pieces of [unit] bytes. *)
Fixpoint cut (fuel unit : nat) (msg : list N) : list (list N) :=
  match fuel with
  | O => []
  | S fuel => if length msg <=? unit then [msg] else firstn unit msg :: cut fuel unit (skipn unit msg)
  end.
Definition pieces (unit : nat) (msg : list N) : list (list N) := cut (length msg) unit msg.

(** The packets put on the bus for the [len] bytes at [src] in [mem], when they are packetised into the
    [max] bytes at [base]. *)
Definition wire (mem : list N) (unit src len base max : nat) (dest_eid dest_addr src_eid src_addr tag owner : N)
  : option (list (list N)) :=
  match generate_packets mem unit src len base max dest_eid dest_addr src_eid src_addr tag owner with
  | inl (mem', total, first) => Some (send_packets (S total) (window base total mem') first)
  | inr _ => None
  end.

(** An endpoint that takes in messages of type [ty], as requests or as the response it waits for. *)
Definition takes (supported : N -> bool) (owner tag ty : N) (max : nat) (s : mctp) : Prop :=
  (owner = 1%N /\ supported ty = true) \/
  (owner = 0%N /\ r_state s = RspWaiting /\ r_tag s = tag /\ r_type s = ty /\ max <= r_max s).
