(** * Model of the IDE key management responder (encryption of PCIe links)

    core/pcisig/ide/cmd_interface_ide_responder.c:11-60 and
    core/pcisig/ide/ide_commands.c: all four requests, in the buffer of the
    message.

    Modelled: the buffer from the payload on, which request and reply share; every
    check in its order; the loops over register blocks with what they write; the
    keys passed to the driver and what is left of them.

    External: the driver, with any result of its calls.

    Simplified: pointers are not null; the reply is the first bytes of the buffer.
    A write past the end of the buffer is [Over]. *)
From Coq Require Import List NArith Bool Arith.
From Verif Require Import Base.
Import ListNotations.
Local Open Scope nat_scope.

(** ide_protocol.h: object ids, and sizes of the structures *)
Definition QUERY : N := 0.
Definition KEY_PROG : N := 2.
Definition SET_GO : N := 4.
Definition SET_STOP : N := 5.
Definition QUERY_LEN : nat := 3.
Definition QUERY_RESP : nat := 15.
Definition KEY_INFO : nat := 7.
Definition KEY_BUFFER : nat := 40.
Definition LINK_BLOCK : nat := 8.
Definition SEL_FIXED : nat := 20.
Definition ADDR_BLOCK : nat := 12.
Definition SEL_BLOCK : nat := SEL_FIXED + 15 * ADDR_BLOCK.

(** CMD_INTERFACE_IDE_RESPONDER_*, or an error of the driver *)
Inductive code := Ok | SecureRequired | InvalidSize | UnknownCommand | OutOfSpace | Driver (e : N) | Over.

(** Which key is meant: port, stream, key set, direction and sub-stream. *)
Record key_id := KeyId { k_port : N; k_stream : N; k_set : N; k_rx_tx : N; k_sub : N }.
(** struct ide_km_key_prog, ide_km_k_set_go, ide_km_k_set_stop: the same fields *)
Definition key_of (b : list N) : key_id :=
  let s := nth 5 b 0%N in
  KeyId (nth 6 b 0%N) (nth 3 b 0%N) (s mod 2)%N ((s / 2) mod 2)%N (s / 16)%N.

Inductive call := KeyProg (k : key_id) (key iv : list N) | SetGo (k : key_id) | SetStop (k : key_id).

(** IDE_DRIVER_INVALID_ARGUMENT, _INVALID_STREAM_ID, _UNSUPPORTED_PORT_INDEX or another error *)
Inductive prog_error := InvalidArgument | InvalidStream | UnsupportedPort | OtherError.

(** What the driver does.  For each port: bus, device and function, segment and largest port; the
    registers; the blocks (a selective block is written in full); and the
    results of the key calls (0 is success). *)
Record driver := Drv {
  d_info : N -> N + (N * N * N * N); d_capability : N -> N + N; d_control : N -> N + N;
  d_link : N -> nat -> N + list N; d_selective : N -> nat -> N + list N;
  d_prog : option prog_error; d_go : N; d_stop : N }.

(** The status, the length of the reply, the buffer and the calls. *)
Record outcome := Out { status : code; reply : nat; buffer : list N; calls : list call }.

(** Bits of the capability register (ide_protocol.h, struct ide_capability_register) *)
Definition link_supported (c : N) : bool := N.testbit c 0.
Definition selective_supported (c : N) : bool := N.testbit c 1.
Definition link_count (c : N) : nat := N.to_nat ((c / 2 ^ 13) mod 8).
Definition selective_count (c : N) : nat := N.to_nat ((c / 2 ^ 16) mod 256).

(** ide_commands.c:84-102: [n] blocks from index [i]; the place to write next and
    the space left. *)
Fixpoint link_loop (d : driver) (port : N) (n i : nat) (b : list N) (ptr avail : nat) : code + (list N * nat * nat) :=
  match n with
  | O => inr (b, ptr, avail)
  | S n =>
      if avail <? LINK_BLOCK then inl OutOfSpace
      else
        match d_link d port i with
        | inl e => inl (Driver e)
        | inr x =>
            if length b <? ptr + length x then inl Over
            else link_loop d port n (S i) (splice b ptr x) (ptr + LINK_BLOCK) (avail - LINK_BLOCK)
        end
  end.

(** ide_commands.c:107-133: the number of address blocks is in the low bits of
    the block. *)
Fixpoint selective_loop (d : driver) (port : N) (n i : nat) (b : list N) (ptr avail : nat) : code + (list N * nat * nat) :=
  match n with
  | O => inr (b, ptr, avail)
  | S n =>
      if avail <? SEL_BLOCK then inl OutOfSpace
      else
        match d_selective d port i with
        | inl e => inl (Driver e)
        | inr x =>
            if length b <? ptr + length x then inl Over
            else
              let b := splice b ptr x in
              let incr := SEL_FIXED + N.to_nat (nth ptr b 0 mod 16)%N * ADDR_BLOCK in
              selective_loop d port n (S i) b (ptr + incr) (avail - incr)
        end
  end.

(** ide_km_query (ide_commands.c:19-142).  An error leaves the buffer as far as it
    was written; here only that there is no reply is kept. *)
Definition query (d : driver) (room : nat) (b : list N) (plen : nat) : outcome :=
  let fail e := Out e 0 b [] in
  if negb (plen =? QUERY_LEN) then fail InvalidSize
  else if length b <? QUERY_RESP then fail Over
  else
    let port := nth 2 b 0%N in
    match d_info d port, d_capability d port, d_control d port with
    | inl e, _, _ | inr _, inl e, _ | inr _, inr _, inl e => fail (Driver e)
    | inr (bus, devfn, segment, maxp), inr cap, inr ctl =>
        if room <? QUERY_RESP then fail OutOfSpace
        else
          let b := splice b 0 ([1; 0; port; devfn; bus; segment; maxp]%N ++ le32 cap ++ le32 ctl) in
          match (if link_supported cap then link_loop d port (link_count cap + 1) 0 b QUERY_RESP (room - QUERY_RESP)
                 else inr (b, QUERY_RESP, room - QUERY_RESP)) with
          | inl e => fail e
          | inr (b, ptr, avail) =>
              match (if selective_supported cap then selective_loop d port (selective_count cap + 1) 0 b ptr avail
                     else inr (b, ptr, avail)) with
              | inl e => fail e
              | inr (b, ptr, _) => Out Ok ptr b []
              end
          end
    end.

(** ide_km_key_prog (ide_commands.c:152-206) *)
Definition key_prog (d : driver) (b : list N) (plen : nat) : outcome :=
  if negb (plen =? KEY_INFO + KEY_BUFFER) then
    if length b <? KEY_INFO then Out Over 0 b []
    else Out Ok KEY_INFO (splice (splice b 0 [3%N]) 4 [1%N]) []
  else
    let t := [KeyProg (key_of b) (window KEY_INFO 32 b) (window (KEY_INFO + 32) 8 b)] in
    let st := (match d_prog d with
               | None => 0 | Some InvalidArgument | Some InvalidStream => 3 | Some UnsupportedPort => 2 | Some OtherError => 4 end)%N in
    let b := splice b KEY_INFO (repeat 0%N KEY_BUFFER) in
    Out Ok KEY_INFO (splice (splice b 0 [3%N]) 4 [st]) t.

(** ide_km_key_set_go (216-254) and ide_km_key_set_stop (264-302) *)
Definition set_go (d : driver) (b : list N) (plen : nat) : outcome :=
  if negb (plen =? KEY_INFO) then Out InvalidSize 0 b []
  else if negb (d_go d =? 0)%N then Out (Driver (d_go d)) 0 b [SetGo (key_of b)]
  else Out Ok KEY_INFO (splice b 0 [6%N]) [SetGo (key_of b)].
Definition set_stop (d : driver) (b : list N) (plen : nat) : outcome :=
  if negb (plen =? KEY_INFO) then Out InvalidSize 0 b []
  else if negb (d_stop d =? 0)%N then Out (Driver (d_stop d)) 0 b [SetStop (key_of b)]
  else Out Ok KEY_INFO (splice b 0 [6%N]) [SetStop (key_of b)].

(** cmd_interface_ide_responder_process_request
    (cmd_interface_ide_responder.c:11-60): [b] is the buffer, of which [plen] bytes are
    the request; [room] is the largest reply. *)
Definition process (encrypted : bool) (d : driver) (room : nat) (b : list N) (plen : nat) : outcome :=
  if negb encrypted then Out SecureRequired 0 b []
  else if plen <? 1 then Out InvalidSize 0 b []
  else
    let o := nth 0 b 0%N in
    if (o =? QUERY)%N then query d room b plen
    else if (o =? KEY_PROG)%N then key_prog d b plen
    else if (o =? SET_GO)%N then set_go d b plen
    else if (o =? SET_STOP)%N then set_stop d b plen
    else Out UnknownCommand 0 b [].
