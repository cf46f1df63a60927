(** Model of core/crypto/checksum.c, the SMBus packet error code. *)
From Coq Require Import List NArith Bool Arith.
From Verif Require Import Base.
Import ListNotations.

(** checksum.c:65-70, one shift of the register. *)
Definition crc8_bit (crc : N) : N :=
  if negb (N.land crc 0x80 =? 0)%N then (N.lxor (N.shiftl crc 1) 0x07 mod 256)%N
  else (N.shiftl crc 1 mod 256)%N.

(** checksum.c:64-71, eight shifts. *)
Definition crc8_shift8 (crc : N) : N :=
  crc8_bit (crc8_bit (crc8_bit (crc8_bit (crc8_bit (crc8_bit (crc8_bit (crc8_bit crc))))))).

(** checksum.c:61-72, the loop over the bytes. *)
Fixpoint crc8_loop (crc : N) (data : list N) : N :=
  match data with
  | [] => crc
  | b :: t => crc8_loop (crc8_shift8 (N.lxor crc b)) t
  end.

(** checksum.c:52-75.  [len] has been converted to the parameter type uint8_t by the caller's
    argument conversion, hence [mod 256]. *)
Definition crc8_update (crc : N) (data : list N) (len : nat) : N :=
  crc8_loop crc (firstn (len mod 256) data).

(** checksum.c:37-40 *)
Definition crc8_init (smbus_addr : N) : N := crc8_update 0 [smbus_addr] 1.

(** checksum.c:17-28; [None] is a NULL data pointer; [len] is converted to uint8_t. *)
Definition crc8 (smbus_addr : N) (data : option (list N)) (len : nat) : N :=
  match data with
  | None => 0
  | Some d => if len mod 256 =? 0 then 0 else crc8_update (crc8_init smbus_addr) d len
  end.
