(** Vocabulary for the SPI flash properties: devices that describe themselves consistently, and an ideal
    flash memory. *)
From Coq Require Import List NArith Bool Arith.
From Verif Require Import Base Flash_Base SpiFlash_Model.
Import ListNotations.
Local Open Scope N_scope.

(** A device with some address size; one without 3-byte addresses is in 4-byte mode and one without
    4-byte addresses in 3-byte mode, as is one that has them only in explicit commands; a device
    that only has 3-byte addresses is not larger than these can reach. *)
Definition consistent (p : part) (c : chip) : Prop :=
  p_size p < 2 ^ 32 /\ (eff3 p || eff4 p) = true /\
  (eff3 p = false -> ext c = true) /\
  (eff4 p = false -> ext c = false /\ p_size p <= 2 ^ 24).

(** The driver after the configuration; the device is not in the middle of something. *)
Definition started (p : part) (c : chip) (s : sys) : Prop :=
  consistent p c /\ discover p init_state = Some (dv s) /\ cp s = c.

(** No transfer fails. *)
Definition reliable (E : env) : Prop := forall t, e_ok (E t) = true.

(** An ideal memory of [size] bytes: programming clears bits, erasing sets all bits of a sector, a
    block or everything. *)
Definition ideal (size : N) (o : op) (m : image) : result * image :=
  match o with
  | OpRead a n =>
    if size <=? a then (Err AddressRange, m) else if size <? a + N.of_nat n then (Err OperationRange, m)
    else (Data (img_read m a n), m)
  | OpWrite a l =>
    if size <=? a then (Err AddressRange, m) else if size <? a + N.of_nat (length l) then (Err OperationRange, m)
    else (Count (length l), nor_write m a l)
  | OpSector a => if size <=? a / 4096 * 4096 then (Err AddressRange, m) else (Done, nor_erase m (a / 4096 * 4096) 4096)
  | OpBlock a => if size <=? a / 65536 * 65536 then (Err AddressRange, m) else (Done, nor_erase m (a / 65536 * 65536) 65536)
  | OpChip => (Done, nor_erase m 0 size)
  | OpMode _ | Foreign _ => (Done, m)
  end.

Fixpoint ideal_run (size : N) (l : list op) (m : image) : list result * image :=
  match l with
  | [] => ([], m)
  | o :: t => let '(r, m) := ideal size o m in let '(rs, m) := ideal_run size t m in (r :: rs, m)
  end.

(** Same answers; mode switches may also be refused. *)
Definition agrees (o : op) (r r' : result) : Prop :=
  match o with OpMode _ => True | _ => r = r' end.

(** Lengths do not wrap in size_t. *)
Definition short (word : N) (o : op) : Prop :=
  match o with
  | OpRead a n => a < 2 ^ 32 /\ a + N.of_nat n < word
  | OpWrite a l => a < 2 ^ 32 /\ a + N.of_nat (length l) < word
  | OpSector a | OpBlock a => a < 2 ^ 32
  | _ => True
  end.

(** The addresses a call may change. *)
Definition target (size : N) (o : op) (x : N) : Prop :=
  match o with
  | OpWrite a l => a <= x < a + N.of_nat (length l) /\ a + N.of_nat (length l) <= size
  | OpSector a => a / 4096 * 4096 <= x < a / 4096 * 4096 + 4096 /\ a / 4096 * 4096 < size
  | OpBlock a => a / 65536 * 65536 <= x < a / 65536 * 65536 + 65536 /\ a / 65536 * 65536 < size
  | OpChip => x < size
  | _ => False
  end.

(** What a call has done, by its answer, to a memory [m] that is now [m']: a write that answers [Count n]
    has programmed the first [n] bytes; every other byte of the range is programmed or as it was.  A call
    refused for its addresses or because the device is busy changes nothing. *)
Definition unchanged (m m' : image) : Prop := forall x, m' x = m x.
Definition outcome (size : N) (o : op) (r : result) (m m' : image) : Prop :=
  match r with
  | Err AddressRange | Err OperationRange | Err Busy | Err NoMode => unchanged m m'
  | Err Transfer => forall x, m' x = m x \/ m' x = snd (ideal size o m) x
  | Count n =>
    exists a l, o = OpWrite a l /\ (n <= length l)%nat /\
      (forall x, m' x = m x \/ m' x = nor_write m a l x) /\
      (forall x, x < a + N.of_nat n -> m' x = nor_write m a l x)
  | Data l => exists a n, o = OpRead a n /\ l = img_read m a n /\ a + N.of_nat n <= size /\ unchanged m m'
  | Done => forall x, m' x = snd (ideal size o m) x
  end.
