(** * Model of a flash device in memory

    core/flash/flash_virtual_ram.c:9-115: reading, writing and erasing.

    Modelled: the buffer with every check; a write past its end is [Overrun].

    Simplified: pointers are not null; calls hold the lock and so are atomic;
    addresses are numbers without a bound (they are compared to the size before they are
    used). *)
From Coq Require Import List NArith Bool Arith.
From Verif Require Import Base.
Import ListNotations.
Local Open Scope nat_scope.

(** VIRTUAL_FLASH_BLOCK_SIZE (flash_virtual_ram.h:18), also the size of pages and sectors *)
Definition BLOCK : nat := 256.

Inductive result := Done (n : nat) | OutOfRange | Overrun.

(** flash_virtual_ram_read (flash_virtual_ram.c:22-42) *)
Definition read (s : list N) (address len : nat) : option (list N) :=
  if (length s <=? address) || (length s - address <? len) then None else Some (window address len s).

(** flash_virtual_ram_write (55-75), flash_virtual_ram_block_erase (77-98) and
    flash_virtual_ram_chip_erase (100-115) *)
Inductive op := Write (address : nat) (data : list N) | Erase (address : nat) | ChipErase.
Definition step (s : list N) (o : op) : result * list N :=
  match o with
  | Write a d =>
      if (length s <=? a) || (length s - a <? length d) then (OutOfRange, s) else (Done (length d), splice s a d)
  | Erase a =>
      if length s <=? a then (OutOfRange, s)
      else
        let base := a / BLOCK * BLOCK in
        if length s <? base + BLOCK then (Overrun, s) else (Done 0, splice s base (repeat 255%N BLOCK))
  | ChipErase => (Done 0, splice s 0 (repeat 255%N (length s)))
  end.
Definition run (s : list N) (l : list op) : list N := fold_left (fun s o => snd (step s o)) l s.
