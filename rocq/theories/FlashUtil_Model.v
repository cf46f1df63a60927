(** Flash utilities: core/flash/flash_util.c.
    A flash is a byte map (Flash_Base).  The device operations can fail: [rfail a] says that a read
    starting at address [a] reports an error, [efail a] that erasing the block at [a] does, and
    [wres a] is the result of programming at [a]: [None] an error without effect, [Some n] that at
    most [n] bytes were programmed.  Device sizes (page, sector, block) are powers of two in the C
    (masks), here any positive number.

    Simplifications: NULL-pointer checks are dropped; 32-bit address arithmetic is exact except in
    the copy check, i.e. a region handed to these functions is taken to end inside the address
    space. *)
From Coq Require Import List NArith Bool Arith.
From Verif Require Import Base Flash_Base.
Import ListNotations.
Local Open Scope N_scope.

Inductive futil :=
| FuOk | FuMismatch | FuReadErr | FuEraseErr | FuWriteErr | FuIncomplete | FuNotBlank
| FuSameBlock | FuOverlap | FuPageSize.

Definition VERIFICATION_BLOCK : nat := 256.   (* flash_util.h:19 *)
Definition MAX_COPY_BLOCK : N := 512.         (* flash_util.h:24 *)

(** FLASH_REGION_BASE and FLASH_REGION_OFFSET, flash.h 12-14. *)
Definition region_base (a blk : N) : N := a - a mod blk.
Definition region_offset (a blk : N) : N := a mod blk.

Section Util.
Variable rfail : N -> bool.
Variable efail : N -> bool.
Variable wres : N -> option nat.

(** The comparison loop of flash_check_region_for_data, flash_util.c 639-644. *)
Fixpoint bytes_match (expected : nat -> N) (i : nat) (block : list N) : bool :=
  match block with
  | [] => true
  | b :: r => if expected i =? b then bytes_match expected (S i) r else false
  end.

(** flash_check_region_for_data, flash_util.c 621-652. [expected i] is the byte *data points to
    when byte [i] of the region is compared (a constant function when const_byte). *)
Fixpoint check_loop (fuel : nat) (m : image) (a : N) (expected : nat -> N) (i len : nat) : futil :=
  match fuel with
  | O => FuOk
  | S f =>
    match len with
    | O => FuOk
    | _ =>
      let read_len := Nat.min len VERIFICATION_BLOCK in
      if rfail a then FuReadErr
      else if bytes_match expected i (img_read m a read_len)
      then check_loop f m (a + N.of_nat read_len) expected (i + read_len) (len - read_len)
      else FuMismatch
    end
  end.

Definition check_region (m : image) (a : N) (expected : nat -> N) (len : nat) : futil :=
  check_loop len m a expected 0 len.

(** flash_blank_check, flash_util.c 663-669; flash_value_check, 681-686; flash_verify_data, 836-844. *)
Definition blank_check (m : image) (a : N) (len : nat) : futil :=
  match check_region m a (fun _ => 255) len with FuMismatch => FuNotBlank | r => r end.
Definition value_check (m : image) (a : N) (len : nat) (v : N) : futil := check_region m a (fun _ => v) len.
Definition verify_data (m : image) (a : N) (data : list N) : futil :=
  check_region m a (fun i => nth i data 0) (length data).

(** flash_erase_region_ext, flash_util.c 540-561. The device erases the whole block containing the
    address. *)
Fixpoint erase_loop (fuel : nat) (blk : N) (m : image) (a len : N) : image * futil :=
  match fuel with
  | O => (m, FuOk)
  | S f =>
    if len =? 0 then (m, FuOk)
    else if efail a then (m, FuEraseErr)
    else
      let erased := blk - region_offset a blk in
      erase_loop f blk (nor_erase m (region_base a blk) blk) (a + erased)
                 (len - (if erased <? len then erased else len))
  end.

Definition erase_region (blk : N) (m : image) (a : N) (len : nat) : image * futil :=
  erase_loop (S len) blk m a (N.of_nat len).

(** flash_erase_region_and_verify_ext, flash_util.c 702-713. *)
Definition erase_and_verify (blk : N) (m : image) (a : N) (len : nat) : image * futil :=
  let '(m', r) := erase_region blk m a len in
  match r with FuOk => (m', blank_check m' a len) | _ => (m', r) end.

(** The device's write: programs at most the reported number of bytes. *)
Definition dev_write (m : image) (a : N) (data : list N) : image * option nat :=
  match wres a with
  | None => (m, None)
  | Some n => (nor_write m a (firstn n data), Some (Nat.min n (length data)))
  end.

(** flash_program_data_ext, flash_util.c 763-790; [blk] is None for the variants that do not erase. *)
Definition program_data (blk : option N) (m : image) (a : N) (data : list N) : image * futil :=
  let '(m1, r) := match blk with Some b => erase_region b m a (length data) | None => (m, FuOk) end in
  match r with
  | FuOk =>
    match dev_write m1 a data with
    | (m2, None) => (m2, FuWriteErr)
    | (m2, Some n) => (m2, if (n =? length data)%nat then FuOk else FuIncomplete)
    end
  | _ => (m1, r)
  end.

(** flash_program_and_verify_ext, flash_util.c 859-870. *)
Definition program_and_verify (blk : option N) (m : image) (a : N) (data : list N) : image * futil :=
  let '(m', r) := program_data blk m a data in
  match r with FuOk => (m', verify_data m' a data) | _ => (m', r) end.

(** flash_check_copy_region, flash_util.c 943-972; `end` is a uint32_t. *)
Definition check_copy_region (dest src : N) (len : nat) (blk : N) : futil :=
  let mask x := region_base x blk in
  if mask src =? mask dest then FuSameBlock
  else if dest <? src then
    let e := (dest + N.of_nat len - 1) mod 2 ^ 32 in
    if src <=? e then FuOverlap
    else if mask e =? mask src then FuSameBlock else FuOk
  else
    let e := (src + N.of_nat len - 1) mod 2 ^ 32 in
    if dest <=? e then FuOverlap
    else if mask e =? mask dest then FuSameBlock else FuOk.

(** Where the source bytes come from: another flash, or the flash being written. *)
Definition source (other : option image) (m : image) : image :=
  match other with Some s => s | None => m end.

(** The loop of flash_copy_data_to_blank_region, flash_util.c 1004-1031. The source read and the
    verification read use the same fault function. *)
Fixpoint copy_loop (fuel : nat) (other : option image) (m : image) (dest src : N) (len page_offset page : N)
  (verify : bool) : image * futil :=
  match fuel with
  | O => (m, FuOk)
  | S f =>
    if len =? 0 then (m, FuOk)
    else
      let room := page - page_offset in
      let block_len := if room <? len then room else len in
      if rfail src then (m, FuReadErr)
      else
        let data := img_read (source other m) src (N.to_nat block_len) in
        match dev_write m dest data with
        | (m', None) => (m', FuWriteErr)
        | (m', Some n) =>
          if (n =? N.to_nat block_len)%nat then
            let r := if verify then check_region m' dest (fun i => nth i data 0) (N.to_nat block_len) else FuOk in
            match r with
            | FuOk => copy_loop f other m' (dest + block_len) (src + block_len) (len - block_len) 0 page verify
            | _ => (m', r)
            end
          else (m', FuIncomplete)
        end
  end.

(** flash_copy_data_to_blank_region, flash_util.c 991-1036, with an allocation that succeeds. *)
Definition copy_to_blank (other : option image) (m : image) (dest src : N) (len : nat) (page : N)
  (verify : bool) : image * futil :=
  copy_loop (S len) other m dest src (N.of_nat len) (region_offset dest page) page verify.

(** flash_copy_data_region_ext, flash_util.c 1059-1107. [erase] selects the erasing variants;
    [eblk] is the destination's erase size, [sblk] the source's. *)
Definition copy_region (other : option image) (m : image) (dest src : N) (len : nat) (erase : bool)
  (eblk sblk page : N) (verify : bool) : image * futil :=
  match len with
  | O => (m, FuOk)
  | _ =>
    let chk := match other with None => check_copy_region dest src len sblk | Some _ => FuOk end in
    match chk with
    | FuOk =>
      let '(m1, r) := if erase then erase_and_verify eblk m dest len else (m, FuOk) in
      match r with
      | FuOk =>
        if MAX_COPY_BLOCK <? page then (m1, FuPageSize)
        else copy_to_blank other m1 dest src len page verify
      | _ => (m1, r)
      end
    | r => (m, r)
    end
  end.

(** flash_verify_copy_ext, flash_util.c 1363-1388. *)
Fixpoint verify_copy_loop (fuel : nat) (m1 : image) (a1 : N) (m2 : image) (a2 : N) (len : nat) : futil :=
  match fuel with
  | O => FuOk
  | S f =>
    match len with
    | O => FuOk
    | _ =>
      let read_len := Nat.min len VERIFICATION_BLOCK in
      if rfail a1 then FuReadErr
      else
        let data := img_read m1 a1 read_len in
        match check_region m2 a2 (fun i => nth i data 0) read_len with
        | FuOk => verify_copy_loop f m1 (a1 + N.of_nat read_len) m2 (a2 + N.of_nat read_len) (len - read_len)
        | r => r
        end
    end
  end.

Definition verify_copy (m1 : image) (a1 : N) (m2 : image) (a2 : N) (len : nat) : futil :=
  verify_copy_loop len m1 a1 m2 a2 len.

(** flash_hash_update_contents / the hashing loops, flash_util.c 501-522: the byte stream handed to
    the hash engine for one region, read in blocks. *)
Fixpoint hash_stream (fuel : nat) (m : image) (a : N) (remaining : nat) : option (list N) :=
  match fuel with
  | O => Some []
  | S f =>
    match remaining with
    | O => Some []
    | _ =>
      let next := Nat.min remaining VERIFICATION_BLOCK in
      if rfail a then None
      else
        match hash_stream f m (a + N.of_nat next) (remaining - next) with
        | Some r => Some (img_read m a next ++ r)
        | None => None
        end
    end
  end.

(** flash_hash_noncontiguous_contents_at_offset and the update variant, flash_util.c 487-525: regions
    (start, length) read at a common offset. *)
Fixpoint hash_regions (m : image) (offset : N) (regions : list (N * nat)) : option (list N) :=
  match regions with
  | [] => Some []
  | (a, len) :: r =>
    match hash_stream len m (a + offset) len with
    | None => None
    | Some d => match hash_regions m offset r with Some d2 => Some (d ++ d2) | None => None end
    end
  end.

End Util.
