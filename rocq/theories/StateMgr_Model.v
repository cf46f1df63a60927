(** Non-volatile state manager: core/state_manager/state_manager.c.
    Two consecutive flash sectors hold 8-byte entries.  Each entry repeats a 16-bit state word three
    times, followed by a zero word.  The flash is a byte map (Flash_Base); `uint16_t` values are
    stored little-endian, the byte order of the target.

    Simplifications: flash reads always succeed; the debug log entry created when an erase fails is
    dropped; locks are dropped, so each call is one atomic step. Bits 6 and 7 of volatile_state, the
    only ones this file uses, are two booleans. *)
From Coq Require Import List NArith Bool Arith.
From Verif Require Import Base Flash_Base.
Import ListNotations.
Local Open Scope N_scope.

(** state_manager.c 19-27: format markers in the state word. *)
Definition MULTI_BYTE_STATE : N := 128.
Definition SINGLE_BYTE_STATE : N := 64.

Definition entry : Type := (N * N * N * N)%type.

(** One iteration of the loop of state_manager_read_state_bits, state_manager.c 103-130.  The
    accumulator is (nv_state, *error, *refresh).  `bitN == bitM` compares masked words, which is the
    comparison of the bits. *)
Definition read_bit (e : entry) (acc : N * bool * bool) (i : N) : N * bool * bool :=
  let '(e0, e1, e2, _) := e in
  let '(nv, err, refresh) := acc in
  let b0 := N.testbit e0 i in
  let b1 := N.testbit e1 i in
  let b2 := N.testbit e2 i in
  let put b := N.lor nv (N.shiftl (N.b2n b) i) in
  if Bool.eqb b0 b1 && Bool.eqb b0 b2 then (put b0, err, refresh)
  else if negb (i =? 6) && negb (i =? 7) then
    (put (if Bool.eqb b0 b1 || Bool.eqb b0 b2 then b0 else b1), true, refresh)
  else (nv, true, if i =? 6 then true else refresh).

(** state_manager_read_state_bits, state_manager.c 91-148. [refresh] is the incoming value of
    *refresh, which the function only ever sets. *)
Definition read_state_bits (e : entry) (refresh : bool) : N * bool * bool :=
  let '(nv, err, rf) :=
    fold_left (read_bit e) (map N.of_nat (seq 0 16)) (0, false, refresh) in
  let '(_, _, _, e3) := e in
  let '(nv, rf) :=
    if (nv =? 65535) && negb (e3 =? 65535) then (N.ldiff nv SINGLE_BYTE_STATE, true) else (nv, rf) in
  let nv := if N.land nv (SINGLE_BYTE_STATE + MULTI_BYTE_STATE) =? 0
            then N.lor nv MULTI_BYTE_STATE else nv in
  (nv, err, rf).

Definition is_single (nv : N) : bool := negb (N.land nv SINGLE_BYTE_STATE =? 0).

(** A little-endian 16-bit word in flash, and the four words of an entry. *)
Definition word_at (m : image) (a : N) : N := m a + 256 * m (a + 1).
Definition entry_at (m : image) (a : N) : entry :=
  (word_at m a, word_at m (a + 2), word_at m (a + 4), word_at m (a + 6)).

(** struct state_manager_state, state_manager.h. *)
Record sm := mk_sm {
  store_addr : N;
  nv_state : N;
  last_nv_stored : N;
  sector1_blank : bool;
  sector2_blank : bool
}.

(** Operations issued to the flash device. *)
Inductive flash_op :=
| FWrite (a : N) (data : list N)
| FErase (a : N) (len : N).

Definition flash_do (m : image) (op : flash_op) : image :=
  match op with
  | FWrite a d => nor_write m a d
  | FErase a n => nor_erase m a n
  end.

Definition flash_run (m : image) (ops : list flash_op) : image := fold_left flash_do ops m.

Section Manager.

(** base_addr and the sector size reported by the flash. *)
Variables base ss : N.

(** Inner do-while of state_manager_init_multi_byte_state, state_manager.c 181-196. [o] is
    *offset + 8, the offset about to be probed (the C starts from -8).  The result is
    ([offset], nv_state stored in the manager, *bit_error, local nv_state, local error,
    *refresh_state). *)
Fixpoint multi_inner (fuel : nat) (m : image) (o nv : N) (err refresh : bool)
  : N * N * bool * N * bool * bool :=
  match fuel with
  | O => (o, nv, err, nv, err, refresh)
  | S f =>
    if o <? 2 * ss then
      let '(nv', err', refresh') := read_state_bits (entry_at m (base + o)) refresh in
      if negb (nv' =? 65535) && negb (is_single nv')
      then multi_inner f m (o + 8) nv' err' refresh'
      else (o, nv, err, nv', err', refresh')
    else (o, nv, err, nv, err, refresh)
  end.

Definition scan_fuel : nat := S (N.to_nat (2 * ss)).

(** state_manager_init_multi_byte_state, state_manager.c 163-200: result is
    ([offset], manager nv_state, *bit_error, *refresh_state).  The outer loop runs its body a second
    time when the first pass stopped at offset 0, continuing with the second sector. *)
Definition init_multi_byte (m : image) : N * N * bool * bool :=
  let '(o, snv, berr, nv, err, rf) := multi_inner scan_fuel m 0 65535 false false in
  if o =? 0 then
    let '(o2, snv2, berr2, _, _, rf2) := multi_inner scan_fuel m ss nv err rf in
    (o2, snv2, berr2, rf2)
  else (o, snv, berr, rf).

(** Inner do-while of state_manager_init_single_byte_state, state_manager.c 63-73; [o] is
    *offset + 1. Result: ([offset], manager nv_state, local nv_state). *)
Fixpoint single_inner (fuel : nat) (m : image) (o nv : N) : N * N * N :=
  match fuel with
  | O => (o, N.lor 65280 nv, nv)
  | S f =>
    if o <? 2 * ss then
      let nv' := m (base + o) in
      if negb (nv' =? 255) then single_inner f m (o + 1) nv' else (o, N.lor 65280 nv, nv')
    else (o, N.lor 65280 nv, nv)
  end.

(** state_manager_init_single_byte_state, state_manager.c 49-79. *)
Definition init_single_byte (m : image) : N * N :=
  let '(o, snv, nv) := single_inner scan_fuel m 0 255 in
  let '(o, snv) :=
    if o =? 0 then let '(o2, snv2, _) := single_inner scan_fuel m ss nv in (o2, snv2) else (o, snv) in
  (o, N.lor snv MULTI_BYTE_STATE).

(** state_manager_set_next_sector_write_offset, state_manager.c 208-217. *)
Definition next_sector_addr (addr : N) : N :=
  if addr <? base + ss then base + ss - 8 else base + 2 * ss - 8.

(** state_manager_init_state, state_manager.c 256-351, for a sector-aligned base and a flash whose
    reads and erases succeed.  Returns the flash operations issued and the manager state. *)
Definition init_state (m : image) : list flash_op * sm :=
  let state1 := fst (fst (read_state_bits (entry_at m base) false)) in
  let state2 := fst (fst (read_state_bits (entry_at m (base + ss)) false)) in
  let finish ops off nv needs_update bit_error s1b :=
    let addr := base + off - 8 in
    let last := if needs_update || bit_error then 65535 else nv in
    let addr :=
      if needs_update then
        let addr := if off mod 8 =? 0 then addr else addr + (8 - off mod 8) in
        next_sector_addr addr
      else addr in
    (ops, mk_sm addr nv last s1b false) in
  if negb (state1 =? 65535) || negb (state2 =? 65535) then
    if negb (is_single state1) || negb (is_single state2) then
      let '(off, nv, bit_error, needs_update) := init_multi_byte m in
      finish [] off nv needs_update bit_error false
    else
      let '(off, nv) := init_single_byte m in
      finish [] off nv true false false
  else finish [FErase base ss] (2 * ss) 65535 false false true.

(** The word that will be stored: state_manager.c 427-428. *)
Definition store_word (nv : N) : N := N.lor (N.ldiff nv SINGLE_BYTE_STATE) MULTI_BYTE_STATE.

(** The bytes of nv_state[4], state_manager.c 457-460. *)
Definition entry_bytes (w : N) : list N :=
  [w mod 256; w / 256; w mod 256; w / 256; w mod 256; w / 256; 0; 0].

Inductive store_status := StOk | StNotBlank | StWriteFail.

(** The blank checks of state_manager.c 467-482. *)
Definition not_blank (s : sm) (next : N) : bool :=
  ((next =? base) && negb (sector1_blank s)) ||
  ((next =? base + ss) && negb (sector2_blank s)) ||
  ((next =? base + 2 * ss - 8) && negb (sector1_blank s)) ||
  ((next =? base + ss - 8) && negb (sector2_blank s)).

(** state_manager.c 509-542: erase whichever sector is not in use. [ef] makes the erase fail without
    changing the flash. *)
Definition erase_unused (ef : bool) (s : sm) : list flash_op * sm :=
  if store_addr s <? base + ss then
    if sector2_blank s
    then ([], mk_sm (store_addr s) (nv_state s) (last_nv_stored s) false true)
    else if ef then ([], mk_sm (store_addr s) (nv_state s) (last_nv_stored s) false false)
    else ([FErase (base + ss) ss], mk_sm (store_addr s) (nv_state s) (last_nv_stored s) false true)
  else
    if sector1_blank s
    then ([], mk_sm (store_addr s) (nv_state s) (last_nv_stored s) true false)
    else if ef then ([], mk_sm (store_addr s) (nv_state s) (last_nv_stored s) false false)
    else ([FErase base ss], mk_sm (store_addr s) (nv_state s) (last_nv_stored s) true false).

(** state_manager_store_non_volatile_state, state_manager.c 403-547. [wf] makes the flash write
    report an error without changing the flash, [ef] makes the erase fail.  The incomplete-write case
    (lines 497-501) is left out: the C itself notes that it cannot happen for an aligned entry.
    Result: the flash operations performed, the status, and the manager state. *)
Definition store (wf ef : bool) (m : image) (s : sm) : list flash_op * store_status * sm :=
  let w := store_word (nv_state s) in
  (* 433-448 *)
  let s1 :=
    if w =? last_nv_stored s then
      let '(in_flash, bit_error, refresh) := read_state_bits (entry_at m (store_addr s)) false in
      if negb (in_flash =? w) || bit_error then
        mk_sm (if refresh then next_sector_addr (store_addr s) else store_addr s)
              (nv_state s) 65535 (sector1_blank s) (sector2_blank s)
      else s
    else s in
  (* 451-505 *)
  if negb (w =? last_nv_stored s1) then
    let next0 := store_addr s1 + 8 in
    let next := if next0 =? base + 2 * ss then base else next0 in
    if not_blank s1 next then
      let '(ops, s2) := erase_unused ef s1 in (ops, StNotBlank, s2)
    else if wf then ([], StWriteFail, s1)
    else
      let s2 := mk_sm next (nv_state s1) w (sector1_blank s1) (sector2_blank s1) in
      let '(ops, s3) := erase_unused ef s2 in
      (FWrite next (entry_bytes w) :: ops, StOk, s3)
  else
    let '(ops, s2) := erase_unused ef s1 in (ops, StOk, s2).

(** state_manager_save_active_manifest, state_manager.c 559-587: [region] 0 and 1 are
    MANIFEST_REGION_1 and MANIFEST_REGION_2, anything else is rejected. *)
Definition save_active (s : sm) (region bit : N) : bool * sm :=
  match region with
  | 0 => (true, mk_sm (store_addr s) (N.lor (nv_state s) bit) (last_nv_stored s)
                      (sector1_blank s) (sector2_blank s))
  | 1 => (true, mk_sm (store_addr s) (N.ldiff (nv_state s) bit) (last_nv_stored s)
                      (sector1_blank s) (sector2_blank s))
  | _ => (false, s)
  end.

(** state_manager_get_active_manifest, state_manager.c 597-605. *)
Definition get_active (s : sm) (bit : N) : N :=
  if N.land (nv_state s) bit =? 0 then 1 else 0.

(** Any change of the in-memory state word made by a derived manager (system or host state), always
    of the form nv_state = <16-bit value> under state_lock. *)
Definition set_state (s : sm) (v : N) : sm :=
  mk_sm (store_addr s) v (last_nv_stored s) (sector1_blank s) (sector2_blank s).

End Manager.
